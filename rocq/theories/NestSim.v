(** * NestSim: the stack of calls against [neval] *)

From Coq Require Import Arith NArith List Bool String Lia.
From Verif Require Import Base Times Expect Conc ConcSpec ConcProofs LockProofs ThreadProofs
  LinProofs Nest NestSpec NestProofs.
Import ListNotations.

Local Arguments skipn : simpl never.
Local Arguments firstn : simpl never.
Local Arguments times_call : simpl never.
Local Arguments common_is_done : simpl never.
Local Arguments common_matches : simpl never.
Local Arguments verify_sequence : simpl never.
Local Arguments satisfy_sequence : simpl never.
Local Arguments mut_ret : simpl never.
Local Arguments static_ret : simpl never.
Local Arguments show_locked : simpl never.
Local Arguments put_exp : simpl never.
Local Arguments cworld : simpl never.
Local Arguments set_nth : simpl never.
Local Arguments pstep : simpl never.
Local Arguments tstep : simpl never.

Section NestSim.
Context {V U : Type}.
Notation rval := (rval V U).
Notation ncall := (ncall V).
Notation csys := (csys rval U).
Notation pc := (pc rval U).
Notation nthread := (nthread V U).

Lemma rval_induction (P : rval -> Prop) :
  (forall v, P (RVal v)) ->
  (forall y k, (forall r u u' v, k r u = (u', Ret v) -> P v) -> P (RReq y k)) ->
  forall v, P v.
Proof.
  intros H1 H2. fix F 1. intros [v|y k]; [apply H1|]. apply H2. intros r u u' v E.
  destruct (k r u) as [u1 [v1|m|]]; try discriminate E.
  assert (Q : v1 = v) by congruence. rewrite <- Q. apply F.
Qed.

(** What [pstep] does to the events. *)
Lemma ret_of_none (ev : list (event rval)) : returned ev = [] -> ret_of ev = None.
Proof. induction ev as [|[] ev IH]; simpl; auto. discriminate. Qed.

(** [k] steps of one thread. *)
Fixpoint titer (c : cfg) (t : nat) (k : nat) (s : csys * nthread) : csys * nthread :=
  match k with
  | O => s
  | Datatypes.S k' => titer c t k' (tstep c (fst s) t (snd s))
  end.

(** Bring [pstep] to its leaves. *)
Ltac leaves H :=
  unfold pstep, unlock_r in H;
  repeat match type of H with
  | context [match ?x with _ => _ end] =>
      lazymatch x with
      | context [match _ with _ => _ end] => fail
      | _ => let E := fresh "E" in destruct x eqn:E
      end
  end;
  injection H as <- <- <-.

Definition is_req (v : rval) : Prop := match v with RReq _ _ => True | RVal _ => False end.

Definition clear_at (b : csys) (m i : nat) : Prop :=
  exists e rf, cexp b m i = Some e /\ e_action e = AStatic rf false.

(** ** From the beginning of a call to its end or to a call made by its closure *)
Section Seg.
Context (c : cfg) (t : nat) (y : ncall) (ms0 : list (cmeth rval U)) (cm0 : cmeth rval U)
  (R : nat -> nat -> option nat) (S : nat -> option nat) (P : nat -> bool)
  (F : list (expectation rval U) * world U * res (option rval)) (W : option nat).
Notation x := (to_call (U := U) y).
Notation m := (cc_m x).

Record seg (b : csys) (p : pc) : Prop := {
  sg_call : pc_call p = Some x;
  sg_in : inside p = true;
  sg_ok : pc_ok b p;
  sg_nth : nth_error ms0 m = Some cm0;
  sg_meths : cs_meths b = set_nth ms0 m (CMeth (cm_me cm0) (cm_mutex cm0) (cexps b m));
  sg_ml : forall m' i, cs_ml b m' i = if holds eq2 (mheld p) (m', i) then Some t else None;
  sg_rl : forall m' i, cs_rl b m' i = if holds eq2 (rheld b p) (m', i) then Some t else R m' i;
  sg_rfree : forall m' i, rheld b p = Some (m', i) -> R m' i = None;
  sg_sl : cs_sl b = S;
  sg_sp : cs_sp b = P;
  sg_fin : fin c (cm_me cm0) (cc_args x) p (cexps b m) (cworld b t) = F;
  sg_who : who c (cm_me cm0) (cc_args x) p (cexps b m) (cworld b t) = W \/
    exists r, p = PFin x r /\ exists i, W = Some i /\
      (static_at b m i = true -> R m i = None /\
         forall v, r = Ret (Some v) -> ~ is_req v /\ clear_at b m i);
  sg_flag : forall i, ((exists f, p = PExec x i f) \/ (exists r, p = PExit x i r)) -> clear_at b m i;
  sg_static : forall i, static_at b m i =
    match nth_error (cm_exps cm0) i with Some e => is_owned (e_action e) | None => false end
}.

Lemma seg_cm b p : seg b p ->
  exists cm, nth_error (cs_meths b) m = Some cm /\ cm_me cm = cm_me cm0 /\ cm_mutex cm = cm_mutex cm0.
Proof.
  intros G. eexists. rewrite (sg_meths _ _ G), nth_set_nth, Nat.eqb_refl, (sg_nth _ _ G).
  split; [reflexivity|]. auto.
Qed.

Lemma seg_step b p cm b' p' ev :
  (forall y' k, me_default (cm_me cm0) <> Some (RReq y' k)) ->
  seg b p -> nth_error (cs_meths b) m = Some cm ->
  pstep c b t cm p = (b', p', ev) ->
  (forall r, p <> PFin x r) -> (forall i v, p = PExit x i (Ret v) -> ~ is_req v) ->
  seg b' p' /\ ret_of ev = None.
Proof.
  intros VD G Hm Hs NF NR.
  destruct (seg_cm _ _ G) as (cm' & Hm' & ME & MU). rewrite Hm in Hm'. injection Hm' as <-.
  destruct G as [PX IN OK N0 MS ML RL RF SL SP FI WH FL SC].
  pose proof (pstep_kept _ _ _ _ _ _ _ _ _ PX Hm Hs OK IN NF) as [K1 [K2 K3] K4 [K5 K6] [K7 K8]].
  assert (ST : forall m' i', static_at b' m' i' = static_at b m' i') by (intros; eapply pstep_static; eauto).
  assert (DE : map decl_of (cs_meths b') = map decl_of (cs_meths b)) by (eapply pstep_decls; eauto).
  split; [|apply ret_of_none; auto].
  assert (HR : forall m' i', rheld b p = Some (m', i') -> cs_rl b m' i' = Some t).
  { intros m' i' E. rewrite RL. apply (holds_iff eq2) in E. rewrite E. reflexivity. }
  assert (HM : forall m' i', mheld p = Some (m', i') -> cs_ml b m' i' = Some t).
  { intros m' i' E. rewrite ML. apply (holds_iff eq2) in E. rewrite E. reflexivity. }
  destruct (pstep_rl _ _ _ _ _ _ _ _ OK Hs HR) as [RL1 RL2].
  destruct (pstep_ml _ _ _ _ _ _ _ _ Hs OK HM) as [ML1 ML2].
  constructor; auto.
  - apply (pc_ok_same b b'); [exact DE|exact ST| |exact (pstep_pc_ok _ _ _ _ _ _ _ _ _ PX Hm Hs OK)].
    intros m' i'. eapply pstep_index; eauto.
  - rewrite K4, MS, set_nth_twice, ME, MU. reflexivity.
  - intros m' i'. rewrite ML1. destruct (holds eq2 (mheld p') (m', i')); auto.
    rewrite ML. destruct (holds eq2 (mheld p) (m', i')); auto.
  - intros m' i'. rewrite RL1, (rheld_same b b') by auto.
    destruct (holds eq2 (rheld b p') (m', i')); auto.
    destruct (holds eq2 (rheld b p) (m', i')) eqn:E.
    + apply (holds_iff eq2) in E. symmetry. apply RF. auto.
    + rewrite RL, E. reflexivity.
  - intros m' i' E. rewrite (rheld_same b b') in E by auto. destruct (RL2 _ _ E) as [Q|Q]; [apply RF; auto|].
    rewrite RL in Q. destruct (holds eq2 (rheld b p) (m', i')); [discriminate|auto].
  - congruence.
  - congruence.
  - rewrite ME in K1. rewrite K1. exact FI.
  - (* who *)
    assert (WP : who c (cm_me cm0) (cc_args x) p (cexps b m) (cworld b t) = W).
    { destruct WH as [Q|(r & Q & _)]; [auto|]. exfalso. apply (NF r). auto. }
    destruct (before p) eqn:BE.
    { left. rewrite <- WP, <- ME. eapply pstep_who; eauto. }
    destruct p as [|z|z i|z i|z i|z i|z i er|z i|z i|z i lower|z i|z i|z i|z i f|z i r|z i er|z r];
      try discriminate BE; try discriminate IN; simpl in PX; injection PX as ->; simpl in WP.
    + (* PShow *)
      left. rewrite <- WP. leaves Hs; try reflexivity.
    + (* PLockR *)
      rewrite <- WP. clear RL1 RL2 ML1 ML2.
      assert (NS : match cexp b m i with Some a => is_static (e_action a) | None => false end = false ->
        static_at b' m i = false) by (rewrite ST; auto).
      leaves Hs; try (left; reflexivity).
      all: right; eexists; split; [reflexivity|]; exists i; split; [reflexivity|]; intros Q;
        rewrite NS in Q by reflexivity; discriminate Q.
    + (* PRun *)
      rewrite <- WP. clear RL1 RL2 ML1 ML2.
      assert (RN : R m i = None) by (apply RF; reflexivity).
      leaves Hs; try (left; reflexivity).
      all: right; eexists; split; [reflexivity|]; exists i; split; [reflexivity|]; intros _; split; [exact RN|].
      all: try discriminate.
      intros v' Q. injection Q as <-.
      match goal with H : return_default _ _ = Ok _ |- _ => revert H end.
      unfold return_default. rewrite ME. destruct (nightly c); [|discriminate].
      destruct (me_default (cm_me cm0)) as [[v1|y1 k1]|] eqn:D; try discriminate.
      * intros Q. injection Q as <-. split; [simpl; auto|].
        unfold clear_at. rewrite cexp_put_rl, cexp_put_exp, !Nat.eqb_refl. simpl andb. cbv iota.
        match goal with H : cexp _ _ _ = Some _ |- _ => simpl in H; rewrite H end. do 2 eexists; split; reflexivity.
      * exfalso. eapply VD; eauto.
    + (* PExec *)
      left. rewrite <- WP. leaves Hs; reflexivity.
    + (* PExit *)
      rewrite <- WP. clear RL1 RL2 ML1 ML2.
      assert (RN : R m i = None) by (apply RF; reflexivity).
      leaves Hs; try (left; reflexivity).
      all: right; eexists; split; [reflexivity|]; exists i; split; [reflexivity|]; intros _; split; [exact RN|].
      all: try discriminate.
      intros v' Q. injection Q as <-. split; [eapply NR; reflexivity|].
      unfold clear_at. rewrite cexp_put_rl, cexp_put_exp, !Nat.eqb_refl. simpl andb. cbv iota.
      match goal with H : cexp _ _ _ = Some _ |- _ => simpl in H; rewrite H end. do 2 eexists; split; reflexivity.
    + (* PShowR *)
      rewrite <- WP. clear RL1 RL2 ML1 ML2.
      leaves Hs; try (left; reflexivity).
      all: right; eexists; split; [reflexivity|]; exists i; split; [reflexivity|]; intros Q; try rewrite ST in Q; split.
      all: try (destruct (show_locked (e_common _)) as [d|mm|]; simpl; discriminate).
      all: apply RF; unfold rheld; rewrite Q; reflexivity.
    + exfalso. eapply NF. reflexivity.
  - (* flag *)
    intros i D.
    destruct p as [|z|z j|z j|z j|z j|z j er|z j|z j|z j lower|z j|z j|z j|z j f|z j r|z j er|z r];
      try discriminate IN; simpl in PX; injection PX as ->.
    all: try (exfalso; leaves Hs; destruct D as [[? D]|[? D]]; discriminate D).
    + (* PRun *)
      leaves Hs; destruct D as [[? D]|[? D]]; try discriminate D; injection D as -> _.
      all: try (do 2 eexists; split; eassumption).
      all: unfold clear_at; rewrite cexp_put_exp; simpl; rewrite !Nat.eqb_refl; simpl;
        match goal with H : cexp _ _ _ = Some _ |- _ => simpl in H; rewrite H end; do 2 eexists; split; reflexivity.
    + (* PExec *)
      leaves Hs; destruct D as [[? D]|[? D]]; try discriminate D; injection D as ->.
      all: try (eapply FL; left; eexists; reflexivity).
    + (* PExit *)
      leaves Hs; destruct D as [[? D]|[? D]]; try discriminate D; injection D as ->.
      all: try (eapply FL; right; eexists; reflexivity).
  - intros i. rewrite ST. apply SC.
Qed.

Definition stops (b : csys) (p : pc) : Prop :=
  (exists r, p = PFin x r) \/
  (exists i y' k, p = PExit x i (Ret (RReq y' k))) \/
  (exists i, p = PLockR x i /\ static_at b m i = true /\ R m i <> None).

Lemma tstep_seg b p cm todo below out b' p' ev :
  pc_call p = Some x -> nth_error (cs_meths b) m = Some cm ->
  (forall i v, p = PExit x i (Ret v) -> ~ is_req v) ->
  pstep c b t cm p = (b', p', ev) -> ret_of ev = None ->
  tstep c b t (NThread todo (p :: below) out) = (b', NThread todo (p' :: below) out).
Proof.
  intros PX M NR H RE. unfold tstep. rewrite PX, M, H, RE.
  destruct p; try reflexivity. destruct r as [[v|y' k]|e|]; try reflexivity.
  exfalso. simpl in PX. injection PX as ->. eapply NR; [reflexivity|exact I].
Qed.

Lemma stops_dec b p : seg b p ->
  stops b p \/
  ((forall r, p <> PFin x r) /\ (forall i v, p = PExit x i (Ret v) -> ~ is_req v) /\
   forall i, p = PLockR x i -> static_at b m i = true -> R m i = None).
Proof.
  intros G. pose proof (sg_call _ _ G) as PX. pose proof (sg_in _ _ G) as IN. unfold stops.
  destruct p as [|z|z j|z j|z j|z j|z j er|z j|z j|z j lower|z j|z j|z j|z j f|z j r|z j er|z r];
    try discriminate IN; simpl in PX; injection PX as ->;
    try (right; split; [|split]; discriminate).
  - destruct (static_at b m j) eqn:S1, (R m j) eqn:R1.
    + left. right. right. exists j. rewrite R1. repeat split; auto. discriminate.
    + right. split; [discriminate|split; [discriminate|]]. intros i [= <-]. auto.
    + right. split; [discriminate|split; [discriminate|]]. intros i [= <-]. congruence.
    + right. split; [discriminate|split; [discriminate|]]. intros i [= <-]. auto.
  - destruct r as [[v|y' k]|e|].
    2:{ left. right. left. eauto. }
    all: right; split; [discriminate|split; [|discriminate]]; intros i v' [= _ E]; try discriminate.
    subst v'. simpl. auto.
  - left. left. eauto.
Qed.

Lemma seg_run todo below out : forall n b p,
  (forall y' k, me_default (cm_me cm0) <> Some (RReq y' k)) ->
  (pcost b p < n)%nat -> seg b p ->
  exists k b' p', titer c t k (b, NThread todo (p :: below) out) = (b', NThread todo (p' :: below) out) /\
    seg b' p' /\ stops b' p'.
Proof.
  induction n as [|n IH]; intros b p VD LT G; [lia|].
  destruct (stops_dec _ _ G) as [ST|(NF & NR & NL)].
  { exists 0%nat, b, p. auto. }
  destruct (seg_cm _ _ G) as (cm & Hm & ME & MU).
  destruct (pstep c b t cm p) as [[b1 p1] ev] eqn:Hs.
  destruct (seg_step _ _ _ _ _ _ VD G Hm Hs NF NR) as [G1 RE].
  pose proof (sg_call _ _ G) as PX.
  assert (LE : (pcost b p1 < pcost b p)%nat).
  { destruct (pstep_progress _ _ _ _ _ _ _ _ _ PX Hm (sg_ok _ _ G) Hs) as [B|L]; [|exact L].
    pose proof (sg_in _ _ G) as IN.
    destruct p as [|z|z j|z j|z j|z j|z j er|z j|z j|z j lower|z j|z j|z j|z j f|z j r|z j er|z r];
      try discriminate IN; simpl in B; try contradiction; simpl in PX; injection PX as ->.
    - exfalso. apply B. rewrite (sg_ml _ _ G). reflexivity.
    - exfalso. apply B. rewrite (sg_ml _ _ G). reflexivity.
    - rewrite (sg_rl _ _ G) in B. simpl in B.
      destruct (static_at b (nc_m y) j) eqn:SJ; [exfalso; apply B; apply (NL j); auto|].
      destruct (pstep_moves _ _ _ _ _ _ _ _ _ (sg_call _ _ G) Hm (sg_ok _ _ G) Hs) as [[_ EQ]|L]; [|exact L].
      exfalso. unfold static_at in SJ. destruct (sg_ok _ _ G) as (_ & PI & _).
      specialize (PI _ _ eq_refl). simpl in PI.
      unfold pstep in Hs. simpl cc_m in Hs. destruct (cexp b (nc_m y) j) as [e|]; [|congruence].
      destruct (e_action e) as [rf po|rf|rf]; [discriminate| |].
      + destruct (rrfunc_call c rf); injection Hs as <- <- <-; discriminate.
      + destruct (mut_ret c (cm_me cm) (e_common e) rf (cc_args x) (fun v => v) (cworld b t)) as [[rf' w'] r'].
        injection Hs as <- <- <-; discriminate.
    - exfalso. apply B. rewrite (sg_ml _ _ G). reflexivity. }
  assert (EL : pcost b1 p1 = pcost b p1).
  { assert (EX : forall m', explen b1 m' = explen b m').
    { intros m'. apply decls_len. eapply pstep_decls; eauto. }
    destruct p1; simpl; rewrite ?EX; reflexivity. }
  destruct (IH b1 p1 VD ltac:(lia) G1) as (k & b' & p' & T & G' & S').
  exists (Datatypes.S k), b', p'. split; [|auto]. simpl.
  rewrite (tstep_seg _ _ _ todo below out _ _ _ PX Hm NR Hs RE). exact T.
Qed.
End Seg.

Lemma titer_app c t k1 k2 s : titer c t (k1 + k2) s = titer c t k2 (titer c t k1 s).
Proof. revert s. induction k1 as [|k1 IH]; intros s; simpl; auto. Qed.

(** ** What steps keep *)
Definition same_shape (b b' : csys) : Prop :=
  map decl_of (cs_meths b') = map decl_of (cs_meths b) /\
  forall m i, static_at b' m i = static_at b m i.

Lemma same_shape_trans b1 b2 b3 : same_shape b1 b2 -> same_shape b2 b3 -> same_shape b1 b3.
Proof. intros [A B] [C D]. split; [congruence|]. intros. rewrite D. auto. Qed.

Lemma resume_shape b below out (r : res V) :
  same_shape b (fst (fst (resume b below out r))).
Proof.
  unfold resume. destruct below as [|[] rest]; simpl; try (split; reflexivity).
  destruct r0 as [[v|y k]|e|]; simpl; try (split; reflexivity).
  destruct (k r (cs_user b)). split; reflexivity.
Qed.

Lemma tstep_shape c b t th : same_shape b (fst (tstep c b t th)).
Proof.
  assert (RF : same_shape b b) by (split; reflexivity).
  unfold tstep. destruct th as [todo [|p below] out].
  - destruct todo as [|y rest]; [exact RF|]. destruct (enter b y); exact RF.
  - assert (G : same_shape b (fst
       match pc_call p with
       | Some x =>
         match nth_error (cs_meths b) (cc_m x) with
         | Some cm =>
             let '(b', p', ev) := pstep c b t cm p in
             match ret_of ev with
             | Some r =>
                 let '(b2, stack', out') := resume b' below out (to_val r) in
                 (b2, NThread todo stack' out')
             | None => (b', NThread todo (p' :: below) out)
             end
         | None => (b, NThread todo (p :: below) out)
         end
       | None => (b, NThread todo (p :: below) out)
       end)).
    { destruct (pc_call p) as [x|]; [|exact RF]. destruct (nth_error (cs_meths b) (cc_m x)) as [cm|] eqn:M; [|exact RF].
      destruct (pstep c b t cm p) as [[b' p'] ev] eqn:Hs.
      assert (S1 : same_shape b b').
      { split; [eapply pstep_decls; eauto|]. intros. eapply pstep_static; eauto. }
      destruct (ret_of ev) as [r|]; [|exact S1].
      pose proof (resume_shape b' below out (to_val r)) as S2.
      destruct (resume b' below out (to_val r)) as [[b2 stack'] out']. eapply same_shape_trans; eauto. }
    destruct p; try exact G. destruct r as [[v|y k]|e|]; try exact G.
    destruct (enter b y); exact RF.
Qed.

Lemma titer_shape c t k : forall s, same_shape (fst s) (fst (titer c t k s)).
Proof.
  induction k as [|k IH]; intros s; simpl; [split; reflexivity|].
  eapply same_shape_trans; [apply tstep_shape|apply IH].
Qed.

(** ** The state of the machine while [hr] and [hs] are held *)
Definition heldr (hr : list (nat * nat)) (m i : nat) : bool :=
  existsb (fun k => Nat.eqb (fst k) m && Nat.eqb (snd k) i)%bool hr.

Record rep (t : nat) (b : csys) (st : sstate (V := rval) (U := U)) (hr : list (nat * nat)) (hs : list nat) : Prop := {
  rp_meths : cs_meths b = meths_of st;
  rp_user : cs_user b = user_of st;
  rp_levels : cs_levels b = (let '(_, _, _, l) := st in l);
  rp_sp : forall g, cs_sp b g = (let '(_, sp, _, _) := st in sp g);
  rp_ml : forall m i, cs_ml b m i = None;
  rp_rl : forall m i, cs_rl b m i = if heldr hr m i then Some t else None;
  rp_sl : forall g, cs_sl b g = if existsb (Nat.eqb g) hs then Some t else None
}.

Definition start_pc (y : ncall) (cm : cmeth rval U) : pc :=
  match cm_mutex cm with Some _ => PLockS (to_call y) | None => PLockM (to_call y) 0 end.

Definition stuck (c : cfg) (t : nat) (b : csys) (th : nthread) : Prop := tstep c b t th = (b, th).

(** A call comes out as [o]: from the state [s] the thread gets to where the call has
    ended, or gets stuck inside the call. *)
Definition comes_out (c : cfg) (t : nat) (s : csys * nthread) todo below out
    (hr : list (nat * nat)) (hs : list nat) (o : outcome (V := V) (U := U)) : Prop :=
  match o with
  | Ends st' r =>
      exists k b', titer c t k s =
        (let '(b2, stack', out') := resume b' below out r in (b2, NThread todo stack' out')) /\
        rep t b' st' hr hs
  | Hangs =>
      exists k b' top, titer c t k s = (b', NThread todo (top ++ below) out) /\
        top <> [] /\ stuck c t b' (NThread todo (top ++ below) out)
  end.

Lemma comes_out_after c t s k s' todo below out hr hs o :
  titer c t k s = s' -> comes_out c t s' todo below out hr hs o -> comes_out c t s todo below out hr hs o.
Proof.
  intros E. destruct o; simpl.
  - intros (k' & b' & T & R). exists (k + k')%nat, b'. rewrite titer_app, E. auto.
  - intros (k' & b' & top & T & R). exists (k + k')%nat, b', top. rewrite titer_app, E. auto.
Qed.


(** What is left of a call once the store is locked. *)
Definition nbody (call : list (nat * nat) -> list nat -> sstate (V := rval) (U := U) -> ncall -> option (outcome (V := V) (U := U)))
    (c : cfg) (t : nat) (hr : list (nat * nat)) (hs : list nat)
    (st : sstate) (y : ncall) (cm : cmeth rval U) : option outcome :=
  let '(ms, sp, u, l) := st in
  let me := cm_me cm in
  let args := map RVal (nc_args y) in
  let w := World u l t false in
  let '(es, w1, r) := expectations_call c me (cm_exps cm) args (fun v => v) w in
  let st1 := (set_nth ms (nc_m y) (CMeth me (cm_mutex cm) es), sp, w_user w1, w_levels w1) in
  match answering c me (cm_exps cm) args w with
  | None =>
      Some (match r with
            | Ret None => Ends st1 (Panic (MNoMatch (call_desc me args)))
            | Ret (Some v) => Ends st1 (to_val (Ret v))
            | Panic m => Ends (close_store st1 cm (Panic m)) (Panic m)
            | Abort => Ends st1 Abort
            end)
  | Some i =>
      let owned := match nth_error (cm_exps cm) i with
                   | Some e => is_owned (e_action e)
                   | None => false
                   end in
      if (owned && heldr hr (nc_m y) i)%bool
      then Some Hangs
      else
        match r with
        | Ret (Some v) =>
            if owned then
              let hs' := match cm_mutex cm with Some g => g :: hs | None => hs end in
              match drive (call ((nc_m y, i) :: hr) hs') st1 v with
              | Some (Ends st2 r2) =>
                  Some (Ends (close_store (close_rfunc st2 (nc_m y) i r2) cm r2) r2)
              | o => o
              end
            else Some (Ends st1 (to_val (Ret v)))
        | Ret None => Some (Ends st1 (Panic (MNoMatch (call_desc me args))))
        | Panic m => Some (Ends (close_store st1 cm (Panic m)) (Panic m))
        | Abort => Some (Ends st1 Abort)
        end
  end.

Lemma neval_S n c t hr hs (st : sstate (V := rval) (U := U)) y cm :
  nth_error (meths_of st) (nc_m y) = Some cm ->
  neval (Datatypes.S n) c t hr hs st y =
  if match cm_mutex cm with Some g => existsb (Nat.eqb g) hs | None => false end then Some Hangs
  else if match cm_mutex cm with Some g => (let '(_, sp, _, _) := st in sp g) | None => false end
  then Some (Ends st (Panic MPoison))
  else nbody (neval n c t) c t hr hs st y cm.
Proof.
  destruct st as [[[ms sp] u] l]. intros H. simpl in H. cbn [neval]. rewrite H. reflexivity.
Qed.

(** ** The end of a call *)
Definition add_store (cm : cmeth rval U) (hs : list nat) : list nat :=
  match cm_mutex cm with Some g => g :: hs | None => hs end.

Lemma fin_out c t b st y cm r todo below out hr hs :
  nth_error (meths_of st) (nc_m y) = Some cm ->
  rep t b st hr (add_store cm hs) ->
  (forall g, cm_mutex cm = Some g -> existsb (Nat.eqb g) hs = false /\ (let '(_, sp, _, _) := st in sp g) = false) ->
  exists b', titer c t 1 (b, NThread todo (PFin (to_call y) r :: below) out) =
    (let '(b2, stack', out') := resume b' below out
       (to_val (let? o := r in
          match o with Some v => Ret v
          | None => Panic (MNoMatch (call_desc (cm_me cm) (map RVal (nc_args y)))) end)) in
     (b2, NThread todo stack' out')) /\
    rep t b' (match r with Panic e => close_store st cm (Panic e) | _ => st end) hr hs.
Proof.
  intros M [R1 R2 R3 R4 R5 R6 R7] G. simpl titer. unfold tstep. simpl pc_call. cbv iota. simpl cc_m. rewrite R1, M.
  unfold pstep. simpl ret_of. cbv iota. eexists. split; [reflexivity|].
  destruct st as [[[ms sp] u] l]. simpl in *. unfold add_store, close_store in *.
  destruct (cm_mutex cm) as [g|].
  - destruct (G g eq_refl) as [G1 G2].
    assert (SL : forall g', (if Nat.eqb g' g then None else cs_sl b g') = if existsb (Nat.eqb g') hs then Some t else None).
    { intros g'. rewrite R7. simpl. destruct (Nat.eqb_spec g' g); simpl; auto. subst. rewrite G1. reflexivity. }
    destruct r as [o|e|]; constructor; simpl; auto; intros g'; destruct (Nat.eqb_spec g' g); subst; simpl; auto.
  - destruct r as [o|e|]; constructor; simpl; auto.
Qed.

Lemma exit_out c t b st y i r e todo below out hr hs :
  (exists cm, nth_error (meths_of st) (nc_m y) = Some cm) ->
  rep t b st ((nc_m y, i) :: hr) hs ->
  heldr hr (nc_m y) i = false ->
  cexp b (nc_m y) i = Some e -> is_owned (e_action e) = true ->
  (forall v, r = Ret v -> ~ is_req v) ->
  exists b', titer c t 1 (b, NThread todo (PExit (to_call y) i r :: below) out) =
     (b', NThread todo (PFin (to_call y) (let? v := r in Ret (Some v)) :: below) out) /\
    rep t b' (close_rfunc st (nc_m y) i (to_val r)) hr hs.
Proof.
  intros [cm M] [R1 R2 R3 R4 R5 R6 R7] NH C OW NR.
  assert (X : exists b', pstep c b t cm (PExit (to_call y) i r) =
     (b', PFin (to_call y) (let? v := r in Ret (Some v)),
      match r with Ret v => [EvRan t (to_call y) i; EvAnswer t (to_call y) i v] | _ => [EvRan t (to_call y) i] end) /\
     rep t b' (close_rfunc st (nc_m y) i (to_val r)) hr hs).
  { unfold pstep. simpl cc_m. rewrite C. destruct (e_action e) as [rf po|rf|rf] eqn:A; try discriminate OW.
    assert (Q : forall f, rep t (unlock_r b (to_call y) i (e_common e) rf f)
       (let '(ms, sp, u, l) := st in (set_nth ms (nc_m y) (CMeth (cm_me cm) (cm_mutex cm)
          (set_nth (cm_exps cm) i (Expectation (e_common e) (AStatic rf f)))), sp, u, l)) hr hs).
    { intros f. destruct st as [[[ms sp] u] l]. simpl in *. unfold unlock_r, put_exp. simpl. rewrite R1, M.
      constructor; simpl; auto. intros m' i'. rewrite set2_spec, R6. unfold holds, heldr in *. simpl.
      destruct (eq2 (nc_m y, i) (m', i')) as [E|E].
      - injection E as <- <-. rewrite NH. reflexivity.
      - destruct (Nat.eqb_spec (nc_m y) m'), (Nat.eqb_spec i i'); simpl; auto. subst. congruence. }
    assert (CE : nth_error (cm_exps cm) i = Some e).
    { unfold cexp, cexps in C. rewrite R1, M in C. exact C. }
    destruct st as [[[ms sp] u] l]. simpl in *. rewrite M, CE, A.
    destruct r as [[v|y' k]|er|]; simpl; try (eexists; split; [reflexivity|apply Q]). }
  destruct X as (b' & P & R'). exists b'. split; [|exact R'].
  simpl titer. erewrite tstep_seg; [reflexivity| | | |exact P|].
  - reflexivity.
  - simpl. rewrite R1. exact M.
  - intros i' v' E. injection E as _ E. eauto.
  - destruct r; reflexivity.
Qed.

(** ** The closure *)
Lemma value_defaults_decls (ms ms' : list (cmeth rval U)) :
  map decl_of ms' = map decl_of ms -> value_defaults ms -> value_defaults ms'.
Proof.
  intros E D cm y k I. apply (in_map decl_of) in I. rewrite E in I. apply in_map_iff in I.
  destruct I as (cm' & Q & I). unfold decl_of in Q. injection Q as Q _ _. rewrite <- Q. eapply D; eauto.
Qed.

Definition closure_out (c : cfg) (t : nat) (s : csys * nthread) todo x i below out
    (hr : list (nat * nat)) (hs : list nat) (o : outcome (V := V) (U := U)) : Prop :=
  match o with
  | Ends st' r =>
      exists k b' r0, titer c t k s = (b', NThread todo (PExit x i r0 :: below) out) /\
        rep t b' st' hr hs /\ to_val r0 = r /\ forall v, r0 = Ret v -> ~ is_req v
  | Hangs =>
      exists k b' top, titer c t k s = (b', NThread todo (top ++ below) out) /\
        top <> [] /\ stuck c t b' (NThread todo (top ++ below) out)
  end.

Lemma drive_sim c t call hr hs x i todo below out :
  (forall st y cm b below o,
     value_defaults (meths_of st) -> rep t b st hr hs ->
     nth_error (meths_of st) (nc_m y) = Some cm -> call st y = Some o ->
     comes_out c t (b, NThread todo (start_pc y cm :: below) out) todo below out hr hs o) ->
  (forall st y o, nth_error (meths_of st) (nc_m y) = None -> call st y = Some o -> o = Hangs) ->
  forall v st b o,
    value_defaults (meths_of st) -> rep t b st hr hs -> drive call st v = Some o ->
    closure_out c t (b, NThread todo (PExit x i (Ret v) :: below) out) todo x i below out hr hs o.
Proof.
  intros CALL NONE. induction v as [v|y k IH] using rval_induction; intros st b o VD RP D.
  - simpl in D. injection D as <-. exists 0%nat, b, (Ret (RVal v)). split; [reflexivity|split; [exact RP|split; [reflexivity|]]].
    intros v' [= <-]. simpl. auto.
  - simpl in D. destruct (call st y) as [o1|] eqn:C; [|discriminate].
    assert (TS : tstep c b t (NThread todo (PExit x i (Ret (RReq y k)) :: below) out) =
      match nth_error (meths_of st) (nc_m y) with
      | None => (b, NThread todo (PExit x i (Ret (RReq y k)) :: below) out)
      | Some cm => (b, NThread todo (start_pc y cm :: PExit x i (Ret (RReq y k)) :: below) out)
      end).
    { unfold tstep, enter. rewrite (rp_meths _ _ _ _ _ RP).
      destruct (nth_error (meths_of st) (nc_m y)); reflexivity. }
    destruct (nth_error (meths_of st) (nc_m y)) as [cm|] eqn:M.
    2:{ rewrite (NONE _ _ _ M C) in D. injection D as <-.
        exists 0%nat, b, [PExit x i (Ret (RReq y k))]. repeat split; [discriminate|exact TS]. }
    pose proof (CALL _ _ _ _ (PExit x i (Ret (RReq y k)) :: below) _ VD RP M C) as CO.
    destruct o1 as [st1 r1|].
    + destruct CO as (k1 & b1 & T1 & R1).
      unfold resume in T1.
      destruct (k r1 (cs_user b1)) as [u rr] eqn:K. rewrite (rp_user _ _ _ _ _ R1) in K. rewrite K in D.
      assert (T2 : titer c t (Datatypes.S k1) (b, NThread todo (PExit x i (Ret (RReq y k)) :: below) out) =
        (put_world b1 (World u (cs_levels b1) 0 false), NThread todo (PExit x i rr :: below) out)).
      { simpl. rewrite TS. exact T1. }
      assert (R2 : rep t (put_world b1 (World u (cs_levels b1) 0 false)) (with_user st1 u) hr hs).
      { destruct R1. destruct st1 as [[[ms sp] u1] l1]. constructor; simpl in *; auto. }
      destruct rr as [v'|e|].
      * assert (VD2 : value_defaults (meths_of (with_user st1 u))).
        { eapply value_defaults_decls; [|exact VD].
          pose proof (titer_shape c t (Datatypes.S k1) (b, NThread todo (PExit x i (Ret (RReq y k)) :: below) out)) as [SD _].
          rewrite T2 in SD. cbn [fst] in SD. rewrite (rp_meths _ _ _ _ _ R2), (rp_meths _ _ _ _ _ RP) in SD. exact SD. }
        pose proof (IH _ _ _ _ K _ _ _ VD2 R2 D) as CO2.
        destruct o as [st' r'|]; simpl in CO2 |- *.
        -- destruct CO2 as (k2 & b2 & r0 & T3 & Q). exists (Datatypes.S k1 + k2)%nat, b2, r0.
           split; [|exact Q]. rewrite titer_app, T2. exact T3.
        -- destruct CO2 as (k2 & b2 & top & T3 & Q). exists (Datatypes.S k1 + k2)%nat, b2, top.
           split; [|exact Q]. rewrite titer_app, T2. exact T3.
      * injection D as <-. eexists _, _, (Panic e). split; [exact T2|]. split; [exact R2|split; [reflexivity|discriminate]].
      * injection D as <-. eexists _, _, Abort. split; [exact T2|]. split; [exact R2|split; [reflexivity|discriminate]].
    + injection D as <-. destruct CO as (k1 & b1 & top & T1 & NE & ST).
      exists (Datatypes.S k1), b1, (top ++ [PExit x i (Ret (RReq y k))]).
      rewrite <- app_assoc. simpl app. repeat split.
      * simpl. rewrite TS. exact T1.
      * destruct top; discriminate.
      * exact ST.
Qed.

(** ** The call *)
Lemma close_rfunc_clear (st : sstate (V := rval) (U := U)) b t hr hs m i v :
  rep t b st hr hs -> clear_at b m i -> close_rfunc st m i (Ret v) = st.
Proof.
  intros RP (e & rf & C & A). destruct st as [[[ms sp] u] l]. unfold close_rfunc.
  pose proof (rp_meths _ _ _ _ _ RP) as E. simpl in E. unfold cexp, cexps in C. rewrite E in C.
  destruct (nth_error ms m) as [cm|] eqn:M; [|destruct i; discriminate].
  rewrite C, A. destruct e as [k a]. simpl in *. subst a.
  rewrite (set_nth_same (cm_exps cm)) by exact C. destruct cm as [me mu es]. simpl in *.
  rewrite set_nth_same by exact M. reflexivity.
Qed.

Definition poison_of (st : sstate (V := rval) (U := U)) (g : nat) : bool := let '(_, sp, _, _) := st in sp g.

(** A store that is held is not poisoned by others. *)
Lemma close_store_other (st : sstate (V := rval) (U := U)) cm r g :
  cm_mutex cm <> Some g -> poison_of (close_store st cm r) g = poison_of st g.
Proof.
  intros N. destruct st as [[[ms sp] u] l]. unfold close_store.
  destruct (cm_mutex cm) as [g'|]; auto. destruct r; auto. simpl.
  destruct (Nat.eqb_spec g g'); auto. subst. congruence.
Qed.
Lemma close_rfunc_poison (st : sstate (V := rval) (U := U)) m i r g :
  poison_of (close_rfunc st m i r) g = poison_of st g.
Proof.
  destruct st as [[[ms sp] u] l]. unfold close_rfunc.
  destruct (nth_error ms m) as [cm|]; auto. destruct (nth_error (cm_exps cm) i) as [e|]; auto.
  destruct (e_action e); auto.
Qed.

Lemma drive_poison call g :
  (forall st y st' r, call st y = Some (Ends st' r) -> poison_of st' g = poison_of st g) ->
  forall v st st' r, drive call st v = Some (Ends st' r) -> poison_of st' g = poison_of (st : sstate (V := rval) (U := U)) g.
Proof.
  intros CALL. induction v as [v|y k IH] using rval_induction; intros st st' r D; simpl in D.
  - injection D as <- <-. reflexivity.
  - destruct (call st y) as [[st1 r1|]|] eqn:C; try discriminate.
    assert (P1 := CALL _ _ _ _ C).
    assert (WU : forall u, poison_of (with_user st1 u) g = poison_of st1 g) by (intros u; destruct st1 as [[[? ?] ?] ?]; reflexivity).
    destruct (k r1 (user_of st1)) as [u [v'|e|]] eqn:K.
    + rewrite <- P1, <- (WU u). eapply IH; eauto.
    + injection D as <- <-. congruence.
    + injection D as <- <-. congruence.
Qed.

Lemma neval_poison n c t g : forall hr hs st y st' r,
  existsb (Nat.eqb g) hs = true -> neval n c t hr hs st y = Some (Ends st' r) ->
  poison_of st' g = poison_of (st : sstate (V := rval) (U := U)) g.
Proof.
  induction n as [|n IH]; intros hr hs st y st' r IN H; [discriminate|].
  destruct (nth_error (meths_of st) (nc_m y)) as [cm|] eqn:M.
  2:{ destruct st as [[[ms sp] u] l]. simpl in M, H. rewrite M in H. discriminate. }
  rewrite (neval_S _ _ _ _ _ _ _ _ M) in H.
  destruct (match cm_mutex cm with Some g0 => existsb (Nat.eqb g0) hs | None => false end) eqn:E1; [discriminate|].
  assert (NG : cm_mutex cm <> Some g).
  { intros Q. rewrite Q in E1. congruence. }
  destruct (match cm_mutex cm with Some g0 => let '(_, sp, _, _) := st in sp g0 | None => false end); [congruence|].
  destruct st as [[[ms sp] u] l]. unfold nbody in H.
  destruct (expectations_call c (cm_me cm) (cm_exps cm) (map RVal (nc_args y)) (fun v => v) (World u l t false))
    as [[es w1] rr].
  set (st1 := (set_nth ms (nc_m y) (CMeth (cm_me cm) (cm_mutex cm) es), sp, w_user w1, w_levels w1)) in *.
  assert (P1 : poison_of st1 g = sp g) by reflexivity.
  assert (PC : forall r, poison_of (close_store st1 cm r) g = sp g).
  { intros r'. rewrite close_store_other; auto. }
  simpl poison_of.
  destruct (answering c (cm_me cm) (cm_exps cm) (map RVal (nc_args y)) (World u l t false)) as [i|].
  - destruct (_ && heldr hr (nc_m y) i)%bool; [discriminate|].
    destruct rr as [[v|]|e|]; try (injection H as <- <-; first [reflexivity|apply (PC (Panic e))]).
    destruct (match nth_error (cm_exps cm) i with Some e => is_owned (e_action e) | None => false end);
      [|injection H as <- <-; auto].
    fold (add_store cm hs) in H.
    destruct (drive (neval n c t ((nc_m y, i) :: hr) (add_store cm hs)) st1 v) as [[st2 r2|]|] eqn:D; try discriminate.
    injection H as <- <-. rewrite close_store_other, close_rfunc_poison by auto. rewrite <- P1.
    eapply drive_poison; [|exact D]. intros. eapply IH; [|eassumption].
    unfold add_store. destruct (cm_mutex cm); simpl; [rewrite IN; apply orb_true_r|auto].
  - destruct rr as [[v|]|e|]; injection H as <- <-; first [reflexivity|apply (PC (Panic e))].
Qed.

Lemma close_store_quiet (st : sstate (V := rval) (U := U)) cm r :
  (forall e, r <> Panic e) -> close_store st cm r = st.
Proof.
  intros N. destruct st as [[[ms sp] u] l]. unfold close_store. destruct (cm_mutex cm); auto.
  destruct r; auto. exfalso. eapply N. reflexivity.
Qed.

Lemma body_sim c t call todo below out hr hs st y cm b o :
  (forall hr hs st y cm b below o,
     value_defaults (meths_of st) -> rep t b st hr hs ->
     nth_error (meths_of st) (nc_m y) = Some cm -> call hr hs st y = Some o ->
     comes_out c t (b, NThread todo (start_pc y cm :: below) out) todo below out hr hs o) ->
  (forall hr hs st y o, nth_error (meths_of st) (nc_m y) = None -> call hr hs st y = Some o -> o = Hangs) ->
  (forall hr hs st y st' r g, existsb (Nat.eqb g) hs = true -> call hr hs st y = Some (Ends st' r) ->
     poison_of st' g = poison_of st g) ->
  value_defaults (meths_of st) -> rep t b st hr (add_store cm hs) ->
  nth_error (meths_of st) (nc_m y) = Some cm ->
  (forall g, cm_mutex cm = Some g -> existsb (Nat.eqb g) hs = false /\ (let '(_, sp, _, _) := st in sp g) = false) ->
  nbody call c t hr hs st y cm = Some o ->
  comes_out c t (b, NThread todo (PLockM (to_call y) 0 :: below) out) todo below out hr hs o.
Proof.
  intros CALL NONE POIS VD RP M MU H.
  set (ms := meths_of st) in *.
  set (x := to_call (U := U) y).
  remember (expectations_call c (cm_me cm) (cm_exps cm) (cc_args x) (fun v => v) (cworld b t)) as F eqn:EF.
  remember (answering c (cm_me cm) (cm_exps cm) (cc_args x) (cworld b t)) as W eqn:EW.
  assert (CE : cexps b (nc_m y) = cm_exps cm).
  { unfold cexps. rewrite (rp_meths _ _ _ _ _ RP). fold ms. rewrite M. reflexivity. }
  assert (G0 : seg c t y ms cm (cs_rl b) (cs_sl b) (cs_sp b) F W b (PLockM x 0)).
  { constructor; simpl; auto.
    - repeat split; simpl; try discriminate.
      + intros x' [= <-]. exists cm. rewrite (rp_meths _ _ _ _ _ RP). exact M.
      + intros x' i [[? Q]|[[? Q]|Q]]; discriminate.
    - rewrite (rp_meths _ _ _ _ _ RP), CE. fold ms. destruct cm as [me mu es]. simpl.
      symmetry. apply set_nth_same. exact M.
    - intros. apply (rp_ml _ _ _ _ _ RP).
    - discriminate.
    - rewrite CE, EF. apply fin_start.
    - left. rewrite CE, EW. apply who_start.
    - intros i [[? Q]|[? Q]]; discriminate.
    - intros i. unfold static_at, cexp. rewrite CE. destruct (nth_error (cm_exps cm) i) as [e|]; auto. }
  assert (VM : forall y' k, me_default (cm_me cm) <> Some (RReq y' k)).
  { intros y' k. eapply VD. eapply nth_error_In. exact M. }
  destruct (seg_run c t y ms cm (cs_rl b) (cs_sl b) (cs_sp b) F W todo below out _ _ _ VM (Nat.lt_succ_diag_r _) G0)
    as (k & b' & p' & T & G & ST).
  eapply comes_out_after; [exact T|].
  assert (CW : cworld b t = (let '(_, _, u, l) := st in World u l t false)).
  { unfold cworld. rewrite (rp_user _ _ _ _ _ RP), (rp_levels _ _ _ _ _ RP). destruct st as [[[? ?] ?] ?]. reflexivity. }
  destruct st as [[[ms1 sp] u] l]. simpl in ms. subst ms.
  unfold nbody in H. rewrite CW in EF, EW. change (map RVal (nc_args y)) with (cc_args x) in H.
  rewrite <- EF, <- EW in H.
  (* the state of the machine once the expectation has done its part *)
  assert (RS : forall es w1 r, F = (es, w1, r) -> (forall r', fin c (cm_me cm) (cc_args x) p' (cexps b' (nc_m y)) (cworld b' t) = r' ->
       exists r0, r' = (cexps b' (nc_m y), cworld b' t, r0)) -> mheld p' = None ->
     forall hr', (forall m' i', (if holds eq2 (rheld b' p') (m', i') then Some t else cs_rl b m' i') = if heldr hr' m' i' then Some t else None) ->
     rep t b' (set_nth ms1 (nc_m y) (CMeth (cm_me cm) (cm_mutex cm) es), sp, w_user w1, w_levels w1) hr' (add_store cm hs)).
  { intros es w1 r Q Q2 MH hr' HR. destruct (Q2 _ eq_refl) as (r0 & Q3).
    pose proof (sg_fin _ _ _ _ _ _ _ _ _ _ _ _ G) as FI.
    change (fin c (cm_me cm) (cc_args x) p' (cexps b' (nc_m y)) (cworld b' t) = F) in FI. rewrite Q3, Q in FI. injection FI as <- <- <-.
    constructor; simpl; auto.
    - apply (sg_meths _ _ _ _ _ _ _ _ _ _ _ _ G).
    - intros g. rewrite (sg_sp _ _ _ _ _ _ _ _ _ _ _ _ G). apply (rp_sp _ _ _ _ _ RP).
    - intros m' i'. rewrite (sg_ml _ _ _ _ _ _ _ _ _ _ _ _ G), MH. reflexivity.
    - intros m' i'. rewrite (sg_rl _ _ _ _ _ _ _ _ _ _ _ _ G). apply HR.
    - intros g. rewrite (sg_sl _ _ _ _ _ _ _ _ _ _ _ _ G). apply (rp_sl _ _ _ _ _ RP). }
  destruct ST as [[r ->]|[(i & y' & k' & ->)|(i & -> & SI & RI)]].
  - (* the call is at its end *)
    destruct F as [[es w1] rF] eqn:EFF.
    pose proof (sg_fin _ _ _ _ _ _ _ _ _ _ _ _ G) as FI. simpl in FI. injection FI as FE FW FR. subst rF.
    assert (R1 := RS es w1 r eq_refl (fun r' (E : _ = r') => ex_intro _ r (eq_sym E)) eq_refl hr (rp_rl _ _ _ _ _ RP)).
    set (st1 := (set_nth ms1 (nc_m y) (CMeth (cm_me cm) (cm_mutex cm) es), sp, w_user w1, w_levels w1)) in *.
    assert (M1 : nth_error (meths_of st1) (nc_m y) = Some (CMeth (cm_me cm) (cm_mutex cm) es)).
    { simpl. rewrite nth_set_nth, Nat.eqb_refl. simpl in M. rewrite M. reflexivity. }
    destruct (fin_out c t b' st1 y _ r todo below out hr hs M1 R1 MU) as (b2 & T2 & R2).
    fold x in T2. cbn [cm_me] in T2.
    assert (EQ : o = match r with
                     | Ret (Some v) => Ends st1 (to_val (Ret v))
                     | Ret None => Ends st1 (Panic (MNoMatch (call_desc (cm_me cm) (cc_args x))))
                     | Panic e => Ends (close_store st1 cm (Panic e)) (Panic e)
                     | Abort => Ends st1 Abort
                     end).
    { destruct (sg_who _ _ _ _ _ _ _ _ _ _ _ _ G) as [Q|(r' & Q & i & WI & CL)].
      - simpl in Q. rewrite <- Q in H. injection H as <-. destruct r as [[v|]|e|]; reflexivity.
      - injection Q as <-. rewrite WI in H.
        rewrite (sg_static _ _ _ _ _ _ _ _ _ _ _ _ G) in CL.
        destruct (match nth_error (cm_exps cm) i with Some e => is_owned (e_action e) | None => false end) eqn:OW.
        + destruct (CL eq_refl) as [RN CV].
          assert (HN : heldr hr (nc_m y) i = false).
          { simpl in RN. rewrite (rp_rl _ _ _ _ _ RP) in RN. destruct (heldr hr (nc_m y) i); [discriminate|auto]. }
          rewrite HN in H. simpl andb in H. cbv iota in H.
          destruct r as [[v|]|e|]; try (injection H as <-; reflexivity).
          destruct (CV v eq_refl) as [NV CA]. destruct v as [v|? ?]; [|exfalso; apply NV; exact I].
          cbn [drive] in H.
          rewrite (close_rfunc_clear st1 b' t hr (add_store cm hs) (nc_m y) i v R1 CA) in H. simpl to_val.
          replace st1 with (close_store st1 cm (Ret v)); [congruence|].
          unfold close_store, st1. destruct (cm_mutex cm); reflexivity.
        + simpl andb in H. cbv iota in H. destruct r as [[v|]|e|]; injection H as <-; reflexivity. }
    subst o. destruct r as [[v|]|e|]; simpl; exists 1%nat, b2; split; try exact T2; exact R2.
  - (* the closure calls *)
    destruct F as [[es w1] rF] eqn:EFF.
    assert (PX : pc_ok b' (PExit x i (Ret (RReq y' k')))) by (apply (sg_ok _ _ _ _ _ _ _ _ _ _ _ _ G)).
    destruct (sg_flag _ _ _ _ _ _ _ _ _ _ _ _ G i) as (e & rf & C & A); [right; eexists; reflexivity|].
    pose proof (sg_fin _ _ _ _ _ _ _ _ _ _ _ _ G) as FI. simpl in FI. unfold exit_at in FI.
    unfold cexp in C. simpl in C. rewrite C, A in FI.
    replace (Expectation (e_common e) (AStatic rf false)) with e in FI by (destruct e; simpl in *; congruence).
    rewrite (set_nth_same _ _ _ C) in FI. injection FI as FE FW FR. subst rF.
    assert (W = Some i) as ->.
    { destruct (sg_who _ _ _ _ _ _ _ _ _ _ _ _ G) as [Q|(r' & Q & _)]; [|discriminate]. simpl in Q. auto. }
    assert (SI : static_at b' (nc_m y) i = true).
    { unfold static_at, cexp. rewrite C, A. reflexivity. }
    pose proof (sg_static _ _ _ _ _ _ _ _ _ _ _ _ G i) as SC. simpl in SC. rewrite SI in SC. rewrite <- SC in H.
    assert (HN : heldr hr (nc_m y) i = false).
    { pose proof (sg_rfree _ _ _ _ _ _ _ _ _ _ _ _ G (nc_m y) i eq_refl) as RN.
      rewrite (rp_rl _ _ _ _ _ RP) in RN. destruct (heldr hr (nc_m y) i); [discriminate|auto]. }
    rewrite HN in H. simpl andb in H. cbv iota in H. fold (add_store cm hs) in H.
    assert (R1 : rep t b' (set_nth ms1 (nc_m y) (CMeth (cm_me cm) (cm_mutex cm) es), sp, w_user w1, w_levels w1)
                   ((nc_m y, i) :: hr) (add_store cm hs)).
    { eapply RS; [reflexivity| |reflexivity|].
      - intros r' <-. simpl. unfold exit_at. rewrite C, A.
        replace (Expectation (e_common e) (AStatic rf false)) with e by (destruct e; simpl in *; congruence).
        rewrite (set_nth_same _ _ _ C). eexists. reflexivity.
      - intros m' i'. unfold holds, rheld, heldr. simpl. rewrite (rp_rl _ _ _ _ _ RP). unfold heldr.
        destruct (eq2 (nc_m y, i) (m', i')) as [E|E].
        + injection E as <- <-. rewrite !Nat.eqb_refl. reflexivity.
        + destruct (Nat.eqb_spec (nc_m y) m'), (Nat.eqb_spec i i'); simpl; auto. subst. congruence. }
    set (st1 := (set_nth ms1 (nc_m y) (CMeth (cm_me cm) (cm_mutex cm) es), sp, w_user w1, w_levels w1)) in *.
    destruct (drive (call ((nc_m y, i) :: hr) (add_store cm hs)) st1 (RReq y' k')) as [o1|] eqn:D; [|discriminate].
    assert (S0 : map decl_of (meths_of st1) = map decl_of ms1).
    { pose proof (titer_shape c t k (b, NThread todo (PLockM x 0 :: below) out)) as [SD _].
      rewrite T in SD. cbn [fst] in SD. rewrite (rp_meths _ _ _ _ _ R1), (rp_meths _ _ _ _ _ RP) in SD. exact SD. }
    assert (VD1 : value_defaults (meths_of st1)) by (eapply value_defaults_decls; [exact S0|exact VD]).
    pose proof (drive_sim c t _ _ _ x i todo below out (CALL ((nc_m y, i) :: hr) (add_store cm hs))
      (NONE ((nc_m y, i) :: hr) (add_store cm hs)) _ _ _ _ VD1 R1 D) as CO.
    destruct o1 as [st2 r2|].
    + injection H as <-. destruct CO as (k2 & b2 & r0 & T2 & R2 & TV & NR).
      pose proof (titer_shape c t k2 (b', NThread todo (PExit x i (Ret (RReq y' k')) :: below) out)) as [SD SS].
      rewrite T2 in SD, SS. cbn [fst] in SD, SS. rewrite (rp_meths _ _ _ _ _ R2), (rp_meths _ _ _ _ _ R1) in SD.
      assert (MD : forall ms2 : list (cmeth rval U), map decl_of ms2 = map decl_of ms1 ->
        exists cm2, nth_error ms2 (nc_m y) = Some cm2 /\ cm_me cm2 = cm_me cm /\ cm_mutex cm2 = cm_mutex cm).
      { intros ms2 E. pose proof (f_equal (fun z => nth_error z (nc_m y)) E) as E2. simpl in E2.
        rewrite !nth_error_map in E2. simpl in M. rewrite M in E2.
        destruct (nth_error ms2 (nc_m y)) as [cm2|]; [|discriminate]. exists cm2. injection E2 as E2 E3 _. auto. }
      specialize (SS (nc_m y) i). rewrite SI in SS. unfold static_at in SS.
      destruct (cexp b2 (nc_m y) i) as [e2|] eqn:C2; [|discriminate].
      destruct (MD (meths_of st2)) as (cm2 & M2 & ME2 & MU2); [congruence|].
      destruct (exit_out c t b2 st2 y i r0 e2 todo below out hr (add_store cm hs)) as (b3 & T3 & R3); auto.
      { exists cm2. exact M2. }
      destruct (MD (meths_of (close_rfunc st2 (nc_m y) i (to_val r0)))) as (cm3 & M3 & ME3 & MU3).
      { pose proof (titer_shape c t 1 (b2, NThread todo (PExit (to_call y) i r0 :: below) out)) as [SD3 _].
        rewrite T3 in SD3. cbn [fst] in SD3. rewrite (rp_meths _ _ _ _ _ R3), (rp_meths _ _ _ _ _ R2) in SD3. congruence. }
      assert (AS : add_store cm hs = add_store cm3 hs) by (unfold add_store; rewrite MU3; reflexivity).
      rewrite AS in R3.
      destruct (fin_out c t b3 _ y cm3 (let? v := r0 in Ret (Some v)) todo below out hr hs M3 R3) as (b4 & T4 & R4).
      { intros g Q. rewrite MU3 in Q. destruct (MU g Q) as [Q1 Q2]. split; [exact Q1|].
        (* the store is not poisoned: nobody else had it *)
        change (poison_of (close_rfunc st2 (nc_m y) i (to_val r0)) g = false). rewrite close_rfunc_poison.
        rewrite <- Q2. change (sp g) with (poison_of st1 g). eapply drive_poison; [|exact D].
        intros. eapply POIS; [|eassumption]. unfold add_store. rewrite Q. simpl. rewrite Nat.eqb_refl. reflexivity. }
      subst x. simpl comes_out. exists (k2 + (1 + 1))%nat, b4. split.
      * rewrite titer_app, T2, titer_app, T3, T4. rewrite <- TV. destruct r0 as [v|e0|]; reflexivity.
      * rewrite <- TV. destruct r0 as [v|e0|].
        -- rewrite close_store_quiet; [exact R4|]. destruct v; discriminate.
        -- replace (close_store (close_rfunc st2 (nc_m y) i (to_val (Panic e0))) cm (to_val (Panic e0))) with
             (close_store (close_rfunc st2 (nc_m y) i (Panic e0)) cm3 (Panic e0)); [exact R4|].
           unfold close_store. rewrite MU3. reflexivity.
        -- rewrite close_store_quiet; [exact R4|]. discriminate.
    + injection H as <-. exact CO.
  - (* the closure of the expectation is running already *)
    assert (W = Some i) as ->.
    { destruct (sg_who _ _ _ _ _ _ _ _ _ _ _ _ G) as [Q|(r' & Q & _)]; [|discriminate]. simpl in Q. auto. }
    simpl in SI, RI.
    pose proof (sg_static _ _ _ _ _ _ _ _ _ _ _ _ G i) as SC. simpl in SC. rewrite SI in SC.
    destruct F as [[es w1] rF]. rewrite <- SC in H.
    assert (HN : heldr hr (nc_m y) i = true).
    { rewrite (rp_rl _ _ _ _ _ RP) in RI. destruct (heldr hr (nc_m y) i); congruence. }
    rewrite HN in H. simpl andb in H. cbv iota in H. injection H as <-.
    exists 0%nat, b', [PLockR x i]. split; [reflexivity|]. split; [discriminate|].
    destruct (seg_cm _ _ _ _ _ _ _ _ _ _ _ _ G) as (cm' & Hm & _).
    unfold stuck. simpl app. eapply tstep_seg with (ev := []); [reflexivity|exact Hm|discriminate| |reflexivity].
    unfold static_at in SI. unfold pstep. simpl cc_m. destruct (cexp b' (nc_m y) i) as [e|]; [|discriminate].
    destruct (e_action e) as [rf po|rf|rf]; try discriminate SI.
    rewrite (sg_rl _ _ _ _ _ _ _ _ _ _ _ _ G). simpl.
    destruct (cs_rl b (nc_m y) i) eqn:Q; [reflexivity|congruence].
Qed.

Lemma neval_sim c t todo out : forall n hr hs st y cm b below o,
  value_defaults (meths_of st) -> rep t b st hr hs ->
  nth_error (meths_of st) (nc_m y) = Some cm -> neval n c t hr hs st y = Some o ->
  comes_out c t (b, NThread todo (start_pc y cm :: below) out) todo below out hr hs o.
Proof.
  induction n as [|n IH]; intros hr hs st y cm b below o VD RP M H; [discriminate|].
  rewrite (neval_S _ _ _ _ _ _ _ _ M) in H.
  assert (NONE : forall hr hs (st : sstate (V := rval) (U := U)) y o, nth_error (meths_of st) (nc_m y) = None ->
    neval n c t hr hs st y = Some o -> o = Hangs).
  { intros hr' hs' [[[ms sp] u] l] y' o' N E. destruct n as [|n']; [discriminate|]. simpl in N, E. rewrite N in E. congruence. }
  assert (MB : nth_error (cs_meths b) (nc_m y) = Some cm) by (rewrite (rp_meths _ _ _ _ _ RP); exact M).
  assert (POIS : forall hr hs (st : sstate (V := rval) (U := U)) y st' r g, existsb (Nat.eqb g) hs = true ->
    neval n c t hr hs st y = Some (Ends st' r) -> poison_of st' g = poison_of st g)
    by (intros; eapply neval_poison; eauto).
  unfold start_pc. destruct (cm_mutex cm) as [g|] eqn:MU.
  - assert (SB : cs_sp b g = poison_of st g) by (apply (rp_sp _ _ _ _ _ RP)).
    assert (LB := rp_sl _ _ _ _ _ RP g).
    destruct (existsb (Nat.eqb g) hs) eqn:HG.
    { injection H as <-. exists 0%nat, b, [PLockS (to_call y)]. split; [reflexivity|]. split; [discriminate|].
      eapply tstep_seg; [reflexivity|exact MB|discriminate| |].
      - unfold pstep. rewrite MU, LB. reflexivity.
      - reflexivity. }
    fold (poison_of st g) in H. destruct (poison_of st g) eqn:PG.
    { injection H as <-. exists 1%nat, b. split; [|exact RP].
      simpl titer. unfold tstep. simpl pc_call. cbv iota. simpl cc_m. rewrite MB. unfold pstep. rewrite MU, LB, SB.
      reflexivity. }
    apply comes_out_after with (k := 1%nat)
      (s' := (put_sl b g (Some t) false, NThread todo (PLockM (to_call y) 0 :: below) out)).
    { simpl titer. eapply tstep_seg; [reflexivity|exact MB|discriminate| |].
      - unfold pstep. rewrite MU, LB, SB. reflexivity.
      - reflexivity. }
    eapply body_sim; try eassumption.
    + destruct RP as [R1 R2 R3 R4 R5 R6 R7]. unfold add_store. rewrite MU. constructor; simpl; auto.
      * intros g'. destruct (Nat.eqb_spec g' g); [subst; symmetry; exact PG|apply R4].
      * intros g'. destruct (Nat.eqb_spec g' g); [reflexivity|apply R7].
    + intros g' Q. rewrite MU in Q. injection Q as <-. auto.
  - eapply body_sim; try eassumption.
    + unfold add_store. rewrite MU. exact RP.
    + intros g Q. rewrite MU in Q. discriminate.
Qed.

End NestSim.
