(** * NestRank: threads whose closures call lower methods do not wait for each other *)

From Coq Require Import Arith NArith List Bool String Lia Wellfounded.
From Verif Require Import Base Times Expect Conc ConcSpec ConcProofs LockProofs ThreadProofs
  LinProofs Nest NestSpec NestProofs NestSim NestLocks.
Import ListNotations.

Local Arguments set_nth : simpl never.
Local Arguments pstep : simpl never.
Local Arguments put_exp : simpl never.

Lemma Acc_irrefl {A} (R : A -> A -> Prop) x : Acc R x -> R x x -> False.
Proof. induction 1 as [x _ IH]. intros H. exact (IH x H H). Qed.

Section NestRank.
Context {V U : Type}.
Notation rval := (rval V U).
Notation ncall := (ncall V).
Notation csys := (csys rval U).
Notation pc := (pc rval U).
Notation nthread := (nthread V U).
Notation nsys := (nsys V U).
Context (c : cfg) (rank : nat -> nat) (ms0 : list (cmeth rval U)).

Ltac leaves H :=
  unfold pstep, unlock_r in H;
  repeat match type of H with
  | context [match ?x with _ => _ end] =>
      lazymatch x with
      | context [match _ with _ => _ end] => fail
      | _ => let E := fresh "E" in destruct x eqn:E
      end
  end;
  injection H as <- <- <-.

Definition lower (m : nat) (y : ncall) : Prop :=
  (rank (nc_m y) < rank m)%nat /\ (nc_m y < List.length ms0)%nat.

Definition f_ok (m : nat) (f : ucode U (list rval) rval) : Prop :=
  forall args u u' v, f args u = (u', Ret v) -> only (lower m) v.

Definition exps_ok (b : csys) : Prop :=
  forall m i e f, cexp b m i = Some e -> closure_of e = Some f -> f_ok m f.

Definition frame_ok (p : pc) : Prop :=
  match p with
  | PExec x i f => f_ok (cc_m x) f
  | PExit x i (Ret v) => only (lower (cc_m x)) v
  | _ => True
  end.

Lemma pstep_exps_ok (b : csys) t cm p b' p' ev :
  pstep c b t cm p = (b', p', ev) -> exps_ok b -> exps_ok b'.
Proof.
  intros H EO m i e f C CL. revert C CL. leaves H; try apply EO.
  all: rewrite ?cexp_put_ml, ?cexp_put_rl, ?cexp_put_sl, ?cexp_put_world, ?cexp_put_exp,
      ?cexp_put_ml, ?cexp_put_rl, ?cexp_put_world.
  all: match goal with |- context [(?a && ?b)%bool] => destruct (a && b)%bool eqn:Eb end; [|apply EO].
  all: apply andb_true_iff in Eb as [Eb1 Eb2]; apply Nat.eqb_eq in Eb1, Eb2; subst m i.
  all: match goal with [H1 : cexp _ _ _ = Some _ |- _] => rewrite H1; pose proof (EO _ _ _ f H1) as EO1 end.
  all: intros [= <-]; intros CL; try discriminate CL.
  all: apply EO1; revert CL; unfold closure_of; simpl;
    try match goal with [H1 : e_action _ = _ |- _] => rewrite H1 end; auto.
Qed.

Lemma pstep_frame_ok (b : csys) t cm p b' p' ev :
  pstep c b t cm p = (b', p', ev) -> exps_ok b -> frame_ok p -> frame_ok p'.
Proof.
  intros H EO F. leaves H; simpl; auto.
  all: try match goal with |- frame_ok (match ?r with _ => _ end) => destruct r; exact I end.
  all: try match goal with [H1 : cexp _ _ _ = Some _, H2 : e_action _ = _ |- f_ok _ ?f] =>
     apply (EO _ _ _ f H1); unfold closure_of; rewrite H2; reflexivity end.
  all: try match goal with |- match ?r with Ret _ => only _ _ | _ => _ end => destruct r; auto end.
  simpl in F. eapply F; eauto.
Qed.

(** ** A step brings the end nearer *)
Definition base_like (b : csys) : Prop := map decl_of (cs_meths b) = map decl_of ms0.
Definition b0 (b : csys) : csys :=
  CSys (cs_user b) (cs_levels b) ms0 (cs_ml b) (cs_rl b) (cs_sl b) (cs_sp b) (cs_threads b).

Definition cost0 (p : pc) : nat :=
  let ln m := match nth_error ms0 m with Some cm => List.length (cm_exps cm) | None => O end in
  match p with
  | PIdle => 0
  | PLockS x => 13 + 3 * ln (cc_m x)
  | PLockM x i => 12 + 3 * (ln (cc_m x) - i)
  | PEval x i => 11 + 3 * (ln (cc_m x) - i)
  | PDone x i => 10 + 3 * (ln (cc_m x) - i)
  | PCount _ _ => 10
  | PVerify _ _ => 9
  | PLoad1 _ _ => 8
  | PLoad2 _ _ _ => 7
  | PSatisfy _ _ => 6
  | PLockR _ _ => 5
  | PRun _ _ => 4
  | PExec _ _ _ => 3
  | PExit _ _ _ => 2
  | PShow _ _ _ => 2
  | PShowR _ _ _ => 2
  | PFin _ _ => 1
  end%nat.

Lemma cost0_pcost (b : csys) p : base_like b -> pcost b p = cost0 p.
Proof.
  intros D. assert (L : forall m, explen b m =
    match nth_error ms0 m with Some cm => List.length (cm_exps cm) | None => O end).
  { intros m. rewrite (decls_len (b0 b) b m D). unfold explen, cexps, b0. simpl.
    destruct (nth_error ms0 m); reflexivity. }
  destruct p; simpl; rewrite ?L; reflexivity.
Qed.

Inductive fless : pc -> pc -> Prop :=
| fl_cost p' p : (cost0 p' < cost0 p)%nat -> pc_call p' = pc_call p -> fless p' p
| fl_resume x i y k r u u' r' : k r u = (u', r') -> fless (PExit x i r') (PExit x i (Ret (RReq y k))).

Lemma fless_call p' p : fless p' p -> pc_call p' = pc_call p.
Proof. destruct 1; auto. Qed.

Lemma fless_wf : well_founded fless.
Proof.
  intros p. remember (cost0 p) as n. revert p Heqn.
  induction n as [n IH] using lt_wf_ind. intros p E.
  assert (NX : (forall x i r, p <> PExit x i r) -> Acc fless p).
  { intros NX. constructor. intros p' L. inversion L; subst.
    - eapply IH; eauto.
    - destruct (NX _ _ _ eq_refl). }
  destruct p as [|x|x i|x i|x i|x i|x i er|x i|x i|x i lower|x i|x i|x i|x i f|x i r|x i er|x r];
    try (apply NX; discriminate).
  clear NX. simpl in E. subst n.
  assert (NR : forall r, (forall v, r <> Ret v) -> Acc fless (PExit x i r)).
  { intros r0 NR. constructor. intros p' L. inversion L; subst.
    - eapply IH; [|reflexivity]. simpl in *. assumption.
    - destruct (NR _ eq_refl). }
  destruct r as [v| |]; try (apply NR; discriminate).
  induction v as [v|y k IHv] using rval_induction.
  - constructor. intros p' L. inversion L; subst. eapply IH; [|reflexivity]. simpl in *. assumption.
  - constructor. intros p' L. inversion L; subst.
    + eapply IH; [|reflexivity]. simpl in *. assumption.
    + match goal with [H : k ?r ?u = (?u', ?r') |- _] => destruct r' as [v'| |]; [eauto|apply NR; discriminate|apply NR; discriminate] end.
Qed.

Definition rk (p : pc) : nat := match pc_call p with Some x => rank (cc_m x) | None => O end.

(** What is left when the innermost call ends. *)
Inductive popped : list pc -> list pc -> Prop :=
| pop_nil : popped [] []
| pop_cons p p' l : fless p' p -> popped (p :: l) (p' :: l).

Inductive sless : list pc -> list pc -> Prop :=
| sl_top p' p l : fless p' p -> sless (p' :: l) (p :: l)
| sl_push p' p l : (rk p' < rk p)%nat -> sless (p' :: p :: l) (p :: l)
| sl_pop p l l' : popped l l' -> sless l' (p :: l).

Lemma sless_acc_cons n : forall p, (rk p < n)%nat -> forall l,
  (forall l', popped l l' -> Acc sless l') -> Acc sless (p :: l).
Proof.
  induction n as [|n IHn]; [intros; lia|].
  intros p. induction (fless_wf p) as [p _ IHp]. intros R l PO.
  constructor. intros l' L. inversion L; subst.
  - apply IHp; auto. unfold rk in *. rewrite (fless_call p' p); auto.
  - apply IHn; [lia|]. intros l' P. inversion P; subst. apply IHp; auto.
    unfold rk in *. rewrite (fless_call p'0 p); auto.
  - apply PO. auto.
Qed.

Lemma sless_nil : Acc sless [].
Proof. constructor. intros l' L. inversion L. Qed.

Lemma sless_wf : well_founded sless.
Proof.
  intros l. assert (G : Acc sless l /\ forall l', popped l l' -> Acc sless l'); [|tauto].
  induction l as [|p l [IH1 IH2]].
  - split; [apply sless_nil|]. intros l' P. inversion P. apply sless_nil.
  - assert (A : Acc sless (p :: l)) by (eapply sless_acc_cons; eauto).
    split; auto. intros l' P. inversion P; subst. eapply sless_acc_cons; eauto.
Qed.

Inductive tless : nthread -> nthread -> Prop :=
| tl_stack todo s s' o o' : sless s' s -> tless (NThread todo s' o') (NThread todo s o)
| tl_todo y todo p o : tless (NThread todo [p] o) (NThread (y :: todo) [] o).

Lemma tless_wf : well_founded tless.
Proof.
  intros [todo s o]. revert s o. induction todo as [|y todo IH]; intros s o.
  - revert o. induction (sless_wf s) as [s _ IHs]. intros o. constructor. intros th L. inversion L; subst. auto.
  - revert o. induction (sless_wf s) as [s _ IHs]. intros o. constructor. intros th L. inversion L; subst; auto.
Qed.

Definition lless (l' l : list nthread) : Prop :=
  exists t th th', nth_error l t = Some th /\ l' = set_nth l t th' /\ tless th' th.

Lemma lless_wf : well_founded lless.
Proof.
  intros l. induction l as [|th l IH].
  - constructor. intros l' (t & th & th' & N & _). destruct t; discriminate.
  - revert l IH. induction (tless_wf th) as [th _ IHt]. intros l A.
    induction A as [l A IHl]. constructor. intros l' (t & th1 & th' & N & -> & L).
    destruct t as [|t]; cbn [nth_error] in N.
    + injection N as ->. change (set_nth (th1 :: l) 0 th') with (th' :: l). apply IHt; auto. constructor. auto.
    + change (set_nth (th :: l) (S t) th') with (th :: set_nth l t th'). apply IHl. exists t, th1, th'. auto.
Qed.

(** ** The invariant *)
Record ninv (s : nsys) : Prop := {
  ni_locks : nlocks s;
  ni_base : base_like (ns_base s);
  ni_exps : exps_ok (ns_base s);
  ni_frames : forall t th, nth_error (ns_threads s) t = Some th -> Forall frame_ok (nt_stack th);
  ni_todo : forall t th, nth_error (ns_threads s) t = Some th ->
    Forall (fun y => nc_m y < List.length ms0)%nat (nt_todo th)
}.

Lemma enter_some (b : csys) y : base_like b -> (nc_m y < List.length ms0)%nat -> exists p, enter b y = Some p.
Proof.
  intros D L. unfold enter. destruct (nth_error (cs_meths b) (nc_m y)) eqn:M; [eauto|].
  apply nth_error_None in M. apply (f_equal (@List.length _)) in D. rewrite !map_length in D. lia.
Qed.

(** What a step does to a thread. *)
Inductive tcase (b : csys) (t : nat) : nthread -> csys -> nthread -> Prop :=
| tc_stay th : tcase b t th b th
| tc_enter y rest p o : enter b y = Some p ->
    tcase b t (NThread (y :: rest) [] o) b (NThread rest [p] o)
| tc_push todo x i y k l p o : enter b y = Some p ->
    tcase b t (NThread todo (PExit x i (Ret (RReq y k)) :: l) o) b
              (NThread todo (p :: PExit x i (Ret (RReq y k)) :: l) o)
| tc_inner todo p l o x cm b' p' ev :
    pc_call p = Some x -> nth_error (cs_meths b) (cc_m x) = Some cm ->
    pstep c b t cm p = (b', p', ev) -> pc_call p' = Some x ->
    tcase b t (NThread todo (p :: l) o) b' (NThread todo (p' :: l) o)
| tc_out todo p o x cm b' ev r :
    pc_call p = Some x -> nth_error (cs_meths b) (cc_m x) = Some cm ->
    pstep c b t cm p = (b', PIdle, ev) ->
    tcase b t (NThread todo [p] o) b' (NThread todo [] (o ++ [r]))
| tc_resume todo p l o x cm b' ev xq i y k r u r' :
    pc_call p = Some x -> nth_error (cs_meths b) (cc_m x) = Some cm ->
    pstep c b t cm p = (b', PIdle, ev) -> k r (cs_user b') = (u, r') ->
    tcase b t (NThread todo (p :: PExit xq i (Ret (RReq y k)) :: l) o)
      (put_world b' (World u (cs_levels b') 0 false)) (NThread todo (PExit xq i r' :: l) o).

Lemma tstep_case (b : csys) t th b' th' :
  stack_ok b (nt_stack th) -> tstep c b t th = (b', th') -> tcase b t th b' th'.
Proof.
  destruct th as [todo stack out]. cbn [nt_stack]. intros OK T. unfold tstep in T. destruct stack as [|p below].
  - destruct todo as [|y rest]; [injection T as <- <-; constructor|].
    destruct (enter b y) as [p|] eqn:E; injection T as <- <-; constructor. auto.
  - destruct OK as (_ & _ & WF & _).
    assert (GEN : match pc_call p with
      | None => (b, NThread todo (p :: below) out)
      | Some x =>
          match nth_error (cs_meths b) (cc_m x) with
          | None => (b, NThread todo (p :: below) out)
          | Some cm =>
              let '(b', p', ev) := pstep c b t cm p in
              match ret_of ev with
              | None => (b', NThread todo (p' :: below) out)
              | Some r =>
                  let '(b2, stack', out') := resume b' below out (to_val r) in
                  (b2, NThread todo stack' out')
              end
          end
      end = (b', th') -> tcase b t (NThread todo (p :: below) out) b' th').
    { intros T'. destruct (pc_call p) as [x|] eqn:PX; [|injection T' as <- <-; constructor].
      destruct (nth_error (cs_meths b) (cc_m x)) as [cm|] eqn:CM; [|injection T' as <- <-; constructor].
      destruct (pstep c b t cm p) as [[b1 p1] ev] eqn:PS.
      pose proof (pstep_return _ _ _ _ _ _ _ _ _ PX PS) as RET.
      destruct (ret_of ev) as [r|] eqn:RO.
      - subst p1. destruct below as [|q rest].
        + simpl in T'. injection T' as <- <-. econstructor; eauto.
        + destruct WF as (xq & i & y & k & xp & -> & _). cbn [resume] in T'.
          destruct (k (to_val r) (cs_user b1)) as [u r'] eqn:K. injection T' as <- <-. econstructor; eauto.
      - injection T' as <- <-. econstructor; eauto. }
    destruct p as [|x|x i|x i|x i|x i|x i er|x i|x i|x i lower|x i|x i|x i|x i f|x i r|x i er|x r];
      try (apply GEN; exact T).
    destruct r as [[v|y k]|m|]; try (apply GEN; exact T).
    destruct (enter b y) as [p'|] eqn:E; injection T as <- <-; constructor. auto.
Qed.

Lemma enter_frame (b : csys) y p : enter b y = Some p -> frame_ok p.
Proof.
  unfold enter. destruct (nth_error (cs_meths b) (nc_m y)) as [cm|]; [|discriminate].
  intros [= <-]. destruct (cm_mutex cm); exact I.
Qed.

Lemma ninv_nstep s t : ninv s -> ninv (nstep c s t).
Proof.
  intros NI. pose proof (nlocks_nstep c s t (ni_locks _ NI)) as NL. revert NL.
  unfold nstep. destruct (nth_error (ns_threads s) t) as [th|] eqn:N; [|auto].
  destruct s as [b l]. destruct NI as [L BL EO FR TD]. cbn [ns_base ns_threads] in *.
  destruct (tstep c b t th) as [b' th'] eqn:T. intros NL.
  apply tstep_case in T; [|apply (nl_ok _ L _ _ N)].
  pose proof (FR _ _ N) as F1. pose proof (TD _ _ N) as T1.
  assert (G : base_like b' /\ exps_ok b' /\ Forall frame_ok (nt_stack th') /\
     Forall (fun y => nc_m y < List.length ms0)%nat (nt_todo th')).
  { destruct T as [th|y rest p o E|todo x i y k l0 p o E|todo p l0 o x cm b' p' ev PX CM PS PX'
      |todo p o x cm b' ev r PX CM PS|todo p l0 o x cm b' ev xq i y k r u r' PX CM PS K];
      cbn [nt_stack nt_todo] in *.
    - auto.
    - split; [auto|]. split; [auto|]. split; [constructor; [eapply enter_frame; eauto|constructor]|].
      inversion T1; auto.
    - split; [auto|]. split; [auto|]. split; [constructor; [eapply enter_frame; eauto|auto]|auto].
    - split; [unfold base_like; rewrite (pstep_decls _ _ _ _ _ _ _ _ PS); auto|].
      split; [eapply pstep_exps_ok; eauto|]. split; [|auto]. inversion F1; subst. constructor; auto.
      eapply pstep_frame_ok; eauto.
    - split; [unfold base_like; rewrite (pstep_decls _ _ _ _ _ _ _ _ PS); auto|].
      split; [eapply pstep_exps_ok; eauto|]. auto.
    - split; [unfold base_like; simpl; rewrite (pstep_decls _ _ _ _ _ _ _ _ PS); auto|].
      split; [intros m j e f; rewrite cexp_put_world; eapply pstep_exps_ok; eauto|]. split; [|auto].
      inversion F1 as [|? ? _ F2]; subst. inversion F2 as [|? ? F3 F4]; subst. constructor; auto.
      simpl in F3 |- *. destruct r' as [v| |]; auto. inversion F3; subst. eauto. }
  destruct G as (G1 & G2 & G3 & G4). constructor; auto; cbn [ns_base ns_threads].
  - intros t' th1. rewrite nth_set_nth, N. destruct (Nat.eqb_spec t' t); [intros [= <-]; auto|eauto].
  - intros t' th1. rewrite nth_set_nth, N. destruct (Nat.eqb_spec t' t); [intros [= <-]; auto|eauto].
Qed.

Lemma ninv_nrun sched : forall s, ninv s -> ninv (nrun c s sched).
Proof. induction sched as [|t sched IH]; intros s NI; simpl; auto. apply IH, ninv_nstep, NI. Qed.

(** The invariant gives the order of the calls in a stack. *)
Lemma stack_rank (b : csys) p l : stack_ok b (p :: l) -> Forall frame_ok (p :: l) ->
  forall q, In q l -> (rk p < rk q)%nat.
Proof.
  revert p. induction l as [|q l IH]; intros p OK F q' I; [destruct I|].
  destruct OK as (_ & _ & (x & i & y & k & xp & -> & PX & M) & OK). inversion F as [|? ? _ F']; subst.
  assert (R : (rk p < rk (PExit x i (Ret (RReq y k))))%nat).
  { inversion F' as [|? ? F1 _]; subst. simpl in F1. inversion F1 as [|? ? Q _]; subst. unfold rk. rewrite PX. simpl.
    rewrite M. apply Q. }
  destruct I as [<-|I]; [auto|]. specialize (IH _ OK F' _ I). lia.
Qed.

(** ** A step changes nothing or brings the end nearer *)
Lemma nstep_moves s t : ninv s -> nstep c s t = s \/ lless (ns_threads (nstep c s t)) (ns_threads s).
Proof.
  intros NI. unfold nstep. destruct (nth_error (ns_threads s) t) as [th|] eqn:N; [|auto].
  destruct s as [b l]. destruct NI as [L BL EO FR TD]. cbn [ns_base ns_threads] in *.
  destruct (tstep c b t th) as [b' th'] eqn:T. cbn [ns_threads].
  assert (G : (b' = b /\ th' = th) \/ tless th' th).
  { pose proof (nl_ok _ L _ _ N) as OK. pose proof (FR _ _ N) as F1. cbn [ns_base] in OK.
    apply tstep_case in T; [|auto].
    destruct T as [th|y rest p o E|todo x i y k l0 p o E|todo p l0 o x cm b' p' ev PX CM PS PX'
      |todo p o x cm b' ev r PX CM PS|todo p l0 o x cm b' ev xq i y k r u r' PX CM PS K];
      cbn [nt_stack nt_todo] in *.
    - auto.
    - right. constructor.
    - right. constructor. constructor. destruct (enter_ok _ _ _ E) as (_ & PX & _). unfold rk. rewrite PX. simpl.
      inversion F1 as [|? ? F2 _]; subst. simpl in F2. inversion F2 as [|? ? Q _]; subst. apply Q.
    - destruct (pstep_moves _ _ _ _ _ _ _ _ _ PX CM (proj1 OK) PS) as [[-> ->]|LT]; [auto|].
      right. constructor. apply sl_top. apply fl_cost; [|congruence]. rewrite <- !(cost0_pcost b) by auto. auto.
    - right. constructor. apply sl_pop. constructor.
    - right. constructor. apply sl_pop. constructor. eapply fl_resume; eauto. }
  destruct G as [[-> ->]|G]; [left; rewrite set_nth_self; auto|].
  right. exists t, th, th'. auto.
Qed.

(** ** Somebody moves *)
Context (SR : forall m m' cm cm' g, nth_error ms0 m = Some cm -> nth_error ms0 m' = Some cm' ->
     cm_mutex cm = Some g -> cm_mutex cm' = Some g -> rank m = rank m').

Lemma free_moves s t p l todo o : ninv s ->
  nth_error (ns_threads s) t = Some (NThread todo (p :: l) o) -> ~ blocked (ns_base s) p ->
  lless (ns_threads (nstep c s t)) (ns_threads s).
Proof.
  intros NI N NB. unfold nstep. rewrite N.
  destruct s as [b th]. destruct NI as [L BL EO FR TD]. cbn [ns_base ns_threads] in *.
  destruct (tstep c b t (NThread todo (p :: l) o)) as [b' th'] eqn:T. cbn [ns_threads].
  assert (G : tless th' (NThread todo (p :: l) o)); [|exists t, (NThread todo (p :: l) o), th'; auto].
  pose proof (nl_ok _ L _ _ N) as OK. pose proof (FR _ _ N) as F1. cbn [ns_base nt_stack] in OK, F1.
  destruct OK as (PO & PN & WF & OK).
  assert (GEN : (forall x i y k, p <> PExit x i (Ret (RReq y k))) -> tless th' (NThread todo (p :: l) o)).
  { intros NR. destruct (pc_call p) as [x|] eqn:PX; [|congruence].
    destruct (proj1 PO _ PX) as [cm CM].
    destruct (pstep c b t cm p) as [[b1 p1] ev] eqn:PS.
    assert (T2 : match ret_of ev with
              | None => (b1, NThread todo (p1 :: l) o)
              | Some r =>
                  let '(b2, stack', out') := resume b1 l o (to_val r) in
                  (b2, NThread todo stack' out')
              end = (b', th')).
    { rewrite <- T. unfold tstep.
      destruct p as [|z|z i|z i|z i|z i|z i er|z i|z i|z i lw|z i|z i|z i|z i f|z i r|z i er|z r];
        try discriminate PX; try (cbv beta iota; rewrite PX, CM, PS; reflexivity).
      destruct r as [[v|y k]|m|]; try (cbv beta iota; rewrite PX, CM, PS; reflexivity). destruct (NR _ _ _ _ eq_refl). }
    pose proof (pstep_return _ _ _ _ _ _ _ _ _ PX PS) as RET.
    destruct (ret_of ev) as [r|] eqn:RO.
    - subst p1. destruct l as [|q rest].
      + simpl in T2. injection T2 as <- <-. constructor. apply sl_pop. constructor.
      + destruct WF as (xq & i & y & k & xp & -> & _). cbn [resume] in T2.
        destruct (k (to_val r) (cs_user b1)) as [u r'] eqn:K. injection T2 as <- <-.
        constructor. apply sl_pop. constructor. eapply fl_resume; eauto.
    - injection T2 as <- <-. constructor. apply sl_top. apply fl_cost; [|congruence].
      rewrite <- !(cost0_pcost b) by auto.
      destruct (pstep_progress _ _ _ _ _ _ _ _ _ PX CM PO PS) as [B|LT]; [contradiction|auto]. }
  destruct p as [|z|z i|z i|z i|z i|z i er|z i|z i|z i lw|z i|z i|z i|z i f|z i r|z i er|z r];
    try (apply GEN; discriminate).
  destruct r as [[v|y k]|m|]; try (apply GEN; discriminate).
  inversion F1 as [|? ? F2 _]; subst. simpl in F2. inversion F2 as [|? ? Q _]; subst. destruct Q as [Q1 Q2].
  destruct (enter_some b y BL Q2) as [p' E]. unfold tstep in T. rewrite E in T. injection T as <- <-.
  constructor. constructor. destruct (enter_ok _ _ _ E) as (_ & PX & _). unfold rk. rewrite PX. exact Q1.
Qed.

Definition islock (p : pc) : nat := match p with PLockS _ => 1 | _ => 0 end%nat.

Lemma top_moves n : forall s t p l todo o, ninv s ->
  nth_error (ns_threads s) t = Some (NThread todo (p :: l) o) -> (2 * rk p + islock p < n)%nat ->
  exists t', lless (ns_threads (nstep c s t')) (ns_threads s).
Proof.
  induction n as [|n IH]; intros s t p l todo o NI N LT; [lia|].
  assert (MOVE := free_moves s t p l todo o NI N).
  destruct NI as [L BL EO FR TD] eqn:NIE. clear NIE.
  assert (NI' : ninv s) by (constructor; auto).
  (* the call on top of the stack of a thread that holds something *)
  assert (TOP : forall K (f : pc -> option K) t' k, holder f (ns_threads s) t' k ->
    exists todo' q l' o', nth_error (ns_threads s) t' = Some (NThread todo' (q :: l') o') /\
      (f q = Some k \/ exists q', In q' l' /\ f q' = Some k /\ (rk q < rk q')%nat /\
         exists x i y kk, q' = PExit x i (Ret (RReq y kk)))).
  { intros K f t' k ([todo' [|q l'] o'] & N' & q' & I & E); [destruct I|].
    exists todo', q, l', o'. split; [auto|]. cbn [nt_stack] in I. destruct I as [->|I]; [auto|].
    right. exists q'. split; [auto|]. split; [auto|]. pose proof (nl_ok _ L _ _ N') as OK.
    split; [eapply stack_rank; eauto; apply (FR _ _ N')|].
    cbn [nt_stack] in OK. clear - OK I.
    revert q OK. induction l' as [|q1 l' IH]; intros q OK; [destruct I|].
    destruct OK as (_ & _ & WF & OK). destruct I as [->|I]; [|eauto].
    destruct WF as (x & i & y & k & xp & -> & _). eauto. }
  assert (HM : forall m i, cs_ml (ns_base s) m i <> None -> exists t', lless (ns_threads (nstep c s t')) (ns_threads s)).
  { intros m i E. destruct (cs_ml (ns_base s) m i) as [t'|] eqn:E'; [|congruence].
    apply (nl_m _ L (m, i)) in E'. destruct (TOP _ _ _ _ E') as (todo' & q & l' & o' & N' & [H|(q' & _ & H & _ & x & j & y & k & ->)]).
    - exists t'. eapply free_moves; eauto. destruct q; try discriminate H. simpl. auto.
    - discriminate H. }
  destruct p as [|x|x i|x i|x i|x i|x i er|x i|x i|x i lw|x i|x i|x i|x i f|x i r|x i er|x r];
    try (exists t; apply MOVE; simpl; auto; fail).
  - (* a static store *)
    destruct (nl_ok _ L _ _ N) as ((_ & _ & PC3 & _) & _). destruct (PC3 _ eq_refl) as (cm & g & CM & G).
    destruct (cs_sl (ns_base s) g) as [t'|] eqn:E.
    + apply (nl_s _ L) in E. 
      assert (RG : forall q, sheld (ns_base s) q = Some g -> rk q = rank (cc_m x)).
      { intros q H. unfold sheld in H. unfold rk.
        assert (H' : exists z cmz, pc_call q = Some z /\ nth_error (cs_meths (ns_base s)) (cc_m z) = Some cmz /\ cm_mutex cmz = Some g).
        { destruct q; try discriminate H; simpl pc_call in *; cbv beta iota in H;
            match goal with [H : context [nth_error ?a ?b] |- _] => destruct (nth_error a b) eqn:Q; [|discriminate H] end; eauto. }
        destruct H' as (z & cmz & -> & Z1 & Z2).
        assert (DM : forall m cm1, nth_error (cs_meths (ns_base s)) m = Some cm1 -> exists cm2, nth_error ms0 m = Some cm2 /\ cm_mutex cm2 = cm_mutex cm1).
        { intros m cm1 Q. pose proof (decls_mutex _ _ m BL) as [Q1 Q2]. rewrite Q in Q1, Q2.
          destruct (nth_error ms0 m) as [cm2|]; [|discriminate]. eauto. }
        destruct (DM _ _ Z1) as (cz & Z3 & Z4). destruct (DM _ _ CM) as (cx & X3 & X4).
        apply (SR _ _ cz cx g Z3 X3); congruence. }
      destruct (TOP _ _ _ _ E) as (todo' & q & l' & o' & N' & [H|(q' & _ & H & R & _)]).
      * apply (IH s t' q l' todo' o' NI' N'). rewrite (RG _ H). unfold rk in LT. simpl in LT.
        destruct q; try discriminate H; simpl; lia.
      * apply (IH s t' q l' todo' o' NI' N'). rewrite (RG _ H) in R. unfold rk in LT. simpl in LT.
        destruct q; simpl in *; lia.
    + exists t. apply MOVE. simpl. intros (cm' & g' & A & B & C). congruence.
  - destruct (cs_ml (ns_base s) (cc_m x) i) eqn:E; [eapply HM; rewrite E; discriminate|].
    exists t. apply MOVE. simpl. intros X. apply X. assumption.
  - destruct (cs_ml (ns_base s) (cc_m x) i) eqn:E; [eapply HM; rewrite E; discriminate|].
    exists t. apply MOVE. simpl. intros X. apply X. assumption.
  - (* an [Rfunc] *)
    destruct (cs_rl (ns_base s) (cc_m x) i) as [t'|] eqn:E; [|exists t; apply MOVE; simpl; intros X; apply X; assumption].
    apply (nl_r _ L (cc_m x, i)) in E.
    destruct (TOP _ _ _ _ E) as (todo' & q & l' & o' & N' & [H|(q' & _ & H & R & x' & i' & y' & kk & ->)]).
    + destruct q as [|z|z j|z j|z j|z j|z j er|z j|z j|z j lw|z j|z j|z j|z j f|z j r|z j er|z r]; try discriminate H.
      1-3: exists t'; eapply free_moves; eauto; simpl; auto.
      destruct (cs_ml (ns_base s) (cc_m z) j) eqn:E'; [eapply HM; rewrite E'; discriminate|].
      exists t'. eapply free_moves; eauto.
    + apply (IH s t' q l' todo' o' NI' N'). simpl in H. injection H as H1 H2. unfold rk in LT, R. simpl in LT, R.
      rewrite H1 in R. unfold rk. destruct q; simpl in *; lia.
  - destruct (cs_ml (ns_base s) (cc_m x) i) eqn:E; [eapply HM; rewrite E; discriminate|].
    exists t. apply MOVE. simpl. intros X. apply X. assumption.
Qed.

Lemma nfinished_dec (s : nsys) : nfinished s \/
  exists t th, nth_error (ns_threads s) t = Some th /\ (nt_stack th <> [] \/ nt_todo th <> []).
Proof.
  unfold nfinished. induction (ns_threads s) as [|th l IH].
  - left. intros [|t] th; discriminate.
  - destruct (nt_stack th) eqn:ST; [|right; exists 0%nat, th; split; [reflexivity|left; congruence]].
    destruct (nt_todo th) eqn:D; [|right; exists 0%nat, th; split; [reflexivity|right; congruence]].
    destruct IH as [A|(t & th' & A & B)].
    + left. intros [|t] th'; simpl; [intros [= <-]; auto|eauto].
    + right. exists (S t), th'. auto.
Qed.

Lemma somebody_moves_n s : ninv s -> nfinished s \/ exists t, lless (ns_threads (nstep c s t)) (ns_threads s).
Proof.
  intros NI. destruct (nfinished_dec s) as [F|(t & th & N & NF)]; [auto|]. right.
  destruct th as [todo [|p l] o].
  - destruct todo as [|y rest]; [destruct NF as [X|X]; destruct X; reflexivity|].
    pose proof (ni_todo _ NI _ _ N) as TD. inversion TD as [|? ? Y _]; subst.
    destruct (enter_some (ns_base s) y (ni_base _ NI) Y) as [p E].
    exists t. unfold nstep. rewrite N. unfold tstep. rewrite E. cbn [ns_threads].
    eexists t, _, _. split; [exact N|]. split; [reflexivity|]. constructor.
  - eapply top_moves; eauto.
Qed.

Lemma nrun_app (s : nsys) a : forall b, nrun c s (a ++ b) = nrun c (nrun c s a) b.
Proof. revert s. induction a as [|t a IH]; intros s b; simpl; auto. Qed.

Lemma nstep_nthreads (s : nsys) t : List.length (ns_threads (nstep c s t)) = List.length (ns_threads s).
Proof.
  unfold nstep. destruct (nth_error (ns_threads s) t) as [th|]; [|auto].
  destruct (tstep c (ns_base s) t th). apply set_nth_length.
Qed.
Lemma nrun_nthreads sched : forall (s : nsys), List.length (ns_threads (nrun c s sched)) = List.length (ns_threads s).
Proof. induction sched as [|t sched IH]; intros s; simpl; auto. rewrite IH. apply nstep_nthreads. Qed.

(** A fair schedule finishes. *)
Lemma fair_finish_n (f : nat -> nat) n0 : (forall t n, (t < n0)%nat -> exists k, (n <= k)%nat /\ f k = t) ->
  forall s, ninv s -> List.length (ns_threads s) = n0 -> forall n, exists k, nfinished (nrun c s (map f (seq n k))).
Proof.
  intros FAIR s. remember (ns_threads s) as l. revert s Heql.
  induction (lless_wf l) as [l _ IH]. intros s -> NI LN n.
  destruct (somebody_moves_n s NI) as [F|[t M]]; [exists O; exact F|].
  destruct (FAIR t n) as (k & LE & FK).
  { rewrite <- LN. destruct (Nat.lt_ge_cases t (List.length (ns_threads s))) as [?|GE]; [auto|].
    exfalso. unfold nstep in M. apply nth_error_None in GE. rewrite GE in M.
    exact (Acc_irrefl lless _ (lless_wf _) M). }
  assert (ST : forall d n', (n' + d = k)%nat -> exists j, 
     lless (ns_threads (nrun c s (map f (seq n' (S j))))) (ns_threads s)).
  { induction d as [|d IHd]; intros n' E.
    - exists O. simpl. replace n' with k by lia. rewrite FK. exact M.
    - destruct (nstep_moves s (f n') NI) as [Q|Q].
      + destruct (IHd (S n')) as [j J]; [lia|]. exists (S j). 
        change (map f (seq n' (S (S j)))) with (f n' :: map f (seq (S n') (S j))). cbn [nrun]. rewrite Q. exact J.
      + exists O. simpl. exact Q. }
  destruct (ST (k - n)%nat n) as [j J]; [lia|].
  destruct (IH _ J _ eq_refl (ninv_nrun _ _ NI) ltac:(rewrite nrun_nthreads; auto) (n + S j)%nat) as [k' K'].
  exists (S j + k')%nat. rewrite seq_app, map_app, nrun_app. exact K'.
Qed.

End NestRank.
