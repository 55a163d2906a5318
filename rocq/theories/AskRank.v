(** * AskRank: threads whose closures and predicates call lower methods finish *)

From Coq Require Import Arith NArith List Bool String Lia Wellfounded.
From Verif Require Import Base Times Expect Conc ConcSpec ConcProofs LockProofs ThreadProofs
  LinProofs Nest NestSpec NestProofs NestSim NestLocks NestRank Ask AskSpec AskLocks AskProofs AskEval.
Import ListNotations.

Local Arguments set_nth : simpl never.
Local Arguments pstep : simpl never.
Local Arguments put_exp : simpl never.
Local Arguments atstep : simpl never.

Section AskRank.
Context {V U : Type}.
Notation rval := (rval V U).
Notation ncall := (ncall V).
Notation csys := (csys rval U).
Notation pc := (pc rval U).
Notation aval := (aval V U).
Notation asker := (asker V U).
Notation asks := (asks V U).
Notation frame := (frame V U).
Notation athread := (athread V U).
Notation asys := (asys V U).
Context (c : cfg) (rank : nat -> nat) (ms0 : list (cmeth rval U)) (ps : asks).
Notation lower := (NestRank.lower rank ms0).
Notation frame_ok := (NestRank.frame_ok rank ms0).
Notation exps_ok := (NestRank.exps_ok rank ms0).
Notation base_like := (NestRank.base_like ms0).
Notation cost0 := (NestRank.cost0 ms0).
Notation rk := (NestRank.rk rank).

Context (PO : forall m i a args u u' v, ps m i = Some a -> ak_run a args u = (u', Ret v) -> aonly (lower m) v).

Lemma aval_induction (P : aval -> Prop) :
  (forall v, P (ABool v)) ->
  (forall y k, (forall r u u' v, k r u = (u', Ret v) -> P v) -> P (AReq y k)) ->
  forall v, P v.
Proof.
  intros H1 H2. fix F 1. intros [v|y k]; [apply H1|]. apply H2. intros r u u' v E.
  destruct (k r u) as [u1 [v1|m|]]; try discriminate E.
  assert (Q : v1 = v) by congruence. rewrite <- Q. apply F.
Qed.

Definition aframe_ok (q : frame) : Prop :=
  match q with
  | FCall p => frame_ok p
  | FAsk x i (Ret v) => aonly (lower (cc_m x)) v
  | FAsk _ _ _ => True
  end.

(** ** The order *)
Definition fcost (q : frame) : nat :=
  match q with FCall p => 2 * cost0 p | FAsk x i _ => 2 * cost0 (PEval x i) - 1 end%nat.

Inductive fless : frame -> frame -> Prop :=
| fl_cost q' q : (fcost q' < fcost q)%nat -> pc_call (fpc q') = pc_call (fpc q) -> fless q' q
| fl_resume x i y k r u u' r' : k r u = (u', r') ->
    fless (FCall (PExit x i r')) (FCall (PExit x i (Ret (RReq y k))))
| fl_resume_ask x i y k r u u' r' : k r u = (u', r') ->
    fless (FAsk x i r') (FAsk x i (Ret (AReq y k))).

Lemma fless_call q' q : fless q' q -> pc_call (fpc q') = pc_call (fpc q).
Proof. destruct 1; auto. Qed.

Lemma fless_wf : well_founded fless.
Proof.
  intros q. remember (fcost q) as n. revert q Heqn.
  induction n as [n IH] using lt_wf_ind. intros q E.
  assert (NX : request q = None -> Acc fless q).
  { intros NX. constructor. intros q' L. inversion L; subst.
    - eapply IH; eauto.
    - discriminate NX.
    - discriminate NX. }
  destruct q as [p|x i r].
  - destruct p as [|x|x i|x i|x i|x i|x i er|x i|x i|x i lower|x i|x i|x i|x i f|x i r|x i er|x r];
      try (apply NX; reflexivity).
    clear NX. subst n.
    assert (NR : forall r, request (FCall (PExit x i r)) = None -> Acc fless (FCall (PExit x i r))).
    { intros r0 NR. constructor. intros p' L. inversion L; subst.
      - eapply IH; [|reflexivity]. assumption.
      - discriminate NR. }
    destruct r as [v| |]; try (apply NR; reflexivity).
    induction v as [v|y k IHv] using rval_induction; [apply NR; reflexivity|].
    constructor. intros p' L. inversion L; subst.
    + eapply IH; [|reflexivity]. assumption.
    + match goal with [H : k ?r ?u = (?u', ?r') |- _] => destruct r' as [v'| |]; [|apply NR; reflexivity|apply NR; reflexivity] end.
      eapply IHv; eauto.
  - clear NX. subst n.
    assert (NR : forall r, request (FAsk x i r) = None -> Acc fless (FAsk x i r)).
    { intros r0 NR. constructor. intros p' L. inversion L; subst.
      - eapply IH; [|reflexivity]. assumption.
      - discriminate NR. }
    destruct r as [v| |]; try (apply NR; reflexivity).
    induction v as [v|y k IHv] using aval_induction; [apply NR; reflexivity|].
    constructor. intros p' L. inversion L; subst.
    + eapply IH; [|reflexivity]. assumption.
    + match goal with [H : k ?r ?u = (?u', ?r') |- _] => destruct r' as [v'| |]; [|apply NR; reflexivity|apply NR; reflexivity] end.
      eapply IHv; eauto.
Qed.

Definition frk (q : frame) : nat := rk (fpc q).

Lemma frk_same q' q : pc_call (fpc q') = pc_call (fpc q) -> frk q' = frk q.
Proof. unfold frk, NestRank.rk. intros ->. reflexivity. Qed.

Inductive popped : list frame -> list frame -> Prop :=
| pop_nil : popped [] []
| pop_cons p p' l : fless p' p -> popped (p :: l) (p' :: l).

Inductive sless : list frame -> list frame -> Prop :=
| sl_top p' p l : fless p' p -> sless (p' :: l) (p :: l)
| sl_push p' p l : (frk p' < frk p)%nat -> sless (p' :: p :: l) (p :: l)
| sl_pop p l l' : popped l l' -> sless l' (p :: l).

Lemma sless_acc_cons n : forall p, (frk p < n)%nat -> forall l,
  (forall l', popped l l' -> Acc sless l') -> Acc sless (p :: l).
Proof.
  induction n as [|n IHn]; [intros; lia|].
  intros p. induction (fless_wf p) as [p _ IHp]. intros R l PP.
  constructor. intros l' L. inversion L; subst.
  - apply IHp; auto. rewrite (frk_same p' p); auto using fless_call.
  - apply IHn; [lia|]. intros l' P. inversion P; subst. apply IHp; auto.
    rewrite (frk_same p'0 p); auto using fless_call.
  - apply PP. auto.
Qed.

Lemma sless_nil : Acc sless [].
Proof. constructor. intros l' L. inversion L. Qed.

Lemma sless_wf : well_founded sless.
Proof.
  intros l. assert (G : Acc sless l /\ forall l', popped l l' -> Acc sless l'); [|tauto].
  induction l as [|p l [IH1 IH2]].
  - split; [apply sless_nil|]. intros l' P. inversion P. apply sless_nil.
  - assert (A : Acc sless (p :: l)) by (eapply sless_acc_cons; eauto).
    split; auto. intros l' P. inversion P; subst. eapply sless_acc_cons; eauto.
Qed.

Inductive tless : athread -> athread -> Prop :=
| tl_stack todo s s' o o' : sless s' s -> tless (AThread todo s' o') (AThread todo s o)
| tl_todo y todo p o : tless (AThread todo [p] o) (AThread (y :: todo) [] o).

Lemma tless_wf : well_founded tless.
Proof.
  intros [todo s o]. revert s o. induction todo as [|y todo IH]; intros s o.
  - revert o. induction (sless_wf s) as [s _ IHs]. intros o. constructor. intros th L. inversion L; subst. auto.
  - revert o. induction (sless_wf s) as [s _ IHs]. intros o. constructor. intros th L. inversion L; subst; auto.
Qed.

Definition lless (l' l : list athread) : Prop :=
  exists t th th', nth_error l t = Some th /\ l' = set_nth l t th' /\ tless th' th.

Lemma lless_wf : well_founded lless.
Proof.
  intros l. induction l as [|th l IH].
  - constructor. intros l' (t & th & th' & N & _). destruct t; discriminate.
  - revert l IH. induction (tless_wf th) as [th _ IHt]. intros l A.
    induction A as [l A IHl]. constructor. intros l' (t & th1 & th' & N & -> & L).
    destruct t as [|t]; cbn [nth_error] in N.
    + injection N as ->. change (set_nth (th1 :: l) 0 th') with (th' :: l). apply IHt; auto. constructor. auto.
    + change (set_nth (th :: l) (S t) th') with (th :: set_nth l t th'). apply IHl. exists t, th1, th'. auto.
Qed.

(** ** The invariant *)
Record ainv (s : asys) : Prop := {
  ai_locks : alocks s;
  ai_base : base_like (as_base s);
  ai_exps : exps_ok (as_base s);
  ai_frames : forall t th, nth_error (as_threads s) t = Some th -> Forall aframe_ok (at_stack th);
  ai_busy : forall t th, nth_error (as_threads s) t = Some th ->
    Forall (fun q => pc_call (fpc q) <> None) (at_stack th);
  ai_todo : forall t th, nth_error (as_threads s) t = Some th ->
    Forall (fun y => nc_m y < List.length ms0)%nat (at_todo th)
}.

Lemma ask_end_frame (b : csys) x i v b' p : ask_end b x i v = (b', p) ->
  frame_ok p /\ pc_call p = Some x.
Proof.
  unfold ask_end. destruct (cexp b (cc_m x) i); intros [= _ <-]; [|split; [exact I|reflexivity]].
  destruct v as [[|]| |]; split; try exact I; reflexivity.
Qed.

Lemma ask_end_exps (b : csys) x i v b' p : ask_end b x i v = (b', p) -> exps_ok b -> exps_ok b'.
Proof.
  unfold ask_end. destruct (cexp b (cc_m x) i) as [e|] eqn:E; intros [= <- _] EO; [|exact EO].
  intros m j e' f. rewrite cexp_put_ml, cexp_put_exp.
  destruct (Nat.eqb m (cc_m x) && Nat.eqb j i)%bool eqn:Q; [|apply EO].
  apply andb_true_iff in Q as [Q1 Q2]. apply Nat.eqb_eq in Q1, Q2. subst. rewrite E.
  intros [= <-] CL. apply (EO _ _ _ f E). exact CL.
Qed.

Lemma ask_end_base (b : csys) x i v b' p : ask_end b x i v = (b', p) -> base_like b -> base_like b'.
Proof. intros AE. unfold NestRank.base_like. rewrite (ask_end_decls _ _ _ _ _ _ AE). auto. Qed.

Lemma ask_first_ok m i a args t u u' v : ps m i = Some a -> ask_first a args t u = (u', Ret v) -> aonly (lower m) v.
Proof.
  intros PA. unfold ask_first. destruct (ak_owner a) as [o|]; [destruct (Nat.eqb o t); [|discriminate]|];
    intros E; eapply PO; eauto.
Qed.

Lemma ainv_astep s t : ainv s -> ainv (astep c ps s t).
Proof.
  intros NI. pose proof (alocks_astep c ps s t (ai_locks _ NI)) as NL. revert NL.
  unfold astep. destruct (nth_error (as_threads s) t) as [th|] eqn:N; [|auto].
  destruct s as [b l]. destruct NI as [L BL EO FR BU TD]. cbn [as_base as_threads] in *.
  destruct (atstep c ps b t th) as [b' th'] eqn:T. intros NL.
  apply atstep_case in T; [|apply (al_chain _ L _ _ N)].
  pose proof (FR _ _ N) as F1. pose proof (TD _ _ N) as T1. pose proof (BU _ _ N) as B1.
  assert (PB : forall cm p b1 p1 ev, pstep c b t cm p = (b1, p1, ev) -> base_like b1).
  { intros cm p b1 p1 ev PS. unfold NestRank.base_like. rewrite (pstep_decls _ _ _ _ _ _ _ _ PS). exact BL. }
  assert (G : base_like b' /\ exps_ok b' /\ Forall aframe_ok (at_stack th') /\
     Forall (fun q => pc_call (fpc q) <> None) (at_stack th') /\
     Forall (fun y => nc_m y < List.length ms0)%nat (at_todo th')).
  { destruct T as [th|y rest p o EQ|todo q y l0 p o RQ EQ|todo p l0 o x cm b' p' ev RQ AK PX CM PS PX'
    |todo p o x cm b' ev r RQ AK PX CM PS RO|todo p l0 o x cm b' ev r xq i y k u r' RQ AK PX CM PS RO KE
    |todo p l0 o x cm b' ev r xq i y k u r' RQ AK PX CM PS RO KE|todo x i a0 l0 o u y k AK AF
    |todo x i a0 l0 o u r b' p AK AF NR AEQ|todo x i r l0 o b' p NR AEQ]; cbn [at_stack at_todo] in *.
    - auto.
    - destruct (enter_ok _ _ _ EQ) as (_ & PX & _).
      split; [auto|]. split; [auto|]. split; [constructor; [eapply enter_frame; eauto|constructor]|].
      split; [constructor; [cbn; congruence|constructor]|]. inversion T1; auto.
    - destruct (enter_ok _ _ _ EQ) as (_ & PX & _).
      split; [auto|]. split; [auto|]. split; [constructor; [eapply enter_frame; eauto|auto]|].
      split; [constructor; [cbn; congruence|auto]|auto].
    - inversion F1; subst. inversion B1; subst.
      split; [eapply PB; eauto|]. split; [eapply pstep_exps_ok; eauto|].
      split; [constructor; auto; eapply pstep_frame_ok; eauto|]. split; [constructor; auto; cbn; congruence|auto].
    - split; [eapply PB; eauto|]. split; [eapply pstep_exps_ok; eauto|]. auto.
    - inversion F1 as [|? ? _ F2]; subst. inversion F2 as [|? ? F3 F4]; subst.
      inversion B1 as [|? ? _ B2]; subst. inversion B2 as [|? ? B3 B4]; subst.
      split; [exact (PB _ _ _ _ _ PS)|]. split; [exact (pstep_exps_ok _ _ _ _ _ _ _ _ _ _ PS EO)|].
      split; [|split; [constructor; auto; discriminate|auto]]. constructor; auto.
      simpl in F3 |- *. destruct r' as [v| |]; auto. inversion F3; subst. eauto.
    - inversion F1 as [|? ? _ F2]; subst. inversion F2 as [|? ? F3 F4]; subst.
      inversion B1 as [|? ? _ B2]; subst. inversion B2 as [|? ? B3 B4]; subst.
      split; [exact (PB _ _ _ _ _ PS)|]. split; [exact (pstep_exps_ok _ _ _ _ _ _ _ _ _ _ PS EO)|].
      split; [|split; [constructor; auto; discriminate|auto]]. constructor; auto.
      simpl in F3 |- *. destruct r' as [v| |]; auto. inversion F3; subst. eauto.
    - inversion F1 as [|? ? _ F2]; subst. inversion B1 as [|? ? _ B2]; subst.
      split; [exact BL|]. split; [exact EO|].
      split; [|split; [constructor; auto; discriminate|auto]]. constructor; auto.
      apply asking_some in AK as (_ & PA & _). exact (ask_first_ok _ _ _ _ _ _ _ _ PA AF).
    - inversion F1 as [|? ? _ F2]; subst. inversion B1 as [|? ? _ B2]; subst.
      destruct (ask_end_frame _ _ _ _ _ _ AEQ) as [A1 A2].
      split; [exact (ask_end_base (put_user b u) _ _ _ _ _ AEQ BL)|].
      split; [exact (ask_end_exps (put_user b u) _ _ _ _ _ AEQ EO)|].
      split; [constructor; auto|split; [constructor; auto; cbn; congruence|auto]].
    - inversion F1 as [|? ? _ F2]; subst. inversion B1 as [|? ? _ B2]; subst.
      destruct (ask_end_frame _ _ _ _ _ _ AEQ) as [A1 A2].
      split; [exact (ask_end_base b _ _ _ _ _ AEQ BL)|].
      split; [exact (ask_end_exps b _ _ _ _ _ AEQ EO)|].
      split; [constructor; auto|split; [constructor; auto; cbn; congruence|auto]]. }
  destruct G as (G1 & G2 & G3 & G4 & G5). constructor; auto; cbn [as_base as_threads].
  - intros t' th1. rewrite nth_set_nth, N. destruct (Nat.eqb_spec t' t); [intros [= <-]; auto|eauto].
  - intros t' th1. rewrite nth_set_nth, N. destruct (Nat.eqb_spec t' t); [intros [= <-]; auto|eauto].
  - intros t' th1. rewrite nth_set_nth, N. destruct (Nat.eqb_spec t' t); [intros [= <-]; auto|eauto].
Qed.

Lemma ainv_arun sched : forall s, ainv s -> ainv (arun c ps s sched).
Proof. induction sched as [|t sched IH]; intros s NI; simpl; auto. apply IH, ainv_astep, NI. Qed.

Lemma request_rank q y : aframe_ok q -> request q = Some y -> (rank (nc_m y) < frk q)%nat /\ (nc_m y < List.length ms0)%nat.
Proof.
  intros F R. apply request_cases in R as [(x & i & k & ->)|(x & i & k & ->)]; simpl in F; inversion F as [|? ? Q _]; subst; exact Q.
Qed.

Lemma stack_rank p l : chain (p :: l) -> Forall aframe_ok (p :: l) ->
  Forall (fun q => pc_call (fpc q) <> None) (p :: l) ->
  forall q, In q l -> (frk p < frk q)%nat.
Proof.
  revert p. induction l as [|q l IH]; intros p CH F B q' I; [destruct I|].
  destruct CH as [(y & RY & W) CH]. inversion F as [|? ? _ F']; subst. inversion B as [|? ? B1 B']; subst.
  assert (R : (frk p < frk q)%nat).
  { inversion F' as [|? ? F1 _]; subst. destruct (request_rank _ _ F1 RY) as [R _].
    destruct (pc_call (fpc p)) as [xp|] eqn:PX; [|congruence].
    unfold frk at 1, NestRank.rk. rewrite PX, (W _ eq_refl). exact R. }
  destruct I as [<-|I]; [auto|]. specialize (IH _ CH F' B' _ I). lia.
Qed.

(** ** A step changes nothing or brings the end nearer *)
Lemma ask_end_cost (b : csys) x i v b' p : base_like b -> cexp b (cc_m x) i <> None -> ask_end b x i v = (b', p) ->
  (fcost (FCall p) < 2 * cost0 (PEval x i) - 1)%nat.
Proof.
  intros BL NE. unfold ask_end. destruct (cexp b (cc_m x) i) as [e|] eqn:E; [|congruence]. intros [= _ <-].
  assert (L : (i < match nth_error ms0 (cc_m x) with Some cm => List.length (cm_exps cm) | None => O end)%nat).
  { assert (LE : explen b (cc_m x) = match nth_error ms0 (cc_m x) with Some cm => List.length (cm_exps cm) | None => O end).
    { rewrite (decls_len (b0 ms0 b) b (cc_m x) BL). unfold explen, cexps, b0. simpl.
      destruct (nth_error ms0 (cc_m x)); reflexivity. }
    rewrite <- LE. unfold explen. unfold cexp in E. apply nth_error_Some. congruence. }
  destruct v as [[|]| |]; unfold fcost, NestRank.cost0; cbn [cc_m]; lia.
Qed.

Lemma atstep_less s t th b' th' : ainv s -> nth_error (as_threads s) t = Some th ->
  atstep c ps (as_base s) t th = (b', th') ->
  tless th' th \/
  (b' = as_base s /\ th' = th /\
   match at_stack th with [] => at_todo th = [] | q :: _ => blocked (as_base s) (fpc q) end).
Proof.
  intros [L BL EO FR BU TD] N T. destruct s as [b l]. cbn [as_base as_threads] in *.
  destruct th as [todo [|q below] out]; unfold atstep in T; cbn [at_stack at_todo].
  - destruct todo as [|y rest]; [injection T as <- <-; auto|].
    pose proof (TD _ _ N) as T1. inversion T1 as [|? ? Y _]; subst.
    destruct (enter_some ms0 b y BL Y) as [p E]. rewrite E in T. injection T as <- <-. left. constructor.
  - pose proof (FR _ _ N) as F1. pose proof (BU _ _ N) as B1. cbn [at_stack] in F1, B1.
    inversion F1 as [|? ? F2 _]; subst. inversion B1 as [|? ? B2 _]; subst.
    pose proof (al_ok _ L _ _ q N (or_introl eq_refl)) as OK. cbn [as_base] in OK.
    pose proof (al_chain _ L _ _ N) as CH. cbn [at_stack] in CH.
    destruct (request q) as [y|] eqn:RQ.
    + destruct (request_rank _ _ F2 RQ) as [R Y]. destruct (enter_some ms0 b y BL Y) as [p E]. rewrite E in T.
      injection T as <- <-. left. constructor. constructor. destruct (enter_ok _ _ _ E) as (_ & PX & _).
      unfold frk at 1, NestRank.rk. cbn [fpc]. rewrite PX. exact R.
    + destruct q as [p|x i r].
      * destruct (asking ps b p) as [[[x i] a]|] eqn:AK.
        -- pose proof AK as AK'. apply asking_some in AK' as (-> & PA & e & CE & MP). left.
           assert (EL : forall u v b1 p1, ask_end (put_user b u) x i v = (b1, p1) ->
             tless (AThread todo (FCall p1 :: below) out) (AThread todo (FCall (PEval x i) :: below) out)).
           { intros u v b1 p1 AE. constructor. apply sl_top. apply fl_cost.
             - assert (CC : (fcost (FCall p1) < 2 * cost0 (PEval x i) - 1)%nat).
               { apply (ask_end_cost (put_user b u) x i v b1 p1); auto. intros Z. change (cexp b (cc_m x) i = None) in Z. congruence. }
               unfold fcost in *. lia.
             - cbn [fpc pc_call]. exact (proj2 (ask_end_frame _ _ _ _ _ _ AE)). }
           destruct (ask_first a (cc_args x) t (cs_user b)) as [u [[v|y k]|mm|]].
           ++ destruct (ask_end (put_user b u) x i (verdict (Ret (ABool v)))) as [b1 p1] eqn:AE. injection T as _ <-. eauto.
           ++ injection T as _ <-. constructor. apply sl_top. apply fl_cost; [|reflexivity].
              unfold fcost. assert (P : (0 < cost0 (PEval x i))%nat) by (unfold NestRank.cost0; lia). lia.
           ++ destruct (ask_end (put_user b u) x i (verdict (Panic mm))) as [b1 p1] eqn:AE. injection T as _ <-. eauto.
           ++ destruct (ask_end (put_user b u) x i (verdict Abort)) as [b1 p1] eqn:AE. injection T as _ <-. eauto.
        -- cbn [fpc] in *. destruct (pc_call p) as [x|] eqn:PX; [|congruence].
           destruct (proj1 OK _ PX) as [cm CM]. rewrite CM in T.
           destruct (pstep c b t cm p) as [[b1 p1] ev] eqn:PS.
           pose proof (pstep_return _ _ _ _ _ _ _ _ _ PX PS) as RET.
           destruct (ret_of ev) as [r|] eqn:RO.
           ++ subst p1. left. destruct below as [|q rest].
              ** cbn [aresume] in T. injection T as _ <-. constructor. apply sl_pop. constructor.
              ** destruct CH as [(y & RY & _) _]. apply request_cases in RY as [(xq & i & k & ->)|(xq & i & k & ->)];
                   cbn [aresume] in T; destruct (k (to_val r) (cs_user b1)) as [u r'] eqn:K; injection T as _ <-;
                   constructor; apply sl_pop; constructor; [eapply fl_resume; eauto|eapply fl_resume_ask; eauto].
           ++ injection T as <- <-.
              destruct (pstep_moves _ _ _ _ _ _ _ _ _ PX CM OK PS) as [[E1 E2]|LT].
              ** subst b1 p1. destruct (pstep_progress _ _ _ _ _ _ _ _ _ PX CM OK PS) as [B|LT]; [auto|lia].
              ** left. constructor. apply sl_top. apply fl_cost; [|cbn; congruence].
                 unfold fcost. rewrite <- !(cost0_pcost ms0 b) by auto. lia.
      * left. destruct (ask_end b x i (verdict r)) as [b1 p1] eqn:AE. injection T as _ <-.
        constructor. apply sl_top. apply fl_cost.
        -- apply (ask_end_cost b x i (verdict r) b1 p1); auto. apply (proj1 (proj2 OK)). reflexivity.
        -- cbn [fpc pc_call]. exact (proj2 (ask_end_frame _ _ _ _ _ _ AE)).
Qed.

Lemma astep_moves s t : ainv s -> astep c ps s t = s \/ lless (as_threads (astep c ps s t)) (as_threads s).
Proof.
  intros NI. unfold astep. destruct (nth_error (as_threads s) t) as [th|] eqn:N; [|auto].
  destruct (atstep c ps (as_base s) t th) as [b' th'] eqn:T.
  destruct (atstep_less _ _ _ _ _ NI N T) as [G|(-> & -> & _)].
  - right. exists t, th, th'. auto.
  - left. rewrite set_nth_self; auto. destruct s; reflexivity.
Qed.

Lemma free_moves s t q l todo o : ainv s ->
  nth_error (as_threads s) t = Some (AThread todo (q :: l) o) -> ~ blocked (as_base s) (fpc q) ->
  lless (as_threads (astep c ps s t)) (as_threads s).
Proof.
  intros NI N NB. unfold astep. rewrite N.
  destruct (atstep c ps (as_base s) t (AThread todo (q :: l) o)) as [b' th'] eqn:T.
  destruct (atstep_less _ _ _ _ _ NI N T) as [G|(_ & _ & B)]; [|contradiction].
  exists t, (AThread todo (q :: l) o), th'. auto.
Qed.

(** ** Somebody moves *)
Context (SR : forall m m' cm cm' g, nth_error ms0 m = Some cm -> nth_error ms0 m' = Some cm' ->
     cm_mutex cm = Some g -> cm_mutex cm' = Some g -> rank m = rank m').

Lemma mheld_rk (p : pc) m i : mheld p = Some (m, i) -> rk p = rank m.
Proof. destruct p; try discriminate. intros [= <- _]. reflexivity. Qed.
Lemma rheld_rk (b : csys) p m i : rheld b p = Some (m, i) -> rk p = rank m.
Proof.
  destruct p; try discriminate; simpl; try (intros [= <- _]; reflexivity).
  destruct (static_at b (cc_m x) i0); [|discriminate]. intros [= <- _]. reflexivity.
Qed.

Lemma top_moves n : forall s t q l todo o, ainv s ->
  nth_error (as_threads s) t = Some (AThread todo (q :: l) o) -> (2 * frk q + islock (fpc q) < n)%nat ->
  exists t', lless (as_threads (astep c ps s t')) (as_threads s).
Proof.
  induction n as [|n IH]; intros s t q l todo o NI N LT; [lia|].
  assert (MOVE := free_moves s t q l todo o NI N).
  pose proof (ai_locks _ NI) as L.
  assert (IL : forall p : pc, (islock p <= 1)%nat) by (intros p; destruct p; simpl; lia).
  (* the call on top of the stack of a thread that holds something *)
  assert (TOP : forall K (f : pc -> option K) t' k, aholder f (as_threads s) t' k ->
    exists todo' q1 l' o', nth_error (as_threads s) t' = Some (AThread todo' (q1 :: l') o') /\
      (f (fpc q1) = Some k \/ exists q', f (fpc q') = Some k /\ (frk q1 < frk q')%nat)).
  { intros K f t' k ([todo' [|q1 l'] o'] & N' & p' & I & E); [destruct I|].
    exists todo', q1, l', o'. split; [auto|]. cbn [at_stack map] in I. destruct I as [<-|I]; [auto|].
    apply in_map_iff in I as (q' & <- & I). right. exists q'. split; [auto|].
    eapply stack_rank; [apply (al_chain _ L _ _ N')|apply (ai_frames _ NI _ _ N')|apply (ai_busy _ NI _ _ N')|exact I]. }
  assert (HM : forall m i, (rank m <= frk q)%nat -> cs_ml (as_base s) m i <> None ->
     exists t', lless (as_threads (astep c ps s t')) (as_threads s)).
  { intros m i RL E. destruct (cs_ml (as_base s) m i) as [t'|] eqn:E'; [|congruence].
    apply (al_m _ L (m, i)) in E'. destruct (TOP _ _ _ _ E') as (todo' & q1 & l' & o' & N' & [H|(q' & H & R)]).
    - exists t'. eapply free_moves; eauto. destruct (fpc q1); try discriminate H. simpl. auto.
    - apply (IH s t' q1 l' todo' o' NI N'). unfold frk in R at 2. rewrite (mheld_rk _ _ _ H) in R.
      pose proof (IL (fpc q1)). lia. }
  assert (FR : forall x, pc_call (fpc q) = Some x -> frk q = rank (cc_m x)).
  { intros x PX. unfold frk, NestRank.rk. rewrite PX. reflexivity. }
  destruct (fpc q) as [|x|x i|x i|x i|x i|x i er|x i|x i|x i lw|x i|x i|x i|x i f|x i r|x i er|x r] eqn:FP;
    try (exists t; apply MOVE; simpl; auto; fail).
  - (* a static store *)
    pose proof (al_ok _ L _ _ q N (or_introl eq_refl)) as (_ & _ & PC3 & _). rewrite FP in PC3.
    destruct (PC3 _ eq_refl) as (cm & g & CM & G).
    destruct (cs_sl (as_base s) g) as [t'|] eqn:E.
    + apply (al_s _ L) in E.
      assert (RG : forall p, sheld (as_base s) p = Some g -> rk p = rank (cc_m x)).
      { intros p H. unfold sheld in H. unfold NestRank.rk.
        assert (H' : exists z cmz, pc_call p = Some z /\ nth_error (cs_meths (as_base s)) (cc_m z) = Some cmz /\ cm_mutex cmz = Some g).
        { destruct p; try discriminate H; simpl pc_call in *; cbv beta iota in H;
            match goal with [H : context [nth_error ?a ?b] |- _] => destruct (nth_error a b) eqn:Q; [|discriminate H] end; eauto. }
        destruct H' as (z & cmz & -> & Z1 & Z2).
        assert (DM : forall m cm1, nth_error (cs_meths (as_base s)) m = Some cm1 -> exists cm2, nth_error ms0 m = Some cm2 /\ cm_mutex cm2 = cm_mutex cm1).
        { intros m cm1 Q. pose proof (decls_mutex _ _ m (ai_base _ NI)) as [Q1 Q2]. rewrite Q in Q1, Q2.
          destruct (nth_error ms0 m) as [cm2|]; [|discriminate]. eauto. }
        destruct (DM _ _ Z1) as (cz & Z3 & Z4). destruct (DM _ _ CM) as (cx & X3 & X4).
        apply (SR _ _ cz cx g Z3 X3); congruence. }
      specialize (FR x eq_refl). cbn [islock] in LT.
      destruct (TOP _ _ _ _ E) as (todo' & q1 & l' & o' & N' & [H|(q' & H & R)]).
      * apply (IH s t' q1 l' todo' o' NI N'). unfold frk at 1. rewrite (RG _ H).
        destruct (fpc q1); try discriminate H; cbn [islock]; lia.
      * apply (IH s t' q1 l' todo' o' NI N'). unfold frk in R at 2. rewrite (RG _ H) in R.
        pose proof (IL (fpc q1)). lia.
    + exists t. apply MOVE. simpl. intros (cm' & g' & A & B & C). congruence.
  - specialize (FR x eq_refl). destruct (cs_ml (as_base s) (cc_m x) i) eqn:E; [apply (HM (cc_m x) i); [lia|congruence]|].
    exists t. apply MOVE. simpl. intros X. apply X. assumption.
  - specialize (FR x eq_refl). destruct (cs_ml (as_base s) (cc_m x) i) eqn:E; [apply (HM (cc_m x) i); [lia|congruence]|].
    exists t. apply MOVE. simpl. intros X. apply X. assumption.
  - (* an [Rfunc] *)
    specialize (FR x eq_refl).
    destruct (cs_rl (as_base s) (cc_m x) i) as [t'|] eqn:E; [|exists t; apply MOVE; simpl; intros X; apply X; assumption].
    apply (al_r _ L (cc_m x, i)) in E.
    destruct (TOP _ _ _ _ E) as (todo' & q1 & l' & o' & N' & [H|(q' & H & R)]).
    + pose proof (rheld_rk _ _ _ _ H) as RR.
      assert (MV1 := free_moves s t' q1 l' todo' o' NI N').
      destruct (fpc q1) as [|z|z j|z j|z j|z j|z j er|z j|z j|z j lw|z j|z j|z j|z j f|z j r|z j er|z r]; try discriminate H.
      1-3: exists t'; apply MV1; simpl; auto.
      destruct (cs_ml (as_base s) (cc_m z) j) eqn:E'.
      * apply (HM (cc_m z) j); [|congruence]. unfold NestRank.rk in RR. cbn [pc_call] in RR. lia.
      * exists t'. apply MV1. simpl. intros X. apply X. assumption.
    + apply (IH s t' q1 l' todo' o' NI N'). unfold frk in R at 2. rewrite (rheld_rk _ _ _ _ H) in R.
      pose proof (IL (fpc q1)). lia.
  - specialize (FR x eq_refl). destruct (cs_ml (as_base s) (cc_m x) i) eqn:E; [apply (HM (cc_m x) i); [lia|congruence]|].
    exists t. apply MOVE. simpl. intros X. apply X. assumption.
Qed.

Lemma afinished_dec (s : asys) : afinished s \/
  exists t th, nth_error (as_threads s) t = Some th /\ (at_stack th <> [] \/ at_todo th <> []).
Proof.
  unfold afinished. induction (as_threads s) as [|th l IH].
  - left. intros [|t] th; discriminate.
  - destruct (at_stack th) eqn:ST; [|right; exists 0%nat, th; split; [reflexivity|left; congruence]].
    destruct (at_todo th) eqn:D; [|right; exists 0%nat, th; split; [reflexivity|right; congruence]].
    destruct IH as [A|(t & th' & A & B)].
    + left. intros [|t] th'; simpl; [intros [= <-]; auto|eauto].
    + right. exists (S t), th'. auto.
Qed.

Lemma somebody_moves_a s : ainv s -> afinished s \/ exists t, lless (as_threads (astep c ps s t)) (as_threads s).
Proof.
  intros NI. destruct (afinished_dec s) as [F|(t & th & N & NF)]; [auto|]. right.
  destruct th as [todo [|p l] o].
  - exists t. unfold astep. rewrite N. destruct (atstep c ps (as_base s) t (AThread todo [] o)) as [b' th'] eqn:T.
    destruct (atstep_less _ _ _ _ _ NI N T) as [G|(_ & _ & B)]; [exists t, (AThread todo [] o), th'; auto|].
    cbn in B. subst. destruct NF as [X|X]; destruct X; reflexivity.
  - eapply top_moves; eauto.
Qed.

Lemma astep_nthreads (s : asys) t : List.length (as_threads (astep c ps s t)) = List.length (as_threads s).
Proof.
  unfold astep. destruct (nth_error (as_threads s) t) as [th|]; [|auto].
  destruct (atstep c ps (as_base s) t th). apply set_nth_length.
Qed.
Lemma arun_nthreads sched : forall (s : asys), List.length (as_threads (arun c ps s sched)) = List.length (as_threads s).
Proof. induction sched as [|t sched IH]; intros s; simpl; auto. rewrite IH. apply astep_nthreads. Qed.

(** A fair schedule finishes. *)
Lemma fair_finish_a (f : nat -> nat) n0 : (forall t n, (t < n0)%nat -> exists k, (n <= k)%nat /\ f k = t) ->
  forall s, ainv s -> List.length (as_threads s) = n0 -> forall n, exists k, afinished (arun c ps s (map f (seq n k))).
Proof.
  intros FAIR s. remember (as_threads s) as l. revert s Heql.
  induction (lless_wf l) as [l _ IH]. intros s -> NI LN n.
  destruct (somebody_moves_a s NI) as [F|[t M]]; [exists O; exact F|].
  destruct (FAIR t n) as (k & LE & FK).
  { rewrite <- LN. destruct (Nat.lt_ge_cases t (List.length (as_threads s))) as [?|GE]; [auto|].
    exfalso. unfold astep in M. apply nth_error_None in GE. rewrite GE in M.
    exact (Acc_irrefl lless _ (lless_wf _) M). }
  assert (ST : forall d n', (n' + d = k)%nat -> exists j,
     lless (as_threads (arun c ps s (map f (seq n' (S j))))) (as_threads s)).
  { induction d as [|d IHd]; intros n' E.
    - exists O. simpl. replace n' with k by lia. rewrite FK. exact M.
    - destruct (astep_moves s (f n') NI) as [Q|Q].
      + destruct (IHd (S n')) as [j J]; [lia|]. exists (S j).
        change (map f (seq n' (S (S j)))) with (f n' :: map f (seq (S n') (S j))). cbn [arun]. rewrite Q. exact J.
      + exists O. simpl. exact Q. }
  destruct (ST (k - n)%nat n) as [j J]; [lia|].
  destruct (IH _ J _ eq_refl (ainv_arun _ _ NI) ltac:(rewrite arun_nthreads; auto) (n + S j)%nat) as [k' K'].
  exists (S j + k')%nat. rewrite seq_app, map_app, arun_app. exact K'.
Qed.

End AskRank.
