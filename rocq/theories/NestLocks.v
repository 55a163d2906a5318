(** * NestLocks: who holds which mutex when closures call mocks *)

From Coq Require Import Arith NArith List Bool String Lia.
From Verif Require Import Base Times Expect Conc ConcSpec ConcProofs LockProofs ThreadProofs
  LinProofs Nest NestSpec NestProofs NestSim.
Import ListNotations.

Local Arguments set_nth : simpl never.
Local Arguments pstep : simpl never.
Local Arguments put_exp : simpl never.

(** ** A mutex map against a set of holders for each thread *)
Section Agree.
Context {K : Type} (keq : forall a b : K, {a = b} + {a <> b}).

Definition agrees (lk : K -> option nat) (H : nat -> K -> Prop) : Prop :=
  forall k t, lk k = Some t <-> H t k.

Lemma agrees_step lk lk' (H H' : nat -> K -> Prop) t (h h' : option K) (B : K -> Prop) :
  agrees lk H ->
  (forall t' k, t' <> t -> (H' t' k <-> H t' k)) ->
  (forall k, H t k <-> h = Some k \/ B k) ->
  (forall k, H' t k <-> h' = Some k \/ B k) ->
  (forall k, h = Some k -> ~ B k) ->
  (forall k, lk' k = if holds keq h' k then Some t else if holds keq h k then None else lk k) ->
  (forall k, h' = Some k -> h = Some k \/ lk k = None) ->
  agrees lk' H' /\ (forall k, h' = Some k -> ~ B k).
Proof.
  intros A O HT HT' D L F.
  assert (D' : forall k, h' = Some k -> ~ B k).
  { intros k E X. destruct (F _ E) as [Y|Y]; [exact (D _ Y X)|].
    assert (Z : lk k = Some t) by (apply A, HT; auto). congruence. }
  split; [|exact D']. intros k t'. rewrite L. destruct (Nat.eq_dec t' t) as [->|N].
  - rewrite HT'. destruct (holds keq h' k) eqn:E; [apply holds_iff in E; tauto|].
    assert (E' : h' <> Some k) by (intros X; apply (holds_iff keq) in X; congruence).
    destruct (holds keq h k) eqn:E2.
    + apply holds_iff in E2. split; [discriminate|]. intros [X|X]; [contradiction|]. destruct (D _ E2 X).
    + assert (E2' : h <> Some k) by (intros X; apply (holds_iff keq) in X; congruence).
      rewrite (A k t), HT. tauto.
  - rewrite (O _ _ N). destruct (holds keq h' k) eqn:E.
    + apply holds_iff in E. split; [congruence|]. intros X. apply A in X.
      destruct (F _ E) as [Y|Y]; [|congruence].
      assert (Z : lk k = Some t) by (apply A, HT; auto). congruence.
    + destruct (holds keq h k) eqn:E2; [|apply A].
      apply holds_iff in E2. assert (Z : lk k = Some t) by (apply A, HT; auto).
      split; [discriminate|]. intros X. apply A in X. congruence.
Qed.
End Agree.

Section NestLocks.
Context {V U : Type}.
Notation rval := (rval V U).
Notation ncall := (ncall V).
Notation csys := (csys rval U).
Notation pc := (pc rval U).
Notation nthread := (nthread V U).
Notation nsys := (nsys V U).

(** Bring [pstep] to its leaves. *)
Ltac leaves H :=
  unfold pstep, unlock_r in H;
  repeat match type of H with
  | context [match ?x with _ => _ end] =>
      lazymatch x with
      | context [match _ with _ => _ end] => fail
      | _ => let E := fresh "E" in destruct x eqn:E
      end
  end;
  injection H as <- <- <-.

(** Some call of the stack holds [k]. *)
Definition sthold {K} (f : pc -> option K) (stack : list pc) (k : K) : Prop :=
  exists p, In p stack /\ f p = Some k.

(** No two calls of the stack hold the same. *)
Fixpoint distinct {K} (f : pc -> option K) (stack : list pc) : Prop :=
  match stack with
  | [] => True
  | p :: rest => (forall k, f p = Some k -> ~ sthold f rest k) /\ distinct f rest
  end.

(** A call in which the closure waits for a call that it has made; the latter is [p]. *)
Definition waits_for (q p : pc) : Prop :=
  exists x i y k xp, q = PExit x i (Ret (RReq y k)) /\ pc_call p = Some xp /\ cc_m xp = nc_m y.

Fixpoint stack_ok (b : csys) (stack : list pc) : Prop :=
  match stack with
  | [] => True
  | p :: rest =>
      pc_ok b p /\ pc_call p <> None /\
      match rest with [] => True | q :: _ => waits_for q p end /\ stack_ok b rest
  end.

Definition holder {K} (f : pc -> option K) (l : list nthread) (t : nat) (k : K) : Prop :=
  exists th, nth_error l t = Some th /\ sthold f (nt_stack th) k.

Record nlocks (s : nsys) : Prop := {
  nl_m : agrees (fun k => cs_ml (ns_base s) (fst k) (snd k)) (holder mheld (ns_threads s));
  nl_r : agrees (fun k => cs_rl (ns_base s) (fst k) (snd k)) (holder (rheld (ns_base s)) (ns_threads s));
  nl_s : agrees (cs_sl (ns_base s)) (holder (sheld (ns_base s)) (ns_threads s));
  nl_rd : forall t th, nth_error (ns_threads s) t = Some th -> distinct (rheld (ns_base s)) (nt_stack th);
  nl_sd : forall t th, nth_error (ns_threads s) t = Some th -> distinct (sheld (ns_base s)) (nt_stack th);
  nl_ok : forall t th, nth_error (ns_threads s) t = Some th -> stack_ok (ns_base s) (nt_stack th)
}.

(** *** The steps of the innermost call *)
Lemma pstep_return c (b : csys) t cm p b' p' ev x :
  pc_call p = Some x -> pstep c b t cm p = (b', p', ev) ->
  match ret_of ev with Some _ => p' = PIdle | None => pc_call p' = Some x end.
Proof.
  intros PX H. leaves H; subst; simpl in PX; try discriminate PX; injection PX as PX; subst; try reflexivity.
Qed.

Lemma held_idle {K} (f : pc -> option K) : f PIdle = None -> forall k, f PIdle <> Some k.
Proof. congruence. Qed.

Lemma sthold_cons {K} (f : pc -> option K) p l k : sthold f (p :: l) k <-> f p = Some k \/ sthold f l k.
Proof.
  unfold sthold. split.
  - intros (q & [->|I] & E); eauto.
  - intros [E|(q & I & E)]; [exists p|exists q]; simpl; auto.
Qed.

Lemma sthold_ext {K} (f g : pc -> option K) l k : (forall p, f p = g p) -> sthold f l k <-> sthold g l k.
Proof. intros H. unfold sthold. split; intros (q & I & E); exists q; split; auto; congruence. Qed.

Lemma distinct_ext {K} (f g : pc -> option K) l : (forall p, f p = g p) -> distinct f l -> distinct g l.
Proof.
  intros H. induction l as [|p l IH]; simpl; auto. intros [A B]. split; auto.
  intros k E X. apply (A k); [congruence|]. apply (sthold_ext f g); auto.
Qed.

Lemma stack_ok_same (b b' : csys) l :
  (forall p, pc_ok b p -> pc_ok b' p) -> stack_ok b l -> stack_ok b' l.
Proof. intros H. induction l as [|p l IH]; simpl; auto. intros (A & B & C & D). auto. Qed.

Lemma holder_set {K} (f : pc -> option K) l t th th' t' k :
  nth_error l t = Some th ->
  holder f (set_nth l t th') t' k <->
  if Nat.eqb t' t then sthold f (nt_stack th') k else holder f l t' k.
Proof.
  intros N. unfold holder. rewrite nth_set_nth, N. destruct (Nat.eqb_spec t' t) as [->|NE].
  - split; [intros (x & [= <-] & E); auto|eauto].
  - tauto.
Qed.

(** Replace the stack of one thread by one that holds the same. *)
Lemma nlocks_replace (b b' : csys) l t th th' :
  nlocks (NSys b l) -> nth_error l t = Some th ->
  cs_meths b' = cs_meths b -> cs_ml b' = cs_ml b -> cs_rl b' = cs_rl b -> cs_sl b' = cs_sl b ->
  (forall k, sthold mheld (nt_stack th') k <-> sthold mheld (nt_stack th) k) ->
  (forall k, sthold (rheld b) (nt_stack th') k <-> sthold (rheld b) (nt_stack th) k) ->
  (forall k, sthold (sheld b) (nt_stack th') k <-> sthold (sheld b) (nt_stack th) k) ->
  distinct (rheld b) (nt_stack th') -> distinct (sheld b) (nt_stack th') -> stack_ok b (nt_stack th') ->
  nlocks (NSys b' (set_nth l t th')).
Proof.
  intros [LM LR LS RD SD OK] N BM ML RL SL HM HR HS D1 D2 O. simpl in *.
  assert (CE : forall m i, cexp b' m i = cexp b m i) by (intros; unfold cexp, cexps; rewrite BM; reflexivity).
  assert (ST : forall m i, static_at b' m i = static_at b m i) by (intros; unfold static_at; rewrite CE; reflexivity).
  assert (RH : forall p, rheld b' p = rheld b p) by (intros; apply rheld_same; auto).
  assert (SH : forall p, sheld b' p = sheld b p) by (intros; apply sheld_same; rewrite BM; auto).
  assert (HL : forall K (f g : pc -> option K) t' k, (forall p, f p = g p) ->
     (forall k, sthold g (nt_stack th') k <-> sthold g (nt_stack th) k) ->
     holder f (set_nth l t th') t' k <-> holder g l t' k).
  { intros K f g t' k FG G. rewrite (holder_set _ _ _ _ _ _ _ N). destruct (Nat.eqb_spec t' t) as [->|NE].
    - rewrite (sthold_ext f g) by auto. rewrite G. unfold holder. rewrite N. split; [eauto|intros (x & [= <-] & E); auto].
    - unfold holder. split; intros (x & E1 & E2); exists x; split; auto;
        [apply (proj1 (sthold_ext f g _ _ FG))|apply (proj2 (sthold_ext f g _ _ FG))]; exact E2. }
  assert (PO : forall p, pc_ok b p -> pc_ok b' p).
  { intros p. apply pc_ok_same; auto; [rewrite BM; auto|]. intros. rewrite CE. tauto. }
  constructor; simpl.
  - intros k t'. rewrite (HL _ mheld mheld) by auto. rewrite ML. apply LM.
  - intros k t'. rewrite (HL _ (rheld b') (rheld b)) by auto. rewrite RL. apply LR.
  - intros k t'. rewrite (HL _ (sheld b') (sheld b)) by auto. rewrite SL. apply LS.
  - intros t' th1. rewrite nth_set_nth, N. destruct (Nat.eqb_spec t' t) as [->|NE]; intros E.
    + injection E as <-. apply (distinct_ext (rheld b)); auto.
    + apply (distinct_ext (rheld b)); eauto.
  - intros t' th1. rewrite nth_set_nth, N. destruct (Nat.eqb_spec t' t) as [->|NE]; intros E.
    + injection E as <-. apply (distinct_ext (sheld b)); auto.
    + apply (distinct_ext (sheld b)); eauto.
  - intros t' th1. rewrite nth_set_nth, N. destruct (Nat.eqb_spec t' t) as [->|NE]; intros E.
    + injection E as <-. eapply stack_ok_same; eauto.
    + eapply stack_ok_same; eauto.
Qed.

(** The innermost call of a thread makes a step; [p'] may be [PIdle]. *)
Lemma nlocks_pstep c (b : csys) l t todo out p below x cm b' p' ev todo' out' :
  nlocks (NSys b l) -> nth_error l t = Some (NThread todo (p :: below) out) ->
  pc_call p = Some x -> nth_error (cs_meths b) (cc_m x) = Some cm ->
  pstep c b t cm p = (b', p', ev) ->
  let l' := set_nth l t (NThread todo' (p' :: below) out') in
  agrees (fun k => cs_ml b' (fst k) (snd k)) (holder mheld l') /\
  agrees (fun k => cs_rl b' (fst k) (snd k)) (holder (rheld b') l') /\
  agrees (cs_sl b') (holder (sheld b') l') /\
  (forall t' th, nth_error l' t' = Some th -> distinct (rheld b') (nt_stack th)) /\
  (forall t' th, nth_error l' t' = Some th -> distinct (sheld b') (nt_stack th)) /\
  (forall t' th, t' <> t -> nth_error l' t' = Some th -> stack_ok b' (nt_stack th)) /\
  pc_ok b' p' /\ stack_ok b' below.
Proof.
  intros [LM LR LS RD SD OK] N PX CM PS l'. simpl in *.
  destruct (OK _ _ N) as (PC & _ & WF & OB). cbn [nt_stack] in *.
  assert (DE := pstep_decls _ _ _ _ _ _ _ _ PS).
  assert (ST := fun m i => pstep_static _ _ _ _ _ _ _ _ m i PS).
  assert (IX := fun m i => pstep_index _ _ _ _ _ _ _ _ m i PS).
  assert (RH : forall p, rheld b' p = rheld b p) by (intros; apply rheld_same; auto).
  assert (SH : forall p, sheld b' p = sheld b p) by (intros; apply sheld_same; auto).
  assert (PO : forall p, pc_ok b p -> pc_ok b' p) by (intros q; apply pc_ok_same; auto).
  assert (OT : forall K (f g : pc -> option K) t' k, (forall p, f p = g p) -> t' <> t ->
     (holder f l' t' k <-> holder g l t' k)).
  { intros K f g t' k FG NE. unfold l'. rewrite (holder_set _ _ _ _ _ _ _ N).
    destruct (Nat.eqb_spec t' t); [contradiction|].
    unfold holder. split; intros (y & E1 & E2); exists y; split; auto;
      [apply (proj1 (sthold_ext f g _ _ FG))|apply (proj2 (sthold_ext f g _ _ FG))]; exact E2. }
  assert (HT : forall K (f : pc -> option K) k, holder f l t k <-> f p = Some k \/ sthold f below k).
  { intros K f k. rewrite <- sthold_cons. unfold holder. rewrite N.
    split; [intros (y & [= <-] & E); auto|intros E; eexists; split; [reflexivity|exact E]]. }
  assert (HT' : forall K (f g : pc -> option K) k, (forall p, f p = g p) ->
     (holder f l' t k <-> g p' = Some k \/ sthold g below k)).
  { intros K f g k FG. unfold l'. rewrite (holder_set _ _ _ _ _ _ _ N), Nat.eqb_refl. cbn [nt_stack].
    rewrite sthold_cons, FG. rewrite (sthold_ext f g) by auto. tauto. }
  assert (DM : forall k, mheld p = Some k -> ~ sthold mheld below k).
  { intros k E (q & I & X). clear - I X OB WF.
    revert p WF. induction below as [|q' below IH]; intros p WF; [destruct I|].
    destruct OB as (_ & _ & WF' & OB). destruct I as [->|I]; [|eauto].
    destruct WF as (x & i & y & k' & xp & -> & _). discriminate. }
  assert (MB : forall p0 : pc, mheld p0 = mheld p0) by auto.
  pose proof (RD _ _ N) as [DR DR2]. pose proof (SD _ _ N) as [DS DS2]. cbn [nt_stack] in *.
  destruct (pstep_ml _ _ _ _ _ _ _ _ PS PC) as [M1 M2].
  { intros m i E. apply (LM (m, i)). apply HT. auto. }
  destruct (pstep_rl _ _ _ _ _ _ _ _ PC PS) as [R1 R2].
  { intros m i E. apply (LR (m, i)). apply HT. auto. }
  destruct (pstep_sl _ _ _ _ _ _ _ _ _ PX CM PS PC) as [S1 S2].
  { intros g E. apply LS. apply HT. auto. }
  destruct (agrees_step eq2 _ (fun k => cs_ml b' (fst k) (snd k)) _ (holder mheld l') t (mheld p) (mheld p')
    (sthold mheld below) LM) as [AM _].
  { intros. apply OT; auto. } { apply HT. } { intros. apply HT'; auto. } { apply DM. }
  { intros [m i]. apply M1. } { intros [m i]. apply M2. }
  destruct (agrees_step eq2 _ (fun k => cs_rl b' (fst k) (snd k)) _ (holder (rheld b') l') t (rheld b p) (rheld b p')
    (sthold (rheld b) below) LR) as [AR DR'].
  { intros. apply OT; auto. } { apply HT. } { intros. apply HT'; auto. } { apply DR. }
  { intros [m i]. apply R1. } { intros [m i]. apply R2. }
  destruct (agrees_step Nat.eq_dec _ (cs_sl b') _ (holder (sheld b') l') t (sheld b p) (sheld b p')
    (sthold (sheld b) below) LS) as [AS DS'].
  { intros. apply OT; auto. } { apply HT. } { intros. apply HT'; auto. } { apply DS. }
  { apply S1. } { apply S2. }
  split; [exact AM|]. split; [exact AR|]. split; [exact AS|]. split; [|split; [|split; [|split]]].
  - intros t' th E. unfold l' in E. rewrite nth_set_nth, N in E. destruct (Nat.eqb_spec t' t).
    + injection E as <-. apply (distinct_ext (rheld b)); auto. cbn. auto.
    + apply (distinct_ext (rheld b)); eauto.
  - intros t' th E. unfold l' in E. rewrite nth_set_nth, N in E. destruct (Nat.eqb_spec t' t).
    + injection E as <-. apply (distinct_ext (sheld b)); auto. cbn. auto.
    + apply (distinct_ext (sheld b)); eauto.
  - intros t' th NE E. unfold l' in E. rewrite nth_set_nth, N in E. destruct (Nat.eqb_spec t' t); [contradiction|].
    eapply stack_ok_same; eauto.
  - apply PO. eapply pstep_pc_ok; eauto.
  - eapply stack_ok_same; eauto.
Qed.

Lemma enter_ok (b : csys) y p : enter b y = Some p -> 
  pc_ok b p /\ pc_call p = Some (to_call y) /\ mheld p = None /\ rheld b p = None /\ sheld b p = None.
Proof.
  unfold enter. destruct (nth_error (cs_meths b) (nc_m y)) as [cm|] eqn:M; [|discriminate].
  intros [= <-]. destruct (cm_mutex cm) as [g|] eqn:G.
  - split; [|auto]. split; [|split; [|split]]; try discriminate.
    + intros x [= <-]. eauto.
    + intros x [= <-]. eauto.
    + intros z j [[f' EQ]|[[r' EQ]|EQ]]; discriminate EQ.
  - split.
    + split; [|split; [|split]]; try discriminate.
      * intros x [= <-]. eauto.
      * intros z j [[f' EQ]|[[r' EQ]|EQ]]; discriminate EQ.
    + repeat split. unfold sheld. simpl. rewrite M. auto.
Qed.

Lemma push_same {K} (f : pc -> option K) p l k : f p = None -> sthold f (p :: l) k <-> sthold f l k.
Proof. intros E. rewrite sthold_cons, E. split; [intros [X|X]; [discriminate|auto]|auto]. Qed.

Lemma set_nth_again {A} (l : list A) i a b : set_nth (set_nth l i a) i b = set_nth l i b.
Proof. revert i. induction l as [|x l IH]; intros [|i]; unfold set_nth in *; simpl; auto. f_equal. apply IH. Qed.

Lemma nlocks_nstep c (s : nsys) t : nlocks s -> nlocks (nstep c s t).
Proof.
  intros L. unfold nstep. destruct (nth_error (ns_threads s) t) as [th|] eqn:N; [|exact L].
  destruct s as [b l]. simpl in N. cbn [ns_base ns_threads].
  destruct (tstep c b t th) as [b' th'] eqn:T.
  assert (SELF : nlocks (NSys b (set_nth l t th))).
  { rewrite set_nth_self; auto. }
  destruct th as [todo stack out]. unfold tstep in T. destruct stack as [|p below].
  - destruct todo as [|y rest]; [injection T as <- <-; exact SELF|].
    destruct (enter b y) as [p|] eqn:E; [|injection T as <- <-; exact SELF].
    injection T as <- <-. destruct (enter_ok _ _ _ E) as (PO & PX & M & R & S).
    apply (nlocks_replace b b l t (NThread (y :: rest) [] out)); auto; cbn [nt_stack].
    1-3: intros k; apply push_same; auto.
    + split; [|exact I]. intros k X. congruence.
    + split; [|exact I]. intros k X. congruence.
    + split; [exact PO|]. split; [congruence|]. split; exact I.
  - pose proof (nl_ok _ L _ _ N) as OK. pose proof (nl_rd _ L _ _ N) as RD. pose proof (nl_sd _ L _ _ N) as SD.
    cbn [nt_stack ns_base] in *.
    assert (PUSH : forall x i y k p', p = PExit x i (Ret (RReq y k)) -> enter b y = Some p' ->
       nlocks (NSys b (set_nth l t (NThread todo (p' :: p :: below) out)))).
    { intros x i y k p' -> E. destruct (enter_ok _ _ _ E) as (PO & PX & M & R & S).
      apply (nlocks_replace b b l t (NThread todo (PExit x i (Ret (RReq y k)) :: below) out)); auto; cbn [nt_stack].
      1-3: intros k'; apply push_same; auto.
      + split; [|exact RD]. intros k' X. congruence.
      + split; [|exact SD]. intros k' X. congruence.
      + split; [exact PO|]. split; [congruence|]. split; [|exact OK].
        exists x, i, y, k, (to_call y). auto. }
    assert (STEP : forall x b1 p1 ev cm, pc_call p = Some x -> nth_error (cs_meths b) (cc_m x) = Some cm ->
      pstep c b t cm p = (b1, p1, ev) ->
      match ret_of ev with
      | None => (b1, NThread todo (p1 :: below) out)
      | Some r => let '(b2, stack', out') := resume b1 below out (to_val r) in (b2, NThread todo stack' out')
      end = (b', th') -> nlocks (NSys b' (set_nth l t th'))).
    { intros x b1 p1 ev cm PX CM PS T'.
      pose proof (pstep_return _ _ _ _ _ _ _ _ _ PX PS) as RET.
      destruct (ret_of ev) as [r|] eqn:RO.
      - (* the call is over *)
        subst p1.
        destruct (nlocks_pstep c b l t todo out p below x cm b1 PIdle ev todo out L N PX CM PS)
          as (AM & AR & AS & D1 & D2 & O1 & _ & OB).
        set (l1 := set_nth l t (NThread todo (PIdle :: below) out)) in *.
        assert (N1 : nth_error l1 t = Some (NThread todo (PIdle :: below) out)).
        { unfold l1. rewrite nth_set_nth, Nat.eqb_refl, N. reflexivity. }
        assert (L1 : nlocks (NSys b1 (set_nth l t (NThread todo below out)))).
        { assert (HH : forall K (f : pc -> option K) t' k, f PIdle = None ->
            holder f (set_nth l t (NThread todo below out)) t' k <-> holder f l1 t' k).
          { intros K f t' k F. unfold l1. rewrite !(holder_set _ _ _ _ _ _ _ N). destruct (Nat.eqb t' t); [|tauto].
            cbn [nt_stack]. symmetry. apply push_same. auto. }
          assert (NN : forall t' th0, nth_error (set_nth l t (NThread todo below out)) t' = Some th0 ->
            (t' = t /\ th0 = NThread todo below out) \/ (t' <> t /\ nth_error l1 t' = Some th0)).
          { intros t' th0. unfold l1. rewrite !nth_set_nth, N. destruct (Nat.eqb_spec t' t).
            - intros [= <-]. auto.
            - auto. }
          constructor; cbn [ns_base ns_threads].
          - intros k t'. rewrite HH by reflexivity. apply AM.
          - intros k t'. rewrite HH by reflexivity. apply AR.
          - intros k t'. rewrite HH by reflexivity. apply AS.
          - intros t' th0 E. destruct (NN _ _ E) as [[-> ->]|[NE E']]; [|eauto]. apply (D1 _ _ N1).
          - intros t' th0 E. destruct (NN _ _ E) as [[-> ->]|[NE E']]; [|eauto]. apply (D2 _ _ N1).
          - intros t' th0 E. destruct (NN _ _ E) as [[-> ->]|[NE E']]; [|eauto]. exact OB. }
        set (l2 := set_nth l t (NThread todo below out)) in *.
        assert (N2 : nth_error l2 t = Some (NThread todo below out)).
        { unfold l2. rewrite nth_set_nth, Nat.eqb_refl, N. reflexivity. }
        assert (SS : forall th0, set_nth l2 t th0 = set_nth l t th0) by (intros; apply set_nth_again).
        destruct below as [|q rest].
        + simpl in T'. injection T' as <- <-. rewrite <- SS.
          apply (nlocks_replace b1 b1 l2 t (NThread todo [] out)); auto; try (intros; tauto); simpl; auto.
        + destruct OK as (_ & _ & WF & _). destruct WF as (xq & i & y & k & xp & -> & _).
          cbn [resume] in T'. destruct (k (to_val r) (cs_user b1)) as [u r'] eqn:K.
          injection T' as <- <-. rewrite <- SS.
          destruct OB as (PO & _ & WF & OB). pose proof (D1 _ _ N1) as [_ D1']. pose proof (D2 _ _ N1) as [_ D2'].
          apply (nlocks_replace b1 _ l2 t (NThread todo (PExit xq i (Ret (RReq y k)) :: rest) out)); auto; cbn [nt_stack].
          1-3: intros k'; rewrite !sthold_cons; reflexivity.
          split; [|split; [discriminate|split]]; auto.
          * destruct PO as (P1 & P2 & P3 & P4). split; [|split; [|split]]; auto; try discriminate.
            intros z j [[f' EQ]|[[r1 EQ]|EQ]]; try discriminate EQ. injection EQ as <- <- _.
            apply P4. right. left. eauto.
      - injection T' as <- <-.
        destruct (nlocks_pstep c b l t todo out p below x cm b1 p1 ev todo out L N PX CM PS)
          as (AM & AR & AS & D1 & D2 & O1 & PO & OB).
        constructor; cbn [ns_base ns_threads]; auto.
        intros t' th0 E. destruct (Nat.eq_dec t' t) as [->|NE]; [|eauto].
        rewrite nth_set_nth, Nat.eqb_refl, N in E. injection E as <-. cbn [nt_stack].
        split; [exact PO|]. split; [congruence|]. split; [|exact OB].
        destruct OK as (_ & _ & WF & _). destruct below as [|q rest]; [exact I|].
        destruct WF as (x3 & i3 & y3 & k3 & xp3 & E1 & E2 & E3). exists x3, i3, y3, k3, xp3. split; [auto|].
        split; [|auto]. congruence. }
    assert (GEN : match pc_call p with
      | None => (b, NThread todo (p :: below) out)
      | Some x =>
          match nth_error (cs_meths b) (cc_m x) with
          | None => (b, NThread todo (p :: below) out)
          | Some cm =>
              let '(b', p', ev) := pstep c b t cm p in
              match ret_of ev with
              | None => (b', NThread todo (p' :: below) out)
              | Some r =>
                  let '(b2, stack', out') := resume b' below out (to_val r) in
                  (b2, NThread todo stack' out')
              end
          end
      end = (b', th') -> nlocks (NSys b' (set_nth l t th'))).
    { intros T'. destruct (pc_call p) as [x|] eqn:PX; [|injection T' as <- <-; exact SELF].
      destruct (nth_error (cs_meths b) (cc_m x)) as [cm|] eqn:CM; [|injection T' as <- <-; exact SELF].
      destruct (pstep c b t cm p) as [[b1 p1] ev] eqn:PS. eapply STEP; eauto. }
    destruct p as [|x|x i|x i|x i|x i|x i er|x i|x i|x i lower|x i|x i|x i|x i f|x i r|x i er|x r];
      try (apply GEN; exact T).
    destruct r as [[v|y k]|m|]; try (apply GEN; exact T).
    destruct (enter b y) as [p'|] eqn:E; injection T as <- <-; [|exact SELF].
    eapply PUSH; eauto.
Qed.

Lemma nlocks_nrun c sched : forall s, nlocks s -> nlocks (nrun c s sched).
Proof. induction sched as [|t sched IH]; intros s L; simpl; auto. apply IH. apply nlocks_nstep. auto. Qed.

Lemma nlocks_start u lv ms sp progs : nlocks (nstart u lv ms sp progs).
Proof.
  assert (E : forall t th, nth_error (ns_threads (nstart u lv ms sp progs)) t = Some th -> nt_stack th = []).
  { intros t th. unfold nstart. simpl. rewrite nth_error_map. destruct (nth_error progs t); [|discriminate].
    intros [= <-]. reflexivity. }
  assert (H : forall K (f : pc -> option K) t k, ~ holder f (ns_threads (nstart u lv ms sp progs)) t k).
  { intros K f t k (th & N & p & I & _). rewrite (E _ _ N) in I. destruct I. }
  constructor.
  1-3: intros k t; split; [discriminate|intros X; destruct (H _ _ _ _ X)].
  all: intros t th N; rewrite (E _ _ N); exact I.
Qed.

End NestLocks.
