(** * SeqProofs: proofs for C20 - C24 *)

From Coq Require Import Arith NArith List Bool String Lia.
From Verif Require Import Base Times TimesSpec TimesProofs Expect ExpectProofs Mock Spec SysSpec
  DispatchProofs FifoProofs CallProofs SoleProofs ReturnProofs SysProofs.
Import ListNotations.
Open Scope N_scope.

Section P.
Context {V U : Type}.
Implicit Types (w : world U) (me : method V) (md : mdecl V) (e : expectation V U)
  (es : list (expectation V U)) (y : sys V U).

(** ** What a call does to the levels *)
Lemma common_call_levels c me (k : common V U) d w k' w' r :
  common_call c me k d w = (k', w', r) ->
  (w_levels w' = w_levels w \/
   exists h, c_seq k = Some h /\ sh_seq h = w_levels w (sh_inner h) /\
     w_levels w' = set_level (w_levels w) (sh_inner h) (uwrap1 c (w_levels w (sh_inner h))) /\
     rstart (trange_of (c_times k')) <= tcount (c_times k') < rend (trange_of (c_times k')) /\ r = Ret tt) /\
  (forall h, r = Ret tt -> c_seq k = Some h -> sh_seq h = w_levels w (sh_inner h)).
Proof.
  unfold common_call. unfold times_call.
  set (t' := Times (uwrap1 c (tcount (c_times k))) (trange_of (c_times k))).
  assert (OK : forall u, (let? count := uadd1 c (tcount (c_times k))
     in if rend (trange_of (c_times k)) <=? count
        then if rend (trange_of (c_times k)) =? 1 then Ret (Err TeNever)
             else let? mx := usub c (rend (trange_of (c_times k))) 1 in Ret (Err (TeTooMany count mx))
        else Ret (Ok tt)) = Ret (Ok u) -> tcount t' < rend (trange_of t')).
  { intros u. unfold t', uwrap1, uadd1. simpl.
    destruct (tcount (c_times k) <? umax c); simpl.
    - destruct (N.leb_spec (rend (trange_of (c_times k))) (tcount (c_times k) + 1)); auto.
      destruct (rend _ =? 1); [discriminate|]. destruct (usub _ _ _); discriminate.
    - destruct (checks c); simpl; [discriminate|].
      destruct (N.leb_spec (rend (trange_of (c_times k))) 0); auto.
      destruct (rend _ =? 1); [discriminate|]. destruct (usub _ _ _); discriminate. }
  destruct (let? count := _ in _) as [[u|er]|m|].
  - specialize (OK u eq_refl). clearbody t'.
    unfold verify_sequence, satisfy_sequence. cbn [set_times c_seq].
    destruct (c_seq k) as [h|] eqn:Q.
    + unfold handle_verify, inner_verify, handle_satisfy, inner_satisfy.
      destruct (N.eqb_spec (sh_seq h) (w_levels w (sh_inner h))) as [E|E].
      * rewrite <- E, N.eqb_refl. cbn [fst snd].
        pose proof (is_satisfied_spec t') as S.
        destruct (times_is_satisfied t'); intros H; inversion H; subst; simpl.
        -- split; [right; exists h; rewrite <- E; repeat split; auto; lia|]. intros h0 _ Hh. congruence.
        -- lia.
        -- split; auto. intros h0 _ Hh. congruence.
      * intros H; inversion H; subst. split; auto. discriminate.
    + destruct (times_is_satisfied t'); intros H; inversion H; subst; split; auto; discriminate.
  - intros H; inversion H; subst. split; auto. destruct (show_locked k); discriminate.
  - intros H; inversion H; subst. split; auto. discriminate.
  - intros H; inversion H; subst. split; auto. discriminate.
Qed.

Lemma static_ret_levels c me (k : common V U) rf p args w a w' r :
  static_ret c me k rf p args w = (a, w', r) -> w_levels w' = w_levels w.
Proof.
  unfold static_ret. destruct p; [intros H; inversion H; auto|].
  destruct rf; simpl; unfold run_user.
  - destruct (unwrap_rf _ _ _); intros H; inversion H; auto.
  - destruct (show_locked k); simpl; intros H; inversion H; auto.
  - destruct (f args (w_user w)) as [u [v|m|]]; simpl; intros H; inversion H; auto.
  - destruct (Nat.eqb _ _); [destruct (f args (w_user w)) as [u [v|m|]]|]; simpl; intros H; inversion H; auto.
  - destruct (f args (w_user w)) as [u [v|m|]]; simpl; intros H; inversion H; auto.
  - destruct (Nat.eqb _ _); [destruct (f args (w_user w)) as [u [v|m|]]|]; simpl; intros H; inversion H; auto.
Qed.

Lemma mut_ret_levels c me (k : common V U) rf args wr w rf' w' r :
  mut_ret c me k rf args wr w = (rf', w', r) -> w_levels w' = w_levels w.
Proof.
  unfold mut_ret. destruct (show_locked k) as [s|m|]; try (intros H; inversion H; auto; fail).
  destruct rf as [o|f o|ow f o|v]; simpl.
  - destruct o; intros H; inversion H; auto.
  - destruct (f args (w_user w)) as [u [v|m|]]; simpl; intros H; inversion H; auto.
  - destruct (Nat.eqb _ _); [destruct (f args (w_user w)) as [u [v|m|]]|]; simpl; intros H; inversion H; auto.
  - intros H; inversion H; auto.
Qed.

Lemma expectation_call_levels c me e args wr w e' w' r :
  expectation_call c me e args wr w = (e', w', r) ->
  (w_levels w' = w_levels w \/
   exists h, handle_of e = Some h /\ sh_seq h = w_levels w (sh_inner h) /\
     w_levels w' = set_level (w_levels w) (sh_inner h) (uwrap1 c (w_levels w (sh_inner h))) /\
     in_range e') /\
  (forall v h, r = Ret v -> handle_of e = Some h -> sh_seq h = w_levels w (sh_inner h)).
Proof.
  unfold expectation_call.
  destruct (common_call c me (e_common e) (call_desc me args) w) as [[k w1] r1] eqn:C.
  apply common_call_levels in C. destruct C as [C1 C2].
  destruct r1 as [[]|m|].
  - assert (X : forall a w2, w_levels w2 = w_levels w1 ->
      w_levels w2 = w_levels w \/
      exists h, handle_of e = Some h /\ sh_seq h = w_levels w (sh_inner h) /\
       w_levels w2 = set_level (w_levels w) (sh_inner h) (uwrap1 c (w_levels w (sh_inner h))) /\
       in_range (Expectation k a)).
    { intros a w2 E. rewrite E. destruct C1 as [C1|(h & A1 & A2 & A3 & A4 & _)]; auto.
      right. exists h. auto. }
    destruct (e_action e) as [rf p|rf|rf].
    + destruct (static_ret c me k rf p args w1) as [[a w2] r2] eqn:E.
      apply static_ret_levels in E. intros H; inversion H; subst. split; [apply X; exact E|].
      intros v h _ Hh. apply C2; auto.
    + intros H; inversion H; subst. split; [apply X; auto|]. intros v h _ Hh. apply C2; auto.
    + destruct (mut_ret c me k rf args wr w1) as [[rf' w2] r2] eqn:E.
      apply mut_ret_levels in E. intros H; inversion H; subst. split; [apply X; exact E|].
      intros v h _ Hh. apply C2; auto.
  - intros H; inversion H; subst. split; [|discriminate].
    destruct C1 as [C1|(h & _ & _ & _ & _ & C1)]; [auto|discriminate].
  - intros H; inversion H; subst. split; [|discriminate].
    destruct C1 as [C1|(h & _ & _ & _ & _ & C1)]; [auto|discriminate].
Qed.

(** ** What the builder does to the sequences *)
Definition exact c e : Prop := times_is_exact c (c_times (e_common e)) = Ret true.

Lemma set_srfunc_common rf e e' r : set_srfunc rf e = (e', r) -> e_common e' = e_common e.
Proof. unfold set_srfunc. destruct (e_action e) as [x [|]| |]; intros H; inversion H; auto. Qed.
Lemma set_mrfunc_common rf e e' r : set_mrfunc rf e = (e', r) -> e_common e' = e_common e.
Proof. unfold set_mrfunc. destruct (e_action e); intros H; inversion H; auto. Qed.

Lemma apply_setter_seq c th st e t e' t' r :
  (forall s, sq_next (t s) + positions s [st] <= umax c) ->
  apply_setter c th st e t = (e', t', r) ->
  (forall s, sq_inner (t' s) = sq_inner (t s) /\
     sq_next (t s) <= sq_next (t' s) <= sq_next (t s) + positions s [st]) /\
  (forall h, handle_of e' = Some h -> handle_of e = Some h \/
     exists s, st = StInSequence s /\ sh_inner h = sq_inner (t s) /\ sq_next (t s) = sh_seq h /\
       sh_seq h < sq_next (t' s) /\ exact c e') /\
  (~ sets_count st -> c_times (e_common e') = c_times (e_common e)).
Proof.
  intros B H.
  assert (SAME : forall (e1 : expectation V U), e_common e1 = e_common e -> e' = e1 -> t' = t ->
    (forall s, sq_inner (t' s) = sq_inner (t s) /\
       sq_next (t s) <= sq_next (t' s) <= sq_next (t s) + positions s [st]) /\
    (forall h, handle_of e' = Some h -> handle_of e = Some h \/
       exists s, st = StInSequence s /\ sh_inner h = sq_inner (t s) /\ sq_next (t s) = sh_seq h /\
         sh_seq h < sq_next (t' s) /\ exact c e') /\
    (~ sets_count st -> c_times (e_common e') = c_times (e_common e))).
  { intros e1 E1 -> ->. split; [|split].
    - intros s. split; auto. lia.
    - intros h Hh. left. unfold handle_of in *. congruence.
    - congruence. }
  destruct st; cbn [apply_setter] in H.
  - unfold lift_common, common_times in H. destruct (times_times c x (c_times (e_common e))) as [t1 r1].
    inversion H; subst. split; [intros s; split; auto; lia|]. split; [auto|]. intros N; contradiction N; exact I.
  - unfold lift_common, common_times in H. destruct (times_times c (ANum 1) (c_times (e_common e))) as [t1 r1].
    inversion H; subst. split; [intros s; split; auto; lia|]. split; [auto|]. intros N; contradiction N; exact I.
  - inversion H; subst. split; [intros s; split; auto; lia|]. split; [auto|]. intros N; contradiction N; exact I.
  - unfold lift_common, common_set_matcher in H.
    destruct (c_mpoison (e_common e)); inversion H; subst; (split; [intros s; split; auto; lia|]); auto.
  - unfold lift_common, common_set_matcher in H.
    destruct (c_mpoison (e_common e)); inversion H; subst; (split; [intros s; split; auto; lia|]); auto.
  - unfold lift_common, common_set_matcher in H.
    destruct (c_mpoison (e_common e)); inversion H; subst; (split; [intros s; split; auto; lia|]); auto.
  - (* in_sequence *)
    unfold common_in_sequence in H.
    assert (NOP : forall rr, (set_common e (e_common e), set_seq t s (t s), rr) = (e', t', r) ->
      (forall s0, sq_inner (t' s0) = sq_inner (t s0) /\
        sq_next (t s0) <= sq_next (t' s0) <= sq_next (t s0) + positions s0 [StInSequence (V:=V) (U:=U) s]) /\
      (forall h, handle_of e' = Some h -> handle_of e = Some h \/
       exists s0, @StInSequence V U s = StInSequence s0 /\ sh_inner h = sq_inner (t s0) /\ sq_next (t s0) = sh_seq h /\
         sh_seq h < sq_next (t' s0) /\ exact c e') /\
      (~ sets_count (StInSequence (V:=V) (U:=U) s) -> c_times (e_common e') = c_times (e_common e))).
    { intros rr Q. inversion Q; subst. rewrite set_common_id. split; [|split]; auto.
      intros s0. unfold set_seq. destruct (Nat.eqb_spec s0 s); subst; split; auto; lia. }
    destruct (times_is_exact c (c_times (e_common e))) as [[|]|m|] eqn:X; try (eapply NOP; eassumption).
    unfold next_handle in H.
    assert (L : sq_next (t s) < umax c).
    { specialize (B s). cbn [positions] in B. rewrite Nat.eqb_refl in B. lia. }
    rewrite uadd1_ok in H by exact L.
    inversion H; subst. clear H. split; [|split].
    + intros s0. unfold set_seq. cbn [positions]. destruct (Nat.eqb_spec s0 s).
      * subst. rewrite Nat.eqb_refl. simpl. split; auto. lia.
      * split; auto. lia.
    + intros h Hh. right. exists s. unfold handle_of in Hh. simpl in Hh. inversion Hh; subst.
      unfold set_seq. rewrite Nat.eqb_refl. simpl. repeat split; auto. lia.
    + auto.
  - destruct (e_action e); [destruct (set_srfunc _ _) as [e1 r1] eqn:Q; apply set_srfunc_common in Q
                           |destruct (set_srfunc _ _) as [e1 r1] eqn:Q; apply set_srfunc_common in Q
                           |destruct (set_mrfunc _ _) as [e1 r1] eqn:Q; apply set_mrfunc_common in Q];
      inversion H; subst; eapply SAME; eauto.
  - destruct (e_action e); [destruct (set_srfunc _ _) as [e1 r1] eqn:Q; apply set_srfunc_common in Q
                           |destruct (set_srfunc _ _) as [e1 r1] eqn:Q; apply set_srfunc_common in Q
                           |destruct (set_mrfunc _ _) as [e1 r1] eqn:Q; apply set_mrfunc_common in Q];
      inversion H; subst; eapply SAME; eauto.
  - destruct (set_srfunc _ _) as [e1 r1] eqn:Q; apply set_srfunc_common in Q; inversion H; subst; eapply SAME; eauto.
  - destruct (set_srfunc _ _) as [e1 r1] eqn:Q; apply set_srfunc_common in Q; inversion H; subst; eapply SAME; eauto.
  - destruct (e_action e); [destruct (set_srfunc _ _) as [e1 r1] eqn:Q; apply set_srfunc_common in Q
                           |inversion H; subst; apply (SAME (set_action e (ARef (RConst v)))); reflexivity
                           |destruct (set_srfunc _ _) as [e1 r1] eqn:Q; apply set_srfunc_common in Q];
      inversion H; subst; eapply SAME; eauto.
  - destruct (set_srfunc _ _) as [e1 r1] eqn:Q; apply set_srfunc_common in Q; inversion H; subst; eapply SAME; eauto.
  - destruct (set_mrfunc _ _) as [e1 r1] eqn:Q; apply set_mrfunc_common in Q; inversion H; subst; eapply SAME; eauto.
Qed.

Lemma positions_cons s (st : setter V U) l : positions s (st :: l) = positions s [st] + positions s l.
Proof. destruct st; simpl; try reflexivity. destruct (Nat.eqb _ _); lia. Qed.

Lemma apply_setters_seq c th : forall l e t e' t' r,
  (forall s, sq_next (t s) + positions s l <= umax c) ->
  (forall s, sq_inner (t s) = s) ->
  (forall h, handle_of e = Some h -> sh_seq h < sq_next (t (sh_inner h))) ->
  apply_setters c th l e t = (e', t', r) ->
  (forall s, sq_inner (t' s) = s) /\
  (forall s, sq_next (t s) <= sq_next (t' s) <= sq_next (t s) + positions s l) /\
  (forall h, handle_of e' = Some h -> sh_seq h < sq_next (t' (sh_inner h))).
Proof.
  induction l as [|st l IH]; intros e t e' t' r B I HE H.
  - simpl in H. inversion H; subst. split; [auto|]. split; [|auto]. intros s. simpl. lia.
  - cbn [apply_setters] in H.
    destruct (apply_setter c th st e t) as [[e1 t1] r1] eqn:A.
    assert (B1 : forall s, sq_next (t s) + positions s [st] <= umax c).
    { intros s. specialize (B s). rewrite positions_cons in B. lia. }
    destruct (apply_setter_seq _ _ _ _ _ _ _ _ B1 A) as (A1 & A2 & A3).
    assert (I1 : forall s, sq_inner (t1 s) = s) by (intros s; rewrite (proj1 (A1 s)); auto).
    assert (H1 : forall h, handle_of e1 = Some h -> sh_seq h < sq_next (t1 (sh_inner h))).
    { intros h Hh. destruct (A2 h Hh) as [Q|(s & _ & Q1 & Q2 & Q3 & _)].
      - specialize (HE h Q). destruct (A1 (sh_inner h)) as [_ A4]. lia.
      - rewrite I in Q1. subst s. auto. }
    assert (STOP : (e1, t1) = (e', t') ->
      (forall s, sq_inner (t' s) = s) /\
      (forall s, sq_next (t s) <= sq_next (t' s) <= sq_next (t s) + positions s (st :: l)) /\
      (forall h, handle_of e' = Some h -> sh_seq h < sq_next (t' (sh_inner h)))).
    { intros Q. inversion Q; subst. split; [auto|]. split; [|auto].
      intros s. rewrite positions_cons. destruct (A1 s) as [_ A4]. lia. }
    destruct r1 as [[]|m|]; try (apply STOP; congruence).
    assert (B2 : forall s, sq_next (t1 s) + positions s l <= umax c).
    { intros s. specialize (B s). rewrite positions_cons in B. destruct (A1 s) as [_ A4]. lia. }
    destruct (IH _ _ _ _ _ B2 I1 H1 H) as (C1 & C2 & C3).
    split; [auto|]. split; [|auto].
    intros s. rewrite positions_cons. destruct (A1 s) as [_ A4]. specialize (C2 s). lia.
Qed.

Lemma apply_setters_exact c th : forall l e t e' t' r,
  (forall s, sq_next (t s) + positions s l <= umax c) ->
  orderly l ->
  (handle_of e <> None -> exact c e /\ Forall (fun st => ~ sets_count st) l) ->
  apply_setters c th l e t = (e', t', r) ->
  handle_of e' <> None -> exact c e'.
Proof.
  induction l as [|st l IH]; intros e t e' t' r B O HE H NE.
  - simpl in H. inversion H; subst. apply HE; auto.
  - cbn [apply_setters] in H.
    destruct (apply_setter c th st e t) as [[e1 t1] r1] eqn:A.
    assert (B1 : forall s, sq_next (t s) + positions s [st] <= umax c).
    { intros s. specialize (B s). rewrite positions_cons in B. lia. }
    destruct (apply_setter_seq _ _ _ _ _ _ _ _ B1 A) as (A1 & A2 & A3).
    assert (O' : orderly l) by (destruct st; simpl in O; tauto).
    assert (H1 : handle_of e1 <> None -> exact c e1 /\ Forall (fun st => ~ sets_count st) l).
    { intros N1. destruct (handle_of e1) as [h|] eqn:Hh; [|congruence].
      destruct (A2 h eq_refl) as [Q|(s & Q0 & _ & _ & _ & Q4)].
      - destruct HE as [HE1 HE2]; [congruence|]. inversion HE2; subst.
        split; [|auto]. unfold exact in *. rewrite A3 by auto. auto.
      - subst st. simpl in O. tauto. }
    destruct r1 as [[]|m|].
    + eapply IH; eauto. intros s. specialize (B s). rewrite positions_cons in B.
      destruct (A1 s) as [_ A4]. lia.
    + inversion H; subst. apply H1; auto.
    + inversion H; subst. apply H1; auto.
Qed.

(** ** C20: the invariant *)
Definition witness c sh y0 (l : list (op V U)) (s : nat) (j : N) : Prop :=
  exists l1 l2 p e, l = l1 ++ l2 /\ at_place (after c sh y0 l1) p = Some e /\
    handle_of e = Some (SeqHandle s j) /\ full e.

Record seq_inv c sh y0 (l : list (op V U)) : Prop := SeqInv {
  si_inner : forall s, sq_inner (y_seqs (after c sh y0 l) s) = s;
  si_next : forall s, sq_next (y_seqs (after c sh y0 l) s) <= seq_uses s l;
  si_handle : forall p e h, at_place (after c sh y0 l) p = Some e -> handle_of e = Some h ->
    sh_seq h < sq_next (y_seqs (after c sh y0 l) (sh_inner h));
  si_exact : forall p e h, at_place (after c sh y0 l) p = Some e -> handle_of e = Some h -> exact c e;
  si_level : forall s j, j < w_levels (y_world (after c sh y0 l)) s -> witness c sh y0 l s j
}.

Lemma seq_uses_snoc s (l : list (op V U)) o :
  seq_uses s (l ++ [o]) = seq_uses s l + positions s (op_chain o).
Proof.
  unfold seq_uses. rewrite map_app. simpl. generalize (map (fun o0 => positions s (op_chain o0)) l).
  intros ns. induction ns as [|n ns IH]; cbn [app sum fold_right] in *.
  - unfold sum. simpl. lia.
  - unfold sum in *. simpl in *. lia.
Qed.

Lemma witness_mono c sh y0 l o s j : witness c sh y0 l s j -> witness c sh y0 (l ++ [o]) s j.
Proof.
  intros (l1 & l2 & p & e & A & B). exists l1, (l2 ++ [o]), p, e. subst. rewrite app_assoc. auto.
Qed.

Lemma same_core_handle e e' : same_core e e' -> handle_of e' = handle_of e /\ c_times (e_common e') = c_times (e_common e).
Proof. intros (_ & _ & A & B). auto. Qed.

Lemma exact_full c e : exact c e -> in_range e -> full e.
Proof.
  unfold exact, in_range, full, times_is_exact. intros E R.
  rewrite usub_ok in E by lia. simpl in E. inversion E as [Q]. apply N.eqb_eq in Q. lia.
Qed.

Lemma seq_inv_step c sh y0 l o :
  (forall s, seq_uses s (l ++ [o]) <= umax c) -> orderly (op_chain o) ->
  seq_inv c sh y0 l -> seq_inv c sh y0 (l ++ [o]).
Proof.
  intros B O [I1 I2 I3 I4 I5].
  pose proof (after_snoc c sh y0 l o) as AS.
  destruct (step c sh (after c sh y0 l) o) as [y' r] eqn:ST. cbn [fst] in AS.
  pose proof (step_change _ _ _ _ _ _ ST) as CH. clear ST.
  set (y := after c sh y0 l) in *.
  assert (B' : forall s, sq_next (y_seqs y s) + positions s (op_chain o) <= umax c).
  { intros s. specialize (B s). specialize (I2 s). rewrite seq_uses_snoc in B. lia. }
  destruct CH as [Q1 Q2 Q3 Q4 | me kd th e1 r1 p1 Q1 Q2 Q3 Q4 Q5 Q6 | me es args wr es' r1 Q1 Q2 Q3 Q4 Q5].
  - (* nothing new *)
    constructor; rewrite ?AS.
    + intros s. rewrite Q2. auto.
    + intros s. rewrite Q2, seq_uses_snoc. specialize (I2 s). lia.
    + intros p e h A Hh. rewrite Q2. eapply I3; eauto.
    + intros p e h A Hh. eapply I4; eauto.
    + intros s j Hj. rewrite Q3 in Hj. apply witness_mono. auto.
  - (* a new expectation *)
    assert (N1 : forall h, handle_of (expectation_default (U := U) c me kd) = Some h ->
                 sh_seq h < sq_next (y_seqs y (sh_inner h))) by (intros h X; discriminate X).
    assert (N2 : handle_of (expectation_default (U := U) c me kd) <> None ->
                 exact c (expectation_default (U := U) c me kd) /\
                 Forall (fun st => ~ sets_count st) (op_chain o)) by (intros X; contradiction X; reflexivity).
    destruct (apply_setters_seq c th _ _ _ _ _ _ B' I1 N1 Q1) as (A1 & A2 & A3).
    pose proof (apply_setters_exact c th _ _ _ _ _ _ B' O N2 Q1) as A4.
    constructor; rewrite ?AS.
    + auto.
    + intros s. rewrite seq_uses_snoc. specialize (A2 s). specialize (I2 s). lia.
    + intros p e h A Hh. destruct (Q2 p e A) as [X|X].
      * specialize (I3 p e h X Hh). specialize (A2 (sh_inner h)). lia.
      * subst. auto.
    + intros p e h A Hh. destruct (Q2 p e A) as [X|X]; [eapply I4; eauto|]. subst. apply A4. congruence.
    + intros s j Hj. rewrite Q5 in Hj. apply witness_mono. auto.
  - (* a call *)
    pose proof (expectations_call_any _ _ _ _ _ _ _ _ _ Q1) as X.
    assert (K : forall n e', nth_error es' n = Some e' -> exists e, nth_error es n = Some e /\
              handle_of e' = handle_of e /\ trange_of (c_times (e_common e')) = trange_of (c_times (e_common e))).
    { destruct X as [(i & e & e1 & w1 & r0 & N0 & F & X & E1 & E2)|(r0 & F & S & FR & _)].
      - intros n e' N. subst es'. rewrite set_nth_nth in N. destruct (Nat.eqb_spec i n).
        + subst n. rewrite N0 in N. inversion N; subst. exists e. split; auto.
          pose proof (expectation_call_shape _ _ _ _ _ _ _ _ _ X) as (_ & _ & SH1 & SH2 & _).
          unfold handle_of. auto.
        + exists e'. auto.
      - intros n e' N. destruct (Forall2_nth_r _ _ _ _ _ S N) as (e & N1 & SC).
        exists e. split; auto. apply same_core_handle in SC. destruct SC as [SC1 SC2]. rewrite SC2. auto. }
    assert (K2 : forall p e', at_place y' p = Some e' -> exists e, at_place y p = Some e /\
              handle_of e' = handle_of e /\ trange_of (c_times (e_common e')) = trange_of (c_times (e_common e))).
    { intros p e' A. destruct (Q3 p) as [E|(n & E1 & E2)].
      - exists e'. rewrite <- E. auto.
      - rewrite E2 in A. destruct (K n e' A) as (e & N & R1 & R2). exists e. rewrite E1. auto. }
    assert (EX : forall e e', exact c e -> trange_of (c_times (e_common e')) = trange_of (c_times (e_common e)) -> exact c e').
    { intros e e' E1 E2. unfold exact, times_is_exact in *. rewrite E2. auto. }
    constructor; rewrite ?AS.
    + intros s. rewrite Q5. auto.
    + intros s. rewrite Q5, seq_uses_snoc. specialize (I2 s). lia.
    + intros p e' h A Hh. destruct (K2 p e' A) as (e & N & R1 & R2). rewrite Q5. eapply I3; eauto. congruence.
    + intros p e' h A Hh. destruct (K2 p e' A) as (e & N & R1 & R2). exact (EX _ _ (I4 p e h N (eq_trans (eq_sym R1) Hh)) R2).
    + intros s j Hj.
      destruct X as [(i & e & e1 & w1 & r0 & N0 & F & X & E1 & E2)|(r0 & F & S & FR & _)].
      * apply find_exp_any in F. destruct F as (_ & (FL & _ & _) & _).
        pose proof (expectation_call_levels _ _ _ _ _ _ _ _ _ X) as [LV _].
        rewrite FL in LV. destruct LV as [LV|(h & L1 & L2 & L3 & L4)].
        -- rewrite LV in Hj. apply witness_mono. auto.
        -- rewrite L3 in Hj. unfold set_level in Hj.
           destruct (Nat.eqb_spec s (sh_inner h)) as [D|D]; [|apply witness_mono; auto].
           subst s. destruct (Q4 i) as (p & P1 & P2). rewrite N0 in P1.
           assert (LT : w_levels (y_world y) (sh_inner h) < umax c).
           { rewrite <- L2. specialize (I3 p e h P1 L1). specialize (B' (sh_inner h)). lia. }
           rewrite uwrap1_ok in Hj by exact LT.
           destruct (N.eq_dec j (w_levels (y_world y) (sh_inner h))) as [D|D].
           2:{ apply witness_mono. apply I5. lia. }
           exists (l ++ [o]), [], p, e1. rewrite app_nil_r. split; [auto|].
           rewrite AS. rewrite P2. subst es'. rewrite (nth_set_nth_same es i e1 e N0). split; [auto|].
           pose proof (expectation_call_shape _ _ _ _ _ _ _ _ _ X) as (_ & _ & SH1 & SH2 & _).
           split.
           ++ unfold handle_of in *. rewrite SH1, L1. f_equal. destruct h; simpl in *. congruence.
           ++ apply (exact_full c); auto. eapply EX; [eapply I4; eauto|]. auto.
      * destruct FR as (FL & _ & _). rewrite FL in Hj. apply witness_mono. auto.
Qed.

Lemma seq_inv_run c sh u decls : forall l,
  (forall s, seq_uses s l <= umax c) -> Forall (fun o => orderly (op_chain o)) l ->
  seq_inv c sh (init u decls) l.
Proof.
  intros l. induction l as [|o l IH] using rev_ind; intros B O.
  - constructor; unfold after; simpl; auto.
    + intros s. lia.
    + intros [o m k n|s k n] e h; simpl; [rewrite nth_error_nil; discriminate|].
      rewrite nth_error_map. destruct (nth_error decls s) as [md|]; [|discriminate]. simpl.
      unfold slot_new. destruct (md_generic md); simpl; rewrite nth_error_nil; discriminate.
    + intros [o m k n|s k n] e h; simpl; [rewrite nth_error_nil; discriminate|].
      rewrite nth_error_map. destruct (nth_error decls s) as [md|]; [|discriminate]. simpl.
      unfold slot_new. destruct (md_generic md); simpl; rewrite nth_error_nil; discriminate.
    + intros s j Hj. lia.
  - apply Forall_app in O. destruct O as [O1 O2]. inversion O2; subst.
    apply seq_inv_step; auto. apply IH; auto.
    intros s. specialize (B s). rewrite seq_uses_snoc in B. lia.
Qed.

Lemma seq_safe c sh u decls l o y' v p e e' h :
  (forall s, seq_uses s l <= umax c) -> Forall (fun o => orderly (op_chain o)) l ->
  step c sh (after c sh (init u decls) l) o = (y', Ret (Some v)) ->
  at_place (after c sh (init u decls) l) p = Some e -> at_place y' p = Some e' ->
  count_of e' <> count_of e -> handle_of e = Some h ->
  forall j, j < sh_seq h -> witness c sh (init u decls) l (sh_inner h) j.
Proof.
  intros B O ST P1 P2 D HH j Hj.
  pose proof (seq_inv_run c sh u decls l B O) as [_ _ _ _ I5].
  apply step_change in ST.
  destruct ST as [Q1 Q2 Q3 Q4 | me kd th e1 r1 p1 Q1 Q2 Q3 Q4 Q5 Q6 | me es args wr es' r1 Q1 Q2 Q3 Q4 Q5].
  - exfalso; eapply Q4; reflexivity.
  - exfalso; eapply Q6; reflexivity.
  - specialize (Q2 v eq_refl). subst r1.
    destruct (Q3 p) as [E|(n & E1 & E2)]; [congruence|].
    rewrite E1 in P1. rewrite E2 in P2.
    apply expectations_call_any in Q1.
    destruct Q1 as [(i & e0 & e1 & w1 & r0 & N0 & F & X & X1 & X2)|(r0 & F & S & FR & NR & _)].
    2:{ exfalso; eapply NR; reflexivity. }
    subst es'. rewrite set_nth_nth in P2. destruct (Nat.eqb_spec i n); [|congruence].
    subst n. assert (e0 = e) by congruence. subst e0.
    apply find_exp_any in F. destruct F as (_ & (FL & _ & _) & _).
    pose proof (expectation_call_levels _ _ _ _ _ _ _ _ _ X) as [_ LV].
    destruct r0 as [v0|m|]; try discriminate.
    specialize (LV v0 h eq_refl HH). rewrite FL in LV. apply I5. lia.
Qed.


(** ** C22 *)
Lemma in_sequence_iff c th (e : expectation V U) t s x r :
  arg_below (umax c) x -> satisfiable (umax c) x -> trange_from c x = Ret r ->
  trange_of (c_times (e_common e)) = r ->
  sq_next (t s) < umax c ->
  ((exists k, k < umax c /\ in_arg x k /\ forall k', k' < umax c -> in_arg x k' -> k' = k) /\
   apply_setter c th (StInSequence s) e t =
     (Expectation (Common (c_matcher (e_common e)) (c_mpoison (e_common e))
                     (Some (SeqHandle (sq_inner (t s)) (sq_next (t s)))) (c_times (e_common e)))
        (e_action e),
      set_seq t s (Sequence (sq_inner (t s)) (sq_next (t s) + 1)), Ret tt))
  \/
  ((exists k k', k < umax c /\ k' < umax c /\ in_arg x k /\ in_arg x k' /\ k <> k') /\
   apply_setter c th (StInSequence s) e t = (e, set_seq t s (t s), Panic MNotExact)).
Proof.
  intros AB SA TR ER LT.
  destruct (trange_from_ok c x AB SA) as (r' & T2 & R1 & R2 & R3).
  assert (r' = r) by congruence. subst r'.
  cbn [apply_setter]. unfold common_in_sequence, times_is_exact. rewrite ER.
  rewrite usub_ok by lia. cbn [rbind].
  destruct (N.eqb_spec (rend r - rstart r) 1) as [E|E].
  - left. split.
    + exists (rstart r). split; [lia|]. split; [apply R3; lia|].
      intros k' K1 K2. apply R3 in K2; lia.
    + unfold next_handle. rewrite uadd1_ok by auto. reflexivity.
  - right. split.
    + exists (rstart r), (rstart r + 1). repeat split; try lia; apply R3; lia.
    + rewrite set_common_id. reflexivity.
Qed.

(** ** C24 *)
Lemma violation_call c me e args wr w h :
  handle_of e = Some h -> sh_seq h <> w_levels w (sh_inner h) ->
  tcount (c_times (e_common e)) < umax c ->
  tcount (c_times (e_common e)) + 1 < rend (trange_of (c_times (e_common e))) ->
  expectation_call c me e args wr w =
    (set_common e (set_times (e_common e)
        (Times (count_of e + 1) (trange_of (c_times (e_common e))))), w,
     Panic (MSeqVerify (call_desc me args) (sh_seq h) (w_levels w (sh_inner h)))).
Proof.
  intros HH D B1 B2. unfold expectation_call.
  rewrite (common_call_seq c me (e_common e) (call_desc me args) w h HH B1 B2). cbn zeta.
  destruct (N.eqb_spec (sh_seq h) (w_levels w (sh_inner h))); [contradiction|]. reflexivity.
Qed.

(** ** C23: levels of sequences that nobody uses *)
Definition with_levels y (lv : levels) : sys V U :=
  Sys (set_levels (y_world y) lv) (y_seqs y) (y_objs y) (y_stats y).

Definition outside (D : seqid -> Prop) (e : expectation V U) : Prop :=
  forall h, handle_of e = Some h -> ~ D (sh_inner h).

Definition agree (D : seqid -> Prop) (l1 l2 : levels) : Prop := forall s, ~ D s -> l2 s = l1 s.
Definition keep (D : seqid -> Prop) (l1 l2 : levels) : Prop := forall s, D s -> l2 s = l1 s.

Lemma matches_levels k args w lv :
  common_matches (V := V) k args (set_levels w lv) =
  let '(k1, w1, r) := common_matches k args w in (k1, set_levels w1 lv, r).
Proof.
  unfold common_matches. destruct (c_mpoison k); auto. destruct (c_matcher k); simpl.
  - reflexivity.
  - destruct (f args (w_user w)) as [u [[|]|m|]]; reflexivity.
  - destruct (Nat.eqb owner (w_thread w)); [|reflexivity].
    destruct (f args (w_user w)) as [u [[|]|m|]]; reflexivity.
  - destruct (eval_preds ps args (w_user w)) as [u [bs|m|]]; reflexivity.
Qed.

Lemma find_levels c one lv : forall es args w,
  find_exp (V := V) c one es args (set_levels w lv) =
  let '(es1, w1, r) := find_exp c one es args w in (es1, set_levels w1 lv, r).
Proof.
  induction es as [|e es IH]; intros args w; cbn [find_exp]; [reflexivity|].
  rewrite matches_levels. destruct (common_matches (e_common e) args w) as [[k w1] [[|]|m|]]; try reflexivity.
  - destruct (common_is_done c k) as [d|m|]; try reflexivity.
    destruct (negb d || one); [reflexivity|]. rewrite IH.
    destruct (find_exp c one es args w1) as [[es2 w2] r2]. reflexivity.
  - rewrite IH. destruct (find_exp c one es args w1) as [[es2 w2] r2]. reflexivity.
Qed.

Lemma static_ret_lv c me (k : common V U) rf p args w lv :
  static_ret c me k rf p args (set_levels w lv) =
  let '(a, w1, r) := static_ret c me k rf p args w in (a, set_levels w1 lv, r).
Proof.
  unfold static_ret. destruct p; [reflexivity|].
  destruct rf; simpl; unfold run_user; simpl.
  - destruct (unwrap_rf _ _ _); reflexivity.
  - destruct (show_locked k); reflexivity.
  - destruct (f args (w_user w)) as [u [v|m|]]; reflexivity.
  - destruct (Nat.eqb _ _); [destruct (f args (w_user w)) as [u [v|m|]]|]; reflexivity.
  - destruct (f args (w_user w)) as [u [v|m|]]; reflexivity.
  - destruct (Nat.eqb _ _); [destruct (f args (w_user w)) as [u [v|m|]]|]; reflexivity.
Qed.

Lemma mut_ret_lv c me (k : common V U) rf args wr w lv :
  mut_ret c me k rf args wr (set_levels w lv) =
  let '(rf', w1, r) := mut_ret c me k rf args wr w in (rf', set_levels w1 lv, r).
Proof.
  unfold mut_ret. destruct (show_locked k) as [s|m|]; try reflexivity.
  destruct rf as [o|f o|ow f o|v]; simpl.
  - destruct o; reflexivity.
  - destruct (f args (w_user w)) as [u [v|m|]]; reflexivity.
  - destruct (Nat.eqb _ _); [destruct (f args (w_user w)) as [u [v|m|]]|]; reflexivity.
  - reflexivity.
Qed.

Lemma common_call_lv D c me (k : common V U) d w lv :
  (forall h, c_seq k = Some h -> ~ D (sh_inner h)) -> agree D (w_levels w) lv ->
  exists lv', common_call c me k d (set_levels w lv) =
    (let '(k1, w1, r) := common_call c me k d w in (k1, set_levels w1 lv', r)) /\
    agree D (w_levels (snd (fst (common_call c me k d w)))) lv' /\ keep D lv lv' /\
    keep D (w_levels w) (w_levels (snd (fst (common_call c me k d w)))).
Proof.
  intros O A. unfold common_call. destruct (times_call c (c_times k)) as [t' r].
  unfold verify_sequence, satisfy_sequence, handle_verify, inner_verify, handle_satisfy, inner_satisfy.
  cbn [set_times c_seq].
  assert (T : keep D lv lv /\ keep D (w_levels w) (w_levels w)) by (split; intros s _; auto).
  destruct T as [T1 T2].
  destruct r as [[[]|er]|m|]; try (exists lv; split; [reflexivity|]; simpl; auto; fail).
  destruct (c_seq k) as [h|].
  - specialize (O h eq_refl). cbn [set_levels w_levels]. rewrite (A _ O).
    destruct (sh_seq h =? w_levels w (sh_inner h)).
    + destruct (times_is_satisfied t'); try (exists lv; split; [reflexivity|]; simpl; auto; fail).
      * exists (set_level lv (sh_inner h) (uwrap1 c (w_levels w (sh_inner h)))).
        split; [reflexivity|]. cbn [fst snd w_levels set_levels].
        unfold agree, keep, set_level. repeat split; intros s Hs; destruct (Nat.eqb_spec s (sh_inner h)); subst; auto; contradiction.
      * exists (set_level lv (sh_inner h) (uwrap1 c (w_levels w (sh_inner h)))).
        split; [reflexivity|]. cbn [fst snd w_levels set_levels].
        unfold agree, keep, set_level. repeat split; intros s Hs; destruct (Nat.eqb_spec s (sh_inner h)); subst; auto; contradiction.
    + exists lv. split; [reflexivity|]. simpl; auto.
  - destruct (times_is_satisfied t'); exists lv; (split; [reflexivity|]); simpl; auto.
Qed.

Lemma expectation_call_lv D c me e args wr w lv e' w' r :
  outside D e -> agree D (w_levels w) lv ->
  expectation_call c me e args wr w = (e', w', r) ->
  exists lv', expectation_call c me e args wr (set_levels w lv) = (e', set_levels w' lv', r) /\
    agree D (w_levels w') lv' /\ keep D lv lv' /\ keep D (w_levels w) (w_levels w').
Proof.
  intros O A. unfold expectation_call.
  destruct (common_call_lv D c me (e_common e) (call_desc me args) w lv O A) as (lv' & E & A1 & K1 & K2).
  rewrite E. clear E.
  destruct (common_call c me (e_common e) (call_desc me args) w) as [[k w1] r1]. cbn [fst snd] in *.
  destruct r1 as [[]|m|].
  - destruct (e_action e) as [rf p|rf|rf].
    + rewrite static_ret_lv. destruct (static_ret c me k rf p args w1) as [[a w2] r2] eqn:Q.
      apply static_ret_levels in Q. intros H; inversion H; subst. exists lv'. rewrite Q. auto.
    + intros H; inversion H; subst. exists lv'. auto.
    + rewrite mut_ret_lv. destruct (mut_ret c me k rf args wr w1) as [[a w2] r2] eqn:Q.
      apply mut_ret_levels in Q. intros H; inversion H; subst. exists lv'. rewrite Q. auto.
  - intros H; inversion H; subst. exists lv'. auto.
  - intros H; inversion H; subst. exists lv'. auto.
Qed.

Lemma expectations_call_lv D c me es args wr w lv es' w' r :
  Forall (outside D) es -> agree D (w_levels w) lv ->
  expectations_call c me es args wr w = (es', w', r) ->
  exists lv', expectations_call c me es args wr (set_levels w lv) = (es', set_levels w' lv', r) /\
    agree D (w_levels w') lv' /\ keep D lv lv' /\ keep D (w_levels w) (w_levels w') /\
    Forall (outside D) es'.
Proof.
  intros O A H. pose proof H as H0. apply expectations_call_any in H0.
  assert (O' : Forall (outside D) es').
  { destruct H0 as [(i & e & e1 & w1 & r0 & N0 & F & X & E1 & E2)|(r0 & F & S & FR & _)].
    - subst es'. apply Forall_set_nth; auto.
      pose proof (expectation_call_shape _ _ _ _ _ _ _ _ _ X) as (_ & _ & SH1 & _).
      apply nth_error_In in N0. rewrite Forall_forall in O. specialize (O _ N0).
      intros h. unfold handle_of. rewrite SH1. apply O.
    - clear -O S. induction S; inversion O; subst; constructor; auto.
      apply same_core_handle in H. intros h. rewrite (proj1 H). auto. }
  unfold expectations_call in *. rewrite find_levels.
  destruct (find_exp c (Nat.eqb (List.length es) 1) es args w) as [[es1 w1] r1] eqn:F.
  apply find_exp_any in F. destruct F as (FC & (FL & _ & _) & _).
  assert (A1 : agree D (w_levels w1) lv) by (intros s Hs; rewrite FL; auto).
  assert (K1 : keep D (w_levels w) (w_levels w1)) by (intros s Hs; rewrite FL; auto).
  assert (K0 : keep D lv lv) by (intros s Hs; auto).
  destruct r1 as [[i|]|m|]; try (inversion H; subst; exists lv; auto; fail).
  destruct (nth_error es1 i) as [e|] eqn:N; [|inversion H; subst; exists lv; auto].
  destruct (expectation_call c me e args wr w1) as [[e' w2] r2] eqn:X.
  assert (OE : outside D e).
  { destruct (Forall2_nth_r _ _ _ _ _ FC N) as (e0 & N0 & SC). apply same_core_handle in SC.
    apply nth_error_In in N0. rewrite Forall_forall in O. specialize (O _ N0).
    intros h. rewrite (proj1 SC). apply O. }
  destruct (expectation_call_lv D _ _ _ _ _ _ lv _ _ _ OE A1 X) as (lv' & E & B1 & B2 & B3).
  rewrite E. inversion H; subst. exists lv'.
  repeat (split; [solve [auto]|]). split; [|auto]. intros s Hs. rewrite B3, K1; auto.
Qed.

Definition slot_outside D (s : slot V U) : Prop := forall k, Forall (outside D) (slot_get s k).

Lemma slot_call_lv D c md s k args wr w lv s' w' r :
  slot_outside D s -> agree D (w_levels w) lv ->
  slot_call c md s k args wr w = (s', w', r) ->
  exists lv', slot_call c md s k args wr (set_levels w lv) = (s', set_levels w' lv', r) /\
    agree D (w_levels w') lv' /\ keep D lv lv' /\ keep D (w_levels w) (w_levels w') /\
    slot_outside D s'.
Proof.
  intros O A H. pose proof H as H0. apply slot_call_get in H0.
  destruct H0 as (es' & E1 & E2 & E3).
  destruct (expectations_call_lv D _ _ _ _ _ _ lv _ _ _ (O k) A E1) as (lv' & X & B1 & B2 & B3 & B4).
  assert (SO : slot_outside D s').
  { intros k'. destruct (E3 k') as [[Q _]|Q]; rewrite Q; auto. }
  clear E2 E3. unfold slot_call in *. destruct s as [es|st]; simpl in *.
  - rewrite E1 in H. rewrite X. inversion H; subst. exists lv'. repeat (split; [solve [auto]|]). auto.
  - destruct (gget st k) as [es|].
    + rewrite E1 in H. rewrite X. inversion H; subst. exists lv'. repeat (split; [solve [auto]|]). auto.
    + inversion H; subst. exists lv. repeat split; auto; intros s _; auto.
Qed.

(** No chain takes a position in a sequence whose inner is in [D]. *)
Definition avoids (D : seqid -> Prop) (t : seqtab) (l : list (setter V U)) : Prop :=
  forall s, In (StInSequence s) l -> ~ D (sq_inner (t s)).

Lemma apply_setter_outside D c th st e t e' t' r :
  (forall s, st = StInSequence s -> ~ D (sq_inner (t s))) -> outside D e ->
  apply_setter c th st e t = (e', t', r) ->
  outside D e' /\ forall s, sq_inner (t' s) = sq_inner (t s).
Proof.
  intros AV O H.
  assert (SAME : forall (e1 : expectation V U), handle_of e1 = handle_of e -> e' = e1 -> t' = t ->
     outside D e' /\ forall s, sq_inner (t' s) = sq_inner (t s)).
  { intros e1 E -> ->. split; auto. intros h. rewrite E. auto. }
  assert (CM : forall (e1 e2 : expectation V U), e_common e1 = e_common e2 -> handle_of e1 = handle_of e2)
    by (unfold handle_of; congruence).
  destruct st; cbn [apply_setter] in H.
  - unfold lift_common, common_times in H. destruct (times_times c x (c_times (e_common e))) as [t1 r1].
    inversion H; subst. (eapply SAME; [|reflexivity|reflexivity]; reflexivity).
  - unfold lift_common, common_times in H. destruct (times_times c (ANum 1) (c_times (e_common e))) as [t1 r1].
    inversion H; subst. (eapply SAME; [|reflexivity|reflexivity]; reflexivity).
  - inversion H; subst. (eapply SAME; [|reflexivity|reflexivity]; reflexivity).
  - unfold lift_common, common_set_matcher in H.
    destruct (c_mpoison (e_common e)); inversion H; subst; (eapply SAME; [|reflexivity|reflexivity]; reflexivity).
  - unfold lift_common, common_set_matcher in H.
    destruct (c_mpoison (e_common e)); inversion H; subst; (eapply SAME; [|reflexivity|reflexivity]; reflexivity).
  - unfold lift_common, common_set_matcher in H.
    destruct (c_mpoison (e_common e)); inversion H; subst; (eapply SAME; [|reflexivity|reflexivity]; reflexivity).
  - unfold common_in_sequence in H.
    assert (NI : forall q, sq_inner q = sq_inner (t s) ->
       forall s0, sq_inner (set_seq t s q s0) = sq_inner (t s0)).
    { intros q Q s0. unfold set_seq. destruct (Nat.eqb_spec s0 s); subst; auto. }
    destruct (times_is_exact c (c_times (e_common e))) as [[|]|m|];
      try (inversion H; subst; split; [intros h; apply O|apply NI; reflexivity]).
    unfold next_handle in H. destruct (uadd1 c (sq_next (t s)));
      inversion H; subst; (split; [|apply NI; reflexivity]).
    + intros h Hh. inversion Hh; subst. simpl. apply AV; auto.
    + intros h. apply O.
    + intros h. apply O.
  - destruct (e_action e); [destruct (set_srfunc _ _) as [e1 r1] eqn:Q; apply set_srfunc_common in Q
                           |destruct (set_srfunc _ _) as [e1 r1] eqn:Q; apply set_srfunc_common in Q
                           |destruct (set_mrfunc _ _) as [e1 r1] eqn:Q; apply set_mrfunc_common in Q];
      inversion H; subst; (eapply SAME; [|reflexivity|reflexivity]; apply CM; auto).
  - destruct (e_action e); [destruct (set_srfunc _ _) as [e1 r1] eqn:Q; apply set_srfunc_common in Q
                           |destruct (set_srfunc _ _) as [e1 r1] eqn:Q; apply set_srfunc_common in Q
                           |destruct (set_mrfunc _ _) as [e1 r1] eqn:Q; apply set_mrfunc_common in Q];
      inversion H; subst; (eapply SAME; [|reflexivity|reflexivity]; apply CM; auto).
  - destruct (set_srfunc _ _) as [e1 r1] eqn:Q; apply set_srfunc_common in Q; inversion H; subst; (eapply SAME; [|reflexivity|reflexivity]; apply CM; auto).
  - destruct (set_srfunc _ _) as [e1 r1] eqn:Q; apply set_srfunc_common in Q; inversion H; subst; (eapply SAME; [|reflexivity|reflexivity]; apply CM; auto).
  - destruct (e_action e); [destruct (set_srfunc _ _) as [e1 r1] eqn:Q; apply set_srfunc_common in Q
                           |inversion H; subst; apply (SAME (set_action e (ARef (RConst v)))); reflexivity
                           |destruct (set_srfunc _ _) as [e1 r1] eqn:Q; apply set_srfunc_common in Q];
      inversion H; subst; (eapply SAME; [|reflexivity|reflexivity]; apply CM; auto).
  - destruct (set_srfunc _ _) as [e1 r1] eqn:Q; apply set_srfunc_common in Q; inversion H; subst; (eapply SAME; [|reflexivity|reflexivity]; apply CM; auto).
  - destruct (set_mrfunc _ _) as [e1 r1] eqn:Q; apply set_mrfunc_common in Q; inversion H; subst; (eapply SAME; [|reflexivity|reflexivity]; apply CM; auto).
Qed.

Lemma apply_setters_outside D c th : forall l e t e' t' r,
  avoids D t l -> outside D e ->
  apply_setters c th l e t = (e', t', r) ->
  outside D e' /\ forall s, sq_inner (t' s) = sq_inner (t s).
Proof.
  induction l as [|st l IH]; intros e t e' t' r AV O H; cbn [apply_setters] in H.
  - inversion H; subst. auto.
  - destruct (apply_setter c th st e t) as [[e1 t1] r1] eqn:A.
    destruct (apply_setter_outside D _ _ _ _ _ _ _ _ (fun s Hs => AV s (or_introl Hs)) O A) as [O1 T1].
    destruct r1 as [[]|m|]; try (inversion H; subst; auto; fail).
    destruct (IH e1 t1 e' t' r) as [O2 T2]; auto.
    + intros s Hs. rewrite T1. apply AV. right. auto.
    + split; auto. intros s. rewrite T2. auto.
Qed.

Definition sys_outside D y : Prop := forall p e, at_place y p = Some e -> outside D e.

Lemma sys_slot D y o m ob f :
  sys_outside D y -> nth_error (y_objs y) o = Some ob -> nth_error ob m = Some f -> slot_outside D (f_slot f).
Proof.
  intros S A B k. rewrite Forall_forall. intros e I. apply In_nth_error in I. destruct I as [n I].
  apply (S (PObj o m k n)). simpl. rewrite A, B. exact I.
Qed.
Lemma sys_stat D y s md sm :
  sys_outside D y -> nth_error (y_stats y) s = Some (md, sm) -> slot_outside D (sm_slot sm).
Proof.
  intros S A k. rewrite Forall_forall. intros e I. apply In_nth_error in I. destruct I as [n I].
  apply (S (PStat s k n)). simpl. rewrite A. exact I.
Qed.

Lemma step_outside D c sh y o y' r :
  sys_outside D y -> avoids D (y_seqs y) (op_chain o) -> step c sh y o = (y', r) ->
  sys_outside D y' /\ forall s, sq_inner (y_seqs y' s) = sq_inner (y_seqs y s).
Proof.
  intros S AV ST. apply step_change in ST.
  destruct ST as [Q1 Q2 Q3 Q4 | me kd th e1 r1 p1 Q1 Q2 Q3 Q4 Q5 Q6 | me es args wr es' r1 Q1 Q2 Q3 Q4 Q5].
  - split; [|intros s; rewrite Q2; auto]. intros p e A. apply (S p). auto.
  - assert (N : outside D (expectation_default (U := U) c me kd)) by (intros h X; discriminate X).
    destruct (apply_setters_outside D _ _ _ _ _ _ _ _ AV N Q1) as [O1 T1].
    split; auto. intros p e A. destruct (Q2 p e A) as [X|X]; [apply (S p); auto|subst; auto].
  - split; [|intros s; rewrite Q5; auto].
    assert (F : Forall (outside D) es).
    { rewrite Forall_forall. intros e I. apply In_nth_error in I. destruct I as [n I].
      destruct (Q4 n) as (p & P1 & _). apply (S p). congruence. }
    assert (A0 : agree D (w_levels (y_world y)) (w_levels (y_world y))) by (intros s _; auto).
    destruct (expectations_call_lv D _ _ _ _ _ _ _ _ _ _ F A0 Q1) as (_ & _ & _ & _ & _ & F').
    intros p e A. destruct (Q3 p) as [X|(n & X1 & X2)].
    + apply (S p). congruence.
    + rewrite X2 in A. apply nth_error_In in A. rewrite Forall_forall in F'. auto.
Qed.

Lemma step_lv D c sh y o lv y' r :
  sys_outside D y -> agree D (w_levels (y_world y)) lv ->
  step c sh y o = (y', r) ->
  exists lv', step c sh (with_levels y lv) o = (with_levels y' lv', r) /\
    agree D (w_levels (y_world y')) lv' /\ keep D lv lv' /\
    keep D (w_levels (y_world y)) (w_levels (y_world y')).
Proof.
  intros S A H.
  assert (K0 : keep D lv lv) by (intros s _; auto).
  assert (K1 : keep D (w_levels (y_world y)) (w_levels (y_world y))) by (intros s _; auto).
  destruct o; cbn [step with_levels y_objs y_stats y_world y_seqs] in *.
  - inversion H; subst. exists lv. auto.
  - destruct (nth_error (y_objs y) o) as [ob|]; [|inversion H; subst; exists lv; auto].
    destruct (nth_error ob m) as [f|]; [|inversion H; subst; exists lv; auto].
    cbn [set_levels w_thread]. destruct (slot_expect _ _ _ _ _ _ _) as [[s' t'] r'].
    inversion H; subst. exists lv. auto.
  - destruct (nth_error (y_objs y) o) as [ob|] eqn:E1; [|inversion H; subst; exists lv; auto].
    destruct (nth_error ob m) as [f|] eqn:E2; [|inversion H; subst; exists lv; auto].
    unfold field_call in *.
    destruct (slot_call c (f_decl f) (f_slot f) k args wr (y_world y)) as [[s' w'] r'] eqn:X.
    destruct (slot_call_lv D _ _ _ _ _ _ _ lv _ _ _ (sys_slot D y o m ob f S E1 E2) A X) as (lv' & X2 & B1 & B2 & B3 & _).
    rewrite X2. inversion H; subst. exists lv'. auto.
  - destruct (nth_error (y_objs y) o) as [ob|]; [|inversion H; subst; exists lv; auto].
    cbn [set_levels w_panicking]. destruct (object_checkpoint _ _ _ _) as [ob' r'].
    inversion H; subst. exists lv. auto.
  - destruct (nth_error (y_objs y) o) as [ob|]; inversion H; subst; exists lv; auto.
  - destruct (nth_error (y_stats y) s) as [[md sm]|]; [|inversion H; subst; exists lv; auto].
    unfold context_expect in *. cbn [set_levels w_thread w_panicking].
    destruct (sm_poison sm); [inversion H; subst; exists lv; auto|].
    destruct (slot_expect _ _ _ _ _ _ _) as [[s' t'] [[]|msg|]]; inversion H; subst; exists lv; auto.
  - destruct (nth_error (y_stats y) s) as [[md sm]|] eqn:E; [|inversion H; subst; exists lv; auto].
    unfold static_call in *. cbn [set_levels w_panicking].
    destruct (sm_poison sm); [inversion H; subst; exists lv; auto|].
    destruct (slot_call c md (sm_slot sm) k args (fun v => v) (y_world y)) as [[s' w'] r'] eqn:X.
    destruct (slot_call_lv D _ _ _ _ _ _ _ lv _ _ _ (sys_stat D y s md sm S E) A X) as (lv' & X2 & B1 & B2 & B3 & _).
    change (World (w_user (y_world y)) lv (w_thread (y_world y)) (w_panicking (y_world y)))
      with (set_levels (y_world y) lv). rewrite X2.
    destruct r' as [[v|]|msg|]; inversion H; subst; exists lv'; auto.
  - destruct (nth_error (y_stats y) s) as [[md sm]|]; [|inversion H; subst; exists lv; auto].
    cbn [set_levels w_panicking]. destruct (static_checkpoint _ _ _ _ _) as [sm' r'].
    inversion H; subst. exists lv. auto.
  - destruct (nth_error (y_stats y) s) as [[md sm]|]; [|inversion H; subst; exists lv; auto].
    cbn [set_levels w_panicking]. destruct (context_drop _ _ _ _ _) as [sm' r'].
    inversion H; subst. exists lv. auto.
  - cbn [set_levels w_panicking]. destruct (module_checkpoint _ _ _ _) as [ss r'].
    inversion H; subst. exists lv. auto.
  - inversion H; subst. exists lv. auto.
  - inversion H; subst. exists lv. auto.
  - inversion H; subst. exists lv. auto.
Qed.

Lemma run_lv D c sh : forall l y lv,
  sys_outside D y -> Forall (fun o => avoids D (y_seqs y) (op_chain o)) l ->
  agree D (w_levels (y_world y)) lv ->
  snd (run c sh (with_levels y lv) l) = snd (run c sh y l) /\
  keep D (w_levels (y_world y)) (w_levels (y_world (fst (run c sh y l)))).
Proof.
  induction l as [|o l IH]; intros y lv S AV A; cbn [run].
  - split; auto. intros s _. auto.
  - inversion AV as [|? ? AV1 AV2]; subst.
    destruct (step c sh y o) as [y1 r1] eqn:ST.
    destruct (step_outside D _ _ _ _ _ _ S AV1 ST) as [S1 T1].
    destruct (step_lv D _ _ _ _ lv _ _ S A ST) as (lv' & ST' & A1 & _ & K1).
    rewrite ST'.
    assert (AV3 : Forall (fun o0 => avoids D (y_seqs y1) (op_chain o0)) l).
    { eapply Forall_impl; [|exact AV2]. intros o0 X s Hs. rewrite T1. apply X; auto. }
    destruct (IH y1 lv' S1 AV3 A1) as [E1 E2].
    destruct (run c sh y1 l) as [y2 rs]. destruct (run c sh (with_levels y1 lv') l) as [y2' rs'].
    cbn [fst snd] in *. split; [congruence|]. intros s Hs. rewrite E2, K1; auto.
Qed.

Lemma level_moves c sh y y' o r s :
  1 <= umax c -> step c sh y o = (y', r) ->
  w_levels (y_world y') s <> w_levels (y_world y) s ->
  exists p e e' h,
    at_place y p = Some e /\ at_place y' p = Some e' /\ count_of e' <> count_of e /\
    handle_of e = Some h /\ sh_inner h = s /\ sh_seq h = w_levels (y_world y) s.
Proof.
  intros U1 ST D. apply step_change in ST.
  destruct ST as [Q1 Q2 Q3 Q4 | me kd th e1 r1 p1 Q1 Q2 Q3 Q4 Q5 Q6 | me es args wr es' r1 Q1 Q2 Q3 Q4 Q5].
  - congruence.
  - congruence.
  - apply expectations_call_any in Q1.
    destruct Q1 as [(i & e & e1 & w1 & r0 & N0 & F & X & E1 & E2)|(r0 & F & S & (FL & _ & _) & _)].
    2:{ congruence. }
    apply find_exp_any in F. destruct F as (_ & (FL & _ & _) & _).
    pose proof (expectation_call_levels _ _ _ _ _ _ _ _ _ X) as [LV _].
    destruct LV as [LV|(h & L1 & L2 & L3 & L4)]; [congruence|].
    destruct (Q4 i) as (p & P1 & P2). exists p, e, e1, h.
    rewrite P1, P2, E1. split; [auto|]. split; [exact (nth_set_nth_same _ _ _ _ N0)|].
    rewrite FL in *.
    assert (sh_inner h = s).
    { rewrite L3 in D. unfold set_level in D. destruct (Nat.eqb_spec s (sh_inner h)); auto. congruence. }
    subst s. split; [|auto].
    pose proof (expectation_call_shape _ _ _ _ _ _ _ _ _ X) as (_ & _ & _ & _ & SH & _).
    unfold count_of. rewrite SH. unfold uwrap1.
    destruct (N.ltb_spec (tcount (c_times (e_common e))) (umax c)); lia.
Qed.

End P.
