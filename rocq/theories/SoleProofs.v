(** * SoleProofs: a method with one expectation *)

From Coq Require Import NArith List Bool String Lia.
From Verif Require Import Base Times TimesSpec TimesProofs Expect ExpectProofs Mock Spec DispatchProofs.
Import ListNotations.
Open Scope N_scope.

Section P.
Context {V U : Type}.
Implicit Types (w : world U) (me : method V) (md : mdecl V).

Definition sexp (r : trange) (f : ucode U (list V) V) (j : N) : expectation V U :=
  Expectation (Common MtAlways false None (Times j r)) (AStatic (SMut f) false).

(** The range built from an argument. *)
Lemma trange_from_bounds c x :
  arg_below (umax c) x -> satisfiable (umax c) x ->
  exists r, trange_from c x = Ret r /\ rstart r = arg_min x /\
    rend r = match arg_max x with Some m => m + 1 | None => umax c end /\
    1 <= rend r /\ rend r <= umax c.
Proof.
  intros B [k0 [I K]].
  destruct x; simpl in *.
  - exists (TRange n (n+1)). rewrite uadd1_ok by lia. simpl. repeat split; lia.
  - exists (TRange a b). ncase; try lia. simpl. repeat split; lia.
  - exists (TRange a (umax c)). simpl. repeat split; lia.
  - exists (TRange 0 (umax c)). simpl. repeat split; lia.
  - exists (TRange a (b+1)). ncase; try lia. rewrite uadd1_ok by lia. simpl. repeat split; lia.
  - exists (TRange 0 b). simpl. repeat split; lia.
  - exists (TRange 0 (b+1)). rewrite uadd1_ok by lia. simpl. repeat split; lia.
Qed.

Lemma sole_setup c md x f th t :
  md_generic md = false -> md_kind md = KStatic ->
  arg_below (umax c) x -> satisfiable (umax c) x ->
  exists r, trange_from c x = Ret r /\
  slot_expect c md (slot_new md) 0%nat th [StTimes x; StReturning f] t
    = (SPlain [sexp r f 0], t, Ret tt).
Proof.
  intros G K B S. destruct (trange_from_bounds c x B S) as (r & E & _).
  exists r. split; auto. unfold slot_expect, slot_new. rewrite G, K. simpl.
  unfold lift_common, common_times, times_times. rewrite E. reflexivity.
Qed.

Lemma sole_call c md hi r f j a w :
  total_fn f ->
  rend r = match hi with Some m => m + 1 | None => umax c end ->
  1 <= rend r -> rend r <= umax c -> j + 1 < umax c ->
  field_call c (Field md (SPlain [sexp r f j])) 0%nat a (fun v => v) w =
  let refuse m :=
    (Field md (SPlain [sexp r f (j + 1)]), w,
     Panic (MCall (me_name (md_me md)) "<anything>" (if m =? 0 then TeNever else TeTooMany (j + 1) m))) in
  let answer :=
    let (u1, x) := f a (w_user w) in
    (Field md (SPlain [sexp r f (j + 1)]), set_user w u1, x) in
  match hi with
  | Some m => if j <? m then answer else refuse m
  | None => answer
  end.
Proof.
  intros T E1 E2 E3 J. destruct (T a (w_user w)) as (u1 & v & Ef). rewrite Ef. simpl.
  unfold field_call, slot_call, expectations_call. cbn [f_slot f_decl List.length Nat.eqb find_exp].
  unfold common_matches. simpl. unfold common_is_done. rewrite is_done_ok by (simpl; lia).
  simpl. rewrite orb_true_r. simpl. unfold expectation_call. simpl e_common.
  destruct (N.ltb_spec (j + 1) (rend r)) as [L|L].
  - rewrite common_call_noseq by (simpl; auto; lia). simpl.
    unfold static_ret. simpl. unfold run_user. rewrite Ef. simpl.
    destruct hi as [m|]; auto. destruct (N.ltb_spec j m); auto. lia.
  - rewrite common_call_over by (simpl; auto; lia). simpl.
    destruct hi as [m|]; [|lia]. destruct (N.ltb_spec j m); [lia|].
    unfold set_common, set_times, sexp; simpl. f_equal. f_equal. f_equal.
    destruct (N.eqb_spec (rend r) 1), (N.eqb_spec m 0); try lia; auto.
    f_equal. lia.
Qed.

Lemma sole_calls c md hi r f : forall l j w f' w' rs,
  total_fn f ->
  rend r = match hi with Some m => m + 1 | None => umax c end ->
  1 <= rend r -> rend r <= umax c -> j + N.of_nat (List.length l) < umax c ->
  field_calls c (Field md (SPlain [sexp r f j])) 0%nat w l = (f', w', rs) ->
  f' = Field md (SPlain [sexp r f (j + N.of_nat (List.length l))]) /\
  w' = set_user w (w_user w') /\
  (w_user w', rs) = sole_answers (md_me md) hi f j l (w_user w).
Proof.
  induction l as [|a l IH]; intros j w f' w' rs T E1 E2 E3 J H.
  - simpl in H. inversion H; subst. simpl. rewrite N.add_0_r, set_user_id. auto.
  - cbn [field_calls] in H. cbn [List.length] in J.
    rewrite (sole_call c md hi) in H by (auto; lia).
    destruct (T a (w_user w)) as (u1 & v & Ef). rewrite Ef in H. cbn zeta in H.
    cbn [sole_answers]. rewrite Ef.
    replace (j + N.of_nat (List.length (a :: l))) with ((j + 1) + N.of_nat (List.length l))
      by (simpl List.length; lia).
    assert (X : forall w1 r1,
      (let '(f2, w2, rs0) := field_calls c (Field md (SPlain [sexp r f (j + 1)])) 0%nat w1 l in
        (f2, w2, r1 :: rs0)) = (f', w', rs) ->
      f' = Field md (SPlain [sexp r f (j + 1 + N.of_nat (List.length l))]) /\
      w' = set_user w1 (w_user w') /\
      (w_user w', rs) = (let (u2, rs0) := sole_answers (md_me md) hi f (j + 1) l (w_user w1) in
                         (u2, r1 :: rs0))).
    { intros w1 r1 Q.
      destruct (field_calls c _ 0%nat w1 l) as [[f2 w2] rs2] eqn:Q2.
      apply IH in Q2; auto; [|lia]. inversion Q; subst. destruct Q2 as (Q3 & Q4 & Q5).
      split; [|split]; auto. rewrite <- Q5. reflexivity. }
    destruct hi as [m|].
    + destruct (j <? m); apply X in H; exact H.
    + apply X in H; exact H.
Qed.

Lemma sole_dropped c sh md x r f n :
  trange_from c x = Ret r -> arg_below (umax c) x -> satisfiable (umax c) x -> n < umax c ->
  object_drop c sh [Field md (SPlain [sexp r f n])] false = sole_drop (md_me md) x n.
Proof.
  intros E B S Hn. destruct (trange_from_bounds c x B S) as (r' & E' & R1 & R2 & R3 & R4).
  assert (r = r') by congruence. subst r'.
  simpl. unfold common_drop, show_locked. simpl.
  pose proof (is_satisfied_spec (Times n r)) as Q. simpl in Q. unfold sole_drop.
  rewrite R1, R2 in Q.
  destruct (times_is_satisfied _).
  - destruct (N.ltb_spec n (arg_min x)); [lia|].
    destruct (arg_max x) as [m|]; auto. destruct (N.ltb_spec m n); auto. lia.
  - destruct (N.ltb_spec n (arg_min x)); [lia|].
    unfold times_maximum. rewrite usub_ok by (simpl; lia). simpl. rewrite R2.
    destruct (arg_max x) as [m|]; [|lia]. destruct (N.ltb_spec m n); [|lia].
    repeat f_equal. lia.
  - destruct (N.ltb_spec n (arg_min x)); [|lia].
    unfold times_minimum, times_count. simpl. rewrite R1. reflexivity.
Qed.

Lemma sole_drop_iff me top x n :
  arg_below top x -> satisfiable top x -> n < top ->
  (sole_drop me x n = Ret tt <-> in_arg x n).
Proof.
  intros B (k & I & K) Hn. unfold sole_drop.
  destruct x; simpl in *; ncase; split; intros; try discriminate; try lia; auto.
Qed.

Theorem sole_history c md x f calls w th t s t' r f' w' rs sh :
  md_generic md = false -> md_kind md = KStatic ->
  arg_below (umax c) x -> satisfiable (umax c) x -> total_fn f ->
  N.of_nat (List.length calls) < umax c ->
  slot_expect c md (slot_new md) 0%nat th [StTimes x; StReturning f] t = (s, t', r) ->
  field_calls c (Field md s) 0%nat w calls = (f', w', rs) ->
  r = Ret tt /\
  (w_user w', rs) = sole_answers (md_me md) (arg_max x) f 0 calls (w_user w) /\
  object_drop c sh [f'] false = sole_drop (md_me md) x (N.of_nat (List.length calls)).
Proof.
  intros G K B S T L E H.
  destruct (sole_setup c md x f th t G K B S) as (rg & E1 & E2).
  destruct (trange_from_bounds c x B S) as (rg' & E1' & R1 & R2 & R3 & R4).
  assert (rg = rg') by congruence. subst rg'.
  rewrite E2 in E. inversion E; subst. split; auto.
  eapply sole_calls in H; eauto. destruct H as (H1 & H2 & H3). split; auto.
  subst f'. apply sole_dropped; auto.
Qed.

(** How many of the calls of [sole_answers] are answered. *)
Definition is_ret {A} (r : res A) : bool := match r with Ret _ => true | _ => false end.

Lemma sole_answers_spec me hi (f : ucode U (list V) V) : forall l j u,
  total_fn f ->
  forall i r, nth_error (snd (sole_answers me hi f j l u)) i = Some r ->
  (is_ret r = true <-> match hi with Some m => j + N.of_nat i < m | None => True end).
Proof.
  induction l as [|a l IH]; intros j u T i r H.
  - destruct i; discriminate.
  - cbn [sole_answers] in H. destruct (T a u) as (u1 & v & Ef). rewrite Ef in H.
    assert (X : forall u' r0,
      (i = O -> (is_ret r0 = true <-> match hi with Some m => j < m | None => True end)) ->
      nth_error (snd (let (u2, rs) := sole_answers me hi f (j + 1) l u' in (u2, r0 :: rs))) i = Some r ->
      (is_ret r = true <-> match hi with Some m => j + N.of_nat i < m | None => True end)).
    { intros u' r0 Hr0 Q. specialize (IH (j + 1) u' T).
      destruct (sole_answers me hi f (j + 1) l u') as [u2 rs]. simpl in *.
      destruct i as [|i]; simpl in Q.
      - inversion Q; subst. rewrite N.add_0_r. apply Hr0. reflexivity.
      - apply IH in Q. rewrite Q. destruct hi; [|tauto]. lia. }
    destruct hi as [m|].
    + destruct (N.ltb_spec j m); eapply X in H; eauto; intros _; simpl; split; intros; auto; try lia; discriminate.
    + eapply X in H; eauto. intros _. simpl. tauto.
Qed.

Lemma sole_answers_length me hi (f : ucode U (list V) V) : forall l j u,
  List.length (snd (sole_answers me hi f j l u)) = List.length l.
Proof.
  induction l as [|a l IH]; intros j u; auto.
  cbn [sole_answers]. destruct (f a u) as [u1 r].
  destruct hi as [m|]; [destruct (j <? m)|];
    match goal with |- context [sole_answers ?a ?b ?c0 ?d ?e ?g] =>
      specialize (IH d g); destruct (sole_answers a b c0 d e g) end;
    simpl in *; auto.
Qed.

End P.
