(** * SysProofs: what one operation of a test does to the expectations *)

From Coq Require Import Arith NArith List Bool String Lia.
From Verif Require Import Base Times TimesSpec TimesProofs Expect ExpectProofs Mock Spec SysSpec
  DispatchProofs FifoProofs CallProofs.
Import ListNotations.
Open Scope N_scope.

Section P.
Context {V U : Type}.
Implicit Types (w : world U) (me : method V) (md : mdecl V) (e : expectation V U)
  (es : list (expectation V U)) (y : sys V U) (s : slot V U).

Lemma slot_get_put s k k' es :
  slot_get (slot_put s k es) k = es /\
  (slot_get (slot_put s k es) k' = es /\ slot_get s k' = slot_get s k \/
   slot_get (slot_put s k es) k' = slot_get s k').
Proof.
  destruct s as [es0|st]; simpl.
  - auto.
  - rewrite gget_gput_same. split; auto.
    destruct (Nat.eq_dec k k') as [E|E].
    + subst. rewrite gget_gput_same. auto.
    + rewrite gget_gput_other by auto. auto.
Qed.

Lemma slot_call_get c md s k args wr w s' w' r :
  slot_call c md s k args wr w = (s', w', r) ->
  exists es',
    expectations_call c (md_me md) (slot_get s k) args wr w = (es', w', r) /\
    slot_get s' k = es' /\
    forall k', (slot_get s' k' = es' /\ slot_get s k' = slot_get s k) \/ slot_get s' k' = slot_get s k'.
Proof.
  unfold slot_call. destruct s as [es|st]; simpl.
  - destruct (expectations_call c (md_me md) es args wr w) as [[es' w1] r1].
    intros H; inversion H; subst. exists es'. auto.
  - destruct (gget st k) as [es|] eqn:G.
    + destruct (expectations_call c (md_me md) es args wr w) as [[es' w1] r1].
      intros H; inversion H; subst. exists es'. split; auto.
      destruct (slot_get_put (SGeneric st) k k es') as [A _]. simpl in A. split; auto.
      intros k'. destruct (slot_get_put (SGeneric st) k k' es') as [_ B]. simpl in *.
      rewrite G in B. auto.
    + intros H; inversion H; subst. exists []. simpl. rewrite G. auto.
Qed.

(** ** How an operation can change the expectations *)
Inductive change (c : cfg) (y y' : sys V U) (chain : list (setter V U)) (r : res (option V)) : Prop :=
| CQuiet :
    (forall p e, at_place y' p = Some e -> at_place y p = Some e) ->
    y_seqs y' = y_seqs y -> w_levels (y_world y') = w_levels (y_world y) ->
    (forall v, r <> Ret (Some v)) -> change c y y' chain r
| CExpect me kd th e1 r1 p1 :
    apply_setters c th chain (expectation_default c me kd) (y_seqs y) = (e1, y_seqs y', r1) ->
    (forall p e, at_place y' p = Some e -> at_place y p = Some e \/ e = e1) ->
    at_place y' p1 = Some e1 ->
    (forall p e, at_place y p = Some e -> at_place y' p = Some e) ->
    w_levels (y_world y') = w_levels (y_world y) ->
    (forall v, r <> Ret (Some v)) -> change c y y' chain r
| CCall me es args wr es' r1 :
    expectations_call c me es args wr (y_world y) = (es', y_world y', r1) ->
    (forall v, r = Ret (Some v) -> r1 = Ret (Some v)) ->
    (forall p, at_place y' p = at_place y p \/
               exists n, at_place y p = nth_error es n /\ at_place y' p = nth_error es' n) ->
    (forall n, exists p, at_place y p = nth_error es n /\ at_place y' p = nth_error es' n) ->
    y_seqs y' = y_seqs y -> change c y y' chain r.

Lemma slot_clear_get s k : slot_get (slot_clear s) k = [].
Proof. destruct s; reflexivity. Qed.

Lemma nth_error_nil {A} (n : nat) : nth_error (@nil A) n = None.
Proof. destruct n; reflexivity. Qed.

Lemma object_checkpoint_get c sh : forall (ob : object V U) b ob' r,
  object_checkpoint c sh ob b = (ob', r) ->
  forall m f', nth_error ob' m = Some f' -> exists f, nth_error ob m = Some f /\
    forall k, slot_get (f_slot f') k = slot_get (f_slot f) k \/ slot_get (f_slot f') k = [].
Proof.
  induction ob as [|f ob IH]; intros b ob' r H m f' N; cbn [object_checkpoint] in H.
  - inversion H; subst. destruct m; discriminate.
  - unfold slot_checkpoint in H.
    destruct (slot_drop c (f_decl f) sh (f_slot f) b) as [[]|msg|].
    + destruct (object_checkpoint c sh ob b) as [ob2 r2] eqn:E. inversion H; subst.
      destruct m as [|m]; simpl in *.
      * inversion N; subst. exists f. split; auto. intros k. right. apply slot_clear_get.
      * eapply IH; eauto.
    + inversion H; subst. destruct m as [|m]; simpl in *.
      * inversion N; subst. exists f. split; auto. intros k. right. apply slot_clear_get.
      * exists f'. auto.
    + inversion H; subst. destruct m as [|m]; simpl in *.
      * inversion N; subst. exists f. split; auto. intros k. right. apply slot_clear_get.
      * exists f'. auto.
Qed.

Lemma static_checkpoint_get c md sh (sm : smutex V U) b sm' r :
  static_checkpoint c md sh sm b = (sm', r) ->
  forall k, slot_get (sm_slot sm') k = slot_get (sm_slot sm) k \/ slot_get (sm_slot sm') k = [].
Proof.
  unfold static_checkpoint. destruct (sm_poison sm); intros H; inversion H; subst; intros k; auto.
  right. apply slot_clear_get.
Qed.

Lemma context_drop_get c md sh (sm : smutex V U) b sm' r :
  context_drop c md sh sm b = (sm', r) ->
  forall k, slot_get (sm_slot sm') k = slot_get (sm_slot sm) k \/ slot_get (sm_slot sm') k = [].
Proof.
  unfold context_drop. destruct b; intros H.
  - inversion H; subst. intros k. right. apply slot_clear_get.
  - eapply static_checkpoint_get; eauto.
Qed.

Lemma module_checkpoint_get c sh : forall (ss : statics V U) b ss' r,
  module_checkpoint c sh ss b = (ss', r) ->
  forall i p', nth_error ss' i = Some p' -> exists p, nth_error ss i = Some p /\ fst p' = fst p /\
    forall k, slot_get (sm_slot (snd p')) k = slot_get (sm_slot (snd p)) k \/ slot_get (sm_slot (snd p')) k = [].
Proof.
  induction ss as [|[md sm] ss IH]; intros b ss' r H i p' N; cbn [module_checkpoint] in H.
  - inversion H; subst. destruct i; discriminate.
  - destruct (static_checkpoint c md sh sm b) as [sm' r1] eqn:E.
    pose proof (static_checkpoint_get _ _ _ _ _ _ _ E) as G.
    destruct r1 as [[]|msg|].
    + destruct (module_checkpoint c sh ss b) as [ss2 r2] eqn:M. inversion H; subst.
      destruct i as [|i]; simpl in *; [inversion N; subst; exists (md, sm); auto|eapply IH; eauto].
    + inversion H; subst. destruct i as [|i]; simpl in *; [inversion N; subst; exists (md, sm); auto|eauto].
    + inversion H; subst. destruct i as [|i]; simpl in *; [inversion N; subst; exists (md, sm); auto|eauto].
Qed.

Lemma set_nth_nth {A} (l : list A) i x j :
  nth_error (set_nth l i x) j = if Nat.eqb i j then match nth_error l j with Some _ => Some x | None => None end
                                else nth_error l j.
Proof.
  revert i j; induction l as [|a l IH]; intros [|i] [|j]; simpl; auto.
  - destruct (Nat.eqb i j); auto.
Qed.

Lemma slot_expect_get c md s k th l t s' t' r :
  slot_expect c md s k th l t = (s', t', r) ->
  exists e, apply_setters c th l (expectation_default c (md_me md) (md_kind md)) t = (e, t', r) /\
    slot_get s' k = slot_get s k ++ [e] /\
    forall k', (slot_get s' k' = slot_get s k ++ [e] /\ slot_get s k' = slot_get s k) \/ slot_get s' k' = slot_get s k'.
Proof.
  unfold slot_expect. destruct (apply_setters _ _ _ _ _) as [[e t1] r1] eqn:A.
  intros H; inversion H; subst. exists e. split; auto.
  split; [apply (proj1 (slot_get_put s k k _))|].
  intros k'. apply (proj2 (slot_get_put s k k' _)).
Qed.

Lemma nth_app_last {A} (l : list A) x n (e : A) :
  nth_error (l ++ [x]) n = Some e -> nth_error l n = Some e \/ e = x.
Proof.
  intros H. destruct (Nat.lt_ge_cases n (List.length l)) as [L|L].
  - rewrite nth_error_app1 in H by auto. auto.
  - rewrite nth_error_app2 in H by auto. destruct (n - List.length l)%nat as [|m]; simpl in H.
    + inversion H; auto.
    + destruct m; discriminate.
Qed.

Lemma nth_app_left {A} (l : list A) x n (e : A) :
  nth_error l n = Some e -> nth_error (l ++ [x]) n = Some e.
Proof.
  intros H. rewrite nth_error_app1; auto. apply nth_error_Some. congruence.
Qed.

Lemma step_change c sh y o y' r :
  step c sh y o = (y', r) -> change c y y' (op_chain o) r.
Proof.
  intros H. destruct o as [sd|i m k l|i m k args wr|i|i|s k l|s k args|s|s| |t|b|f]; cbn [step op_chain] in *.
  - (* new *)
    inversion H; subst. apply CQuiet; simpl; auto; try discriminate.
    intros [o m k n|s k n] e; simpl; auto. intros A.
    destruct (nth_error (y_objs y ++ [object_new sd]) o) as [ob|] eqn:N; [|discriminate].
    apply nth_app_last in N. destruct N as [N|N].
    + rewrite N. exact A.
    + subst ob. unfold object_new in A. rewrite nth_error_map in A.
      destruct (nth_error (struct_fields sd) m) as [md|]; simpl in A; [|discriminate].
      unfold slot_new in A. destruct (md_generic md); simpl in A; rewrite nth_error_nil in A; discriminate.
  - (* expect *)
    destruct (nth_error (y_objs y) i) as [ob|] eqn:N1.
    2:{ inversion H; subst. apply CQuiet; auto. discriminate. }
    destruct (nth_error ob m) as [f|] eqn:N2.
    2:{ inversion H; subst. apply CQuiet; auto. discriminate. }
    destruct (slot_expect c (f_decl f) (f_slot f) k (w_thread (y_world y)) l (y_seqs y)) as [[s' t'] r1] eqn:E.
    apply slot_expect_get in E. destruct E as (e & E1 & E2 & E3).
    inversion H; subst.
    apply (CExpect c y _ _ _ (md_me (f_decl f)) (md_kind (f_decl f)) (w_thread (y_world y)) e r1
             (PObj i m k (List.length (slot_get (f_slot f) k)))); simpl; auto.
    + intros [o m' k' n|s0 k' n] e0; simpl; auto. rewrite set_nth_nth.
      destruct (Nat.eqb_spec i o); auto. subst o. rewrite N1. rewrite set_nth_nth.
      destruct (Nat.eqb_spec m m'); auto. subst m'. rewrite N2. simpl.
      destruct (E3 k') as [[Q1 Q2]|Q]; [|rewrite Q; auto].
      rewrite Q1, Q2. apply nth_app_last.
    + rewrite set_nth_nth, Nat.eqb_refl, N1, set_nth_nth, Nat.eqb_refl, N2. simpl. rewrite E2.
      rewrite nth_error_app2 by lia. rewrite Nat.sub_diag. reflexivity.
    + intros [o m' k' n|s0 k' n] e0; simpl; auto. rewrite set_nth_nth.
      destruct (Nat.eqb_spec i o); auto. subst o. rewrite N1. rewrite set_nth_nth.
      destruct (Nat.eqb_spec m m'); auto. subst m'. rewrite N2. simpl.
      destruct (E3 k') as [[Q1 Q2]|Q]; [|rewrite Q; auto].
      rewrite Q1, Q2. apply nth_app_left.
    + intros v. destruct r1; discriminate.
  - (* call *)
    destruct (nth_error (y_objs y) i) as [ob|] eqn:N1.
    2:{ inversion H; subst. apply CQuiet; auto. discriminate. }
    destruct (nth_error ob m) as [f|] eqn:N2.
    2:{ inversion H; subst. apply CQuiet; auto. discriminate. }
    unfold field_call in H.
    destruct (slot_call c (f_decl f) (f_slot f) k args wr (y_world y)) as [[s' w'] r1] eqn:E.
    apply slot_call_get in E. destruct E as (es' & E1 & E2 & E3).
    inversion H; subst.
    apply (CCall c y _ _ _ (md_me (f_decl f)) (slot_get (f_slot f) k) args wr (slot_get s' k) r1); simpl; auto.
    + intros v. destruct r1 as [[v1|]|msg|]; simpl; intros Q; inversion Q; auto.
    + intros [o m' k' n|s0 k' n]; simpl; auto. rewrite set_nth_nth.
      destruct (Nat.eqb_spec i o); auto. subst o. rewrite N1. rewrite set_nth_nth.
      destruct (Nat.eqb_spec m m'); auto. subst m'. rewrite N2. simpl.
      destruct (E3 k') as [[Q1 Q2]|Q]; [|rewrite Q; auto].
      right. exists n. rewrite Q1, Q2. auto.
    + intros n. exists (PObj i m k n). simpl. rewrite N1, N2.
      rewrite set_nth_nth, Nat.eqb_refl, N1, set_nth_nth, Nat.eqb_refl, N2. auto.
  - (* checkpoint *)
    destruct (nth_error (y_objs y) i) as [ob|] eqn:N1.
    2:{ inversion H; subst. apply CQuiet; auto. discriminate. }
    destruct (object_checkpoint c sh ob (w_panicking (y_world y))) as [ob' r1] eqn:E.
    inversion H; subst. apply CQuiet; simpl; auto.
    + intros [o m k n|s0 k n] e; simpl; auto. rewrite set_nth_nth.
      destruct (Nat.eqb_spec i o); auto. subst o. rewrite N1.
      destruct (nth_error ob' m) as [f'|] eqn:N2; [|discriminate].
      destruct (object_checkpoint_get _ _ _ _ _ _ E _ _ N2) as (f & N3 & G). rewrite N3.
      destruct (G k) as [Q|Q]; rewrite Q; auto. rewrite nth_error_nil. discriminate.
    + intros v. destruct r1; discriminate.
  - (* drop *)
    destruct (nth_error (y_objs y) i) as [ob|] eqn:N1.
    2:{ inversion H; subst. apply CQuiet; auto. discriminate. }
    inversion H; subst. apply CQuiet; simpl; auto.
    + intros [o m k n|s0 k n] e; simpl; auto. rewrite set_nth_nth.
      destruct (Nat.eqb_spec i o); auto. subst o. rewrite N1. rewrite nth_error_nil. discriminate.
    + intros v. destruct (object_drop _ _ _ _); discriminate.
  - (* context expect *)
    destruct (nth_error (y_stats y) s) as [[md sm]|] eqn:N1.
    2:{ inversion H; subst. apply CQuiet; auto. discriminate. }
    unfold context_expect in H. destruct (sm_poison sm) eqn:P.
    { inversion H; subst. apply CQuiet; simpl; auto; try discriminate.
      intros [o m k' n|s0 k' n] e0; simpl; auto. rewrite set_nth_nth.
      destruct (Nat.eqb_spec s s0); auto. subst s0. rewrite N1. auto. }
    destruct (slot_expect c md (sm_slot sm) k (w_thread (y_world y)) l (y_seqs y)) as [[s' t'] r1] eqn:E.
    apply slot_expect_get in E. destruct E as (e & E1 & E2 & E3).
    assert (X : exists b, y' = Sys (y_world y) t' (y_objs y) (set_nth (y_stats y) s (md, SMutex b s'))
                  /\ forall v, r <> Ret (Some v)).
    { destruct r1 as [[]|msg|]; inversion H; subst; eexists; (split; [reflexivity|discriminate]). }
    destruct X as (b & -> & NR).
    apply (CExpect c y _ _ _ (md_me md) (md_kind md) (w_thread (y_world y)) e r1
             (PStat s k (List.length (slot_get (sm_slot sm) k)))); simpl; auto.
    + intros [o m' k' n|s0 k' n] e0; simpl; auto. rewrite set_nth_nth.
      destruct (Nat.eqb_spec s s0); auto. subst s0. rewrite N1. simpl.
      destruct (E3 k') as [[Q1 Q2]|Q]; [|rewrite Q; auto].
      rewrite Q1, Q2. apply nth_app_last.
    + rewrite set_nth_nth, Nat.eqb_refl, N1. simpl. rewrite E2.
      rewrite nth_error_app2 by lia. rewrite Nat.sub_diag. reflexivity.
    + intros [o m' k' n|s0 k' n] e0; simpl; auto. rewrite set_nth_nth.
      destruct (Nat.eqb_spec s s0); auto. subst s0. rewrite N1. simpl.
      destruct (E3 k') as [[Q1 Q2]|Q]; [|rewrite Q; auto].
      rewrite Q1, Q2. apply nth_app_left.
  - (* static call *)
    destruct (nth_error (y_stats y) s) as [[md sm]|] eqn:N1.
    2:{ inversion H; subst. apply CQuiet; auto. discriminate. }
    unfold static_call in H. destruct (sm_poison sm) eqn:P.
    { inversion H; subst. apply CQuiet; simpl; auto; try discriminate.
      intros [o m k' n|s0 k' n] e0; simpl; auto. rewrite set_nth_nth.
      destruct (Nat.eqb_spec s s0); auto. subst s0. rewrite N1. auto. }
    destruct (slot_call c md (sm_slot sm) k args (fun v => v) (y_world y)) as [[s' w'] r1] eqn:E.
    apply slot_call_get in E. destruct E as (es' & E1 & E2 & E3).
    assert (X : exists b, y' = Sys w' (y_seqs y) (y_objs y) (set_nth (y_stats y) s (md, SMutex b s'))
                  /\ forall v, r = Ret (Some v) -> r1 = Ret (Some v)).
    { destruct r1 as [[v1|]|msg|]; inversion H; subst; eexists; (split; [reflexivity|]);
        intros v Q; simpl in Q; inversion Q; auto. }
    destruct X as (b & -> & NR).
    apply (CCall c y _ _ _ (md_me md) (slot_get (sm_slot sm) k) args (fun v => v) (slot_get s' k) r1); simpl; auto.
    + rewrite E2. auto.
    + intros [o m' k' n|s0 k' n]; simpl; auto. rewrite set_nth_nth.
      destruct (Nat.eqb_spec s s0); auto. subst s0. rewrite N1. simpl.
      destruct (E3 k') as [[Q1 Q2]|Q]; [|rewrite Q; auto].
      right. exists n. rewrite Q1, Q2, E2. auto.
    + intros n. exists (PStat s k n). simpl. rewrite N1.
      rewrite set_nth_nth, Nat.eqb_refl, N1. auto.
  - (* context checkpoint *)
    destruct (nth_error (y_stats y) s) as [[md sm]|] eqn:N1.
    2:{ inversion H; subst. apply CQuiet; auto. discriminate. }
    destruct (static_checkpoint c md sh sm (w_panicking (y_world y))) as [sm' r1] eqn:E.
    inversion H; subst. apply CQuiet; simpl; auto.
    + intros [o m k n|s0 k n] e; simpl; auto. rewrite set_nth_nth.
      destruct (Nat.eqb_spec s s0); auto. subst s0. rewrite N1. simpl.
      destruct (static_checkpoint_get _ _ _ _ _ _ _ E k) as [Q|Q]; rewrite Q; auto.
      rewrite nth_error_nil. discriminate.
    + intros v. destruct r1; discriminate.
  - (* context drop *)
    destruct (nth_error (y_stats y) s) as [[md sm]|] eqn:N1.
    2:{ inversion H; subst. apply CQuiet; auto. discriminate. }
    destruct (context_drop c md sh sm (w_panicking (y_world y))) as [sm' r1] eqn:E.
    inversion H; subst. apply CQuiet; simpl; auto.
    + intros [o m k n|s0 k n] e; simpl; auto. rewrite set_nth_nth.
      destruct (Nat.eqb_spec s s0); auto. subst s0. rewrite N1. simpl.
      destruct (context_drop_get _ _ _ _ _ _ _ E k) as [Q|Q]; rewrite Q; auto.
      rewrite nth_error_nil. discriminate.
    + intros v. destruct r1; discriminate.
  - (* module checkpoint *)
    destruct (module_checkpoint c sh (y_stats y) (w_panicking (y_world y))) as [ss r1] eqn:E.
    inversion H; subst. apply CQuiet; simpl; auto.
    + intros [o m k n|s0 k n] e; simpl; auto.
      destruct (nth_error ss s0) as [p'|] eqn:N; [|discriminate].
      destruct (module_checkpoint_get _ _ _ _ _ _ E _ _ N) as (p & N2 & _ & G). rewrite N2.
      destruct (G k) as [Q|Q]; rewrite Q; auto. rewrite nth_error_nil. discriminate.
    + intros v. destruct r1; discriminate.
  - inversion H; subst. apply CQuiet; auto. discriminate.
  - inversion H; subst. apply CQuiet; auto. discriminate.
  - inversion H; subst. apply CQuiet; auto. discriminate.
Qed.

Lemma run_snoc c sh : forall l y o,
  run c sh y (l ++ [o]) =
  let (y1, rs) := run c sh y l in let (y2, r) := step c sh y1 o in (y2, rs ++ [r]).
Proof.
  induction l as [|o' l IH]; intros y o; cbn [run app].
  - destruct (step c sh y o); reflexivity.
  - destruct (step c sh y o') as [y1 r1]. rewrite IH.
    destruct (run c sh y1 l) as [y2 rs]. destruct (step c sh y2 o). reflexivity.
Qed.

Lemma after_snoc c sh y l o : after c sh y (l ++ [o]) = fst (step c sh (after c sh y l) o).
Proof.
  unfold after. rewrite run_snoc. destruct (run c sh y l) as [y1 rs]. simpl.
  destruct (step c sh y1 o); reflexivity.
Qed.

End P.
