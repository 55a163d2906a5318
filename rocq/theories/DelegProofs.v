(** * DelegProofs: the user's state moves only by the user's code *)

From Coq Require Import NArith List Bool String Lia.
From Verif Require Import Base Times Expect Mock DelegSpec.
Import ListNotations.
Open Scope N_scope.

Section Along.
Context {V U : Type} (R : U -> U -> Prop).
Context (refl : forall u, R u u) (trans : forall a b d, R a b -> R b d -> R a d).
Notation along := (along R).

Definition matcher_ok (m : matcher V U) : Prop :=
  match m with
  | MtAlways => True
  | MtFunc f | MtFuncSt _ f => along f
  | MtPred ps => forall p, In p ps -> along (snd p)
  end.
Definition action_ok (a : action V U) : Prop :=
  match a with
  | AStatic (SMut f) _ | AStatic (SMutSt _ f) _ | AStatic (SOnce f) _ | AStatic (SOnceSt _ f) _ => along f
  | AMut (XMut f _) | AMut (XMutSt _ f _) => along f
  | _ => True
  end.
Definition exp_ok (e : expectation V U) : Prop := matcher_ok (c_matcher (e_common e)) /\ action_ok (e_action e).
Definition slot_ok (s : slot V U) : Prop :=
  match s with
  | SPlain es => Forall exp_ok es
  | SGeneric st => Forall (fun x => Forall exp_ok (snd x)) st
  end.
Definition sys_ok (y : sys V U) : Prop :=
  Forall (Forall (fun f => slot_ok (f_slot f))) (y_objs y) /\ Forall (fun x => slot_ok (sm_slot (snd x))) (y_stats y).

Lemma eval_along ps : forall (args : list V) u, (forall p, In p ps -> along (snd p)) ->
  R u (fst (eval_preds ps args u)).
Proof.
  induction ps as [|p ps IH]; intros [|a args] u H; cbn; auto.
  pose proof (H p (or_introl eq_refl) a u) as A. destruct (snd p a u) as [u1 [b|m|]]; cbn in *; auto.
  specialize (IH args u1 (fun q I0 => H q (or_intror I0))).
  destruct (eval_preds ps args u1) as [u2 [bs|m|]]; cbn in *; eauto.
Qed.

Lemma matches_along m args w : matcher_ok m -> R (w_user w) (w_user (fst (@matcher_matches V U m args w))).
Proof.
  destruct m as [|f|ow f|ps]; cbn; intros H; auto.
  - specialize (H args (w_user w)). destruct (f args (w_user w)). exact H.
  - destruct (Nat.eqb ow (w_thread w)); [|cbn; auto]. specialize (H args (w_user w)). destruct (f args (w_user w)). exact H.
  - pose proof (eval_along ps args (w_user w) H) as A. destruct (eval_preds ps args (w_user w)). exact A.
Qed.

Lemma common_matches_along (k : common V U) args w k' w' r :
  matcher_ok (c_matcher k) -> common_matches k args w = (k', w', r) ->
  c_matcher k' = c_matcher k /\ R (w_user w) (w_user w').
Proof.
  unfold common_matches. intros H E. destruct (c_mpoison k); [inversion E; subst; auto|].
  pose proof (matches_along _ args w H) as A. destruct (matcher_matches (c_matcher k) args w) as [w1 r1].
  destruct r1; inversion E; subst; auto.
Qed.

Lemma common_call_along c me (k : common V U) d w k' w' r :
  common_call c me k d w = (k', w', r) -> c_matcher k' = c_matcher k /\ w_user w' = w_user w.
Proof.
  unfold common_call, satisfy_sequence. intros E. destruct (times_call c (c_times k)) as [t [[u|e]|m|]].
  1: destruct (verify_sequence _ _ _) as [x|m|];
       [destruct (times_is_satisfied t); cbn in E; destruct (c_seq k) as [h|]; try destruct (handle_satisfy _ _ _)| |].
  all: inversion E; subst; auto.
Qed.

Lemma find_along c one args : forall es w es' w' r,
  Forall exp_ok es -> @find_exp V U c one es args w = (es', w', r) ->
  Forall exp_ok es' /\ R (w_user w) (w_user w').
Proof.
  induction es as [|e es IH]; intros w es' w' r H E; cbn in E; [inversion E; subst; auto|].
  inversion H as [|? ? [H1 H1'] H2]; subst.
  destruct (common_matches (e_common e) args w) as [[k w1] r1] eqn:M.
  destruct (common_matches_along _ _ _ _ _ _ H1 M) as [K1 A1].
  assert (OK1 : exp_ok (set_common e k)) by (split; [cbn; rewrite K1; exact H1|exact H1']).
  destruct (find_exp c one es args w1) as [[es2 w2] r2] eqn:F. destruct (IH _ _ _ _ H2 F) as [H3 A3].
  destruct r1 as [[]|m|].
  - destruct (common_is_done c k) as [d|m|]; [destruct (negb d || one)%bool| |]; inversion E; subst; split; eauto.
  - inversion E; subst; split; eauto.
  - inversion E; subst; split; eauto.
  - inversion E; subst; split; eauto.
Qed.

Lemma srfunc_along c (me : method V) rf b args w rf' w' r :
  action_ok (AStatic rf b) -> @srfunc_call V U c me rf args w = (rf', w', r) ->
  (forall b', action_ok (AStatic rf' b')) /\ R (w_user w) (w_user w').
Proof.
  intros H E. destruct rf as [| |f|ow f|f|ow f]; cbn in *; unfold run_user in E;
    try destruct (Nat.eqb ow (w_thread w)); try (inversion E; subst; cbn; auto; fail);
    specialize (H args (w_user w)) as A; destruct (f args (w_user w)) as [u q]; inversion E; subst; cbn in *; auto.
Qed.

Lemma mrfunc_along c rf args wr w rf' w' r :
  action_ok (AMut rf) -> @mrfunc_call V U c rf args wr w = (rf', w', r) ->
  action_ok (AMut rf') /\ R (w_user w) (w_user w').
Proof.
  intros H E. destruct rf as [[v|]|f o|ow f o|v]; cbn in *;
    try destruct (Nat.eqb ow (w_thread w)); try (inversion E; subst; cbn; auto; fail);
    specialize (H args (w_user w)) as A; destruct (f args (w_user w)) as [u [q|q|]]; inversion E; subst; cbn in *; auto.
Qed.

Lemma expectation_along c me e args wr w e' w' r :
  exp_ok e -> @expectation_call V U c me e args wr w = (e', w', r) ->
  exp_ok e' /\ R (w_user w) (w_user w').
Proof.
  unfold expectation_call. intros [H1 H2] E.
  destruct (common_call c me (e_common e) (call_desc me args) w) as [[k w1] r1] eqn:C.
  destruct (common_call_along _ _ _ _ _ _ _ _ C) as [K W]. destruct r1 as [x|m|].
  2,3: inversion E; subst; cbn; rewrite W; split; [split; cbn; [rewrite K|]; assumption|auto].
  destruct (e_action e) as [rf b|rf|rf] eqn:EA.
  - unfold static_ret in E. destruct b; [inversion E; subst; rewrite W; split; [split; cbn; [rewrite K|]; auto|auto]|].
    destruct (srfunc_call c me rf args w1) as [[rf' w2] q] eqn:S. destruct (srfunc_along _ _ _ _ _ _ _ _ _ H2 S) as [A B].
    rewrite W in B.
    destruct (let? x := q in unwrap_rf me k x); inversion E; subst; (split; [split; cbn; [rewrite K; auto|exact (A false)]|exact B]).
  - inversion E; subst. rewrite W. split; [split; cbn; [rewrite K|rewrite EA]; auto|auto].
  - unfold mut_ret in E. destruct (show_locked k) as [s|m|].
    + destruct (mrfunc_call c rf args wr w1) as [[rf' w2] q] eqn:S. destruct (mrfunc_along _ _ _ _ _ _ _ _ H2 S) as [A B].
      rewrite W in B. inversion E; subst. split; [split; cbn; [rewrite K; auto|exact A]|exact B].
    + inversion E; subst. rewrite W. split; [split; cbn; [rewrite K|]; auto|auto].
    + inversion E; subst. rewrite W. split; [split; cbn; [rewrite K|]; auto|auto].
Qed.

Lemma forall_set {A} (P : A -> Prop) l : forall i x, Forall P l -> P x -> Forall P (set_nth l i x).
Proof. induction l as [|y l IH]; intros [|i] x H Q; cbn; inversion H; subst; constructor; auto. Qed.
Lemma forall_nth {A} (P : A -> Prop) l i x : Forall P l -> nth_error l i = Some x -> P x.
Proof. rewrite Forall_forall. intros H N. apply H. eapply nth_error_In. exact N. Qed.

Lemma exps_along c me es args wr w es' w' r :
  Forall exp_ok es -> @expectations_call V U c me es args wr w = (es', w', r) ->
  Forall exp_ok es' /\ R (w_user w) (w_user w').
Proof.
  unfold expectations_call. intros H E. destruct (find_exp c _ es args w) as [[es1 w1] r1] eqn:F.
  destruct (find_along _ _ _ _ _ _ _ _ H F) as [H1 A1]. destruct r1 as [[i|]|m|]; try (inversion E; subst; auto; fail).
  destruct (nth_error es1 i) as [e|] eqn:N; [|inversion E; subst; auto].
  destruct (expectation_call c me e args wr w1) as [[e' w2] r2] eqn:C.
  destruct (expectation_along _ _ _ _ _ _ _ _ _ (forall_nth _ _ _ _ H1 N) C) as [H2 A2].
  inversion E; subst. split; [apply forall_set; auto|eauto].
Qed.

Lemma gget_ok st k es : Forall (fun x => Forall exp_ok (snd x)) st -> gget st k = Some es -> Forall exp_ok es.
Proof.
  induction st as [|[k' es'] st IH]; cbn; [discriminate|]. intros H. inversion H; subst.
  destruct (Nat.eqb k' k); [intros [= <-]; auto|auto].
Qed.
Lemma gput_ok st k es : Forall (fun x => Forall exp_ok (snd x)) st -> Forall exp_ok es ->
  Forall (fun x => Forall exp_ok (snd x)) (gput st k es).
Proof.
  intros H Q. induction st as [|[k' es'] st IH]; cbn; [constructor; auto|]. inversion H; subst.
  destruct (Nat.eqb k' k); constructor; auto.
Qed.

Lemma slot_along c md s k args wr w s' w' r :
  slot_ok s -> @slot_call V U c md s k args wr w = (s', w', r) ->
  slot_ok s' /\ R (w_user w) (w_user w').
Proof.
  destruct s as [es|st]; cbn; intros H E.
  - destruct (expectations_call c (md_me md) es args wr w) as [[es' w1] r1] eqn:C. inversion E; subst.
    exact (exps_along _ _ _ _ _ _ _ _ _ H C).
  - destruct (gget st k) as [es|] eqn:G; [|inversion E; subst; auto].
    destruct (expectations_call c (md_me md) es args wr w) as [[es' w1] r1] eqn:C. inversion E; subst.
    destruct (exps_along _ _ _ _ _ _ _ _ _ (gget_ok _ _ _ H G) C) as [A B]. split; [apply gput_ok; auto|exact B].
Qed.

Lemma const_along v : along (@const_fn V U v).
Proof. intros a u. cbn. auto. Qed.

Lemma setter_ok c th st e t e' t' r :
  exp_ok e -> setter_along R st -> @apply_setter V U c th st e t = (e', t', r) -> exp_ok e'.
Proof.
  intros [H1 H2] S E.
  destruct st; cbn in *;
    repeat match type of E with
    | context [common_in_sequence ?a ?b ?d] =>
        let Q := fresh in destruct (common_in_sequence a b d) as [[? ?] ?] eqn:Q; unfold common_in_sequence in Q;
        destruct (times_is_exact _ _) as [[]|?|]; try destruct (next_handle _ _) as [? [?|?|]]; inversion Q; subst
    | context [common_times ?a ?b ?d] =>
        let Q := fresh in destruct (common_times a b d) as [? ?] eqn:Q; unfold common_times in Q;
        destruct (times_times _ _ _); inversion Q; subst
    end.
  all: try (inversion E; subst; split; cbn; auto; fail).
  1-3: unfold common_set_matcher in E; destruct (c_mpoison (e_common e)); inversion E; subst; split; cbn; auto.
  all: unfold set_srfunc, set_mrfunc in E; destruct (e_action e) as [? []| |] eqn:EA; inversion E; subst;
    split; cbn; rewrite ?EA; auto using const_along.
Qed.

Lemma setters_ok c th l : forall e t e' t' r,
  exp_ok e -> (forall st, In st l -> setter_along R st) -> @apply_setters V U c th l e t = (e', t', r) -> exp_ok e'.
Proof.
  induction l as [|st l IH]; intros e t e' t' r H S E; cbn in E; [inversion E; subst; auto|].
  destruct (apply_setter c th st e t) as [[e1 t1] r1] eqn:A.
  pose proof (setter_ok _ _ _ _ _ _ _ _ H (S st (or_introl eq_refl)) A) as H1.
  destruct r1; [eapply IH; [exact H1| |exact E]; intros; apply S; right; auto|inversion E; subst; auto|inversion E; subst; auto].
Qed.

Lemma default_ok c (me : method V) kd : exp_ok (expectation_default c me kd).
Proof. split; [exact I|]. destruct kd; exact I. Qed.

Lemma expect_ok c md s k th l t s' t' r :
  slot_ok s -> (forall st, In st l -> setter_along R st) -> @slot_expect V U c md s k th l t = (s', t', r) -> slot_ok s'.
Proof.
  unfold slot_expect. intros H S E. destruct (apply_setters c th l _ t) as [[e t1] r1] eqn:A. inversion E; subst.
  pose proof (setters_ok _ _ _ _ _ _ _ _ (default_ok c (md_me md) (md_kind md)) S A) as OK.
  destruct s as [es|st]; cbn in *.
  - apply Forall_app. auto.
  - apply gput_ok; auto. apply Forall_app. split; auto. destruct (gget st k) eqn:G; [eapply gget_ok; eauto|constructor].
Qed.

Lemma new_ok md : slot_ok (@slot_new V U md).
Proof. unfold slot_new. destruct (md_generic md); constructor. Qed.
Lemma clear_ok (s : slot V U) : slot_ok (slot_clear s).
Proof. destruct s; constructor. Qed.

Lemma object_checkpoint_ok c sh b : forall ob ob' r,
  Forall (fun f => slot_ok (f_slot f)) ob -> @object_checkpoint V U c sh ob b = (ob', r) ->
  Forall (fun f => slot_ok (f_slot f)) ob'.
Proof.
  induction ob as [|f ob IH]; cbn; intros ob' r H E; [inversion E; subst; auto|]. inversion H; subst.
  destruct (slot_drop c (f_decl f) sh (f_slot f) b) as [x|m|];
    [destruct (object_checkpoint c sh ob b) as [o2 r2] eqn:Q|..]; inversion E; subst; constructor; cbn; eauto using clear_ok.
Qed.

Lemma static_checkpoint_ok c md sh sm b sm' r :
  slot_ok (sm_slot sm) -> @static_checkpoint V U c md sh sm b = (sm', r) -> slot_ok (sm_slot sm').
Proof. unfold static_checkpoint. intros H E. destruct (sm_poison sm); inversion E; subst; cbn; auto using clear_ok. Qed.

Lemma module_checkpoint_ok c sh b : forall ss ss' r,
  Forall (fun x => slot_ok (sm_slot (snd x))) ss -> @module_checkpoint V U c sh ss b = (ss', r) ->
  Forall (fun x => slot_ok (sm_slot (snd x))) ss'.
Proof.
  induction ss as [|[md sm] ss IH]; cbn; intros ss' r H E; [inversion E; subst; auto|]. inversion H; subst.
  destruct (static_checkpoint c md sh sm b) as [sm' q] eqn:S. pose proof (static_checkpoint_ok _ _ _ _ _ _ _ H2 S).
  destruct q; [destruct (module_checkpoint c sh ss b) as [s2 r2] eqn:Q|..]; inversion E; subst; constructor; cbn; eauto.
Qed.

Lemma step_along c sh (y : sys V U) o y' r :
  sys_ok y -> op_along R o -> step c sh y o = (y', r) ->
  sys_ok y' /\ R (w_user (y_world y)) (w_user (y_world y'))
  /\ (runs_user_code o = false -> w_user (y_world y') = w_user (y_world y)).
Proof.
  intros [H1 H2] S E. destruct o as [sd|i m k l|i m k args wr|i|i|s k l|s k args|s|s| |t|b|f]; cbn in S, E.
  - inversion E; subst. split; [split; cbn; auto|auto]. apply Forall_app. split; auto. constructor; [|constructor].
    unfold object_new. apply Forall_forall. intros f I0. apply in_map_iff in I0. destruct I0 as (md & <- & _). apply new_ok.
  - destruct (nth_error (y_objs y) i) as [ob|] eqn:N; [|inversion E; subst; split; [split|]; auto].
    destruct (nth_error ob m) as [f|] eqn:N2; [|inversion E; subst; split; [split|]; auto].
    pose proof (forall_nth _ _ _ _ H1 N) as OB. pose proof (forall_nth _ _ _ _ OB N2) as FO. cbn in FO.
    destruct (slot_expect c (f_decl f) (f_slot f) k _ l (y_seqs y)) as [[s' t'] q] eqn:X. inversion E; subst.
    split; [split; cbn; auto|auto]. apply forall_set; auto. apply forall_set; auto. cbn. eapply expect_ok; eauto.
  - destruct (nth_error (y_objs y) i) as [ob|] eqn:N; [|inversion E; subst; split; [split|]; auto].
    destruct (nth_error ob m) as [f|] eqn:N2; [|inversion E; subst; split; [split|]; auto].
    pose proof (forall_nth _ _ _ _ H1 N) as OB. pose proof (forall_nth _ _ _ _ OB N2) as FO. cbn in FO.
    unfold field_call in E. destruct (slot_call c (f_decl f) (f_slot f) k args wr (y_world y)) as [[s' w'] q] eqn:X.
    inversion E; subst. destruct (slot_along _ _ _ _ _ _ _ _ _ _ FO X) as [A B].
    split; [split; cbn; auto|split; [exact B|discriminate]]. apply forall_set; auto. apply forall_set; auto.
  - destruct (nth_error (y_objs y) i) as [ob|] eqn:N; [|inversion E; subst; split; [split|]; auto].
    destruct (object_checkpoint c sh ob (w_panicking (y_world y))) as [ob' q] eqn:X. inversion E; subst.
    split; [split; cbn; auto|auto]. apply forall_set; auto. eapply object_checkpoint_ok; [|exact X]. exact (forall_nth _ _ _ _ H1 N).
  - destruct (nth_error (y_objs y) i) as [ob|] eqn:N; [|inversion E; subst; split; [split|]; auto].
    inversion E; subst. split; [split; cbn; auto|auto]. apply forall_set; auto.
  - destruct (nth_error (y_stats y) s) as [[md sm]|] eqn:N; [|inversion E; subst; split; [split|]; auto].
    pose proof (forall_nth _ _ _ _ H2 N) as SO. cbn in SO.
    unfold context_expect in E. destruct (sm_poison sm).
    + inversion E; subst. split; [split; cbn; auto|auto]. apply forall_set; auto.
    + destruct (slot_expect c md (sm_slot sm) k _ l (y_seqs y)) as [[s' t'] q] eqn:X.
      pose proof (expect_ok _ _ _ _ _ _ _ _ _ _ SO S X) as OK.
      destruct q; inversion E; subst; (split; [split; cbn; auto|auto]); apply forall_set; auto.
  - destruct (nth_error (y_stats y) s) as [[md sm]|] eqn:N; [|inversion E; subst; split; [split|]; auto].
    pose proof (forall_nth _ _ _ _ H2 N) as SO. cbn in SO.
    unfold static_call in E. destruct (sm_poison sm).
    + inversion E; subst. split; [split; cbn; auto|split; [auto|discriminate]]. apply forall_set; auto.
    + destruct (slot_call c md (sm_slot sm) k args (fun v => v) (y_world y)) as [[s' w'] q] eqn:X.
      destruct (slot_along _ _ _ _ _ _ _ _ _ _ SO X) as [A B].
      destruct q as [[v|]|m|]; inversion E; subst; (split; [split; cbn; auto|split; [exact B|discriminate]]); apply forall_set; auto.
  - destruct (nth_error (y_stats y) s) as [[md sm]|] eqn:N; [|inversion E; subst; split; [split|]; auto].
    pose proof (forall_nth _ _ _ _ H2 N) as SO. cbn in SO.
    destruct (static_checkpoint c md sh sm _) as [sm' q] eqn:X. inversion E; subst.
    split; [split; cbn; auto|auto]. apply forall_set; auto. eapply static_checkpoint_ok; eauto.
  - destruct (nth_error (y_stats y) s) as [[md sm]|] eqn:N; [|inversion E; subst; split; [split|]; auto].
    pose proof (forall_nth _ _ _ _ H2 N) as SO. cbn in SO. unfold context_drop in E.
    destruct (w_panicking (y_world y)).
    + inversion E; subst. split; [split; cbn; auto|auto]. apply forall_set; auto. apply clear_ok.
    + destruct (static_checkpoint c md sh sm false) as [sm' q] eqn:X. inversion E; subst.
      split; [split; cbn; auto|auto]. apply forall_set; auto. eapply static_checkpoint_ok; eauto.
  - destruct (module_checkpoint c sh (y_stats y) _) as [ss q] eqn:X. inversion E; subst.
    split; [split; cbn; auto|auto]. eapply module_checkpoint_ok; eauto.
  - inversion E; subst. split; [split|]; auto.
  - inversion E; subst. split; [split|]; auto.
  - inversion E; subst. split; [split; auto|]. split; [cbn; auto|discriminate].
Qed.

Lemma run_along c sh l : forall (y : sys V U) y' rs,
  sys_ok y -> (forall o, In o l -> op_along R o) -> run c sh y l = (y', rs) ->
  sys_ok y' /\ R (w_user (y_world y)) (w_user (y_world y')).
Proof.
  induction l as [|o l IH]; intros y y' rs H S E; cbn in E; [inversion E; subst; auto|].
  destruct (step c sh y o) as [y1 r] eqn:E1. destruct (run c sh y1 l) as [y2 q] eqn:E2. inversion E; subst.
  destruct (step_along _ _ _ _ _ _ H (S o (or_introl eq_refl)) E1) as (A & B & _).
  destruct (IH _ _ _ A (fun x I0 => S x (or_intror I0)) E2) as [D F]. eauto.
Qed.

Lemma init_ok u ds : sys_ok (@init V U u ds).
Proof.
  split; cbn; [constructor|]. apply Forall_forall. intros x I0. apply in_map_iff in I0. destruct I0 as (md & <- & _). apply new_ok.
Qed.
End Along.

(** ** Other mocks *)
Section Deleg.
Context {V W T : Type} (c : cfg) (sh : shuffle W T).

Definition went (s s' : others W T) : Prop :=
  exists d, snd s' = snd s ++ d /\ run c sh (fst s) (map fst d) = (fst s', map snd d).

Lemma run_app (l1 : list (op W T)) : forall y l2,
  run c sh y (l1 ++ l2) = let (y1, r1) := run c sh y l1 in let (y2, r2) := run c sh y1 l2 in (y2, r1 ++ r2).
Proof.
  induction l1 as [|o l1 IH]; intros y l2; cbn; [destruct (run c sh y l2); reflexivity|].
  destruct (step c sh y o) as [y1 r]. rewrite IH. destruct (run c sh y1 l1) as [y2 q]. destruct (run c sh y2 l2). reflexivity.
Qed.

Lemma went_refl s : went s s.
Proof. exists []. rewrite app_nil_r. auto. Qed.
Lemma went_trans a b d : went a b -> went b d -> went a d.
Proof.
  intros (d1 & L1 & R1) (d2 & L2 & R2). exists (d1 ++ d2). split; [rewrite L2, L1, app_assoc; reflexivity|].
  rewrite !map_app, run_app, R1, R2. reflexivity.
Qed.

Lemma perform_went {B} (p : uses W T B) : forall s, went s (fst (perform c sh p s)).
Proof.
  induction p as [r|o k IH]; intros s; cbn; [apply went_refl|].
  destruct (step c sh (fst s) o) as [y r] eqn:E. eapply went_trans; [|apply IH].
  exists [(o, r)]. cbn. rewrite E. auto.
Qed.

Lemma uses_along {A B} (f : ucode (others W T) A B) : uses_others c sh f -> along went f.
Proof. intros (p & E) a s. rewrite E. apply perform_went. Qed.

Lemma op_uses_along (o : op V (others W T)) : op_uses c sh o -> op_along went o.
Proof.
  destruct o; cbn; auto.
  - intros H st I0. specialize (H st I0). destruct st; cbn in *; auto using uses_along.
  - intros H st I0. specialize (H st I0). destruct st; cbn in *; auto using uses_along.
  - intros (p & E) s. rewrite E. apply perform_went.
Qed.
End Deleg.
