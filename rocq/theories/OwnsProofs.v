(** * OwnsProofs: lemmas for C90 *)

From Coq Require Import NArith List Bool Permutation Lia.
From Verif Require Import Base Times Expect Mock Owns OwnsSpec SysSpec.
Import ListNotations.
Open Scope list_scope.

Section OwnsProofs.
Context {V U : Type}.
Notation thing := (thing V U).

(** ** The instrumented functions are the functions *)

Lemma apply_setter_same c th st (e : expectation V U) t e' t' r d :
  apply_setter_o c th st e t = (e', t', r, d) -> apply_setter c th st e t = (e', t', r).
Proof.
  unfold apply_setter_o, apply_setter, set_matcher_o, set_srfunc_o, set_mrfunc_o.
  destruct st; cbn [fst snd]; try (destruct (e_action e) eqn:E; cbn [fst snd]); intros H; inversion H; subst; auto;
    unfold apply_setter in *; rewrite ?E in *; cbn [fst snd] in *; auto.
Qed.

Lemma apply_setters_same c th l : forall (e : expectation V U) t e' t' r d n,
  apply_setters_o c th l e t = (e', t', r, d, n) -> apply_setters c th l e t = (e', t', r).
Proof.
  induction l as [| st l IH]; cbn; intros e t e' t' r d n H.
  - inversion H; auto.
  - destruct (apply_setter_o c th st e t) as [[[e1 t1] r1] d1] eqn:E.
    rewrite (apply_setter_same _ _ _ _ _ _ _ _ _ E).
    destruct r1.
    + destruct (apply_setters_o c th l e1 t1) as [[[[e2 t2] r2] d2] n2] eqn:E2. inversion H; subst. eauto.
    + inversion H; auto.
    + inversion H; auto.
Qed.

Lemma slot_expect_same c md (s : slot V U) k th l t s' t' r d n :
  slot_expect_o c md s k th l t = (s', t', r, d, n) -> slot_expect c md s k th l t = (s', t', r).
Proof.
  unfold slot_expect_o, slot_expect.
  destruct (apply_setters_o c th l (expectation_default c (md_me md) (md_kind md)) t) as [[[[e2 t2] r2] d2] n2] eqn:E.
  rewrite (apply_setters_same _ _ _ _ _ _ _ _ _ _ E). intros H; inversion H; auto.
Qed.

Lemma context_expect_same c md (sm : smutex V U) k l t w s' t' r d n :
  context_expect_o c md sm k l t w = (s', t', r, d, n) -> context_expect c md sm k l t w = (s', t', r).
Proof.
  unfold context_expect_o, context_expect. destruct (sm_poison sm); [intros H; inversion H; auto|].
  destruct (slot_expect_o c md (sm_slot sm) k (w_thread w) l t) as [[[[e2 t2] r2] d2] n2] eqn:E.
  rewrite (slot_expect_same _ _ _ _ _ _ _ _ _ _ _ _ E).
  destruct r2; intros H; inversion H; auto.
Qed.

Lemma static_ret_same c me k (rf : srfunc V U) b args w a w' r d :
  static_ret_o c me k rf b args w = (a, w', r, d) -> static_ret c me k rf b args w = (a, w', r).
Proof.
  unfold static_ret_o, static_ret, srfunc_call_o. destruct b; [intros H; inversion H; auto|].
  destruct (srfunc_call c me rf args w) as [[rf' w1] r1].
  destruct (rbind r1 (unwrap_rf me k)); intros H; inversion H; auto.
Qed.

Lemma expectation_call_same c me (e : expectation V U) args wr w e' w' r d :
  expectation_call_o c me e args wr w = (e', w', r, d) -> expectation_call c me e args wr w = (e', w', r).
Proof.
  unfold expectation_call_o, expectation_call.
  destruct (common_call c me (e_common e) (call_desc me args) w) as [[k w1] r1].
  destruct r1; [|intros H; inversion H; auto..].
  destruct (e_action e) as [rf b | rf | rf].
  - destruct (static_ret_o c me k rf b args w1) as [[[a2 w2] r2] d2] eqn:E.
    rewrite (static_ret_same _ _ _ _ _ _ _ _ _ _ _ E). intros H; inversion H; auto.
  - intros H; inversion H; auto.
  - destruct (mut_ret c me k rf args wr w1) as [[rf' w2] r2]. intros H; inversion H; auto.
Qed.

Lemma expectations_call_same c me (es : list (expectation V U)) args wr w es' w' r d :
  expectations_call_o c me es args wr w = (es', w', r, d) -> expectations_call c me es args wr w = (es', w', r).
Proof.
  unfold expectations_call_o, expectations_call.
  destruct (find_exp c (Nat.eqb (length es) 1) es args w) as [[es1 w1] r1].
  destruct r1 as [[i|]| |]; try (intros H; inversion H; auto; fail).
  destruct (nth_error es1 i) as [e|]; [|intros H; inversion H; auto].
  destruct (expectation_call_o c me e args wr w1) as [[[e2 w2] r2] d2] eqn:E.
  rewrite (expectation_call_same _ _ _ _ _ _ _ _ _ _ E). intros H; inversion H; auto.
Qed.

Lemma slot_call_same c md (s : slot V U) k args wr w s' w' r d :
  slot_call_o c md s k args wr w = (s', w', r, d) -> slot_call c md s k args wr w = (s', w', r).
Proof.
  unfold slot_call_o, slot_call. destruct s as [es | st].
  - destruct (expectations_call_o c (md_me md) es args wr w) as [[[e2 w2] r2] d2] eqn:E.
    rewrite (expectations_call_same _ _ _ _ _ _ _ _ _ _ E). intros H; inversion H; auto.
  - destruct (gget st k) as [es|]; [|intros H; inversion H; auto].
    destruct (expectations_call_o c (md_me md) es args wr w) as [[[e2 w2] r2] d2] eqn:E.
    rewrite (expectations_call_same _ _ _ _ _ _ _ _ _ _ E). intros H; inversion H; auto.
Qed.

Lemma field_call_same c (f : field V U) k args wr w f' w' r d :
  field_call_o c f k args wr w = (f', w', r, d) -> field_call c f k args wr w = (f', w', r).
Proof.
  unfold field_call_o, field_call.
  destruct (slot_call_o c (f_decl f) (f_slot f) k args wr w) as [[[e2 w2] r2] d2] eqn:E.
  rewrite (slot_call_same _ _ _ _ _ _ _ _ _ _ _ E). intros H; inversion H; auto.
Qed.

Lemma static_call_same c md (sm : smutex V U) k args w s' w' r d :
  static_call_o c md sm k args w = (s', w', r, d) -> static_call c md sm k args w = (s', w', r).
Proof.
  unfold static_call_o, static_call. destruct (sm_poison sm); [intros H; inversion H; auto|].
  destruct (slot_call_o c md (sm_slot sm) k args (fun v => v) w) as [[[e2 w2] r2] d2] eqn:E.
  rewrite (slot_call_same _ _ _ _ _ _ _ _ _ _ _ E). destruct r2 as [[v|]| |]; intros H; inversion H; auto.
Qed.

Lemma drop_exps_same c me (es : list (expectation V U)) : forall p,
  fst (glue_o (drop_exp_o c me) es p) = drop_exps c me es p.
Proof.
  induction es as [| e es IH]; intros p; cbn [glue_o drop_exps]; auto.
  unfold drop_exp_o at 1. destruct (common_drop c me (e_common e) p); auto.
  - rewrite <- IH. destruct (glue_o (drop_exp_o c me) es p); auto.
  - rewrite <- IH. destruct (glue_o (drop_exp_o c me) es true) as [[] ?]; auto.
Qed.

Lemma drop_many_same c me (l : list (list (expectation V U))) : forall p,
  fst (glue_o (glue_o (drop_exp_o c me)) l p) = drop_many c me l p.
Proof.
  induction l as [| es l IH]; intros p; cbn [drop_many]; auto.
  rewrite <- drop_exps_same. change (glue_o (glue_o (drop_exp_o c me)) (es :: l) p) with
    (match glue_o (drop_exp_o c me) es p with
      | (Ret _, t) => let (r, t') := glue_o (glue_o (drop_exp_o c me)) l p in (r, t ++ t')
      | (Abort, t) => (Abort, t)
      | (Panic m, t) =>
          match glue_o (glue_o (drop_exp_o c me)) l true with
          | (Ret _, t') => (Panic m, t ++ t')
          | (_, t') => (Abort, t ++ t')
          end
      end).
  destruct (glue_o (drop_exp_o c me) es p) as [[] ?]; cbn [fst]; auto.
  - rewrite <- IH. destruct (glue_o (glue_o (drop_exp_o c me)) l p); auto.
  - rewrite <- IH. destruct (glue_o (glue_o (drop_exp_o c me)) l true) as [[] ?]; auto.
Qed.

Lemma slot_drop_same c md sh (s : slot V U) p : fst (slot_drop_o c md sh s p) = slot_drop c md sh s p.
Proof. destruct s; cbn; [apply drop_exps_same | apply drop_many_same]. Qed.

Lemma object_checkpoint_same c sh (ob : object V U) p : forall ob' r d,
  object_checkpoint_o c sh ob p = (ob', r, d) -> object_checkpoint c sh ob p = (ob', r).
Proof.
  induction ob as [| f ob IH]; cbn [object_checkpoint_o object_checkpoint]; intros ob' r d H.
  - inversion H; auto.
  - unfold slot_checkpoint. rewrite <- slot_drop_same.
    destruct (slot_drop_o c (f_decl f) sh (f_slot f) p) as [[] ?]; cbn [fst].
    + destruct (object_checkpoint_o c sh ob p) as [[o2 r2] d2]. rewrite (IH _ _ _ eq_refl). inversion H; auto.
    + inversion H; auto.
    + inversion H; auto.
Qed.

Lemma object_drop_same c sh (ob : object V U) : forall p,
  fst (object_drop_o c sh ob p) = object_drop c sh ob p.
Proof.
  unfold object_drop_o. induction ob as [| f ob IH]; intros p; cbn [glue_o object_drop]; auto.
  rewrite <- slot_drop_same. destruct (slot_drop_o c (f_decl f) sh (f_slot f) p) as [[] ?]; cbn [fst]; auto.
  - rewrite <- IH. match goal with |- context [glue_o ?d ob p] => destruct (glue_o d ob p) end; auto.
  - rewrite <- IH. match goal with |- context [glue_o ?d ob true] => destruct (glue_o d ob true) as [[] ?] end; auto.
Qed.

Lemma static_checkpoint_same c md sh (sm : smutex V U) p : forall sm' r d,
  static_checkpoint_o c md sh sm p = (sm', r, d) -> static_checkpoint c md sh sm p = (sm', r).
Proof.
  unfold static_checkpoint_o, static_checkpoint. intros sm' r d. rewrite <- slot_drop_same.
  destruct (sm_poison sm); [|destruct (slot_drop_o c md sh (sm_slot sm) p)]; intros H; inversion H; auto.
Qed.

Lemma context_drop_same c md sh (sm : smutex V U) p : forall sm' r d,
  context_drop_o c md sh sm p = (sm', r, d) -> context_drop c md sh sm p = (sm', r).
Proof.
  unfold context_drop_o, context_drop. intros sm' r d. destruct p.
  - rewrite <- slot_drop_same. destruct (slot_drop_o c md sh (sm_slot sm) true); intros H; inversion H; auto.
  - apply static_checkpoint_same.
Qed.

Lemma module_checkpoint_same c sh (ss : statics V U) p : forall ss' r d,
  module_checkpoint_o c sh ss p = (ss', r, d) -> module_checkpoint c sh ss p = (ss', r).
Proof.
  induction ss as [| [md sm] ss IH]; cbn [module_checkpoint_o module_checkpoint]; intros ss' r d H.
  - inversion H; auto.
  - destruct (static_checkpoint_o c md sh sm p) as [[sm2 r2] d2] eqn:E.
    rewrite (static_checkpoint_same _ _ _ _ _ _ _ _ E).
    destruct r2; [|inversion H; auto..].
    destruct (module_checkpoint_o c sh ss p) as [[o3 r3] d3]. rewrite (IH _ _ _ eq_refl). inversion H; auto.
Qed.

Lemma step_same c sh (y : sys V U) o y' r e : step_o c sh y o = (y', r, e) -> step c sh y o = (y', r).
Proof.
  destruct o; cbn [step_o]; try (intros H; inversion H; auto; fail); cbn [step].
  - destruct (nth_error (y_objs y) o) as [ob|]; [|intros H; inversion H; auto].
    destruct (nth_error ob m) as [f|]; [|intros H; inversion H; auto].
    destruct (slot_expect_o c (f_decl f) (f_slot f) k (w_thread (y_world y)) l (y_seqs y)) as [[[[s' t'] r'] d] n] eqn:E.
    rewrite (slot_expect_same _ _ _ _ _ _ _ _ _ _ _ _ E). intros H; inversion H; auto.
  - destruct (nth_error (y_objs y) o) as [ob|]; [|intros H; inversion H; auto].
    destruct (nth_error ob m) as [f|]; [|intros H; inversion H; auto].
    destruct (field_call_o c f k args wr (y_world y)) as [[[f' w'] r'] d] eqn:E.
    rewrite (field_call_same _ _ _ _ _ _ _ _ _ _ E). intros H; inversion H; auto.
  - destruct (nth_error (y_objs y) o) as [ob|]; [|intros H; inversion H; auto].
    destruct (object_checkpoint_o c sh ob (w_panicking (y_world y))) as [[ob' r'] d] eqn:E.
    rewrite (object_checkpoint_same _ _ _ _ _ _ _ E). intros H; inversion H; auto.
  - destruct (nth_error (y_objs y) o) as [ob|]; [|intros H; inversion H; auto].
    rewrite <- object_drop_same. destruct (object_drop_o c sh ob (w_panicking (y_world y))). intros H; inversion H; auto.
  - destruct (nth_error (y_stats y) s) as [[md sm]|]; [|intros H; inversion H; auto].
    destruct (context_expect_o c md sm k l (y_seqs y) (y_world y)) as [[[[s' t'] r'] d] n] eqn:E.
    rewrite (context_expect_same _ _ _ _ _ _ _ _ _ _ _ _ E). intros H; inversion H; auto.
  - destruct (nth_error (y_stats y) s) as [[md sm]|]; [|intros H; inversion H; auto].
    destruct (static_call_o c md sm k args (y_world y)) as [[[f' w'] r'] d] eqn:E.
    rewrite (static_call_same _ _ _ _ _ _ _ _ _ _ E). intros H; inversion H; auto.
  - destruct (nth_error (y_stats y) s) as [[md sm]|]; [|intros H; inversion H; auto].
    destruct (static_checkpoint_o c md sh sm (w_panicking (y_world y))) as [[ob' r'] d] eqn:E.
    rewrite (static_checkpoint_same _ _ _ _ _ _ _ _ E). intros H; inversion H; auto.
  - destruct (nth_error (y_stats y) s) as [[md sm]|]; [|intros H; inversion H; auto].
    destruct (context_drop_o c md sh sm (w_panicking (y_world y))) as [[ob' r'] d] eqn:E.
    rewrite (context_drop_same _ _ _ _ _ _ _ _ E). intros H; inversion H; auto.
  - destruct (module_checkpoint_o c sh (y_stats y) (w_panicking (y_world y))) as [[ob' r'] d] eqn:E.
    rewrite (module_checkpoint_same _ _ _ _ _ _ _ E). intros H; inversion H; auto.
Qed.

Lemma run_same c sh l : forall (y y' : sys V U) rs es,
  run_o c sh y l = (y', rs, es) -> run c sh y l = (y', rs) /\ length es = length l.
Proof.
  induction l as [| o l IH]; cbn [run_o run]; intros y y' rs es H.
  - inversion H; auto.
  - destruct (step_o c sh y o) as [[y1 r] e] eqn:E. rewrite (step_same _ _ _ _ _ _ _ E).
    destruct (run_o c sh y1 l) as [[y2 rs2] es2] eqn:E2. destruct (IH _ _ _ _ E2) as [A B].
    rewrite A. inversion H; subst. cbn. auto.
Qed.

(** ** What destructors drop is what is held *)

Lemma things_held (e : expectation V U) : expectation_things e = held_by e.
Proof. destruct e as [[m ? ? ?] a]. destruct m, a as [[]|[]|[]]; reflexivity. Qed.

Definition slot_held (s : slot V U) : list thing := flat_map held_by (all_of s).

Lemma glue_all {A} (d : A -> bool -> res unit * list thing) (th : A -> list thing) :
  (forall x p r t, d x p = (r, t) -> r <> Abort -> t = th x) ->
  forall l p r t, glue_o d l p = (r, t) -> r <> Abort -> t = flat_map th l.
Proof.
  intros D l. induction l as [| x l IH]; cbn [glue_o flat_map]; intros p r t H NA.
  - inversion H; auto.
  - destruct (d x p) as [rx tx] eqn:E. destruct rx.
    + destruct (glue_o d l p) as [r2 t2] eqn:E2. inversion H; subst.
      rewrite (D _ _ _ _ E ltac:(discriminate)). rewrite (IH _ _ _ E2 NA). auto.
    + destruct (glue_o d l true) as [r2 t2] eqn:E2. destruct r2; inversion H; subst; try congruence.
      rewrite (D _ _ _ _ E ltac:(discriminate)). rewrite (IH _ _ _ E2 ltac:(discriminate)). auto.
    + inversion H; subst; congruence.
Qed.

Lemma drop_exp_all c me (e : expectation V U) p r t : drop_exp_o c me e p = (r, t) -> r <> Abort -> t = held_by e.
Proof. unfold drop_exp_o. intros H _. inversion H; subst. apply things_held. Qed.

Lemma slot_drop_all c md sh (s : slot V U) p r t : fair sh ->
  slot_drop_o c md sh s p = (r, t) -> r <> Abort -> Permutation t (slot_held s).
Proof.
  intros F. unfold slot_drop_o, slot_held. destruct s as [es | st]; intros H NA; cbn [all_of].
  - rewrite (glue_all _ _ (drop_exp_all c (md_me md)) _ _ _ _ H NA). auto.
  - assert (D : forall (x : list (expectation V U)) p r t, glue_o (drop_exp_o c (md_me md)) x p = (r, t) -> r <> Abort -> t = flat_map held_by x).
    { intros. eapply glue_all; eauto using drop_exp_all. }
    rewrite (glue_all _ _ D _ _ _ _ H NA). clear - F.
    rewrite (Permutation_flat_map (flat_map (@held_by V U)) (Permutation_map (@snd key _) (F st))).
    clear F. induction st as [| [k es] st IH]; cbn; auto.
    rewrite flat_map_app. apply Permutation_app_head, IH.
Qed.

Lemma slot_clear_held (s : slot V U) : slot_held (slot_clear s) = [].
Proof. destruct s; reflexivity. Qed.

Lemma object_drop_all c sh (ob : object V U) p r t : fair sh ->
  object_drop_o c sh ob p = (r, t) -> r <> Abort -> Permutation t (object_held ob).
Proof.
  intros F. unfold object_drop_o, object_held. revert p r t.
  induction ob as [| f ob IH]; cbn [glue_o flat_map]; intros p r t H NA.
  - inversion H; auto.
  - destruct (slot_drop_o c (f_decl f) sh (f_slot f) p) as [rx tx] eqn:E.
    pose proof (slot_drop_all _ _ _ _ _ _ _ F E) as P. fold (slot_held (f_slot f)). destruct rx.
    + match type of H with context [glue_o ?d ob p] => destruct (glue_o d ob p) as [r2 t2] eqn:E2 end.
      inversion H; subst. apply Permutation_app; [apply P; discriminate | eapply IH; eauto].
    + match type of H with context [glue_o ?d ob true] => destruct (glue_o d ob true) as [r2 t2] eqn:E2 end.
      destruct r2; inversion H; subst; try congruence.
      apply Permutation_app; [apply P; discriminate | eapply IH; eauto; discriminate].
    + inversion H; subst; congruence.
Qed.

(** Checkpoints: what is not dropped stays. *)
Lemma object_checkpoint_conserves c sh (ob : object V U) p : fair sh -> forall ob' r t,
  object_checkpoint_o c sh ob p = (ob', r, t) -> r <> Abort ->
  Permutation (object_held ob) (t ++ object_held ob') /\ (r = Ret tt -> object_held ob' = []).
Proof.
  intros F. induction ob as [| f ob IH]; cbn [object_checkpoint_o]; intros ob' r t H NA.
  - inversion H; subst. cbn. auto.
  - destruct (slot_drop_o c (f_decl f) sh (f_slot f) p) as [rx tx] eqn:E.
    pose proof (slot_drop_all _ _ _ _ _ _ _ F E) as P. unfold object_held. cbn [flat_map].
    fold (slot_held (f_slot f)). fold (object_held ob). destruct rx.
    + destruct (object_checkpoint_o c sh ob p) as [[o2 r2] t2] eqn:E2. inversion H; subst.
      destruct (IH _ _ _ eq_refl NA) as [A B]. cbn [flat_map f_slot]. fold (slot_held (slot_clear (f_slot f))).
      fold (object_held o2). rewrite slot_clear_held. cbn. split; auto.
      rewrite A, <- app_assoc. apply Permutation_app_tail. symmetry. apply P. discriminate.
    + inversion H; subst. cbn [flat_map f_slot]. fold (slot_held (slot_clear (f_slot f))).
      fold (object_held ob). rewrite slot_clear_held. cbn. split; [|discriminate].
      apply Permutation_app_tail. symmetry. apply P. discriminate.
    + inversion H; subst; congruence.
Qed.

Lemma static_checkpoint_conserves c md sh (sm : smutex V U) p sm' r t : fair sh ->
  static_checkpoint_o c md sh sm p = (sm', r, t) -> r <> Abort ->
  Permutation (slot_held (sm_slot sm)) (t ++ slot_held (sm_slot sm')) /\
  (sm_poison sm = false -> slot_held (sm_slot sm') = []).
Proof.
  intros F. unfold static_checkpoint_o. destruct (sm_poison sm).
  - intros H NA. inversion H; subst. cbn. split; auto; discriminate.
  - destruct (slot_drop_o c md sh (sm_slot sm) p) as [rx tx] eqn:E. intros H NA. inversion H; subst.
    cbn [sm_slot]. rewrite slot_clear_held, app_nil_r. split; auto. symmetry. eapply slot_drop_all; eauto.
Qed.

Lemma context_drop_conserves c md sh (sm : smutex V U) p sm' r t : fair sh ->
  context_drop_o c md sh sm p = (sm', r, t) -> r <> Abort ->
  Permutation (slot_held (sm_slot sm)) (t ++ slot_held (sm_slot sm')) /\
  (p = true \/ sm_poison sm = false -> slot_held (sm_slot sm') = []).
Proof.
  intros F. unfold context_drop_o. destruct p.
  - destruct (slot_drop_o c md sh (sm_slot sm) true) as [rx tx] eqn:E. intros H NA. inversion H; subst.
    cbn [sm_slot]. rewrite slot_clear_held, app_nil_r. split; auto. symmetry. eapply slot_drop_all; eauto.
  - intros H NA. destruct (static_checkpoint_conserves _ _ _ _ _ _ _ _ F H NA) as [A B]. split; auto.
    intros [X|X]; [discriminate | auto].
Qed.

Lemma module_checkpoint_conserves c sh (ss : statics V U) p : fair sh -> forall ss' r t,
  module_checkpoint_o c sh ss p = (ss', r, t) -> r <> Abort ->
  Permutation (flat_map static_held ss) (t ++ flat_map static_held ss') /\
  (r = Ret tt -> flat_map static_held ss' = []).
Proof.
  intros F. induction ss as [| [md sm] ss IH]; cbn [module_checkpoint_o]; intros ss' r t H NA.
  - inversion H; subst. cbn. auto.
  - destruct (static_checkpoint_o c md sh sm p) as [[sm2 r2] t2] eqn:E.
    cbn [flat_map]. unfold static_held at 1. cbn [snd]. fold (slot_held (sm_slot sm)).
    destruct r2.
    + destruct (static_checkpoint_conserves _ _ _ _ _ _ _ _ F E ltac:(discriminate)) as [A B].
      destruct (module_checkpoint_o c sh ss p) as [[o3 r3] t3] eqn:E3. inversion H; subst.
      destruct (IH _ _ _ eq_refl NA) as [C D]. cbn [flat_map]. unfold static_held at 2 4. cbn [snd].
      fold (slot_held (sm_slot sm2)).
      assert (N : slot_held (sm_slot sm2) = []).
      { apply B. unfold static_checkpoint_o in E. destruct (sm_poison sm); auto. inversion E. }
      rewrite N in *. cbn. rewrite app_nil_r in A. split; auto. rewrite A, C. rewrite app_assoc. auto.
    + destruct (static_checkpoint_conserves _ _ _ _ _ _ _ _ F E ltac:(discriminate)) as [A B].
      inversion H; subst. cbn [flat_map]. unfold static_held at 2. cbn [snd]. fold (slot_held (sm_slot sm2)).
      split; [|discriminate]. rewrite A, app_assoc. auto.
    + inversion H; subst; congruence.
Qed.

(** ** Setters *)

Definition of_kind (kd : kind) (e : expectation V U) : Prop :=
  match e_action e, kd with
  | AStatic _ _, KStatic | ARef _, KRef | AMut _, KMut => True
  | _, _ => False
  end.

Definition mheld (m : matcher V U) := matcher_things m.
Definition aheld (a : action V U) := action_things a.

Lemma held_parts (e : expectation V U) : held_by e = mheld (c_matcher (e_common e)) ++ aheld (e_action e).
Proof. rewrite <- things_held. reflexivity. Qed.

Lemma perm1 {A} (m a n : list A) : Permutation ((m ++ a) ++ n) (m ++ n ++ a).
Proof. rewrite <- app_assoc. apply Permutation_app_head, Permutation_app_comm. Qed.
Lemma perm2 {A} (m a b : list A) : Permutation ((m ++ a) ++ b) (a ++ m ++ b).
Proof. rewrite app_assoc. apply Permutation_app_tail, Permutation_app_comm. Qed.

Lemma setter_conserves c th st kd (e : expectation V U) t e' t' r d : of_kind kd e ->
  apply_setter_o c th st e t = (e', t', r, d) ->
  Permutation (held_by e ++ handed kd st) (d ++ held_by e') /\ of_kind kd e'.
Proof.
  intros K. destruct e as [k a]. unfold of_kind in K. cbn [e_action] in K. rewrite !held_parts. cbn [e_common e_action].
  assert (Z : forall k' a', mheld (c_matcher k') = mheld (c_matcher k) -> aheld a' = aheld a ->
    Permutation ((mheld (c_matcher k) ++ aheld a) ++ []) ([] ++ mheld (c_matcher k') ++ aheld a')).
  { intros k' a' E1 E2. rewrite E1, E2, app_nil_r. auto. }
  destruct st; cbn [apply_setter_o]; unfold set_matcher_o, set_srfunc_o, set_mrfunc_o, common_set_matcher, set_srfunc, set_mrfunc, lift_common, set_action, set_common;
    cbn [e_action e_common fst snd].
  - unfold apply_setter, common_times. cbn [e_common]. destruct (times_times c x (c_times k)) as [tt' rr]. intros H; inversion H; subst.
    cbn [e_common e_action]. split; [|exact K]. destruct kd; cbn; apply Z; auto.
  - unfold apply_setter, common_times. cbn [e_common]. destruct (times_times c (ANum 1) (c_times k)) as [tt' rr]. intros H; inversion H; subst.
    cbn [e_common e_action]. split; [|exact K]. destruct kd; cbn; apply Z; auto.
  - unfold apply_setter. intros H; inversion H; subst. split; [|exact K]. destruct kd; cbn; apply Z; auto.
  - destruct (c_mpoison k) eqn:P; intros H; inversion H; subst; cbn [e_common e_action c_matcher]; (split; [|exact K]);
      replace (handed kd (StWith ps)) with (mheld (MtPred ps : matcher V U)) by (destruct kd; reflexivity).
    + apply Permutation_app_comm.
    + apply perm1.
  - destruct (c_mpoison k) eqn:P; intros H; inversion H; subst; cbn [e_common e_action c_matcher]; (split; [|exact K]);
      replace (handed kd (StWithf f)) with (mheld (MtFunc f : matcher V U)) by (destruct kd; reflexivity).
    + apply Permutation_app_comm.
    + apply perm1.
  - destruct (c_mpoison k) eqn:P; intros H; inversion H; subst; cbn [e_common e_action c_matcher]; (split; [|exact K]);
      replace (handed kd (StWithfSt f)) with (mheld (MtFuncSt th f : matcher V U)) by (destruct kd; reflexivity).
    + apply Permutation_app_comm.
    + apply perm1.
  - unfold apply_setter. cbn [e_common]. destruct (common_in_sequence c k (t s)) as [[k' s'] rr] eqn:E. intros H; inversion H; subst.
    cbn [e_common e_action]. split; [|exact K].
    assert (M : c_matcher k' = c_matcher k).
    { unfold common_in_sequence in E. destruct (times_is_exact c (c_times k)) as [[]| |]; try (inversion E; reflexivity).
      destruct (next_handle c (t s)) as [? []]; inversion E; reflexivity. }
    replace (handed kd (StInSequence s)) with ([] : list thing) by (destruct kd; reflexivity). apply (Z k' a); [f_equal; exact M | reflexivity].
  - destruct a as [rf b | rf | rf], kd; try contradiction; cbn [apply_setter_o e_action fst snd].
    + destruct b; intros H; inversion H; subst; split; try exact I.
      * apply Permutation_app_comm.
      * cbn [e_common e_action handed]. apply (perm2 _ _ [ThRet f]).
    + intros H; inversion H; subst; split; try exact I. apply Z; auto.
    + intros H; inversion H; subst; split; try exact I. apply (perm2 _ _ [ThRet f]).
  - destruct a as [rf b | rf | rf], kd; try contradiction; cbn [apply_setter_o e_action fst snd].
    + destruct b; intros H; inversion H; subst; split; try exact I.
      * apply Permutation_app_comm.
      * cbn [e_common e_action handed]. apply (perm2 _ _ [ThRet f]).
    + intros H; inversion H; subst; split; try exact I. apply Z; auto.
    + intros H; inversion H; subst; split; try exact I. apply (perm2 _ _ [ThRet f]).
  - destruct a as [rf b | rf | rf], kd; try contradiction; cbn [apply_setter_o e_action fst snd].
    + destruct b; intros H; inversion H; subst; split; try exact I.
      * apply Permutation_app_comm.
      * cbn [e_common e_action handed]. apply (perm2 _ _ [ThRet f]).
    + intros H; inversion H; subst; split; try exact I. apply Z; auto.
    + intros H; inversion H; subst; split; try exact I. apply Z; auto.
  - destruct a as [rf b | rf | rf], kd; try contradiction; cbn [apply_setter_o e_action fst snd].
    + destruct b; intros H; inversion H; subst; split; try exact I.
      * apply Permutation_app_comm.
      * cbn [e_common e_action handed]. apply (perm2 _ _ [ThRet f]).
    + intros H; inversion H; subst; split; try exact I. apply Z; auto.
    + intros H; inversion H; subst; split; try exact I. apply Z; auto.
  - destruct a as [rf b | rf | rf], kd; try contradiction; cbn [apply_setter_o e_action fst snd].
    + destruct b; intros H; inversion H; subst; split; try exact I.
      * apply Permutation_app_comm.
      * cbn [e_common e_action handed]. apply (perm2 _ _ [ThRet (const_fn v)]).
    + intros H; inversion H; subst; split; try exact I. apply Z; auto.
    + intros H; inversion H; subst; split; try exact I. apply Z; auto.
  - destruct a as [rf b | rf | rf], kd; try contradiction; cbn [apply_setter_o e_action fst snd].
    + destruct b; intros H; inversion H; subst; split; try exact I.
      * apply Permutation_app_comm.
      * cbn [e_common e_action handed]. apply (perm2 _ _ [ThRet (const_fn v)]).
    + intros H; inversion H; subst; split; try exact I. apply Z; auto.
    + intros H; inversion H; subst; split; try exact I. apply Z; auto.
  - destruct a as [rf b | rf | rf], kd; try contradiction; cbn [apply_setter_o e_action fst snd].
    + intros H; inversion H; subst; split; try exact I. apply Z; auto.
    + intros H; inversion H; subst; split; try exact I. apply Z; auto.
    + intros H; inversion H; subst; split; try exact I.
      cbn [handed e_common e_action aheld action_things mrfunc_things]. rewrite !app_nil_r. apply Permutation_app_comm.
Qed.

Lemma setters_conserve c th kd l : forall (e : expectation V U) t e' t' r d n, of_kind kd e ->
  apply_setters_o c th l e t = (e', t', r, d, n) ->
  Permutation (held_by e ++ handed_chain kd (firstn n l)) (d ++ held_by e') /\
  (n <= length l)%nat /\ (r = Ret tt -> n = length l).
Proof.
  induction l as [| st l IH]; cbn [apply_setters_o]; intros e t e' t' r d n K H.
  - inversion H; subst. cbn. rewrite app_nil_r. auto.
  - destruct (apply_setter_o c th st e t) as [[[e1 t1] r1] d1] eqn:E.
    destruct (setter_conserves _ _ _ _ _ _ _ _ _ _ K E) as [P K1]. destruct r1.
    + destruct (apply_setters_o c th l e1 t1) as [[[[e2 t2] r2] d2] n2] eqn:E2. inversion H; subst.
      destruct (IH _ _ _ _ _ _ _ K1 E2) as (A & B & C). cbn [firstn length handed_chain flat_map].
      split; [|split; [lia | intros X; rewrite (C X); auto]].
      rewrite app_assoc, P, <- !app_assoc. apply Permutation_app_head, A.
    + inversion H; subst. cbn [firstn length handed_chain flat_map]. rewrite app_nil_r. split; [exact P | split; [lia | discriminate]].
    + inversion H; subst. cbn [firstn length handed_chain flat_map]. rewrite app_nil_r. split; [exact P | split; [lia | discriminate]].
Qed.

(** ** Stores *)

Lemma gput_split (st : gstore V U) k es es' : gget st k = Some es ->
  exists l1 l2, st = l1 ++ (k, es) :: l2 /\ gput st k es' = l1 ++ (k, es') :: l2.
Proof.
  induction st as [| [k0 es0] st IH]; cbn; [discriminate|]. destruct (Nat.eqb k0 k) eqn:E.
  - intros H; inversion H; subst. apply PeanoNat.Nat.eqb_eq in E. subst. exists [], st. auto.
  - intros H. destruct (IH H) as (l1 & l2 & A & B). exists ((k0, es0) :: l1), l2. subst st. cbn. rewrite B. auto.
Qed.

Lemma gput_new (st : gstore V U) k es' : gget st k = None -> gput st k es' = st ++ [(k, es')].
Proof.
  induction st as [| [k0 es0] st IH]; cbn; auto. destruct (Nat.eqb k0 k); [discriminate|]. intros H. rewrite (IH H). auto.
Qed.

Lemma slot_put_held (s : slot V U) k es' x : 
  Permutation (flat_map held_by (slot_get s k) ++ x) (flat_map held_by es') ->
  Permutation (slot_held s ++ x) (slot_held (slot_put s k es')).
Proof.
  unfold slot_held. destruct s as [es | st]; cbn [slot_get slot_put all_of]; auto.
  destruct (gget st k) as [es|] eqn:G; intros P.
  - destruct (gput_split st k es es' G) as (l1 & l2 & A & B). rewrite B, A. rewrite !flat_map_app. cbn [flat_map snd].
    rewrite !flat_map_app. rewrite <- P. rewrite <- !app_assoc. apply Permutation_app_head, Permutation_app_head, Permutation_app_comm.
  - rewrite (gput_new _ _ _ G), !flat_map_app. cbn [flat_map snd]. rewrite !app_nil_r. apply Permutation_app_head. rewrite <- P. auto.
Qed.

Lemma slot_put_held_less (s : slot V U) k es' x : 
  Permutation (flat_map held_by (slot_get s k)) (x ++ flat_map held_by es') ->
  Permutation (slot_held s) (x ++ slot_held (slot_put s k es')).
Proof.
  unfold slot_held. destruct s as [es | st]; cbn [slot_get slot_put all_of]; auto.
  destruct (gget st k) as [es|] eqn:G; intros P.
  - destruct (gput_split st k es es' G) as (l1 & l2 & A & B). rewrite B, A. rewrite !flat_map_app. cbn [flat_map snd].
    rewrite !flat_map_app. rewrite P. rewrite !app_assoc. apply Permutation_app_tail, Permutation_app_tail, Permutation_app_comm.
  - rewrite (gput_new _ _ _ G), !flat_map_app. cbn [flat_map snd] in *. rewrite !app_nil_r. 
    apply Permutation_nil in P. apply app_eq_nil in P. destruct P as [-> ->]. cbn. rewrite app_nil_r. auto.
Qed.

Lemma default_kind c (md : mdecl V) : of_kind (md_kind md) (expectation_default c (md_me md) (md_kind md) : expectation V U).
Proof. unfold of_kind. destruct (md_kind md); cbn; auto. Qed.

Lemma default_held c (md : mdecl V) : held_by (expectation_default c (md_me md) (md_kind md) : expectation V U) = [].
Proof. destruct (md_kind md); reflexivity. Qed.

Lemma slot_expect_conserves c md (s : slot V U) k th l t s' t' r d n :
  slot_expect_o c md s k th l t = (s', t', r, d, n) ->
  Permutation (slot_held s ++ handed_chain (md_kind md) (firstn n l)) (d ++ slot_held s') /\
  (n <= length l)%nat /\ (r = Ret tt -> n = length l).
Proof.
  unfold slot_expect_o.
  destruct (apply_setters_o c th l (expectation_default c (md_me md) (md_kind md)) t) as [[[[e2 t2] r2] d2] n2] eqn:E.
  intros H; inversion H; subst.
  destruct (setters_conserve _ _ _ _ _ _ _ _ _ _ _ (default_kind c md) E) as (P & B). split; auto.
  rewrite default_held in P. cbn [app] in P. rewrite P.
  rewrite <- (slot_put_held s k (slot_get s k ++ [e2]) (held_by e2)).
  - rewrite !app_assoc. apply Permutation_app_tail, Permutation_app_comm.
  - rewrite flat_map_app. cbn. rewrite app_nil_r. auto.
Qed.

(** ** Calls *)

Lemma common_call_matcher c me (k : common V U) desc w k' w' r :
  common_call c me k desc w = (k', w', r) -> c_matcher k' = c_matcher k.
Proof.
  unfold common_call. intros H.
  repeat match type of H with
  | context [match ?x with _ => _ end] => destruct x; try (inversion H; subst; reflexivity)
  end.
Qed.

Lemma mrfunc_call_things c (rf : mrfunc V U) args wr w rf' w' r :
  mrfunc_call c rf args wr w = (rf', w', r) -> mrfunc_things rf' = mrfunc_things rf.
Proof.
  unfold mrfunc_call. destruct rf; intros H;
  repeat match type of H with
  | context [match ?x with _ => _ end] => destruct x; try (inversion H; subst; reflexivity)
  end; inversion H; subst; reflexivity.
Qed.

Lemma srfunc_call_things c me (rf : srfunc V U) args w rf' w' r :
  srfunc_call c me rf args w = (rf', w', r) ->
  match rf with SOnce f | SOnceSt _ f => rf' = SExpired | _ => rf' = rf end.
Proof.
  unfold srfunc_call. destruct rf; intros H;
  repeat match type of H with
  | context [match ?x with _ => _ end] => destruct x; try (inversion H; subst; reflexivity)
  end; inversion H; subst; reflexivity.
Qed.

(** What a call does to the expectation it chose. *)
Lemma expectation_call_cases c me (e : expectation V U) args wr w e' w' r d :
  expectation_call_o c me e args wr w = (e', w', r, d) ->
  (d = [] /\ held_by e' = held_by e) \/
  (exists f, d = [ThRet f] /\ has_once e f /\ spent e' /\ c_matcher (e_common e') = c_matcher (e_common e)).
Proof.
  unfold expectation_call_o. rewrite !held_parts.
  destruct (common_call c me (e_common e) (call_desc me args) w) as [[k w1] r1] eqn:E.
  pose proof (common_call_matcher _ _ _ _ _ _ _ _ E) as M.
  destruct r1; [|intros H; inversion H; subst; cbn [set_common e_common e_action]; rewrite M; auto..].
  unfold has_once, spent.
  destruct (e_action e) as [rf b | rf | rf] eqn:A.
  - unfold static_ret_o, srfunc_call_o. destruct b.
    + intros H; inversion H; subst. cbn [e_common e_action]. rewrite M. auto.
    + destruct (srfunc_call c me rf args w1) as [[rf' w2] r2] eqn:E2.
      pose proof (srfunc_call_things _ _ _ _ _ _ _ _ E2) as T.
      destruct (rbind r2 (unwrap_rf me k)); intros H; inversion H; subst; cbn [e_common e_action];
        (destruct rf; subst rf'; [left|left|left|left|right; exists f|right; exists f]; rewrite ?M; cbn; auto).
  - intros H; inversion H; subst. cbn [set_common e_common e_action]. rewrite M, A. auto.
  - unfold mut_ret. destruct (show_locked k).
    + destruct (mrfunc_call c rf args wr w1) as [[rf' w2] r2] eqn:E2.
      pose proof (mrfunc_call_things _ _ _ _ _ _ _ _ E2) as T.
      intros H; inversion H; subst. cbn [e_common e_action aheld action_things]. rewrite M, T. auto.
    + intros H; inversion H; subst. cbn [e_common e_action]. rewrite M. auto.
    + intros H; inversion H; subst. cbn [e_common e_action]. rewrite M. auto.
Qed.

Lemma expectation_call_conserves c me (e : expectation V U) args wr w e' w' r d :
  expectation_call_o c me e args wr w = (e', w', r, d) -> Permutation (held_by e) (d ++ held_by e').
Proof.
  intros H. destruct (expectation_call_cases _ _ _ _ _ _ _ _ _ _ H) as [[-> ->] | (f & -> & O & SP & M)]; auto.
  rewrite !held_parts, M. unfold has_once in O. unfold spent in SP.
  destruct (e_action e) as [[]| |]; try contradiction; destruct (e_action e') as [[]| |]; try contradiction; subst;
    cbn [aheld action_things srfunc_things]; rewrite app_nil_r; apply Permutation_app_comm.
Qed.

Lemma find_exp_actions c one args : forall (es : list (expectation V U)) w es1 w1 r,
  find_exp c one es args w = (es1, w1, r) ->
  Forall2 (fun e e1 => e_action e1 = e_action e /\ c_matcher (e_common e1) = c_matcher (e_common e)) es es1.
Proof.
  assert (R : forall l : list (expectation V U), Forall2 (fun e e1 => e_action e1 = e_action e /\ c_matcher (e_common e1) = c_matcher (e_common e)) l l)
    by (intros l; induction l; constructor; auto).
  induction es as [| e es IH]; cbn [find_exp]; intros w es1 w1 r H.
  - inversion H; subst. auto.
  - destruct (common_matches (e_common e) args w) as [[k w2] rm] eqn:E.
    assert (M : c_matcher k = c_matcher (e_common e)).
    { unfold common_matches in E. destruct (c_mpoison (e_common e)); [inversion E; auto|].
      destruct (matcher_matches (c_matcher (e_common e)) args w) as [? []]; inversion E; auto. }
    destruct (find_exp c one es args w2) as [[es2 w3] r3] eqn:E3. specialize (IH _ _ _ _ E3).
    repeat match type of H with
    | context [match ?x with _ => _ end] => destruct x; try (inversion H; subst; constructor; auto)
    end.
Qed.

Lemma set_nth_split {A} (l : list A) i x : nth_error l i = Some x ->
  exists l1 l2, l = l1 ++ x :: l2 /\ length l1 = i /\ forall x', set_nth l i x' = l1 ++ x' :: l2.
Proof.
  revert i. induction l as [| a l IH]; intros [| i] H; try discriminate.
  - inversion H; subst. exists [], l. cbn. auto.
  - destruct (IH i H) as (l1 & l2 & A1 & B & C). exists (a :: l1), l2. subst l. cbn. rewrite B. split; auto. split; auto.
    intros x'. rewrite C. auto.
Qed.

Lemma expectations_call_conserves c me (es : list (expectation V U)) args wr w es' w' r d :
  expectations_call_o c me es args wr w = (es', w', r, d) ->
  Permutation (flat_map held_by es) (d ++ flat_map held_by es') /\
  (d = [] \/ exists f j x x', d = [ThRet f] /\ nth_error es j = Some x /\ has_once x f /\
                              nth_error es' j = Some x' /\ spent x').
Proof.
  unfold expectations_call_o.
  destruct (find_exp c (Nat.eqb (length es) 1) es args w) as [[es1 w1] r1] eqn:E.
  pose proof (find_exp_actions _ _ _ _ _ _ _ _ E) as F.
  assert (S1 : flat_map held_by es1 = flat_map held_by es).
  { clear - F. induction F as [| e e1 l l1 [A M] F IH]; cbn; auto. rewrite IH, !held_parts, A, M. auto. }
  destruct r1 as [[i|]| |]; try (intros H; inversion H; subst; cbn; rewrite S1; auto; fail).
  destruct (nth_error es1 i) as [e|] eqn:N; [|intros H; inversion H; subst; cbn; rewrite S1; auto].
  destruct (expectation_call_o c me e args wr w1) as [[[e2 w2] r2] d2] eqn:E2. intros H; inversion H; subst.
  destruct (set_nth_split _ _ _ N) as (l1 & l2 & A & B & C). rewrite C, <- S1. rewrite A at 1. split.
  - rewrite !flat_map_app. cbn [flat_map]. rewrite (expectation_call_conserves _ _ _ _ _ _ _ _ _ _ E2).
    rewrite !app_assoc. do 2 apply Permutation_app_tail. apply Permutation_app_comm.
  - destruct (expectation_call_cases _ _ _ _ _ _ _ _ _ _ E2) as [[-> _] | (f & -> & O & SP & _)]; auto.
    right. 
    assert (X : exists x, nth_error es i = Some x /\ e_action e = e_action x).
    { clear - F N. revert i N. induction F as [| a a1 l l1 [A M] F IH]; intros [| i] N; try discriminate; cbn in *.
      - inversion N; subst. eauto.
      - eauto. }
    destruct X as (x & X1 & X2). exists f, i, x, e2. split; auto. split; auto. split.
    + unfold has_once in *. rewrite <- X2. auto.
    + split; auto. subst i. rewrite nth_error_app2, PeanoNat.Nat.sub_diag; auto.
Qed.

Lemma slot_call_conserves c md (s : slot V U) k args wr w s' w' r d :
  slot_call_o c md s k args wr w = (s', w', r, d) ->
  Permutation (slot_held s) (d ++ slot_held s') /\
  (d = [] \/ exists f j x x', d = [ThRet f] /\ nth_error (slot_get s k) j = Some x /\ has_once x f /\
                              nth_error (slot_get s' k) j = Some x' /\ spent x').
Proof.
  unfold slot_call_o. destruct s as [es | st].
  - destruct (expectations_call_o c (md_me md) es args wr w) as [[[e2 w2] r2] d2] eqn:E. intros H; inversion H; subst.
    destruct (expectations_call_conserves _ _ _ _ _ _ _ _ _ _ E). cbn. auto.
  - destruct (gget st k) as [es|] eqn:G; [|intros H; inversion H; subst; cbn; auto].
    destruct (expectations_call_o c (md_me md) es args wr w) as [[[e2 w2] r2] d2] eqn:E. intros H; inversion H; subst.
    destruct (expectations_call_conserves _ _ _ _ _ _ _ _ _ _ E) as [A B]. split.
    + apply (slot_put_held_less (SGeneric st) k). cbn. rewrite G. auto.
    + cbn. rewrite G. replace (gget (gput st k e2) k) with (Some e2); auto. clear.
      induction st as [| [k0 es0] st IH]; cbn.
      * rewrite PeanoNat.Nat.eqb_refl. auto.
      * destruct (Nat.eqb k0 k) eqn:X; cbn; rewrite X; auto.
Qed.

Lemma set_nth_held {A} (h : A -> list thing) (l : list A) i x x' g d : nth_error l i = Some x ->
  Permutation (h x ++ g) (d ++ h x') ->
  Permutation (flat_map h l ++ g) (d ++ flat_map h (set_nth l i x')).
Proof.
  intros N P. destruct (set_nth_split _ _ _ N) as (l1 & l2 & A1 & B & C). rewrite C, A1, !flat_map_app. cbn [flat_map].
  transitivity ((flat_map h l1 ++ flat_map h l2) ++ (h x ++ g)).
  - rewrite <- !app_assoc. apply Permutation_app_head. rewrite !app_assoc. apply Permutation_app_tail, Permutation_app_comm.
  - rewrite P. rewrite (Permutation_app_comm (_ ++ _)). rewrite <- (app_assoc d). apply Permutation_app_head.
    rewrite !app_assoc. apply Permutation_app_tail, Permutation_app_comm.
Qed.

(** ** Operations *)

Lemma unit_res_abort (r : res unit) : (unit_res r : res (option V)) <> Abort -> r <> Abort.
Proof. destruct r; cbn; congruence. Qed.

Lemma unit_res_ret (r : res unit) : (unit_res r : res (option V)) = Ret None -> r = Ret tt.
Proof. destruct r as [[]| |]; cbn; congruence. Qed.

Lemma new_held (sd : sdecl V) : object_held (object_new sd : object V U) = [].
Proof.
  unfold object_new, object_held. induction (struct_fields sd) as [| md l IH]; cbn; auto.
  rewrite IH. unfold slot_new. destruct (md_generic md); reflexivity.
Qed.

Lemma init_held (u : U) (decls : list (mdecl V)) : held (init u decls) = [].
Proof.
  unfold init, held. cbn. induction decls as [| md l IH]; cbn; auto. rewrite IH. unfold static_held. cbn.
  unfold slot_new. destruct (md_generic md); reflexivity.
Qed.

Lemma left_part (a b g d a' : list thing) :
  Permutation (a ++ g) (d ++ a') -> Permutation ((a ++ b) ++ g) (d ++ a' ++ b).
Proof.
  intros P. rewrite app_assoc, <- P, <- !app_assoc. apply Permutation_app_head, Permutation_app_comm.
Qed.
Lemma right_part (a b g d b' : list thing) :
  Permutation (b ++ g) (d ++ b') -> Permutation ((a ++ b) ++ g) (d ++ a ++ b').
Proof.
  intros P. rewrite <- app_assoc, P, !app_assoc. apply Permutation_app_tail, Permutation_app_comm.
Qed.

Lemma step_conserves c sh (y : sys V U) o y' r e : fair sh -> step_o c sh y o = (y', r, e) -> r <> Abort ->
  Permutation (held y ++ handed_by y o (ef_setters e)) (ef_dropped e ++ held y').
Proof.
  intros F. destruct o; cbn [step_o handed_by].
  - intros H NA. inversion H; subst. cbn [ef_setters ef_dropped]. unfold held. cbn [set_objs y_objs y_stats].
    rewrite flat_map_app. cbn [flat_map app]. rewrite new_held, !app_nil_r. auto.
  - destruct (nth_error (y_objs y) o) as [ob|] eqn:N; [|intros H; inversion H; cbn; rewrite app_nil_r; auto].
    destruct (nth_error ob m) as [f|] eqn:N2; [|intros H; inversion H; cbn; rewrite app_nil_r; auto].
    destruct (slot_expect_o c (f_decl f) (f_slot f) k (w_thread (y_world y)) l (y_seqs y)) as [[[[s' t'] r'] d] n] eqn:E.
    intros H NA. inversion H; subst. cbn [ef_setters ef_dropped]. unfold held. cbn [y_objs y_stats]. apply left_part.
    eapply set_nth_held; [exact N|]. unfold object_held. eapply set_nth_held; [exact N2|].
    destruct (slot_expect_conserves _ _ _ _ _ _ _ _ _ _ _ _ E) as [P _]. exact P.
  - destruct (nth_error (y_objs y) o) as [ob|] eqn:N; [|intros H; inversion H; cbn; rewrite app_nil_r; auto].
    destruct (nth_error ob m) as [f|] eqn:N2; [|intros H; inversion H; cbn; rewrite app_nil_r; auto].
    destruct (field_call_o c f k args wr (y_world y)) as [[[f' w'] r'] d] eqn:E.
    intros H NA. inversion H; subst. cbn [ef_setters ef_dropped]. unfold held. cbn [y_objs y_stats]. apply left_part.
    eapply set_nth_held; [exact N|]. unfold object_held. eapply set_nth_held; [exact N2|]. rewrite app_nil_r.
    unfold field_call_o in E. destruct (slot_call_o c (f_decl f) (f_slot f) k args wr (y_world y)) as [[[s2 w2] r2] d2] eqn:E2.
    inversion E; subst. cbn [f_slot]. apply (slot_call_conserves _ _ _ _ _ _ _ _ _ _ _ E2).
  - destruct (nth_error (y_objs y) o) as [ob|] eqn:N; [|intros H; inversion H; cbn; rewrite app_nil_r; auto].
    destruct (object_checkpoint_o c sh ob (w_panicking (y_world y))) as [[ob' r'] d] eqn:E.
    intros H NA. inversion H; subst. cbn [ef_setters ef_dropped]. unfold held. cbn [set_objs y_objs y_stats]. apply left_part.
    eapply set_nth_held; [exact N|]. rewrite app_nil_r.
    eapply object_checkpoint_conserves; eauto. apply unit_res_abort; auto.
  - destruct (nth_error (y_objs y) o) as [ob|] eqn:N; [|intros H; inversion H; cbn; rewrite app_nil_r; auto].
    destruct (object_drop_o c sh ob (w_panicking (y_world y))) as [r' d] eqn:E.
    intros H NA. inversion H; subst. cbn [ef_setters ef_dropped]. unfold held. cbn [set_objs y_objs y_stats]. apply left_part.
    eapply set_nth_held; [exact N|]. cbn [object_held flat_map]. rewrite !app_nil_r. symmetry.
    eapply object_drop_all; eauto. apply unit_res_abort; auto.
  - destruct (nth_error (y_stats y) s) as [[md sm]|] eqn:N; [|intros H; inversion H; cbn; rewrite app_nil_r; auto].
    destruct (context_expect_o c md sm k l (y_seqs y) (y_world y)) as [[[[s' t'] r'] d] n] eqn:E.
    intros H NA. inversion H; subst. cbn [ef_setters ef_dropped]. unfold held. cbn [y_objs y_stats]. apply right_part.
    eapply set_nth_held; [exact N|]. unfold static_held. cbn [snd].
    unfold context_expect_o in E. destruct (sm_poison sm).
    + inversion E; subst. cbn. rewrite app_nil_r. auto.
    + destruct (slot_expect_o c md (sm_slot sm) k (w_thread (y_world y)) l (y_seqs y)) as [[[[s2 t2] r2] d2] n2] eqn:E2.
      destruct (slot_expect_conserves _ _ _ _ _ _ _ _ _ _ _ _ E2) as [P _].
      destruct r2; inversion E; subst; exact P.
  - destruct (nth_error (y_stats y) s) as [[md sm]|] eqn:N; [|intros H; inversion H; cbn; rewrite app_nil_r; auto].
    destruct (static_call_o c md sm k args (y_world y)) as [[[f' w'] r'] d] eqn:E.
    intros H NA. inversion H; subst. cbn [ef_setters ef_dropped]. unfold held. cbn [y_objs y_stats]. apply right_part.
    eapply set_nth_held; [exact N|]. unfold static_held. cbn [snd]. rewrite app_nil_r.
    unfold static_call_o in E. destruct (sm_poison sm).
    + inversion E; subst. auto.
    + destruct (slot_call_o c md (sm_slot sm) k args (fun v => v) (y_world y)) as [[[s2 w2] r2] d2] eqn:E2.
      destruct (slot_call_conserves _ _ _ _ _ _ _ _ _ _ _ E2) as [P _].
      destruct r2 as [[v|]| |]; inversion E; subst; exact P.
  - destruct (nth_error (y_stats y) s) as [[md sm]|] eqn:N; [|intros H; inversion H; cbn; rewrite app_nil_r; auto].
    destruct (static_checkpoint_o c md sh sm (w_panicking (y_world y))) as [[ob' r'] d] eqn:E.
    intros H NA. inversion H; subst. cbn [ef_setters ef_dropped]. unfold held. cbn [set_stats y_objs y_stats]. apply right_part.
    eapply set_nth_held; [exact N|]. rewrite app_nil_r.
    eapply static_checkpoint_conserves; eauto. apply unit_res_abort; auto.
  - destruct (nth_error (y_stats y) s) as [[md sm]|] eqn:N; [|intros H; inversion H; cbn; rewrite app_nil_r; auto].
    destruct (context_drop_o c md sh sm (w_panicking (y_world y))) as [[ob' r'] d] eqn:E.
    intros H NA. inversion H; subst. cbn [ef_setters ef_dropped]. unfold held. cbn [set_stats y_objs y_stats]. apply right_part.
    eapply set_nth_held; [exact N|]. rewrite app_nil_r.
    eapply context_drop_conserves; eauto. apply unit_res_abort; auto.
  - destruct (module_checkpoint_o c sh (y_stats y) (w_panicking (y_world y))) as [[ob' r'] d] eqn:E.
    intros H NA. inversion H; subst. cbn [ef_setters ef_dropped]. unfold held. cbn [set_stats y_objs y_stats]. apply right_part.
    rewrite app_nil_r. eapply module_checkpoint_conserves; eauto. apply unit_res_abort; auto.
  - intros H NA. inversion H; subst. cbn. rewrite app_nil_r. auto.
  - intros H NA. inversion H; subst. cbn. rewrite app_nil_r. auto.
  - intros H NA. inversion H; subst. cbn. rewrite app_nil_r. auto.
Qed.

Lemma run_conserves c sh l : fair sh -> forall (y y' : sys V U) rs es,
  run_o c sh y l = (y', rs, es) -> ~ In Abort rs ->
  Permutation (held y ++ handed_over c sh y l es) (dropped es ++ held y').
Proof.
  intros F. induction l as [| o l IH]; cbn [run_o]; intros y y' rs es H NA.
  - inversion H; subst. cbn. rewrite app_nil_r. auto.
  - destruct (step_o c sh y o) as [[y1 r] e] eqn:E.
    destruct (run_o c sh y1 l) as [[y2 rs2] es2] eqn:E2. inversion H; subst.
    cbn [handed_over dropped flat_map]. rewrite (step_same _ _ _ _ _ _ _ E). cbn [fst].
    assert (NA1 : r <> Abort) by (intros ->; apply NA; left; auto).
    assert (NA2 : ~ In Abort rs2) by (intros X; apply NA; right; auto).
    rewrite app_assoc, (step_conserves _ _ _ _ _ _ _ F E NA1), <- !app_assoc. apply Permutation_app_head.
    exact (IH _ _ _ _ E2 NA2).
Qed.

(** ** Chains *)

Lemma setter_when c th st (e : expectation V U) t e' t' d kd : apply_setter_o c th st e t = (e', t', Ret tt, d) ->
  mheld (c_matcher (e_common e')) = if says_when st then handed kd st else mheld (c_matcher (e_common e)).
Proof.
  destruct e as [k a]. destruct st; cbn [apply_setter_o says_when]; unfold set_matcher_o, set_srfunc_o, set_mrfunc_o, common_set_matcher, set_srfunc, set_mrfunc, lift_common, set_action, set_common;
    cbn [e_action e_common fst snd].
  - unfold apply_setter, common_times. cbn [e_common]. destruct (times_times c x (c_times k)) as [tt' rr]. intros H; inversion H; subst. reflexivity.
  - unfold apply_setter, common_times. cbn [e_common]. destruct (times_times c (ANum 1) (c_times k)) as [tt' rr]. intros H; inversion H; subst. reflexivity.
  - unfold apply_setter. intros H; inversion H; subst. reflexivity.
  - destruct (c_mpoison k); intros H; inversion H; subst. destruct kd; reflexivity.
  - destruct (c_mpoison k); intros H; inversion H; subst. destruct kd; reflexivity.
  - destruct (c_mpoison k); intros H; inversion H; subst. destruct kd; reflexivity.
  - unfold apply_setter. cbn [e_common]. destruct (common_in_sequence c k (t s)) as [[k' s'] rr] eqn:E. intros H; inversion H; subst.
    cbn [e_common set_common]. f_equal.
    unfold common_in_sequence in E. destruct (times_is_exact c (c_times k)) as [[]| |]; try (inversion E; reflexivity).
    destruct (next_handle c (t s)) as [? []]; inversion E; reflexivity.
  - destruct a as [? []| |]; cbn [e_action fst snd]; intros H; inversion H; subst; reflexivity.
  - destruct a as [? []| |]; cbn [e_action fst snd]; intros H; inversion H; subst; reflexivity.
  - destruct a as [? []| |]; cbn [e_action fst snd]; intros H; inversion H; subst; reflexivity.
  - destruct a as [? []| |]; cbn [e_action fst snd]; intros H; inversion H; subst; reflexivity.
  - destruct a as [? []| |]; cbn [e_action fst snd]; intros H; inversion H; subst; reflexivity.
  - destruct a as [? []| |]; cbn [e_action fst snd]; intros H; inversion H; subst; reflexivity.
  - destruct a as [? []| |]; cbn [e_action fst snd]; intros H; inversion H; subst; reflexivity.
Qed.

Lemma setter_what c th st (e : expectation V U) t e' t' d kd : of_kind kd e -> apply_setter_o c th st e t = (e', t', Ret tt, d) ->
  aheld (e_action e') = if says_what kd st then handed kd st else aheld (e_action e).
Proof.
  destruct e as [k a]. unfold of_kind. cbn [e_action]. intros K.
  destruct st; cbn [apply_setter_o]; unfold set_matcher_o, set_srfunc_o, set_mrfunc_o, common_set_matcher, set_srfunc, set_mrfunc, lift_common, set_action, set_common;
    cbn [e_action e_common fst snd].
  - unfold apply_setter, common_times. cbn [e_common]. destruct (times_times c x (c_times k)) as [tt' rr]. intros H; inversion H; subst. destruct kd; reflexivity.
  - unfold apply_setter, common_times. cbn [e_common]. destruct (times_times c (ANum 1) (c_times k)) as [tt' rr]. intros H; inversion H; subst. destruct kd; reflexivity.
  - unfold apply_setter. intros H; inversion H; subst. destruct kd; reflexivity.
  - destruct (c_mpoison k); intros H; inversion H; subst. destruct kd; reflexivity.
  - destruct (c_mpoison k); intros H; inversion H; subst. destruct kd; reflexivity.
  - destruct (c_mpoison k); intros H; inversion H; subst. destruct kd; reflexivity.
  - unfold apply_setter. cbn [e_common]. destruct (common_in_sequence c k (t s)) as [[k' s'] rr] eqn:E. intros H; inversion H; subst.
    destruct kd; reflexivity.
  - destruct a as [? []| |], kd; try contradiction; cbn [e_action fst snd]; intros H; inversion H; subst; reflexivity.
  - destruct a as [? []| |], kd; try contradiction; cbn [e_action fst snd]; intros H; inversion H; subst; reflexivity.
  - destruct a as [? []| |], kd; try contradiction; cbn [e_action fst snd]; intros H; inversion H; subst; reflexivity.
  - destruct a as [? []| |], kd; try contradiction; cbn [e_action fst snd]; intros H; inversion H; subst; reflexivity.
  - destruct a as [? []| |], kd; try contradiction; cbn [e_action fst snd]; intros H; inversion H; subst; reflexivity.
  - destruct a as [? []| |], kd; try contradiction; cbn [e_action fst snd]; intros H; inversion H; subst; reflexivity.
  - destruct a as [? []| |], kd; try contradiction; cbn [e_action fst snd]; intros H; inversion H; subst; reflexivity.
Qed.

Lemma find_app {A} (p : A -> bool) l x : find p (l ++ [x]) =
  match find p l with Some y => Some y | None => if p x then Some x else None end.
Proof. induction l as [| a l IH]; cbn; auto. destruct (p a); auto. Qed.

Lemma setters_last c th kd l : forall (e : expectation V U) t e' t' d n, of_kind kd e ->
  apply_setters_o c th l e t = (e', t', Ret tt, d, n) ->
  mheld (c_matcher (e_common e')) =
    match find says_when (rev l) with Some st => handed kd st | None => mheld (c_matcher (e_common e)) end /\
  aheld (e_action e') =
    match find (says_what kd) (rev l) with Some st => handed kd st | None => aheld (e_action e) end.
Proof.
  induction l as [| st l IH]; cbn [apply_setters_o]; intros e t e' t' d n K H.
  - inversion H; subst. cbn. auto.
  - destruct (apply_setter_o c th st e t) as [[[e1 t1] r1] d1] eqn:E. destruct r1 as [[]| |]; try (inversion H; fail).
    destruct (apply_setters_o c th l e1 t1) as [[[[e2 t2] r2] d2] n2] eqn:E2. inversion H; subst.
    destruct (setter_conserves _ _ _ _ _ _ _ _ _ _ K E) as [_ K1].
    destruct (IH _ _ _ _ _ _ K1 E2) as [A B]. cbn [rev]. rewrite !find_app, A, B.
    rewrite (setter_when _ _ _ _ _ _ _ _ kd E), (setter_what _ _ _ _ _ _ _ _ _ K E).
    destruct (find says_when (rev l)), (find (says_what kd) (rev l)), (says_when st), (says_what kd st); auto.
Qed.

(** The setters that are called are those up to the one that panics. *)
Lemma setters_count c th l : forall (e : expectation V U) t e' t' r d n,
  apply_setters_o c th l e t = (e', t', r, d, n) ->
  apply_setters_o c th (firstn n l) e t = (e', t', r, d, n) /\
  (r = Ret tt -> n = length l) /\
  (forall j, (j < n)%nat -> snd (fst (fst (apply_setters_o c th (firstn j l) e t))) = Ret tt).
Proof.
  induction l as [| st l IH]; cbn [apply_setters_o]; intros e t e' t' r d n H.
  - inversion H; subst. cbn. split; auto. split; auto. intros; lia.
  - destruct (apply_setter_o c th st e t) as [[[e1 t1] r1] d1] eqn:E. destruct r1.
    + destruct (apply_setters_o c th l e1 t1) as [[[[e2 t2] r2] d2] n2] eqn:E2. inversion H; subst.
      destruct (IH _ _ _ _ _ _ _ E2) as (A & B & C). cbn [firstn apply_setters_o]. rewrite E, A. split; auto.
      split; [intros X; cbn; rewrite (B X); auto|].
      intros [| j] J; cbn [firstn apply_setters_o]; auto. rewrite E. specialize (C j ltac:(lia)).
      destruct (apply_setters_o c th (firstn j l) e1 t1) as [[[[? ?] ?] ?] ?]. cbn in *. auto.
    + inversion H; subst. cbn [firstn apply_setters_o]. rewrite E. split; auto. split; [discriminate|].
      intros [| j] J; [auto | lia].
    + inversion H; subst. cbn [firstn apply_setters_o]. rewrite E. split; auto. split; [discriminate|].
      intros [| j] J; [auto | lia].
Qed.

End OwnsProofs.
