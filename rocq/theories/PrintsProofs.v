(** * PrintsProofs: lemmas about printing *)

From Coq Require Import NArith List Bool String Lia.
From Verif Require Import Base Times Expect Mock Spec SysSpec Prints PrintsSpec.
Import ListNotations.
Open Scope N_scope.

(** ** Printing that nobody sees *)
Section Unseen.
Context {V U O : Type} (obs : U -> O) (p : printers V U) (HP : unseen obs p).

Definition weq (w w' : world U) : Prop :=
  obs (w_user w) = obs (w_user w') /\ w_levels w = w_levels w' /\ w_thread w = w_thread w' /\
  w_panicking w = w_panicking w'.

Lemma weq_refl w : weq w w.
Proof. repeat split. Qed.
Lemma weq_user w w' u u' : weq w w' -> obs u = obs u' -> weq (set_user w u) (set_user w' u').
Proof. intros (A & B & D & F) H. repeat split; assumption. Qed.
Lemma weq_levels w w' l : weq w w' -> weq (set_levels w l) (set_levels w' l).
Proof. intros (A & B & D & F). repeat split; assumption. Qed.

Definition sees_matcher (m : matcher V U) : Prop :=
  match m with
  | MtAlways => True
  | MtFunc f | MtFuncSt _ f => sees obs f
  | MtPred ps => forall q, In q ps -> sees obs (snd q)
  end.
Definition sees_action (a : action V U) : Prop :=
  match a with
  | AStatic (SMut f) _ | AStatic (SMutSt _ f) _
  | AStatic (SOnce f) _ | AStatic (SOnceSt _ f) _ => sees obs f
  | AMut (XMut f _) | AMut (XMutSt _ f _) => sees obs f
  | _ => True
  end.
Definition sees_common (k : common V U) : Prop := sees_matcher (c_matcher k).
Definition sees_exp (e : expectation V U) : Prop := sees_common (e_common e) /\ sees_action (e_action e).

Definition same3 {A B} (x y : A * world U * B) : Prop :=
  fst (fst x) = fst (fst y) /\ weq (snd (fst x)) (snd (fst y)) /\ snd x = snd y.

Lemma print_args_unseen me args : forall u, exists u',
  print_args p me args u = (u', Ret (map (me_debug me) args)) /\ obs u' = obs u.
Proof.
  induction args as [|a args IH]; intros u; [exists u; split; reflexivity|].
  unfold print_args in *. cbn [map print_all]. destruct (proj1 HP me a u) as (u1 & -> & E).
  destruct (IH u1) as (u2 & -> & E2). exists u2. split; [reflexivity|congruence].
Qed.

Lemma print_preds_unseen (ps : list (pred V U)) : forall u, exists u',
  print_all (map (fun q => p_pred p (fst q)) ps) u = (u', Ret (map fst ps)) /\ obs u' = obs u.
Proof.
  induction ps as [|a ps IH]; intros u; [exists u; split; reflexivity|].
  cbn [map print_all]. destruct (proj2 HP (fst a) u) as (u1 & -> & E).
  destruct (IH u1) as (u2 & -> & E2). exists u2. split; [reflexivity|congruence].
Qed.

Lemma print_matcher_unseen m u : exists u', print_matcher p m u = (u', Ret (matcher_show m)) /\ obs u' = obs u.
Proof.
  destruct m; try (exists u; split; reflexivity).
  cbn [print_matcher matcher_show]. destruct (print_preds_unseen ps u) as (u' & -> & E). exists u'. split; [reflexivity|exact E].
Qed.

Lemma print_locked_unseen k w w0 : weq w w0 -> exists w', print_locked p k w = (k, w', show_locked k) /\ weq w' w0.
Proof.
  intros W. unfold print_locked, show_locked. destruct (c_mpoison k); [exists w; auto|].
  destruct (print_matcher_unseen (c_matcher k) (w_user w)) as (u' & -> & E).
  exists (set_user w u'). split; [reflexivity|]. destruct W as (A & B & D & F). repeat split; cbn; congruence.
Qed.

Lemma eval_preds_sees (ps : list (pred V U)) : (forall q, In q ps -> sees obs (snd q)) -> forall args u u', obs u = obs u' ->
  snd (eval_preds ps args u) = snd (eval_preds ps args u') /\
  obs (fst (eval_preds ps args u)) = obs (fst (eval_preds ps args u')).
Proof.
  induction ps as [|q ps IH]; intros S args u u' E; [split; [reflexivity|exact E]|].
  destruct args as [|a args]; [split; [reflexivity|exact E]|]. cbn [eval_preds].
  destruct (S q (or_introl eq_refl) a u u' E) as (A & B).
  destruct (snd q a u) as [u1 r1], (snd q a u') as [u2 r2]. cbn in A, B. subst r2.
  destruct r1 as [b|m|]; [|split; [reflexivity|exact B]..].
  destruct (IH (fun x H => S x (or_intror H)) args u1 u2 B) as (A1 & B1).
  destruct (eval_preds ps args u1) as [u3 r3], (eval_preds ps args u2) as [u4 r4]. cbn in A1, B1. subst r4.
  destruct r3; split; [reflexivity|exact B1|reflexivity|exact B1|reflexivity|exact B1].
Qed.

Lemma matcher_sees m args w w' : sees_matcher m -> weq w w' ->
  weq (fst (matcher_matches m args w)) (fst (matcher_matches m args w')) /\
  snd (matcher_matches m args w) = snd (matcher_matches m args w').
Proof.
  intros S W. destruct m as [|f|owner f|ps]; cbn [matcher_matches sees_matcher] in *.
  - split; [exact W|reflexivity].
  - destruct (S args _ _ (proj1 W)) as (A & B).
    destruct (f args (w_user w)), (f args (w_user w')). cbn in *. subst. split; [apply weq_user; assumption|reflexivity].
  - destruct W as (W1 & W2 & W3 & W4). rewrite W3. destruct (Nat.eqb owner (w_thread w')); [|split; [repeat split; assumption|reflexivity]].
    destruct (S args _ _ W1) as (A & B).
    destruct (f args (w_user w)), (f args (w_user w')). cbn in *. subst. split; [apply weq_user; [repeat split|]; assumption|reflexivity].
  - destruct (eval_preds_sees ps S args _ _ (proj1 W)) as (A & B).
    destruct (eval_preds ps args (w_user w)), (eval_preds ps args (w_user w')). cbn in *. subst.
    split; [apply weq_user; assumption|reflexivity].
Qed.

Lemma common_matches_sees k args w w' : sees_common k -> weq w w' ->
  same3 (common_matches k args w) (common_matches k args w').
Proof.
  intros S W. unfold common_matches, same3. destruct (c_mpoison k); [cbn; auto|].
  destruct (matcher_sees (c_matcher k) args w w' S W) as (A & B).
  destruct (matcher_matches (c_matcher k) args w) as [w1 r1], (matcher_matches (c_matcher k) args w') as [w2 r2].
  cbn in A, B. subst r2. rewrite (proj2 (proj2 (proj2 W))). destruct r1; cbn; auto.
Qed.

Lemma common_matches_matcher (k : common V U) args w k' w' r :
  common_matches (V := V) (U := U) k args w = (k', w', r) -> c_matcher k' = c_matcher k /\ c_times k' = c_times k.
Proof.
  unfold common_matches. destruct (c_mpoison k); [intros E; inversion E; auto|].
  destruct (matcher_matches _ _ _) as [w1 [b|m|]]; intros E; inversion E; subst; auto.
Qed.

Lemma set_common_sees e k : sees_exp e -> c_matcher k = c_matcher (e_common e) -> sees_exp (set_common e k).
Proof. intros (A & B) E. split; [unfold sees_common; cbn; rewrite E; exact A|exact B]. Qed.

Lemma find_exp_sees c one es args : Forall sees_exp es -> forall w w', weq w w' ->
  same3 (find_exp c one es args w) (find_exp c one es args w') /\
  Forall sees_exp (fst (fst (find_exp c one es args w'))).
Proof.
  induction es as [|e es IH]; intros FS w w' W; [cbn; split; [split; auto|constructor]|].
  inversion FS; subst. cbn [find_exp].
  pose proof (common_matches_sees (e_common e) args w w' (proj1 H1) W) as (A & B & D).
  destruct (common_matches (e_common e) args w) as [[k w1] r] eqn:E1.
  destruct (common_matches (e_common e) args w') as [[k2 w2] r2] eqn:E2.
  cbn in A, B, D. subst k2 r2.
  assert (SE : sees_exp (set_common e k)) by (apply set_common_sees; [assumption|exact (proj1 (common_matches_matcher _ _ _ _ _ _ E1))]).
  pose proof (IH H2 w1 w2 B) as ((A1 & B1 & D1) & F1).
  destruct (find_exp c one es args w1) as [[es1 w3] r3], (find_exp c one es args w2) as [[es2 w4] r4].
  cbn in A1, B1, D1, F1. subst es2 r4.
  destruct r as [b|m|]; [|cbn; split; [split; auto|constructor; assumption]..].
  destruct b; [|cbn; split; [split; auto|constructor; assumption]].
  destruct (common_is_done c k) as [d|m|]; [|cbn; split; [split; auto|constructor; assumption]..].
  destruct (negb d || one); cbn; (split; [split; auto|constructor; assumption]).
Qed.

Lemma verify_sees (k : common V U) d w w' : weq w w' -> verify_sequence k d w = verify_sequence k d w'.
Proof. intros (A & B & _). unfold verify_sequence. rewrite B. reflexivity. Qed.

Lemma satisfy_sees c (k : common V U) w w' : weq w w' ->
  weq (fst (satisfy_sequence c k w)) (fst (satisfy_sequence c k w')) /\
  snd (satisfy_sequence c k w) = snd (satisfy_sequence c k w').
Proof.
  intros W. unfold satisfy_sequence. destruct (c_seq k); [|auto]. rewrite (proj1 (proj2 W)).
  destruct (handle_satisfy c s (w_levels w')) as [l r]. split; [apply weq_levels, W|reflexivity].
Qed.

Lemma common_call_unseen c me k d w w' : weq w w' ->
  same3 (common_call_p p c me k d w) (common_call c me k d w').
Proof.
  intros W. unfold common_call_p, common_call. destruct (times_call c (c_times k)) as [t' [[x|e]|m|]].
  - rewrite (verify_sees _ d w w' W). destruct (verify_sequence (set_times k t') d w'); [|split; cbn; auto..].
    pose proof (satisfy_sees c (set_times k t') w w' W) as (A & B).
    destruct (satisfy_sequence c (set_times k t') w), (satisfy_sequence c (set_times k t') w').
    cbn in A, B. subst. destruct (times_is_satisfied t'); split; cbn; auto.
  - destruct (print_locked_unseen (set_times k t') w w' W) as (w2 & -> & W2).
    split; [reflexivity|]. split; [exact W2|reflexivity].
  - split; cbn; auto.
  - split; cbn; auto.
Qed.

Lemma unwrap_unseen me k r w w' : weq w w' ->
  exists w2, unwrap_p p me k r w = (k, w2, unwrap_rf me k r) /\ weq w2 w'.
Proof.
  intros W. destruct r as [v|e]; cbn [unwrap_p unwrap_rf]; [exists w; auto|].
  destruct (print_locked_unseen k w w' W) as (w2 & -> & W2). exists w2. auto.
Qed.

Lemma run_user_sees f args w w' : sees obs f -> weq w w' ->
  weq (fst (run_user (V := V) f args w)) (fst (run_user f args w')) /\
  snd (run_user f args w) = snd (run_user f args w').
Proof.
  intros S W. unfold run_user. destruct (S args _ _ (proj1 W)) as (A & B).
  destruct (f args (w_user w)), (f args (w_user w')). cbn in *. subst. split; [apply weq_user; assumption|reflexivity].
Qed.

Lemma srfunc_sees c me rf b args w w' : sees_action (AStatic rf b) -> weq w w' ->
  same3 (srfunc_call c me rf args w) (srfunc_call c me rf args w') /\
  sees_action (AStatic (fst (fst (srfunc_call c me rf args w'))) b).
Proof.
  intros S W. pose proof (proj1 (proj2 (proj2 W))) as T.
  destruct rf as [| |f|o f|f|o f]; cbn [srfunc_call sees_action] in *.
  - split; [split|]; cbn; auto.
  - split; [split|]; cbn; auto.
  - pose proof (run_user_sees f args w w' S W) as (A & B).
    destruct (run_user f args w), (run_user f args w'). cbn in *. subst. split; [split|]; cbn; auto.
  - rewrite T. destruct (Nat.eqb o (w_thread w')); [|split; [split|]; cbn; auto].
    pose proof (run_user_sees f args w w' S W) as (A & B).
    destruct (run_user f args w), (run_user f args w'). cbn in *. subst. split; [split|]; cbn; auto.
  - pose proof (run_user_sees f args w w' S W) as (A & B).
    destruct (run_user f args w), (run_user f args w'). cbn in *. subst. split; [split|]; cbn; auto.
  - rewrite T. destruct (Nat.eqb o (w_thread w')); [|split; [split|]; cbn; auto].
    pose proof (run_user_sees f args w w' S W) as (A & B).
    destruct (run_user f args w), (run_user f args w'). cbn in *. subst. split; [split|]; cbn; auto.
Qed.

Lemma mrfunc_sees c rf args wr w w' : sees_action (AMut rf) -> weq w w' ->
  same3 (mrfunc_call c rf args wr w) (mrfunc_call c rf args wr w') /\
  sees_action (AMut (fst (fst (mrfunc_call c rf args wr w')))).
Proof.
  intros S W. pose proof (proj1 (proj2 (proj2 W))) as T.
  destruct rf as [[v|]|f o|ow f o|v]; cbn [mrfunc_call sees_action] in *; try (split; [split|]; cbn; auto; fail).
  - destruct (S args _ _ (proj1 W)) as (A & B).
    destruct (f args (w_user w)) as [u1 r1], (f args (w_user w')) as [u2 r2]. cbn in A, B. subst r2.
    destruct r1; (split; [split; [reflexivity|split; [apply weq_user; assumption|reflexivity]]|exact S]).
  - rewrite T. destruct (Nat.eqb ow (w_thread w')); [|split; [split|]; cbn; auto].
    destruct (S args _ _ (proj1 W)) as (A & B).
    destruct (f args (w_user w)) as [u1 r1], (f args (w_user w')) as [u2 r2]. cbn in A, B. subst r2.
    destruct r1; (split; [split; [reflexivity|split; [apply weq_user; assumption|reflexivity]]|exact S]).
Qed.

Lemma common_call_matcher c me (k : common V U) d w k' w' r :
  common_call c me k d w = (k', w', r) -> c_matcher k' = c_matcher k.
Proof.
  unfold common_call. destruct (times_call c (c_times k)) as [t' [[x|e]|m|]]; try (intros E; inversion E; reflexivity).
  destruct (verify_sequence _ _ _); try (intros E; inversion E; reflexivity).
  destruct (times_is_satisfied t'); try (intros E; inversion E; reflexivity);
    destruct (satisfy_sequence _ _ _); intros E; inversion E; reflexivity.
Qed.

Lemma desc_same (me : method V) args : desc_of me (map (me_debug me) args) = call_desc me args.
Proof. reflexivity. Qed.

Lemma weq_trans_l w w' u : weq w w' -> obs u = obs (w_user w) -> weq (set_user w u) w'.
Proof. intros (A & B & D & F) E. repeat split; cbn; congruence. Qed.

Lemma expectation_call_unseen c me e args wr w w' : sees_exp e -> weq w w' ->
  same3 (expectation_call_p p c me e args wr w) (expectation_call c me e args wr w') /\
  sees_exp (fst (fst (expectation_call c me e args wr w'))).
Proof.
  intros SE W. unfold expectation_call_p, expectation_call.
  destruct (print_args_unseen me args (w_user w)) as (u & -> & EU). cbv zeta.
  rewrite desc_same. pose proof (weq_trans_l w w' u W EU) as W0.
  pose proof (common_call_unseen c me (e_common e) (call_desc me args) _ _ W0) as (A & B & D).
  destruct (common_call_p p c me (e_common e) (call_desc me args) (set_user w u)) as [[k w1] r].
  destruct (common_call c me (e_common e) (call_desc me args) w') as [[k2 w2] r2] eqn:CC.
  cbn in A, B, D. subst k2 r2.
  pose proof (common_call_matcher _ _ _ _ _ _ _ _ CC) as MM.
  pose proof (set_common_sees e k SE MM) as SK.
  destruct r as [x|m|]; [|split; [split|]; cbn; auto..].
  destruct (e_action e) as [rf b|rf|rf] eqn:EA.
  - unfold static_ret_p, static_ret. destruct b.
    { pose proof (proj2 SE) as X. rewrite EA in X. split; [split; [reflexivity|split; [exact B|reflexivity]]|]. split; [exact (proj1 SK)|exact X]. }
    pose proof (srfunc_sees c me rf false args w1 w2) as Q. rewrite <- EA in Q.
    destruct (Q (proj2 SE) B) as ((A1 & B1 & D1) & F1).
    destruct (srfunc_call c me rf args w1) as [[rf1 w3] r3].
    destruct (srfunc_call c me rf args w2) as [[rf2 w4] r4].
    cbn in A1, B1, D1, F1. subst rf2 r4.
    assert (SA : forall b, sees_action (AStatic rf1 b)) by (intros b; destruct rf1; exact F1).
    rewrite (proj2 (proj2 (proj2 B))).
    destruct r3 as [x3|m|].
    + destruct (unwrap_unseen me k x3 w3 w4 B1) as (w5 & -> & W5). cbn [rbind].
      destruct (unwrap_rf me k x3); (split; [split; [reflexivity|split; [exact W5|reflexivity]]|split; [exact (proj1 SK)|apply SA]]).
    + cbn [rbind]. split; [split; [reflexivity|split; [exact B1|reflexivity]]|split; [exact (proj1 SK)|apply SA]].
    + cbn [rbind]. split; [split; [reflexivity|split; [exact B1|reflexivity]]|split; [exact (proj1 SK)|apply SA]].
  - destruct (unwrap_unseen me k (rrfunc_call c rf) w1 w2 B) as (w5 & -> & W5).
    split; [split; [reflexivity|split; [exact W5|reflexivity]]|exact SK].
  - unfold mut_ret_p, mut_ret. destruct (print_locked_unseen k w1 w2 B) as (w5 & -> & W5).
    assert (S0 : sees_exp (Expectation k (AMut rf))) by (split; [exact (proj1 SK)|cbn [e_action]; rewrite <- EA; exact (proj2 SE)]).
    destruct (show_locked k); [|split; [split; [reflexivity|split; [exact W5|reflexivity]]|exact S0]..].
    pose proof (mrfunc_sees c rf args wr w5 w2) as Q. rewrite <- EA in Q.
    destruct (Q (proj2 SE) W5) as ((A1 & B1 & D1) & F1).
    destruct (mrfunc_call c rf args wr w5) as [[rf1 w3] r3].
    destruct (mrfunc_call c rf args wr w2) as [[rf2 w4] r4].
    cbn in A1, B1, D1, F1. subst rf2 r4.
    split; [split; [reflexivity|split; [exact B1|reflexivity]]|split; [exact (proj1 SK)|exact F1]].
Qed.

Lemma Forall_set_nth {A} (P : A -> Prop) l i x : Forall P l -> P x -> Forall P (set_nth l i x).
Proof.
  intros F H. revert i. induction F; intros [|i]; cbn; constructor; auto.
Qed.

Lemma expectations_call_unseen c me es args wr w w' : Forall sees_exp es -> weq w w' ->
  same3 (expectations_call_p p c me es args wr w) (expectations_call c me es args wr w') /\
  Forall sees_exp (fst (fst (expectations_call c me es args wr w'))).
Proof.
  intros FS W. unfold expectations_call_p, expectations_call.
  destruct (find_exp_sees c (Nat.eqb (List.length es) 1) es args FS w w' W) as ((A & B & D) & F).
  destruct (find_exp c (Nat.eqb (List.length es) 1) es args w) as [[es1 w1] r1].
  destruct (find_exp c (Nat.eqb (List.length es) 1) es args w') as [[es2 w2] r2].
  cbn in A, B, D, F. subst es2 r2.
  destruct r1 as [[i|]|m|]; [|split; [split|]; cbn; auto..].
  destruct (nth_error es1 i) as [e|] eqn:NE; [|split; [split|]; cbn; auto].
  assert (SE : sees_exp e) by (eapply Forall_forall; [exact F|eapply nth_error_In; exact NE]).
  destruct (expectation_call_unseen c me e args wr w1 w2 SE B) as ((A1 & B1 & D1) & F1).
  destruct (expectation_call_p p c me e args wr w1) as [[e1 w3] r3], (expectation_call c me e args wr w2) as [[e2 w4] r4].
  cbn in A1, B1, D1, F1. subst e2 r4.
  split; [split; [reflexivity|split; [exact B1|reflexivity]]|apply Forall_set_nth; assumption].
Qed.

Definition sees_slot (s : slot V U) : Prop :=
  match s with
  | SPlain es => Forall sees_exp es
  | SGeneric st => Forall (fun x => Forall sees_exp (snd x)) st
  end.

Lemma gget_sees st k es : Forall (fun x => Forall sees_exp (snd x)) st -> gget st k = Some es -> Forall sees_exp es.
Proof.
  induction 1 as [|[k' es'] st H F IH]; cbn [gget]; [discriminate|]. destruct (Nat.eqb k' k); [intros E; inversion E; subst; exact H|exact IH].
Qed.
Lemma gput_sees st k es : Forall (fun x => Forall sees_exp (snd x)) st -> Forall sees_exp es ->
  Forall (fun x => Forall sees_exp (snd x)) (gput st k es).
Proof.
  intros F H. induction F as [|[k' es'] st H' F IH]; cbn [gput]; [repeat constructor; exact H|].
  destruct (Nat.eqb k' k); constructor; assumption.
Qed.

Lemma slot_call_unseen c md s k args wr w w' : sees_slot s -> weq w w' ->
  same3 (slot_call_p p c md s k args wr w) (slot_call c md s k args wr w') /\
  sees_slot (fst (fst (slot_call c md s k args wr w'))).
Proof.
  intros SS W. destruct s as [es|st]; cbn [slot_call_p slot_call sees_slot] in *.
  - destruct (expectations_call_unseen c (md_me md) es args wr w w' SS W) as ((A & B & D) & F).
    destruct (expectations_call_p _ _ _ _ _ _ _) as [[e1 w3] r3], (expectations_call _ _ _ _ _ _) as [[e2 w4] r4].
    cbn in A, B, D, F. subst. split; [split|]; cbn; auto.
  - destruct (gget st k) as [es|] eqn:G; [|split; [split|]; cbn; auto].
    destruct (expectations_call_unseen c (md_me md) es args wr w w' (gget_sees _ _ _ SS G) W) as ((A & B & D) & F).
    destruct (expectations_call_p _ _ _ _ _ _ _) as [[e1 w3] r3], (expectations_call _ _ _ _ _ _) as [[e2 w4] r4].
    cbn in A, B, D, F. subst. split; [split|]; cbn; auto. apply gput_sees; assumption.
Qed.

Lemma field_call_unseen c f k args wr w w' : sees_slot (f_slot f) -> weq w w' ->
  same3 (field_call_p p c f k args wr w) (field_call c f k args wr w') /\
  sees_slot (f_slot (fst (fst (field_call c f k args wr w')))).
Proof.
  intros SS W. unfold field_call_p, field_call.
  destruct (print_args_unseen (md_me (f_decl f)) args (w_user w)) as (u & -> & EU). cbv zeta.
  destruct (slot_call_unseen c (f_decl f) (f_slot f) k args wr _ _ SS (weq_trans_l w w' u W EU)) as ((A & B & D) & F).
  destruct (slot_call_p _ _ _ _ _ _ _ _) as [[e1 w3] r3], (slot_call _ _ _ _ _ _ _) as [[e2 w4] r4].
  cbn in A, B, D, F. subst. split; [split|]; cbn; auto.
Qed.

Lemma static_call_unseen c md sm k args w w' : sees_slot (sm_slot sm) -> weq w w' ->
  same3 (static_call_p p c md sm k args w) (static_call c md sm k args w') /\
  sees_slot (sm_slot (fst (fst (static_call c md sm k args w')))).
Proof.
  intros SS W. unfold static_call_p, static_call.
  destruct (print_args_unseen (md_me md) args (w_user w)) as (u & -> & EU). cbv zeta.
  pose proof (weq_trans_l w w' u W EU) as W0.
  destruct (sm_poison sm); [split; [split|]; cbn; auto|].
  destruct (slot_call_unseen c md (sm_slot sm) k args (fun v => v) _ _ SS W0) as ((A & B & D) & F).
  destruct (slot_call_p _ _ _ _ _ _ _ _) as [[e1 w3] r3], (slot_call _ _ _ _ _ _ _) as [[e2 w4] r4].
  cbn in A, B, D, F. subst. rewrite (proj2 (proj2 (proj2 W))).
  destruct r4 as [[v|]|m|]; (split; [split|]; cbn; auto).
Qed.

(** Drops. *)
Definition same2 {A} (x : U * A) (u : U) (a : A) : Prop := snd x = a /\ obs (fst x) = obs u.

Lemma common_drop_unseen c me k b u : same2 (common_drop_p p c me k b u) u (common_drop c me k b).
Proof.
  unfold common_drop_p, common_drop, show_locked. destruct b; [split; reflexivity|].
  destruct (c_mpoison k); [split; reflexivity|].
  destruct (print_matcher_unseen (c_matcher k) u) as (u' & -> & E). cbn [rbind]. split; [reflexivity|exact E].
Qed.

Fixpoint glue0 {A} (d : A -> bool -> res unit) (l : list A) (panicking : bool) : res unit :=
  match l with
  | [] => Ret tt
  | x :: l' =>
      match d x panicking with
      | Ret _ => glue0 d l' panicking
      | Abort => Abort
      | Panic m => match glue0 d l' true with Ret _ => Panic m | _ => Abort end
      end
  end.

Lemma glue_unseen {A} (d : A -> bool -> U -> U * res unit) (d0 : A -> bool -> res unit) :
  (forall x b u, same2 (d x b u) u (d0 x b)) ->
  forall l b u, same2 (glue d l b u) u (glue0 d0 l b).
Proof.
  intros H. induction l as [|x l IH]; intros b u; [split; reflexivity|]. cbn [glue glue0].
  destruct (H x b u) as (A1 & B1). destruct (d x b u) as [u1 r1]. cbn in A1, B1. rewrite <- A1.
  destruct r1 as [t|m|].
  - destruct (IH b u1) as (A2 & B2). split; [exact A2|congruence].
  - destruct (IH true u1) as (A2 & B2). destruct (glue d l true u1) as [u2 r2]. cbn in A2, B2. rewrite <- A2.
    destruct r2; (split; [reflexivity|cbn; congruence]).
  - split; [reflexivity|exact B1].
Qed.

Lemma drop_exps_glue c me (es : list (expectation V U)) : forall b,
  drop_exps c me es b = glue0 (fun e => common_drop c me (e_common e)) es b.
Proof.
  induction es as [|e es IH]; intros b; [reflexivity|]. cbn [drop_exps glue0].
  destruct (common_drop c me (e_common e) b); [apply IH|rewrite IH; reflexivity|reflexivity].
Qed.
Lemma drop_many_glue c me (l : list (list (expectation V U))) : forall b,
  drop_many c me l b = glue0 (drop_exps c me) l b.
Proof.
  induction l as [|e l IH]; intros b; [reflexivity|]. cbn [drop_many glue0].
  destruct (drop_exps c me e b); [apply IH|rewrite IH; reflexivity|reflexivity].
Qed.
Lemma object_drop_glue c sh (l : object V U) : forall b,
  object_drop c sh l b = glue0 (fun f => slot_drop c (f_decl f) sh (f_slot f)) l b.
Proof.
  induction l as [|e l IH]; intros b; [reflexivity|]. cbn [object_drop glue0].
  destruct (slot_drop c (f_decl e) sh (f_slot e) b); [apply IH|rewrite IH; reflexivity|reflexivity].
Qed.

Lemma drop_exps_unseen c me es b u : same2 (drop_exps_p p c me es b u) u (drop_exps c me es b).
Proof. rewrite drop_exps_glue. apply glue_unseen. intros. apply common_drop_unseen. Qed.
Lemma slot_drop_unseen c md sh s b u : same2 (slot_drop_p p c md sh s b u) u (slot_drop c md sh s b).
Proof.
  destruct s; cbn [slot_drop_p slot_drop]; [apply drop_exps_unseen|]. rewrite drop_many_glue.
  apply glue_unseen. intros. apply drop_exps_unseen.
Qed.
Lemma object_drop_unseen c sh o b u : same2 (object_drop_p p c sh o b u) u (object_drop c sh o b).
Proof. rewrite object_drop_glue. apply glue_unseen. intros. apply slot_drop_unseen. Qed.

Definition same3u {A B} (x : A * U * B) (u : U) (y : A * B) : Prop :=
  fst (fst x) = fst y /\ obs (snd (fst x)) = obs u /\ snd x = snd y.

Lemma object_checkpoint_unseen c sh o b : forall u, same3u (object_checkpoint_p p c sh o b u) u (object_checkpoint c sh o b).
Proof.
  induction o as [|f o IH]; intros u; [repeat split|]. cbn [object_checkpoint_p object_checkpoint].
  unfold slot_checkpoint. destruct (slot_drop_unseen c (f_decl f) sh (f_slot f) b u) as (A1 & B1).
  destruct (slot_drop_p p c (f_decl f) sh (f_slot f) b u) as [u1 r1]. cbn in A1, B1. rewrite <- A1.
  destruct r1; [|split; cbn; auto..].
  destruct (IH u1) as (A2 & B2 & D2). destruct (object_checkpoint_p p c sh o b u1) as [[o2 u2] r2].
  destruct (object_checkpoint c sh o b). cbn in *. subst. split; [reflexivity|]. split; [cbn; congruence|reflexivity].
Qed.

Lemma static_checkpoint_unseen c md sh sm b u :
  same3u (static_checkpoint_p p c md sh sm b u) u (static_checkpoint c md sh sm b).
Proof.
  unfold static_checkpoint_p, static_checkpoint. destruct (sm_poison sm); [repeat split|].
  destruct (slot_drop_unseen c md sh (sm_slot sm) b u) as (A1 & B1).
  destruct (slot_drop_p p c md sh (sm_slot sm) b u) as [u1 r1]. cbn in *. subst. split; cbn; auto.
Qed.
Lemma context_drop_unseen c md sh sm b u :
  same3u (context_drop_p p c md sh sm b u) u (context_drop c md sh sm b).
Proof.
  unfold context_drop_p, context_drop. destruct b; [|apply static_checkpoint_unseen].
  destruct (slot_drop_unseen c md sh (sm_slot sm) true u) as (A1 & B1).
  destruct (slot_drop_p p c md sh (sm_slot sm) true u) as [u1 r1]. cbn in *. subst. split; cbn; auto.
Qed.
Lemma module_checkpoint_unseen c sh ss b : forall u,
  same3u (module_checkpoint_p p c sh ss b u) u (module_checkpoint c sh ss b).
Proof.
  induction ss as [|[md sm] ss IH]; intros u; [repeat split|]. cbn [module_checkpoint_p module_checkpoint].
  destruct (static_checkpoint_unseen c md sh sm b u) as (A1 & B1 & D1).
  destruct (static_checkpoint_p p c md sh sm b u) as [[s1 u1] r1].
  destruct (static_checkpoint c md sh sm b) as [s2 r2]. cbn in A1, B1, D1. subst s2 r2.
  destruct r1; [|split; cbn; auto..].
  destruct (IH u1) as (A2 & B2 & D2). destruct (module_checkpoint_p p c sh ss b u1) as [[o2 u2] r2].
  destruct (module_checkpoint c sh ss b). cbn in *. subst. split; [reflexivity|]. split; [cbn; congruence|reflexivity].
Qed.

(** Setters. *)
Lemma apply_setter_sees c th st e t : sees_setter obs st -> sees_exp e ->
  sees_exp (fst (fst (apply_setter c th st e t))).
Proof.
  intros S (E1 & E2). destruct e as [[mt mp sq tm] ac]. unfold sees_exp, sees_common in *. cbn [e_common e_action c_matcher] in *.
  destruct st; cbn [apply_setter sees_setter] in *.
  - cbn. unfold common_times. destruct (times_times c x _). cbn. auto.
  - cbn. unfold common_times. destruct (times_times c _ _). cbn. auto.
  - cbn. auto.
  - cbn. unfold common_set_matcher. cbn. destruct mp; cbn; auto.
  - cbn. unfold common_set_matcher. cbn. destruct mp; cbn; auto.
  - cbn. unfold common_set_matcher. cbn. destruct mp; cbn; auto.
  - cbn. unfold common_in_sequence. cbn. destruct (times_is_exact c tm) as [[]|m|]; cbn; auto.
    destruct (next_handle c (t s)) as [s' [h|m|]]; cbn; auto.
  - destruct ac as [rf []| |rf]; cbn; auto.
  - destruct ac as [rf []| |rf]; cbn; auto.
  - destruct ac as [rf []| |rf]; cbn; auto.
  - destruct ac as [rf []| |rf]; cbn; auto.
  - destruct ac as [rf []| |rf]; cbn; auto. split; [exact E1|]. intros a u u' E. split; [reflexivity|exact E].
  - destruct ac as [rf []| |rf]; cbn; auto. split; [exact E1|]. intros a u u' E. split; [reflexivity|exact E].
  - destruct ac as [rf []| |rf]; cbn; auto.
Qed.

Lemma apply_setters_sees c th l : (forall st, In st l -> sees_setter obs st) -> forall e t, sees_exp e ->
  sees_exp (fst (fst (apply_setters c th l e t))).
Proof.
  induction l as [|st l IH]; intros H e t SE; [exact SE|]. cbn [apply_setters].
  pose proof (apply_setter_sees c th st e t (H st (or_introl eq_refl)) SE) as S1.
  destruct (apply_setter c th st e t) as [[e1 t1] r]. destruct r; [|exact S1..].
  apply IH; [intros; apply H; right; assumption|exact S1].
Qed.

Lemma slot_get_sees s k : sees_slot s -> Forall sees_exp (slot_get s k).
Proof.
  destruct s as [es|st]; cbn; [auto|]. intros F. destruct (gget st k) eqn:G; [eapply gget_sees; eassumption|constructor].
Qed.
Lemma slot_expect_sees c md s k th l t : sees_slot s -> (forall st, In st l -> sees_setter obs st) ->
  sees_slot (fst (fst (slot_expect c md s k th l t))).
Proof.
  intros SS H. unfold slot_expect.
  assert (D : sees_exp (expectation_default c (md_me md) (md_kind md))) by (split; cbn; [exact I|destruct (md_kind md); exact I]).
  pose proof (apply_setters_sees c th l H (expectation_default c (md_me md) (md_kind md)) t D) as SE.
  destruct (apply_setters c th l (expectation_default c (md_me md) (md_kind md)) t) as [[e t'] r]. cbn in SE |- *.
  assert (F : Forall sees_exp (slot_get s k ++ [e])) by (apply Forall_app; split; [apply slot_get_sees, SS|repeat constructor; apply SE]).
  destruct s; cbn [slot_put sees_slot] in *; [exact F|apply gput_sees; assumption].
Qed.

(** Whole tests. *)
Definition sees_obj (o : object V U) : Prop := Forall (fun f => sees_slot (f_slot f)) o.
Definition sees_sys (y : sys V U) : Prop :=
  Forall sees_obj (y_objs y) /\ Forall (fun x => sees_slot (sm_slot (snd x))) (y_stats y).
Definition ysame (y y' : sys V U) : Prop :=
  weq (y_world y) (y_world y') /\ y_seqs y = y_seqs y' /\ y_objs y = y_objs y' /\ y_stats y = y_stats y'.

Lemma nth_Forall {A} (P : A -> Prop) l i x : Forall P l -> nth_error l i = Some x -> P x.
Proof. intros F N. eapply Forall_forall; [exact F|eapply nth_error_In; exact N]. Qed.

Lemma clear_sees s : sees_slot (slot_clear s).
Proof. destruct s; constructor. Qed.

Lemma object_new_sees sd : sees_obj (object_new sd).
Proof.
  unfold sees_obj, object_new. apply Forall_forall. intros f I. apply in_map_iff in I. destruct I as (md & <- & _).
  cbn. unfold slot_new. destruct (md_generic md); constructor.
Qed.

Lemma object_checkpoint_sees c sh o b : sees_obj o -> sees_obj (fst (object_checkpoint c sh o b)).
Proof.
  induction 1 as [|f o H F IH]; [constructor|]. cbn [object_checkpoint]. unfold slot_checkpoint.
  destruct (slot_drop c (f_decl f) sh (f_slot f) b).
  - destruct (object_checkpoint c sh o b). constructor; [apply clear_sees|exact IH].
  - constructor; [apply clear_sees|exact F].
  - constructor; [apply clear_sees|exact F].
Qed.
Lemma static_checkpoint_sees c md sh sm b : sees_slot (sm_slot sm) -> sees_slot (sm_slot (fst (static_checkpoint c md sh sm b))).
Proof. intros H. unfold static_checkpoint. destruct (sm_poison sm); [exact H|apply clear_sees]. Qed.
Lemma context_drop_sees c md sh sm b : sees_slot (sm_slot sm) -> sees_slot (sm_slot (fst (context_drop c md sh sm b))).
Proof. intros H. unfold context_drop. destruct b; [apply clear_sees|apply static_checkpoint_sees, H]. Qed.
Lemma module_checkpoint_sees c sh ss b : Forall (fun x => sees_slot (sm_slot (snd x))) ss ->
  Forall (fun x => sees_slot (sm_slot (snd x))) (fst (module_checkpoint c sh ss b)).
Proof.
  induction 1 as [|[md sm] ss H F IH]; [constructor|]. cbn [module_checkpoint].
  pose proof (static_checkpoint_sees c md sh sm b H) as S1. destruct (static_checkpoint c md sh sm b) as [sm' r].
  destruct r; [|constructor; [exact S1|exact F]..]. destruct (module_checkpoint c sh ss b). constructor; [exact S1|exact IH].
Qed.

Lemma step_unseen c sh o y y' : sees_op obs o -> ysame y y' -> sees_sys y' ->
  snd (step_p p c sh y o) = snd (step c sh y' o) /\ ysame (fst (step_p p c sh y o)) (fst (step c sh y' o)) /\
  sees_sys (fst (step c sh y' o)).
Proof.
  intros SO (W & E1 & E2 & E3) (S1 & S2). destruct y as [w q ob st], y' as [w' q' ob' st']. cbn [y_world y_seqs y_objs y_stats] in *.
  subst q' ob' st'. pose proof W as (W1 & W2 & W3 & W4).
  destruct o as [sd|o m k l|o m k args wr|o|o|s k l|s k args|s|s| |t|b|f];
    cbn [step_p step y_world y_seqs y_objs y_stats sees_op] in *.
  - split; [reflexivity|]. split; [repeat split; assumption|].
    split; [apply Forall_app; split; [exact S1|repeat constructor; apply object_new_sees]|exact S2].
  - destruct (nth_error ob o) as [x|] eqn:N1; [|repeat split; assumption].
    destruct (nth_error x m) as [f|] eqn:N2; [|repeat split; assumption].
    rewrite W3. pose proof (nth_Forall _ _ _ _ S1 N1) as SX. pose proof (nth_Forall _ _ _ _ SX N2) as SF.
    pose proof (slot_expect_sees c (f_decl f) (f_slot f) k (w_thread w') l q SF SO) as SS.
    destruct (slot_expect c (f_decl f) (f_slot f) k (w_thread w') l q) as [[s' t'] r].
    split; [reflexivity|]. split; [repeat split; assumption|]. split; [|exact S2].
    apply Forall_set_nth; [exact S1|]. apply Forall_set_nth; [exact SX|exact SS].
  - destruct (nth_error ob o) as [x|] eqn:N1; [|repeat split; assumption].
    destruct (nth_error x m) as [f|] eqn:N2; [|repeat split; assumption].
    pose proof (nth_Forall _ _ _ _ S1 N1) as SX. pose proof (nth_Forall _ _ _ _ SX N2) as SF.
    destruct (field_call_unseen c f k args wr w w' SF W) as ((A & B & D) & F).
    destruct (field_call_p p c f k args wr w) as [[f1 w1] r1], (field_call c f k args wr w') as [[f2 w2] r2].
    cbn in A, B, D, F. subst. split; [reflexivity|]. split; [repeat split; apply B|]. split; [|exact S2].
    apply Forall_set_nth; [exact S1|]. apply Forall_set_nth; [exact SX|exact F].
  - destruct (nth_error ob o) as [x|] eqn:N1; [|repeat split; assumption]. rewrite W4.
    destruct (object_checkpoint_unseen c sh x (w_panicking w') (w_user w)) as (A & B & D).
    pose proof (object_checkpoint_sees c sh x (w_panicking w') (nth_Forall _ _ _ _ S1 N1)) as F.
    destruct (object_checkpoint_p p c sh x (w_panicking w') (w_user w)) as [[o1 u1] r1].
    destruct (object_checkpoint c sh x (w_panicking w')) as [o2 r2]. cbn in A, B, D, F. subst.
    split; [reflexivity|]. split; [repeat split; cbn; congruence|]. split; [|exact S2].
    apply Forall_set_nth; [exact S1|exact F].
  - destruct (nth_error ob o) as [x|] eqn:N1; [|repeat split; assumption]. rewrite W4.
    destruct (object_drop_unseen c sh x (w_panicking w') (w_user w)) as (A & B).
    destruct (object_drop_p p c sh x (w_panicking w') (w_user w)) as [u1 r1]. cbn in A, B. subst.
    split; [reflexivity|]. split; [repeat split; cbn; congruence|]. split; [|exact S2].
    apply Forall_set_nth; [exact S1|constructor].
  - destruct (nth_error st s) as [[md sm]|] eqn:N1; [|repeat split; assumption].
    pose proof (nth_Forall _ _ _ _ S2 N1) as SM. cbn [snd] in SM. unfold context_expect. rewrite W3, W4.
    destruct (sm_poison sm).
    { split; [reflexivity|]. split; [repeat split; assumption|]. split; [exact S1|]. apply Forall_set_nth; assumption. }
    pose proof (slot_expect_sees c md (sm_slot sm) k (w_thread w') l q SM SO) as SS.
    destruct (slot_expect c md (sm_slot sm) k (w_thread w') l q) as [[s' t'] r]. cbn [fst] in SS.
    destruct r; (split; [reflexivity|]; split; [repeat split; assumption|]; split; [exact S1|apply Forall_set_nth; assumption]).
  - destruct (nth_error st s) as [[md sm]|] eqn:N1; [|repeat split; assumption].
    pose proof (nth_Forall _ _ _ _ S2 N1) as SM. cbn [snd] in SM.
    destruct (static_call_unseen c md sm k args w w' SM W) as ((A & B & D) & F).
    destruct (static_call_p p c md sm k args w) as [[f1 w1] r1], (static_call c md sm k args w') as [[f2 w2] r2].
    cbn in A, B, D, F. subst. split; [reflexivity|]. split; [repeat split; apply B|]. split; [exact S1|].
    apply Forall_set_nth; assumption.
  - destruct (nth_error st s) as [[md sm]|] eqn:N1; [|repeat split; assumption]. rewrite W4.
    pose proof (nth_Forall _ _ _ _ S2 N1) as SM. cbn [snd] in SM.
    destruct (static_checkpoint_unseen c md sh sm (w_panicking w') (w_user w)) as (A & B & D).
    pose proof (static_checkpoint_sees c md sh sm (w_panicking w') SM) as F.
    destruct (static_checkpoint_p p c md sh sm (w_panicking w') (w_user w)) as [[o1 u1] r1].
    destruct (static_checkpoint c md sh sm (w_panicking w')) as [o2 r2]. cbn in A, B, D, F. subst.
    split; [reflexivity|]. split; [repeat split; cbn; congruence|]. split; [exact S1|]. apply Forall_set_nth; assumption.
  - destruct (nth_error st s) as [[md sm]|] eqn:N1; [|repeat split; assumption]. rewrite W4.
    pose proof (nth_Forall _ _ _ _ S2 N1) as SM. cbn [snd] in SM.
    destruct (context_drop_unseen c md sh sm (w_panicking w') (w_user w)) as (A & B & D).
    pose proof (context_drop_sees c md sh sm (w_panicking w') SM) as F.
    destruct (context_drop_p p c md sh sm (w_panicking w') (w_user w)) as [[o1 u1] r1].
    destruct (context_drop c md sh sm (w_panicking w')) as [o2 r2]. cbn in A, B, D, F. subst.
    split; [reflexivity|]. split; [repeat split; cbn; congruence|]. split; [exact S1|]. apply Forall_set_nth; assumption.
  - rewrite W4.
    destruct (module_checkpoint_unseen c sh st (w_panicking w') (w_user w)) as (A & B & D).
    pose proof (module_checkpoint_sees c sh st (w_panicking w') S2) as F.
    destruct (module_checkpoint_p p c sh st (w_panicking w') (w_user w)) as [[o1 u1] r1].
    destruct (module_checkpoint c sh st (w_panicking w')) as [o2 r2]. cbn in A, B, D, F. subst.
    split; [reflexivity|]. split; [repeat split; cbn; congruence|]. split; [exact S1|exact F].
  - split; [reflexivity|]. split; [repeat split; assumption|split; assumption].
  - split; [reflexivity|]. split; [repeat split; assumption|split; assumption].
  - split; [reflexivity|]. split; [|split; assumption]. repeat split; cbn; try assumption. apply SO, W1.
Qed.

Lemma run_unseen c sh l : (forall o, In o l -> sees_op obs o) -> forall y y', ysame y y' -> sees_sys y' ->
  snd (run_p p c sh y l) = snd (run c sh y' l) /\ ysame (fst (run_p p c sh y l)) (fst (run c sh y' l)).
Proof.
  induction l as [|o l IH]; intros H y y' Y S; [split; [reflexivity|exact Y]|]. cbn [run_p run].
  destruct (step_unseen c sh o y y' (H o (or_introl eq_refl)) Y S) as (A & B & D).
  destruct (step_p p c sh y o) as [y1 r1], (step c sh y' o) as [y2 r2]. cbn in A, B, D. subst r2.
  destruct (IH (fun x I => H x (or_intror I)) y1 y2 B D) as (A1 & B1).
  destruct (run_p p c sh y1 l), (run c sh y2 l). cbn in *. subst. split; [reflexivity|exact B1].
Qed.

Lemma init_sees u decls : sees_sys (init u decls).
Proof.
  split; [constructor|]. cbn. apply Forall_forall. intros x I. apply in_map_iff in I. destruct I as (md & <- & _).
  cbn. unfold slot_new. destruct (md_generic md); constructor.
Qed.
End Unseen.
