(** * DropsProofs: lemmas on [Drops.v] *)

From Coq Require Import NArith List Bool String Lia.
From Verif Require Import Base Times Expect Mock Spec SysSpec Owns OwnsSpec OwnsProofs Drops DropsSpec ValidProofs GreedyProofs.
From Verif Require GuardsEnd.
Import ListNotations.
Open Scope N_scope.
Open Scope list_scope.

Section DropsProofs.
Context {V U : Type}.

Lemma check_no_abort c me (k : common V U) p : common_drop c me k p <> Abort.
Proof.
  destruct p; [rewrite common_drop_panicking; discriminate|].
  destruct (sound_dec (Expectation k (ARef (RDefault None)))) as [S0|S0].
  - pose proof (common_drop_sound c me _ S0) as E. cbn [e_common] in E. rewrite E. discriminate.
  - pose proof (common_drop_unsound c me _ S0) as E. cbn [e_common] in E. rewrite E. discriminate.
Qed.

(** ** Destructors that return *)
Section Quiet.
Context (dt : dtors V U) (f : thing V U -> U -> U).
Notation go := (fold_left (fun u x => f x u)).
Context (Q : forall x p u, dt x p u = (f x u, Ret tt)).

Lemma glue_quiet {A} (dd : A -> bool -> U -> U * res unit) (d : A -> bool -> res unit * list (thing V U)) :
  (forall x p u, dd x p u = (go (snd (d x p)) u, fst (d x p))) ->
  forall l p u, glue_d dd l p u = (go (snd (glue_o d l p)) u, fst (glue_o d l p)).
Proof.
  intros E. induction l as [| x l IH]; intros p u; [reflexivity|].
  cbn [glue_d glue_o]. rewrite E. destruct (d x p) as [[[]|m|] t]; cbn [fst snd].
  - rewrite IH. destruct (glue_o d l p) as [r t']. cbn [fst snd]. rewrite fold_left_app. reflexivity.
  - rewrite IH. destruct (glue_o d l true) as [[[]|m'|] t']; cbn [fst snd]; rewrite fold_left_app; reflexivity.
  - reflexivity.
Qed.

Lemma destroy_quiet l p u : destroy dt l p u = (go l u, Ret tt).
Proof. unfold destroy. revert u. induction l as [| x l IH]; intros u; [reflexivity|]. cbn [glue_d fold_left]. rewrite Q. apply IH. Qed.

Lemma acts_quiet c me l p u : glue_d (act_d dt c me) (map ActDestroy l) p u = (go l u, Ret tt).
Proof. revert u. induction l as [| x l IH]; intros u; [reflexivity|]. cbn [map glue_d fold_left act_d]. rewrite Q. apply IH. Qed.

Lemma drop_exp_quiet c me (e : expectation V U) p u :
  drop_exp_d dt c me e p u = (go (snd (drop_exp_o c me e p)) u, fst (drop_exp_o c me e p)).
Proof.
  unfold drop_exp_d, drop_exp_o. cbn [glue_d act_d fst snd].
  pose proof (check_no_abort c me (e_common e) p) as NA.
  destruct (common_drop c me (e_common e) p) as [[]|m|]; [| |congruence]; rewrite acts_quiet; reflexivity.
Qed.

Lemma slot_drop_quiet c md sh (s : slot V U) p u :
  slot_drop_d dt c md sh s p u = (go (snd (slot_drop_o c md sh s p)) u, fst (slot_drop_o c md sh s p)).
Proof.
  destruct s as [es|st]; cbn [slot_drop_d slot_drop_o].
  - apply glue_quiet. intros. apply drop_exp_quiet.
  - apply glue_quiet. intros. apply glue_quiet. intros. apply drop_exp_quiet.
Qed.

Lemma object_drop_quiet c sh (ob : object V U) p u :
  object_drop_d dt c sh ob p u = (go (snd (object_drop_o c sh ob p)) u, fst (object_drop_o c sh ob p)).
Proof. apply glue_quiet. intros. apply slot_drop_quiet. Qed.

Lemma object_checkpoint_quiet c sh (ob : object V U) : forall p u,
  object_checkpoint_d dt c sh ob p u =
    (let '(o, r, t) := object_checkpoint_o c sh ob p in (o, go t u, r)).
Proof.
  induction ob as [| x ob IH]; intros p u; [reflexivity|].
  cbn [object_checkpoint_d object_checkpoint_o]. rewrite slot_drop_quiet.
  destruct (slot_drop_o c (f_decl x) sh (f_slot x) p) as [[[]|m|] t]; cbn [fst snd]; [| reflexivity | reflexivity].
  rewrite IH. destruct (object_checkpoint_o c sh ob p) as [[o r] t']. rewrite fold_left_app. reflexivity.
Qed.

Lemma static_checkpoint_quiet c md sh (sm : smutex V U) p u :
  static_checkpoint_d dt c md sh sm p u =
    (let '(o, r, t) := static_checkpoint_o c md sh sm p in (o, go t u, r)).
Proof.
  unfold static_checkpoint_d, static_checkpoint_o. destruct (sm_poison sm); [reflexivity|].
  rewrite slot_drop_quiet. destruct (slot_drop_o c md sh (sm_slot sm) p). reflexivity.
Qed.

Lemma context_drop_quiet c md sh (sm : smutex V U) p u :
  context_drop_d dt c md sh sm p u =
    (let '(o, r, t) := context_drop_o c md sh sm p in (o, go t u, r)).
Proof.
  unfold context_drop_d, context_drop_o. destruct p; [|apply static_checkpoint_quiet].
  rewrite slot_drop_quiet. destruct (slot_drop_o c md sh (sm_slot sm) true). reflexivity.
Qed.

Lemma module_checkpoint_quiet c sh (ss : statics V U) : forall p u,
  module_checkpoint_d dt c sh ss p u =
    (let '(o, r, t) := module_checkpoint_o c sh ss p in (o, go t u, r)).
Proof.
  induction ss as [| [md sm] ss IH]; intros p u; [reflexivity|].
  cbn [module_checkpoint_d module_checkpoint_o]. rewrite static_checkpoint_quiet.
  destruct (static_checkpoint_o c md sh sm p) as [[sm' [[]|m|]] t]; [| reflexivity | reflexivity].
  rewrite IH. destruct (module_checkpoint_o c sh ss p) as [[o r] t']. rewrite fold_left_app. reflexivity.
Qed.

Lemma setter_quiet c th p st (e : expectation V U) t u :
  apply_setter_d dt c th p st e t u =
    (let '(e', t', r, d) := apply_setter_o c th st e t in (e', t', go d u, r)).
Proof.
  assert (SM : forall m k, set_matcher_d dt p m k u =
                 (let '(k', r, d) := set_matcher_o m k in (k', go d u, r))).
  { intros m k. unfold set_matcher_d, set_matcher_o, refuse, common_set_matcher.
    destruct k as [m0 [] sq tm]; cbn [c_mpoison c_matcher c_seq c_times]; rewrite destroy_quiet; reflexivity. }
  assert (SS : forall rf e0, set_srfunc_d dt p rf e0 u =
                 (let '(e', r, d) := set_srfunc_o rf e0 in (e', go d u, r))).
  { intros rf [k [old []|rf0|old]]; unfold set_srfunc_d, set_srfunc_o, refuse, set_srfunc; cbn [e_action];
      rewrite ?destroy_quiet; reflexivity. }
  assert (MM : forall rf e0, set_mrfunc_d dt p rf e0 u =
                 (let '(e', r, d) := set_mrfunc_o rf e0 in (e', go d u, r))).
  { intros rf [k [old po|rf0|old]]; unfold set_mrfunc_d, set_mrfunc_o, set_mrfunc; cbn [e_action];
      rewrite ?destroy_quiet; reflexivity. }
  unfold apply_setter_d, apply_setter_o.
  destruct st; rewrite ?SM, ?SS, ?MM;
    try (destruct (apply_setter c th _ e t) as [[? ?] ?]; reflexivity);
    try (unfold set_matcher_o; destruct (common_set_matcher _ (e_common e)); reflexivity);
    try (unfold set_srfunc_o, set_mrfunc_o; cbn [fst snd]; destruct (set_srfunc _ e); reflexivity);
    try (unfold set_srfunc_o, set_mrfunc_o; cbn [fst snd]; destruct (set_mrfunc _ e); reflexivity);
    destruct (e_action e) eqn:A; rewrite ?SS, ?MM;
    try (destruct (apply_setter c th _ e t) as [[? ?] ?]; reflexivity);
    try (unfold set_srfunc_o, set_mrfunc_o; cbn [fst snd]; rewrite A; destruct (set_srfunc _ e); reflexivity);
    try (unfold set_srfunc_o, set_mrfunc_o; cbn [fst snd]; rewrite A; destruct (set_mrfunc _ e); reflexivity).
Qed.

Lemma setters_quiet c th p l : forall (e : expectation V U) t u,
  apply_setters_d dt c th p l e t u =
    (let '(e', t', r, d, _) := apply_setters_o c th l e t in (e', t', go d u, r)).
Proof.
  induction l as [| st l IH]; intros e t u; [reflexivity|].
  cbn [apply_setters_d apply_setters_o]. rewrite setter_quiet.
  destruct (apply_setter_o c th st e t) as [[[e1 t1] [[]|m|]] d]; [| reflexivity | reflexivity].
  rewrite IH. destruct (apply_setters_o c th l e1 t1) as [[[[e2 t2] r2] d2] n]. rewrite fold_left_app. reflexivity.
Qed.

Lemma slot_expect_quiet c md (s : slot V U) k th p l t u :
  slot_expect_d dt c md s k th p l t u =
    (let '(s', t', r, d, _) := slot_expect_o c md s k th l t in (s', t', go d u, r)).
Proof.
  unfold slot_expect_d, slot_expect_o. rewrite setters_quiet.
  destruct (apply_setters_o _ _ _ _ _) as [[[[e2 t2] r2] d2] n]. reflexivity.
Qed.

Lemma context_expect_quiet c md (sm : smutex V U) k l t w :
  context_expect_d dt c md sm k l t w =
    (let '(s', t', r, d, _) := context_expect_o c md sm k l t w in (s', t', go d (w_user w), r)).
Proof.
  unfold context_expect_d, context_expect_o. destruct (sm_poison sm); [reflexivity|]. rewrite slot_expect_quiet.
  destruct (slot_expect_o _ _ _ _ _ _ _) as [[[[e2 t2] [[]|m|]] d2] n]; reflexivity.
Qed.

Lemma set_user_same (w : world U) : set_user w (w_user w) = w.
Proof. destruct w; reflexivity. Qed.

Lemma step_quiet c sh (y : sys V U) o y' r e : is_call o = false -> step_o c sh y o = (y', r, e) ->
  step_d dt c sh y o =
    (Sys (set_user (y_world y') (go (ef_dropped e) (w_user (y_world y')))) (y_seqs y') (y_objs y') (y_stats y'), r).
Proof.
  intros NC H.
  assert (Z : forall y0 : sys V U,
    Sys (set_user (y_world y0) (go [] (w_user (y_world y0)))) (y_seqs y0) (y_objs y0) (y_stats y0) = y0)
    by (intros [w t ob ss]; cbn; rewrite set_user_same; reflexivity).
  unfold step_o in H. unfold step_d.
  destruct o; try discriminate NC;
    try (destruct (step c sh y _) as [y1 r1] eqn:E; inversion H; subst; cbn [ef_dropped]; rewrite Z; reflexivity).
  - destruct (nth_error (y_objs y) o) as [ob|]; [|inversion H; subst; cbn [ef_dropped]; rewrite Z; reflexivity].
    destruct (nth_error ob m) as [fd|]; [|inversion H; subst; cbn [ef_dropped]; rewrite Z; reflexivity].
    rewrite slot_expect_quiet. destruct (slot_expect_o _ _ _ _ _ _ _) as [[[[s' t'] r'] d] n].
    inversion H; subst. reflexivity.
  - destruct (nth_error (y_objs y) o) as [ob|]; [|inversion H; subst; cbn [ef_dropped]; rewrite Z; reflexivity].
    rewrite object_checkpoint_quiet. destruct (object_checkpoint_o _ _ _ _) as [[s' r'] d].
    inversion H; subst. reflexivity.
  - destruct (nth_error (y_objs y) o) as [ob|]; [|inversion H; subst; cbn [ef_dropped]; rewrite Z; reflexivity].
    rewrite object_drop_quiet. destruct (object_drop_o _ _ _ _) as [r' d].
    inversion H; subst. reflexivity.
  - destruct (nth_error (y_stats y) s) as [[md sm]|]; [|inversion H; subst; cbn [ef_dropped]; rewrite Z; reflexivity].
    rewrite context_expect_quiet. destruct (context_expect_o _ _ _ _ _ _ _) as [[[[s' t'] r'] d] n].
    inversion H; subst. reflexivity.
  - destruct (nth_error (y_stats y) s) as [[md sm]|]; [|inversion H; subst; cbn [ef_dropped]; rewrite Z; reflexivity].
    rewrite static_checkpoint_quiet. destruct (static_checkpoint_o _ _ _ _ _) as [[s' r'] d].
    inversion H; subst. reflexivity.
  - destruct (nth_error (y_stats y) s) as [[md sm]|]; [|inversion H; subst; cbn [ef_dropped]; rewrite Z; reflexivity].
    rewrite context_drop_quiet. destruct (context_drop_o _ _ _ _ _) as [[s' r'] d].
    inversion H; subst. reflexivity.
  - rewrite module_checkpoint_quiet. destruct (module_checkpoint_o _ _ _ _) as [[s' r'] d].
    inversion H; subst. reflexivity.
Qed.
End Quiet.

Lemma step_d_calls dt c sh (y : sys V U) o : is_call o = true -> step_d dt c sh y o = step c sh y o.
Proof. destruct o; try discriminate; reflexivity. Qed.

Lemma idle_step c sh (y : sys V U) o : step_d idle c sh y o = step c sh y o.
Proof.
  destruct (is_call o) eqn:C; [apply step_d_calls; exact C|].
  destruct (step_o c sh y o) as [[y' r] e] eqn:E.
  rewrite (step_quiet idle (fun _ u => u) (fun _ _ _ => eq_refl) _ _ _ _ _ _ _ C E).
  rewrite (step_same _ _ _ _ _ _ _ E).
  assert (G : forall l (u : U), fold_left (fun u (x : thing V U) => u) l u = u) by (induction l; auto).
  rewrite G. destruct y' as [w t ob ss]; cbn. rewrite set_user_same. reflexivity.
Qed.

Lemma idle_run c sh : forall ops (y : sys V U), run_d idle c sh y ops = run c sh y ops.
Proof.
  induction ops as [| o ops IH]; intros y; [reflexivity|]. cbn [run_d run]. rewrite idle_step.
  destruct (step c sh y o) as [y1 r]. rewrite IH. reflexivity.
Qed.

(** ** How a list of destructors ends *)
Section Ends.
Context (dt : dtors V U) (c : cfg).
Notation returns := (returns dt c).
Notation ends := (ends dt c).

Lemma returns_app p a b u u1 u' : returns p a u u1 -> returns p b u1 u' -> returns p (a ++ b) u u'.
Proof. intros R. induction R; cbn [List.app]; intros R2; auto. econstructor; eauto. Qed.

Lemma ends_prepend p a b u u1 u' r : returns p a u u1 -> ends p b u1 u' r -> ends p (a ++ b) u u' r.
Proof.
  intros R H. destruct H as [u' R2|l1 x l2 v1 v2 u' m -> R2 P R3|l1 x l2 v1 v2 u' -> R2 P|l1 x l2 y l3 v1 v2 v3 v4 u' m r -> R2 P R3 P2 NR].
  - apply ends_well. eapply returns_app; eauto.
  - eapply ends_in_panic with (l1 := a ++ l1); [rewrite <- app_assoc; reflexivity| |exact P|exact R3]. eapply returns_app; eauto.
  - eapply ends_at_once with (l1 := a ++ l1); [rewrite <- app_assoc; reflexivity| |exact P]. eapply returns_app; eauto.
  - eapply ends_badly with (l1 := a ++ l1); [rewrite <- app_assoc; reflexivity| |exact P|exact R3|exact P2|exact NR].
    eapply returns_app; eauto.
Qed.

Lemma ends_ret p l u u' x : ends p l u u' (Ret x) -> returns p l u u'.
Proof. intros H. inversion H; subst; auto. Qed.

(** Something of a list that does not return fails first. *)
Lemma ends_first p l u u' r : ends p l u u' r -> (forall x, r <> Ret x) ->
  exists l1 a l2 u1 u2 r1, l = l1 ++ a :: l2 /\ returns p l1 u u1 /\ perform dt c a p u1 = (u2, r1) /\
    (forall x, r1 <> Ret x).
Proof.
  intros H NR. destruct H as [u' R2|l1 x l2 v1 v2 u' m -> R2 P R3|l1 x l2 v1 v2 u' -> R2 P|l1 x l2 y l3 v1 v2 v3 v4 u' m r -> R2 P R3 P2 NR2].
  - elim (NR tt eq_refl).
  - do 6 eexists. split; [reflexivity|]. split; [exact R2|]. split; [exact P|]. discriminate.
  - do 6 eexists. split; [reflexivity|]. split; [exact R2|]. split; [exact P|]. discriminate.
  - do 6 eexists. split; [reflexivity|]. split; [exact R2|]. split; [exact P|]. discriminate.
Qed.

Lemma ends_then_panic p a b u u1 u' m r : ends p a u u1 (Panic m) -> ends true b u1 u' r ->
  ends p (a ++ b) u u' (match r with Ret _ => Panic m | _ => Abort end).
Proof.
  intros H H2. inversion H as [|l1 x l2 v1 v2 u0 m0 -> R P R3| |]; subst.
  destruct r as [[]|m'|].
  - eapply ends_in_panic with (l1 := l1); [rewrite <- app_assoc; cbn [List.app]; reflexivity|exact R|exact P|].
    eapply returns_app; [exact R3|]. eapply ends_ret; eauto.
  - destruct (ends_first _ _ _ _ _ H2) as (k1 & y & k2 & w1 & w2 & r1 & -> & Q1 & Q2 & Q3); [discriminate|].
    eapply ends_badly with (l1 := l1) (l2 := l2 ++ k1) (b := y) (l3 := k2);
      [rewrite <- !app_assoc; cbn [List.app]; reflexivity|exact R|exact P| |exact Q2|exact Q3].
    eapply returns_app; eauto.
  - destruct (ends_first _ _ _ _ _ H2) as (k1 & y & k2 & w1 & w2 & r1 & -> & Q1 & Q2 & Q3); [discriminate|].
    eapply ends_badly with (l1 := l1) (l2 := l2 ++ k1) (b := y) (l3 := k2);
      [rewrite <- !app_assoc; cbn [List.app]; reflexivity|exact R|exact P| |exact Q2|exact Q3].
    eapply returns_app; eauto.
Qed.

Lemma ends_abort p a b u u1 u' : ends p a u u1 Abort -> ends p (a ++ b) u u' Abort.
Proof.
  intros H. inversion H as [| |l1 x l2 v1 v2 u0 -> R P|l1 x l2 y l3 v1 v2 v3 v4 u0 m r -> R P R3 P2 NR]; subst.
  - eapply ends_at_once with (l1 := l1); [rewrite <- app_assoc; reflexivity|exact R|exact P].
  - eapply ends_badly with (l1 := l1) (l2 := l2); [rewrite <- app_assoc; cbn [List.app]; rewrite <- app_assoc; reflexivity|exact R|exact P|exact R3|exact P2|exact NR].
Qed.

Lemma glue_ends {A} (d : A -> bool -> U -> U * res unit) (fl : A -> list (method V * act V U)) :
  (forall x p u u' r, d x p u = (u', r) -> ends p (fl x) u u' r) ->
  forall l p u u' r, glue_d d l p u = (u', r) -> ends p (flat_map fl l) u u' r.
Proof.
  intros E. induction l as [| x l IH]; intros p u u' r H; cbn [glue_d flat_map] in *.
  - inversion H; subst. apply ends_well. constructor.
  - destruct (d x p u) as [u1 [[]|m|]] eqn:D; apply E in D.
    + apply ends_ret in D. eapply ends_prepend; eauto.
    + destruct (glue_d d l true u1) as [u2 r2] eqn:G. apply IH in G.
      pose proof (ends_then_panic _ _ _ _ _ _ _ _ D G) as Z.
      destruct r2 as [[]|m2|]; inversion H; subst; exact Z.
    + inversion H; subst. eapply ends_abort; eauto.
Qed.

Lemma act_ends me a p u u' r : act_d dt c me a p u = (u', r) -> ends p [(me, a)] u u' r.
Proof.
  intros H. assert (P : perform dt c (me, a) p u = (u', r)) by (destruct a; exact H). clear H.
  destruct r as [[]|m|].
  - apply ends_well. econstructor; [exact P|constructor].
  - eapply ends_in_panic with (l1 := []) (l2 := []); [reflexivity|constructor|exact P|constructor].
  - eapply ends_at_once with (l1 := []) (l2 := []); [reflexivity|constructor|exact P].
Qed.

Lemma exp_ends me e p u u' r : drop_exp_d dt c me e p u = (u', r) -> ends p (acts_of me e) u u' r.
Proof.
  intros H. apply (glue_ends _ (fun a => [(me, a)]) (act_ends me)) in H.
  cbn [flat_map List.app] in H. rewrite things_held in H. unfold acts_of.
  replace (flat_map (fun a => [(me, a)]) (map ActDestroy (held_by e))) with
    (map (fun x => (me, ActDestroy x)) (held_by e)) in H; [exact H|].
  clear H. induction (held_by e) as [| x l IH]; cbn; [reflexivity|]. f_equal. exact IH.
Qed.

Lemma slot_ends md sh s p u u' r : slot_drop_d dt c md sh s p u = (u', r) ->
  ends p (flat_map (acts_of (md_me md)) (in_order sh s)) u u' r.
Proof.
  destruct s as [es|st]; cbn [slot_drop_d in_order]; intros H.
  - eapply glue_ends; [|exact H]. intros x p' v v' r'. apply exp_ends.
  - apply (glue_ends _ (flat_map (acts_of (md_me md)))) in H.
    + replace (flat_map (acts_of (md_me md)) (flat_map snd (sh st))) with
        (flat_map (flat_map (acts_of (md_me md))) (map snd (sh st))); [exact H|].
      clear H. induction (sh st) as [| x l IH]; cbn [map flat_map]; [reflexivity|]. rewrite flat_map_app. f_equal. exact IH.
    + intros es p' v v' r' G. eapply glue_ends; [|exact G]. intros x p'' w w' r''. apply exp_ends.
Qed.

Lemma object_ends sh ob p u u' r : object_drop_d dt c sh ob p u = (u', r) -> ends p (object_acts sh ob) u u' r.
Proof. intros H. eapply glue_ends; [|exact H]. intros x p' v v' r'. apply slot_ends. Qed.

(** ** Polite destructors *)
Context (P : polite dt).

Lemma perform_polite a u : exists u', perform dt c a true u = (u', Ret tt).
Proof.
  destruct a as [me [k|x]]; cbn [perform]; [|apply P].
  rewrite common_drop_panicking. eauto.
Qed.

Lemma perform_no_abort a p u : snd (perform dt c a p u) <> Abort.
Proof.
  destruct a as [me [k|x]]; cbn [perform snd]; [apply check_no_abort|].
  destruct p; [|apply P]. destruct (proj1 (P x u)) as [u' ->]. discriminate.
Qed.

Lemma ends_polite p l u u' : ends p l u u' Abort -> False.
Proof.
  intros H. inversion H as [| |l1 x l2 v1 v2 u0 -> R Q|l1 x l2 y l3 v1 v2 v3 v4 u0 m r -> R Q R3 P2 NR]; subst.
  - pose proof (perform_no_abort x p v1) as Z. rewrite Q in Z. apply Z. reflexivity.
  - destruct (perform_polite y v3) as [w E]. rewrite E in P2. inversion P2; subst. elim (NR tt eq_refl).
Qed.

Lemma ends_unwinding l u u' r : ends true l u u' r -> r = Ret tt.
Proof.
  intros H. destruct r as [[]|m|]; [reflexivity| |elim (ends_polite _ _ _ _ H)].
  destruct (ends_first _ _ _ _ _ H) as (k1 & y & k2 & w1 & w2 & r1 & -> & Q1 & Q2 & Q3); [discriminate|].
  destruct (perform_polite y w1) as [w E]. rewrite E in Q2. inversion Q2; subst. elim (Q3 tt eq_refl).
Qed.

Lemma slot_no_abort md sh s p u : snd (slot_drop_d dt c md sh s p u) <> Abort.
Proof.
  destruct (slot_drop_d dt c md sh s p u) as [u' r] eqn:E. apply slot_ends in E. intros Z. cbn in Z. subst.
  eapply ends_polite; eauto.
Qed.

Lemma object_no_abort sh ob p u : snd (object_drop_d dt c sh ob p u) <> Abort.
Proof.
  destruct (object_drop_d dt c sh ob p u) as [u' r] eqn:E. apply object_ends in E. intros Z. cbn in Z. subst.
  eapply ends_polite; eauto.
Qed.

Lemma destroy_unwinding l u : exists u', destroy dt l true u = (u', Ret tt).
Proof.
  unfold destroy. revert u. induction l as [| x l IH]; intros u; cbn [glue_d]; [eauto|].
  destruct (proj1 (P x u)) as [u1 ->]. apply IH.
Qed.

Lemma destroy_no_abort l p u : snd (destroy dt l p u) <> Abort.
Proof.
  destruct p; [destruct (destroy_unwinding l u) as [u' ->]; discriminate|].
  unfold destroy. revert u. induction l as [| x l IH]; intros u; cbn [glue_d]; [discriminate|].
  pose proof (proj2 (P x u)) as Z. destruct (dt x false u) as [u1 [[]|m|]]; cbn in Z; [apply IH| |congruence].
  destruct (destroy_unwinding l u1) as [u2 E]. unfold destroy in E. rewrite E. discriminate.
Qed.

Lemma refuse_no_abort m l u : snd (refuse dt m l u) <> Abort.
Proof. unfold refuse. destruct (destroy_unwinding l u) as [u' ->]. discriminate. Qed.

Lemma setter_no_abort th p st e t u : snd (apply_setter_d dt c th p st e t u) <> Abort.
Proof.
  assert (SM : forall m k, snd (set_matcher_d dt p m k u) <> Abort).
  { intros m k. unfold set_matcher_d. destruct (c_mpoison k).
    - pose proof (refuse_no_abort MPoison (matcher_things m) u). destruct (refuse _ _ _ _). exact H.
    - pose proof (destroy_no_abort (matcher_things (c_matcher k)) p u). destruct (destroy _ _ _ _). exact H. }
  assert (SS : forall rf e0, snd (set_srfunc_d dt p rf e0 u) <> Abort).
  { intros rf e0. unfold set_srfunc_d. destruct (e_action e0) as [old []|old|old]; try discriminate.
    - pose proof (refuse_no_abort MPoison (srfunc_things rf) u). destruct (refuse _ _ _ _). exact H.
    - pose proof (destroy_no_abort (srfunc_things old) p u). destruct (destroy _ _ _ _). exact H. }
  assert (MM : forall rf e0, snd (set_mrfunc_d dt p rf e0 u) <> Abort).
  { intros rf e0. unfold set_mrfunc_d. destruct (e_action e0) as [old po|old|old]; try discriminate.
    pose proof (destroy_no_abort (mrfunc_things old) p u). destruct (destroy _ _ _ _). exact H. }
  assert (OT : snd (let '(e', t', r) := apply_setter c th st e t in (e', t', u, r)) <> Abort).
  { destruct (apply_setter c th st e t) as [[e' t'] r] eqn:E. exact (GuardsEnd.no_abort _ _ _ _ _ _ _ _ E). }
  unfold apply_setter_d. destruct st; cbn [snd fst]; auto; destruct (e_action e); cbn [snd]; auto.
Qed.

Lemma setters_no_abort th p l : forall e t u, snd (apply_setters_d dt c th p l e t u) <> Abort.
Proof.
  induction l as [| st l IH]; intros e t u; [discriminate|]. cbn [apply_setters_d].
  pose proof (setter_no_abort th p st e t u) as Z.
  destruct (apply_setter_d dt c th p st e t u) as [[[e1 t1] u1] [x|m|]]; cbn in *; auto.
Qed.

Lemma object_checkpoint_no_abort sh : forall ob p u, snd (object_checkpoint_d dt c sh ob p u) <> Abort.
Proof.
  induction ob as [| f ob IH]; intros p u; [discriminate|]. cbn [object_checkpoint_d].
  pose proof (slot_no_abort (f_decl f) sh (f_slot f) p u) as Z.
  destruct (slot_drop_d dt c (f_decl f) sh (f_slot f) p u) as [u1 [x|m|]]; cbn in *; [|discriminate|congruence].
  specialize (IH p u1). destruct (object_checkpoint_d dt c sh ob p u1) as [[o2 u2] r2]. exact IH.
Qed.

Lemma static_checkpoint_no_abort md sh sm p u : snd (static_checkpoint_d dt c md sh sm p u) <> Abort.
Proof.
  unfold static_checkpoint_d. destruct (sm_poison sm); [discriminate|].
  pose proof (slot_no_abort md sh (sm_slot sm) p u) as Z. destruct (slot_drop_d _ _ _ _ _ _ _). exact Z.
Qed.

Lemma context_drop_no_abort md sh sm p u : snd (context_drop_d dt c md sh sm p u) <> Abort.
Proof.
  unfold context_drop_d. destruct p; [|apply static_checkpoint_no_abort].
  pose proof (slot_no_abort md sh (sm_slot sm) true u) as Z. destruct (slot_drop_d _ _ _ _ _ _ _). exact Z.
Qed.

Lemma module_checkpoint_no_abort sh : forall ss p u, snd (module_checkpoint_d dt c sh ss p u) <> Abort.
Proof.
  induction ss as [| [md sm] ss IH]; intros p u; [discriminate|]. cbn [module_checkpoint_d].
  pose proof (static_checkpoint_no_abort md sh sm p u) as Z.
  destruct (static_checkpoint_d dt c md sh sm p u) as [[sm' u1] [x|m|]]; cbn in *; [|discriminate|congruence].
  specialize (IH p u1). destruct (module_checkpoint_d dt c sh ss p u1) as [[o2 u2] r2]. exact IH.
Qed.

Lemma unit_res_no_abort (r : res unit) : r <> Abort -> (unit_res r : res (option V)) <> Abort.
Proof. destruct r; cbn; congruence. Qed.

Lemma step_no_abort sh y o : is_call o = false -> snd (step_d dt c sh y o) <> Abort.
Proof.
  intros NC. unfold step_d. destruct o; try discriminate NC;
    try (unfold step; repeat match goal with |- context [match ?x with _ => _ end] => destruct x end; discriminate).
  - destruct (nth_error (y_objs y) o) as [ob|]; [|discriminate]. destruct (nth_error ob m) as [f|]; [|discriminate].
    unfold slot_expect_d. match goal with |- context [apply_setters_d ?a ?b ?d ?e ?f ?g ?h ?i] =>
      pose proof (setters_no_abort d e f g h i) as Z; destruct (apply_setters_d a b d e f g h i) as [[[? ?] ?] ?] end.
    cbn in *. apply unit_res_no_abort. exact Z.
  - destruct (nth_error (y_objs y) o) as [ob|]; [|discriminate].
    pose proof (object_checkpoint_no_abort sh ob (w_panicking (y_world y)) (w_user (y_world y))) as Z.
    destruct (object_checkpoint_d _ _ _ _ _ _) as [[? ?] ?]. apply unit_res_no_abort. exact Z.
  - destruct (nth_error (y_objs y) o) as [ob|]; [|discriminate].
    pose proof (object_no_abort sh ob (w_panicking (y_world y)) (w_user (y_world y))) as Z.
    destruct (object_drop_d _ _ _ _ _ _). apply unit_res_no_abort. exact Z.
  - destruct (nth_error (y_stats y) s) as [[md sm]|]; [|discriminate].
    assert (Z : snd (context_expect_d dt c md sm k l (y_seqs y) (y_world y)) <> Abort).
    { unfold context_expect_d. destruct (sm_poison sm); [discriminate|].
      unfold slot_expect_d. match goal with |- context [apply_setters_d ?a ?b ?d ?e ?f ?g ?h ?i] =>
        pose proof (setters_no_abort d e f g h i) as Z; destruct (apply_setters_d a b d e f g h i) as [[[? ?] ?] r] end.
      cbn in *. destruct r; cbn; congruence. }
    destruct (context_expect_d _ _ _ _ _ _ _ _) as [[[? ?] ?] ?]. apply unit_res_no_abort. exact Z.
  - destruct (nth_error (y_stats y) s) as [[md sm]|]; [|discriminate].
    pose proof (static_checkpoint_no_abort md sh sm (w_panicking (y_world y)) (w_user (y_world y))) as Z.
    destruct (static_checkpoint_d _ _ _ _ _ _ _) as [[? ?] ?]. apply unit_res_no_abort. exact Z.
  - destruct (nth_error (y_stats y) s) as [[md sm]|]; [|discriminate].
    pose proof (context_drop_no_abort md sh sm (w_panicking (y_world y)) (w_user (y_world y))) as Z.
    destruct (context_drop_d _ _ _ _ _ _ _) as [[? ?] ?]. apply unit_res_no_abort. exact Z.
  - pose proof (module_checkpoint_no_abort sh (y_stats y) (w_panicking (y_world y)) (w_user (y_world y))) as Z.
    destruct (module_checkpoint_d _ _ _ _ _ _) as [[? ?] ?]. apply unit_res_no_abort. exact Z.
Qed.
End Ends.
End DropsProofs.
