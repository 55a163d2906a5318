(** * FragileProofs: single-threaded closures that are dropped *)

From Coq Require Import PeanoNat NArith List Bool String Lia.
From Verif Require Import Base Times Expect Mock MessageSpec MessageProofs MessageRuns Fragile FragileSpec.
Import ListNotations.
Open Scope N_scope.

Section FragileProofs.
Context {V U : Type}.

(** ** Drop glue *)

Definition after (r : res unit) (rest : bool -> res unit) (p : bool) : res unit :=
  match r with
  | Ret _ => rest p
  | Abort => Abort
  | Panic m => match rest true with Ret _ => Panic m | _ => Abort end
  end.

Lemma drop_all_app l l' p : drop_all (l ++ l') p = after (drop_all l p) (drop_all l') p.
Proof.
  revert p. induction l as [|d l IH]; intros p; cbn; [reflexivity|].
  destruct (d p) as [[]|m|]; [apply IH| |reflexivity].
  rewrite IH. unfold after. destruct (drop_all l true) as [[]|?|]; try reflexivity.
  destruct (drop_all l' true) as [[]|?|]; reflexivity.
Qed.

Definition checks_of c (l : list (method V * expectation V U)) : list (bool -> res unit) :=
  map (fun me => common_drop c (fst me) (e_common (snd me))) l.
Definition drops_of c th (l : list (method V * expectation V U)) : list (bool -> res unit) :=
  flat_map (fun me => exp_drops c th (fst me) (snd me)) l.

Lemma drop_exps_all c me (es : list (expectation V U)) p :
  drop_exps c me es p = drop_all (checks_of c (map (pair me) es)) p.
Proof.
  revert p. induction es as [|e es IH]; intros p; cbn; [reflexivity|].
  destruct (common_drop c me (e_common e) p) as [[]|m|]; [apply IH| |reflexivity]. now rewrite IH.
Qed.
Lemma drop_many_all c me (l : list (list (expectation V U))) p :
  drop_many c me l p = drop_all (checks_of c (map (pair me) (List.concat l))) p.
Proof.
  revert p. induction l as [|es l IH]; intros p; cbn; [reflexivity|].
  unfold checks_of. rewrite !map_app, drop_all_app. fold (checks_of c (map (pair me) es)). rewrite <- drop_exps_all.
  unfold after. destruct (drop_exps c me es p) as [[]|m|]; [apply IH| |reflexivity]. now rewrite IH.
Qed.
Lemma exps_in_slot sh (s : slot V U) : slot_exps sh s = exps_in sh s.
Proof. destruct s; cbn; [reflexivity|]. now rewrite flat_map_concat_map. Qed.
Lemma slot_drop_all c md sh (s : slot V U) p :
  slot_drop c md sh s p = drop_all (checks_of c (map (pair (md_me md)) (exps_in sh s))) p.
Proof.
  destruct s; cbn; [apply drop_exps_all|]. rewrite drop_many_all. now rewrite flat_map_concat_map.
Qed.
Definition held sh (ob : object V U) : list (method V * expectation V U) :=
  flat_map (fun f => map (pair (md_me (f_decl f))) (exps_in sh (f_slot f))) ob.
Lemma object_drop_all c sh ob p : object_drop c sh ob p = drop_all (checks_of c (held sh ob)) p.
Proof.
  revert p. induction ob as [|f ob IH]; intros p; cbn; [reflexivity|].
  unfold checks_of. rewrite map_app, drop_all_app. fold (checks_of c (map (pair (md_me (f_decl f))) (exps_in sh (f_slot f)))).
  rewrite <- slot_drop_all. unfold after.
  destruct (slot_drop c (f_decl f) sh (f_slot f) p) as [[]|m|]; [apply IH| |reflexivity]. now rewrite IH.
Qed.

Lemma flat_map_map {A B C} (f : A -> B) (g : B -> list C) l : flat_map g (map f l) = flat_map (fun x => g (f x)) l.
Proof. induction l; cbn; congruence. Qed.
Lemma flat_map_flat_map {A B C} (f : A -> list B) (g : B -> list C) l :
  flat_map g (flat_map f l) = flat_map (fun x => flat_map g (f x)) l.
Proof. induction l; cbn; [reflexivity|]. rewrite flat_map_app. congruence. Qed.

Lemma fslot_drop_all c th sh md (s : slot V U) p :
  fslot_drop c th sh md s p = drop_all (drops_of c th (map (pair (md_me md)) (exps_in sh s))) p.
Proof.
  unfold fslot_drop, slot_drops, drops_of. rewrite exps_in_slot, flat_map_map. reflexivity.
Qed.
Lemma fobject_drop_all c th sh ob p : fobject_drop c th sh ob p = drop_all (drops_of c th (held sh ob)) p.
Proof.
  unfold fobject_drop, drops_of, held. rewrite flat_map_flat_map. f_equal. apply flat_map_ext. intros f.
  unfold slot_drops. rewrite exps_in_slot, flat_map_map. reflexivity.
Qed.

Lemma homes_fragile (e : expectation V U) :
  homes e = matcher_fragile (c_matcher (e_common e)) ++ action_fragile (e_action e).
Proof. reflexivity. Qed.

Lemma fragiles_home th l r p : (forall t, In t l -> t = th) ->
  drop_all (map (fragile_drop th) l ++ r) p = drop_all r p.
Proof.
  intros H. induction l as [|t l IH]; cbn; [reflexivity|].
  unfold fragile_drop at 1. rewrite (H t (or_introl eq_refl)), Nat.eqb_refl. apply IH. intros. apply H. now right.
Qed.

(** At home, nothing else happens. *)
Lemma drops_home c th l p : (forall x t, In x l -> In t (homes (snd x)) -> t = th) ->
  drop_all (drops_of c th l) p = drop_all (checks_of c l) p.
Proof.
  revert p. induction l as [|[me e] l IH]; intros p H; cbn; [reflexivity|].
  destruct (common_drop c me (e_common e) p) as [[]|m|]; [| |reflexivity].
  - rewrite <- homes_fragile, fragiles_home; [apply IH; intros x t I; apply H; now right|].
    intros t I. exact (H (me, e) t (or_introl eq_refl) I).
  - rewrite <- homes_fragile, fragiles_home; [rewrite IH; [reflexivity|]; intros x t I; apply H; now right|].
    intros t I. exact (H (me, e) t (or_introl eq_refl) I).
Qed.

(** ** Steps at home *)

Context (sh : shuffle V U) (shuffled : forall s x, In x (sh s) -> In x s).

Lemma in_exps_in e (s : slot V U) : In e (exps_in sh s) -> exists es, stored s es /\ In e es.
Proof.
  destruct s as [es|st]; cbn.
  - intros I. now exists es.
  - intros I. apply in_flat_map in I as ((k & es) & I & J). exists es. split; [|exact J]. exists k. auto.
Qed.

Lemma fslot_drop_home c th md (s : slot V U) p :
  (forall es e t, stored s es -> In e es -> In t (homes e) -> t = th) ->
  fslot_drop c th sh md s p = slot_drop c md sh s p.
Proof.
  intros H. rewrite fslot_drop_all, slot_drop_all. apply drops_home. intros x t I J.
  apply in_map_iff in I as (e & <- & I). destruct (in_exps_in _ _ I) as (es & S & E). exact (H _ _ _ S E J).
Qed.
Lemma fobject_checkpoint_home c th (ob : object V U) p :
  (forall f es e t, In f ob -> stored (f_slot f) es -> In e es -> In t (homes e) -> t = th) ->
  fobject_checkpoint c th sh ob p = object_checkpoint c sh ob p.
Proof.
  induction ob as [|f ob IH]; intros H; cbn; [reflexivity|].
  rewrite fslot_drop_home by (intros es e t; apply H; now left).
  rewrite IH by (intros g es e t I; apply H; now right). reflexivity.
Qed.
Lemma fstatic_checkpoint_home c th md sm p :
  (forall es e t, stored (sm_slot sm) es -> In e es -> In t (homes e) -> t = th) ->
  fstatic_checkpoint c th sh md sm p = static_checkpoint c md sh sm p.
Proof. intros H. unfold fstatic_checkpoint, static_checkpoint. now rewrite fslot_drop_home. Qed.
Lemma fmodule_checkpoint_home c th (ss : statics V U) p :
  (forall md sm es e t, In (md, sm) ss -> stored (sm_slot sm) es -> In e es -> In t (homes e) -> t = th) ->
  fmodule_checkpoint c th sh ss p = module_checkpoint c sh ss p.
Proof.
  induction ss as [|[md sm] ss IH]; intros H; cbn; [reflexivity|].
  rewrite fstatic_checkpoint_home by (intros es e t; apply (H md sm); now left).
  rewrite IH by (intros d s es e t I; apply (H d s); now right). reflexivity.
Qed.

Lemma looked_calls (y : sys V U) o e : In e (looked_at y o) -> exists me es args, calls y o me es args /\ In e es.
Proof.
  destruct o as [| |i j k args wr| | | |s k args| | | | | | ]; cbn; try contradiction.
  - destruct (nth_error (y_objs y) i) as [ob|] eqn:N1; [|contradiction].
    destruct (nth_error ob j) as [f|] eqn:N2; [|contradiction]. intros I.
    exists (md_me (f_decl f)), (slot_get (f_slot f) k), args. split; [|exact I]. econstructor; eassumption.
  - destruct (nth_error (y_stats y) s) as [[md sm]|] eqn:N; [|contradiction]. intros I.
    exists (md_me md), (slot_get (sm_slot sm) k), args. split; [|exact I]. econstructor; eassumption.
Qed.
Lemma not_used (y : sys V U) o l : at_home y o -> existsb (used_elsewhere (w_thread (y_world y))) (combine (looked_at y o) l) = false.
Proof.
  intros [_ H]. apply not_true_iff_false. rewrite existsb_exists. intros ((e & e') & I & X).
  apply in_combine_l in I. destruct (looked_calls _ _ _ I) as (me & es & args & C & J).
  unfold used_elsewhere in X. cbn [fst snd] in X. destruct (e_action e) as [rf po| |] eqn:A; try discriminate.
  destruct rf as [| | | | |t f]; try discriminate. rewrite (H _ _ _ _ _ _ _ C J A), Nat.eqb_refl in X.
  destruct (e_action e') as [[] ?| |]; discriminate.
Qed.

Lemma step_home c y o : at_home y o -> fstep c sh y o = step c sh y o.
Proof.
  intros H. assert (N := fun l => not_used y o l H). destruct H as [H _].
  destruct o as [sd|i j k l|i j k args wr|i|i|s k l|s k args|s|s| |t|b|f]; cbn [fstep]; try reflexivity.
  - destruct (step c sh y (OCall i j k args wr)) as [y' r]. now rewrite N.
  - cbn [step]. destruct (nth_error (y_objs y) i) as [ob|] eqn:E; [|reflexivity].
    rewrite fobject_checkpoint_home; [reflexivity|]. intros f es e t I S.
    exact (H _ _ _ _ (ValCheckpoint _ _ _ _ _ E I S)).
  - cbn [step]. destruct (nth_error (y_objs y) i) as [ob|] eqn:E; [|reflexivity].
    rewrite fobject_drop_all, object_drop_all, drops_home; [reflexivity|]. intros x t I J.
    apply in_flat_map in I as (f & I & K). apply in_map_iff in K as (e & <- & K).
    destruct (in_exps_in _ _ K) as (es & S & M). exact (H _ _ _ _ (ValDrop _ _ _ _ _ E I S) M J).
  - destruct (step c sh y (OStaticCall s k args)) as [y' r]. now rewrite N.
  - cbn [step]. destruct (nth_error (y_stats y) s) as [[md sm]|] eqn:E; [|reflexivity].
    rewrite fstatic_checkpoint_home; [reflexivity|]. intros es e t S.
    exact (H _ _ _ _ (ValCtxCheckpoint _ _ _ _ _ E S)).
  - cbn [step]. destruct (nth_error (y_stats y) s) as [[md sm]|] eqn:E; [|reflexivity].
    assert (Hs : forall es e t, stored (sm_slot sm) es -> In e es -> In t (homes e) -> t = w_thread (y_world y)).
    { intros es e t S. exact (H _ _ _ _ (ValCtxDrop _ _ _ _ _ E S)). }
    unfold fcontext_drop, context_drop. rewrite fslot_drop_home, fstatic_checkpoint_home by exact Hs. reflexivity.
  - cbn [step]. rewrite fmodule_checkpoint_home; [reflexivity|]. intros md sm es e t I S.
    exact (H _ _ _ _ (ValModule _ _ _ _ I S)).
Qed.

(** ** Where the closures of a test live *)

Context (Q : nat -> Prop).
Definition settled (e : expectation V U) : Prop := forall t, In t (homes e) -> Q t.

Lemma settled_common e (k : common V U) : c_matcher k = c_matcher (e_common e) -> settled e -> settled (set_common e k).
Proof. intros M H t. unfold homes. cbn. rewrite M. apply H. Qed.

Lemma setter_settled c th st e t e' t' r : (st_setter st -> Q th) -> settled e ->
  apply_setter c th st e t = (e', t', r) -> settled e'.
Proof.
  intros P H E. destruct e as [[mt mp sq ti] ac].
  assert (Hm : forall x, In x (match mt with MtFuncSt t _ => [t] | _ => [] end) -> Q x).
  { intros x I. apply H. apply in_or_app. now left. }
  assert (Ha : forall x, In x (action_fragile ac) -> Q x).
  { intros x I. apply H. apply in_or_app. now right. }
  assert (G : forall m' p' s' i' a', (forall x, In x (match m' with MtFuncSt t _ => [t] | _ => [] end) -> Q x) ->
    (forall x, In x (action_fragile a') -> Q x) -> settled (Expectation (Common m' p' s' i') a')).
  { intros m' p' s' i' a' A B x I. apply in_app_or in I as [I|I]; [exact (A x I)|exact (B x I)]. }
  assert (One : forall x : nat, st_setter st -> In x [th] -> Q x).
  { intros x S [<-|[]]. exact (P S). }
  assert (Nil : forall x : nat, In x [] -> Q x) by contradiction.
  destruct st as [x| | |ps|f|f|i|f|f|f|f|v|v|v]; cbn in E.
  - injection E as <- _ _. unfold common_times. cbn. destruct (times_times c x ti). now apply G.
  - injection E as <- _ _. unfold common_times. cbn [e_common c_times]. destruct (times_times c (ANum 1) ti). now apply G.
  - injection E as <- _ _. now apply G.
  - injection E as <- _ _. unfold common_set_matcher. cbn. destruct mp; now apply G.
  - injection E as <- _ _. unfold common_set_matcher. cbn. destruct mp; now apply G.
  - injection E as <- _ _. unfold common_set_matcher. cbn. destruct mp; apply G; auto. intros x. exact (One x I).
  - unfold common_in_sequence in E. cbn in E. destruct (times_is_exact c ti) as [[|]|?|].
    + destruct (next_handle c (t i)) as [s [h|?|]]; injection E as <- _ _; now apply G.
    + injection E as <- _ _; now apply G.
    + injection E as <- _ _; now apply G.
    + injection E as <- _ _; now apply G.
  - destruct ac as [rf [|]|rf|rf]; injection E as <- _ _; apply G; auto.
  - destruct ac as [rf [|]|rf|rf]; injection E as <- _ _; apply G; auto; intros x; exact (One x I).
  - destruct ac as [rf [|]|rf|rf]; injection E as <- _ _; apply G; auto.
  - destruct ac as [rf [|]|rf|rf]; injection E as <- _ _; apply G; auto; intros x; exact (One x I).
  - destruct ac as [rf [|]|rf|rf]; injection E as <- _ _; apply G; auto.
  - destruct ac as [rf [|]|rf|rf]; injection E as <- _ _; apply G; auto; intros x; exact (One x I).
  - destruct ac as [rf [|]|rf|rf]; injection E as <- _ _; apply G; auto.
Qed.
Lemma setters_settled c th l e t e' t' r : Forall (fun s => st_setter s -> Q th) l -> settled e ->
  apply_setters c th l e t = (e', t', r) -> settled e'.
Proof.
  intros F. revert e t. induction F as [|st l P F IH]; intros e t C; cbn.
  - intros E. injection E as <- _ _. exact C.
  - destruct (apply_setter c th st e t) as [[e1 t1] r1] eqn:E.
    assert (C1 := setter_settled _ _ _ _ _ _ _ _ P C E).
    destruct r1; intros H; [exact (IH _ _ C1 H)| |]; injection H as <- _ _; exact C1.
Qed.

Lemma matches_matcher (k : common V U) args w k' w' r : common_matches k args w = (k', w', r) -> c_matcher k' = c_matcher k.
Proof.
  unfold common_matches. destruct (c_mpoison k); [intros E; injection E as <- _ _; reflexivity|].
  destruct (matcher_matches (c_matcher k) args w) as [w1 [b|m|]]; intros E; injection E as <- _ _; reflexivity.
Qed.
Lemma find_settled c one es args w es' w' r : Forall settled es -> find_exp c one es args w = (es', w', r) -> Forall settled es'.
Proof.
  revert w es' w' r. induction es as [|e es IH]; intros w es' w' r F; cbn.
  - intros E. injection E as <- _ _. constructor.
  - inversion F as [|? ? S F']; subst. destruct (common_matches (e_common e) args w) as [[k w1] r1] eqn:M.
    assert (S1 := settled_common e k (matches_matcher _ _ _ _ _ _ M) S).
    destruct (find_exp c one es args w1) as [[es2 w2] r2] eqn:G. assert (F2 := IH _ _ _ _ F' G).
    destruct r1 as [[|]|m|].
    + destruct (common_is_done c k) as [d|m|].
      * destruct (negb d || one); intros E; injection E as <- _ _; now constructor.
      * intros E; injection E as <- _ _; now constructor.
      * intros E; injection E as <- _ _; now constructor.
    + intros E; injection E as <- _ _; now constructor.
    + intros E; injection E as <- _ _; now constructor.
    + intros E; injection E as <- _ _; now constructor.
Qed.

Lemma expectation_call_settled c me e args wr w e' w' r : settled e ->
  expectation_call c me e args wr w = (e', w', r) -> settled e'.
Proof.
  intros H. unfold expectation_call.
  destruct (common_call c me (e_common e) (call_desc me args) w) as [[k w1] r1] eqn:E.
  destruct (common_call_spec _ _ _ _ _ _ _ _ E) as ([KM _] & _ & _).
  assert (S1 := settled_common e k KM H).
  assert (G : forall a', incl (action_fragile a') (action_fragile (e_action e)) -> settled (Expectation k a')).
  { intros a' A x I. apply H. unfold homes in *. cbn [e_common e_action] in I. rewrite KM in I.
    apply in_app_or in I as [I|I]; apply in_or_app; [now left|right]. exact (A x I). }
  destruct r1 as [x|m|]; [|intros Z; injection Z as <- _ _; exact S1..].
  destruct (e_action e) as [rf po|rf|rf].
  - unfold static_ret. destruct po; [intros Z; injection Z as <- _ _; apply G, incl_refl|].
    destruct (srfunc_call c me rf args w1) as [[rf' w2] r2] eqn:R.
    assert (A : forall b, incl (action_fragile (AStatic rf' b)) (action_fragile (AStatic rf false))).
    { intros b. destruct rf as [| |f|th f|f|th f]; cbn in R;
        try (destruct (run_user f args w1)); try (destruct (Nat.eqb th (w_thread w1)));
        injection R as <- _ _; first [apply incl_refl|apply incl_nil_l]. }
    destruct (let? x0 := r2 in unwrap_rf me k x0) as [v|m|]; intros Z; injection Z as <- _ _; apply G, A.
  - intros Z; injection Z as <- _ _; exact S1.
  - unfold mut_ret. destruct (show_locked k) as [s|m|]; [|intros Z; injection Z as <- _ _; apply G, incl_refl..].
    destruct (mrfunc_call c rf args wr w1) as [[rf' w2] r2] eqn:R. intros Z. injection Z as <- _ _. apply G.
    destruct rf as [[v|]|f o|th f o|v]; cbn in R.
    + injection R as <- _ _. apply incl_refl.
    + injection R as <- _ _. apply incl_refl.
    + destruct (f args (w_user w1)) as [u [?|?|]]; injection R as <- _ _; apply incl_refl.
    + destruct (Nat.eqb th (w_thread w1)); [destruct (f args (w_user w1)) as [u [?|?|]]|]; injection R as <- _ _; apply incl_refl.
    + injection R as <- _ _. apply incl_refl.
Qed.
Lemma expectations_call_settled c me es args wr w es' w' r : Forall settled es ->
  expectations_call c me es args wr w = (es', w', r) -> Forall settled es'.
Proof.
  intros F. unfold expectations_call. destruct (find_exp c _ es args w) as [[es1 w1] r1] eqn:E.
  assert (F1 := find_settled _ _ _ _ _ _ _ _ F E).
  destruct r1 as [[i|]|m1|]; [|intros Z; injection Z as <- _ _; exact F1..].
  destruct (nth_error es1 i) as [e|] eqn:N; [|intros Z; injection Z as <- _ _; exact F1].
  destruct (expectation_call c me e args wr w1) as [[e' w2] r2] eqn:X. intros Z. injection Z as <- _ _.
  apply set_nth_Forall; [exact F1|]. exact (expectation_call_settled _ _ _ _ _ _ _ _ _ (nth_Forall _ _ _ _ F1 N) X).
Qed.

Definition settled_slot (s : slot V U) : Prop := forall es, stored s es -> Forall settled es.

Lemma slot_get_settled s k : settled_slot s -> Forall settled (slot_get s k).
Proof.
  destruct s as [es|st]; cbn; intros C.
  - exact (C _ eq_refl).
  - destruct (gget st k) as [es|] eqn:G; [|constructor]. destruct (gget_In _ _ _ G) as [k' I]. apply C. now exists k'.
Qed.
Lemma slot_put_settled s k es : settled_slot s -> Forall settled es -> settled_slot (slot_put s k es).
Proof.
  destruct s as [l|st]; cbn; intros C F x X; cbn in X.
  - now subst x.
  - destruct X as [k' X]. destruct (gput_In _ _ _ _ _ X) as [I| ->]; [|exact F]. apply C. now exists k'.
Qed.
Lemma slot_call_settled c md s k args wr w s' w' r : settled_slot s ->
  slot_call c md s k args wr w = (s', w', r) -> settled_slot s'.
Proof.
  intros C. destruct s as [es|st]; cbn.
  - destruct (expectations_call c (md_me md) es args wr w) as [[es' w1] r1] eqn:E. intros Z. injection Z as <- _ _.
    intros x ->. exact (expectations_call_settled _ _ _ _ _ _ _ _ _ (C _ eq_refl) E).
  - destruct (gget st k) as [es|] eqn:G; [|intros Z; injection Z as <- _ _; exact C].
    destruct (expectations_call c (md_me md) es args wr w) as [[es' w1] r1] eqn:E. intros Z. injection Z as <- _ _.
    assert (Ce : Forall settled es) by (destruct (gget_In _ _ _ G) as [k' I]; apply C; now exists k').
    exact (slot_put_settled (SGeneric st) k es' C (expectations_call_settled _ _ _ _ _ _ _ _ _ Ce E)).
Qed.
Lemma default_settled c me kd : settled (expectation_default c me kd : expectation V U).
Proof. intros t I. destruct kd; destruct I. Qed.
Lemma slot_expect_settled c md s k th l t s' t' r : Forall (fun s => st_setter s -> Q th) l -> settled_slot s ->
  slot_expect c md s k th l t = (s', t', r) -> settled_slot s'.
Proof.
  intros P C. unfold slot_expect. destruct (apply_setters _ _ _ _ _) as [[e t1] r1] eqn:E.
  intros Z. injection Z as <- _ _. apply slot_put_settled; [exact C|]. apply Forall_app. split.
  - now apply slot_get_settled.
  - constructor; [|constructor]. exact (setters_settled _ _ _ _ _ _ _ _ P (default_settled _ _ _) E).
Qed.
Lemma slot_new_settled (md : mdecl V) : settled_slot (slot_new md).
Proof.
  unfold slot_new. destruct (md_generic md); intros es E; cbn in E.
  - destruct E as [k []].
  - subst. constructor.
Qed.
Lemma slot_clear_settled s : settled_slot (slot_clear s).
Proof.
  destruct s; intros x E; cbn in E.
  - subst. constructor.
  - destruct E as [k []].
Qed.

Definition settled_object (o : object V U) : Prop := Forall (fun f => settled_slot (f_slot f)) o.
Definition settled_stat (p : mdecl V * smutex V U) : Prop := settled_slot (sm_slot (snd p)).
Definition settled_sys (y : sys V U) : Prop :=
  Forall settled_object (y_objs y) /\ Forall settled_stat (y_stats y).

Lemma init_settled u (decls : list (mdecl V)) : settled_sys (init u decls).
Proof.
  split; [constructor|]. apply Forall_forall. intros f I. apply in_map_iff in I as (md & <- & _). apply slot_new_settled.
Qed.
Lemma object_checkpoint_settled c o p o' r : settled_object o -> object_checkpoint c sh o p = (o', r) -> settled_object o'.
Proof.
  intros C. revert o' r. induction C as [|f o H C IH]; intros o' r; cbn.
  - intros E. injection E as <- _. constructor.
  - destruct (slot_drop c (f_decl f) sh (f_slot f) p) as [x|m|].
    + destruct (object_checkpoint c sh o p) as [o2 r2]. intros E. injection E as <- _.
      constructor; [apply slot_clear_settled|]. exact (IH _ _ eq_refl).
    + intros E. injection E as <- _. constructor; [apply slot_clear_settled|exact C].
    + intros E. injection E as <- _. constructor; [apply slot_clear_settled|exact C].
Qed.
Lemma static_checkpoint_settled c md sm p sm' r : settled_stat (md, sm) -> static_checkpoint c md sh sm p = (sm', r) ->
  settled_stat (md, sm').
Proof.
  intros C. unfold static_checkpoint. destruct (sm_poison sm); intros E; injection E as <- _; [exact C|].
  apply slot_clear_settled.
Qed.
Lemma module_checkpoint_settled c ss p ss' r : Forall settled_stat ss -> module_checkpoint c sh ss p = (ss', r) ->
  Forall settled_stat ss'.
Proof.
  intros C. revert ss' r. induction C as [|[md sm] ss H C IH]; intros ss' r; cbn.
  - intros E. injection E as <- _. constructor.
  - destruct (static_checkpoint c md sh sm p) as [sm' r1] eqn:E.
    assert (H' := static_checkpoint_settled _ _ _ _ _ _ H E). destruct r1 as [x|m|].
    + destruct (module_checkpoint c sh ss p) as [s2 r2]. intros Z. injection Z as <- _.
      constructor; [exact H'|]. exact (IH _ _ eq_refl).
    + intros Z. injection Z as <- _. now constructor.
    + intros Z. injection Z as <- _. now constructor.
Qed.

Lemma step_settled c y o y' r :
  (forall l, sets_up o l -> Forall (fun s => st_setter s -> Q (w_thread (y_world y))) l) ->
  settled_sys y -> step c sh y o = (y', r) -> settled_sys y'.
Proof.
  intros P [O S]. destruct o as [sd|i j k l|i j k args wr|i|i|s k l|s k args|s|s| |t|b|f]; cbn [step].
  - intros E. injection E as <- _. split; [|exact S]. cbn. apply Forall_app. split; [exact O|].
    constructor; [|constructor]. apply Forall_forall. intros f I. apply in_map_iff in I as (md & <- & _). apply slot_new_settled.
  - destruct (nth_error (y_objs y) i) as [ob|] eqn:N1; [|intros E; injection E as <- _; now split].
    destruct (nth_error ob j) as [f|] eqn:N2; [|intros E; injection E as <- _; now split].
    destruct (slot_expect _ _ _ _ _ _ _) as [[s' t'] r1] eqn:E. intros Z. injection Z as <- _.
    assert (Co := nth_Forall _ _ _ _ O N1). assert (Cf := nth_Forall _ _ _ _ Co N2). cbn in Cf.
    split; [|exact S]. cbn. apply set_nth_Forall; [exact O|]. apply set_nth_Forall; [exact Co|].
    exact (slot_expect_settled _ _ _ _ _ _ _ _ _ _ (P _ (SetObj _ _ _ _)) Cf E).
  - destruct (nth_error (y_objs y) i) as [ob|] eqn:N1; [|intros E; injection E as <- _; now split].
    destruct (nth_error ob j) as [f|] eqn:N2; [|intros E; injection E as <- _; now split].
    unfold field_call. destruct (slot_call _ _ _ _ _ _ _) as [[s' w'] r1] eqn:E. intros Z. injection Z as <- _.
    assert (Co := nth_Forall _ _ _ _ O N1). assert (Cf := nth_Forall _ _ _ _ Co N2). cbn in Cf.
    split; [|exact S]. cbn. apply set_nth_Forall; [exact O|]. apply set_nth_Forall; [exact Co|].
    exact (slot_call_settled _ _ _ _ _ _ _ _ _ _ Cf E).
  - destruct (nth_error (y_objs y) i) as [ob|] eqn:N1; [|intros E; injection E as <- _; now split].
    destruct (object_checkpoint _ _ _ _) as [ob' r1] eqn:E. intros Z. injection Z as <- _.
    split; [|exact S]. cbn. apply set_nth_Forall; [exact O|].
    exact (object_checkpoint_settled _ _ _ _ _ (nth_Forall _ _ _ _ O N1) E).
  - destruct (nth_error (y_objs y) i) as [ob|] eqn:N1; [|intros E; injection E as <- _; now split].
    intros Z. injection Z as <- _. split; [|exact S]. cbn. apply set_nth_Forall; [exact O|constructor].
  - destruct (nth_error (y_stats y) s) as [[md sm]|] eqn:N1; [|intros E; injection E as <- _; now split].
    assert (Cs := nth_Forall _ _ _ _ S N1). cbn in Cs.
    unfold context_expect. destruct (sm_poison sm) eqn:Po.
    { intros Z. injection Z as <- _. split; [exact O|]. cbn. now apply set_nth_Forall. }
    destruct (slot_expect _ _ _ _ _ _ _) as [[s' t'] r1] eqn:E.
    assert (Cn := slot_expect_settled _ _ _ _ _ _ _ _ _ _ (P _ (SetStat _ _ _)) Cs E).
    destruct r1; intros Z; injection Z as <- _; (split; [exact O|]); cbn; now apply set_nth_Forall.
  - destruct (nth_error (y_stats y) s) as [[md sm]|] eqn:N1; [|intros E; injection E as <- _; now split].
    assert (Cs := nth_Forall _ _ _ _ S N1). cbn in Cs.
    unfold static_call. destruct (sm_poison sm) eqn:Po.
    { intros Z. injection Z as <- _. split; [exact O|]. cbn. now apply set_nth_Forall. }
    destruct (slot_call _ _ _ _ _ _ _) as [[s' w'] r1] eqn:E.
    assert (C := slot_call_settled _ _ _ _ _ _ _ _ _ _ Cs E).
    destruct r1 as [[v|]|m|]; intros Z; injection Z as <- _; (split; [exact O|]); cbn; now apply set_nth_Forall.
  - destruct (nth_error (y_stats y) s) as [[md sm]|] eqn:N1; [|intros E; injection E as <- _; now split].
    destruct (static_checkpoint _ _ _ _ _) as [sm' r1] eqn:E. intros Z. injection Z as <- _.
    split; [exact O|]. cbn. apply set_nth_Forall; [exact S|].
    exact (static_checkpoint_settled _ _ _ _ _ _ (nth_Forall _ _ _ _ S N1) E).
  - destruct (nth_error (y_stats y) s) as [[md sm]|] eqn:N1; [|intros E; injection E as <- _; now split].
    destruct (context_drop _ _ _ _ _) as [sm' r1] eqn:E. intros Z. injection Z as <- _.
    split; [exact O|]. cbn. apply set_nth_Forall; [exact S|].
    unfold context_drop in E. destruct (w_panicking (y_world y)).
    + injection E as <- _. apply slot_clear_settled.
    + exact (static_checkpoint_settled _ _ _ _ _ _ (nth_Forall _ _ _ _ S N1) E).
  - destruct (module_checkpoint _ _ _ _) as [ss r1] eqn:E. intros Z. injection Z as <- _.
    split; [exact O|]. exact (module_checkpoint_settled _ _ _ _ _ S E).
  - intros E. injection E as <- _. now split.
  - intros E. injection E as <- _. now split.
  - intros E. injection E as <- _. now split.
Qed.

Lemma settled_home y o : settled_sys y -> (forall t, Q t -> t = w_thread (y_world y)) -> at_home y o.
Proof.
  intros [O S] H. split.
  - intros me es e t C I T. apply H.
    assert (G : forall s, settled_slot s -> stored s es -> Q t).
    { intros s Cs St. assert (F := Cs _ St). rewrite Forall_forall in F. exact (F _ I _ T). }
    destruct C as [i ob f es N1 N2 St|i ob f es N1 N2 St|s md sm es N St|s md sm es N St|md sm es N St].
    + assert (Co := nth_Forall _ _ _ _ O N1). unfold settled_object in Co. rewrite Forall_forall in Co. exact (G _ (Co _ N2) St).
    + assert (Co := nth_Forall _ _ _ _ O N1). unfold settled_object in Co. rewrite Forall_forall in Co. exact (G _ (Co _ N2) St).
    + exact (G _ (nth_Forall _ _ _ _ S N) St).
    + exact (G _ (nth_Forall _ _ _ _ S N) St).
    + rewrite Forall_forall in S. exact (G _ (S _ N) St).
  - intros me es args e t f b C I A. apply H.
    assert (Se : settled e).
    { destruct C as [i j k args wr ob g N1 N2|s k args md sm N].
      - assert (Cf := nth_Forall _ _ _ _ (nth_Forall _ _ _ _ O N1) N2). cbn in Cf.
        assert (F := slot_get_settled _ k Cf). rewrite Forall_forall in F. auto.
      - assert (Cf := nth_Forall _ _ _ _ S N). cbn in Cf.
        assert (F := slot_get_settled _ k Cf). rewrite Forall_forall in F. auto. }
    apply Se. unfold homes. rewrite A. apply in_or_app. right. now left.
Qed.
End FragileProofs.
