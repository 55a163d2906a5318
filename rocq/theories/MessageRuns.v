(** * MessageRuns: in a test, poison errors come after other panics *)

From Coq Require Import PeanoNat NArith List Bool String Lia.
From Verif Require Import Base Times Expect Mock MessageSpec MessageProofs.
Import ListNotations.
Open Scope N_scope.

Section Runs.
Context {V U : Type}.

Definition polite_matcher (mt : matcher V U) : Prop :=
  match mt with
  | MtFunc f | MtFuncSt _ f => polite f
  | MtPred ps => Forall (fun p => polite (snd p)) ps
  | MtAlways => True
  end.
Definition polite_action (a : action V U) : Prop :=
  match a with
  | AStatic (SMut f) _ | AStatic (SMutSt _ f) _ | AStatic (SOnce f) _ | AStatic (SOnceSt _ f) _ => polite f
  | AMut (XMut f _) | AMut (XMutSt _ f _) => polite f
  | _ => True
  end.
Definition clean (e : expectation V U) : Prop :=
  healthy e /\ polite_matcher (c_matcher (e_common e)) /\ polite_action (e_action e).

Lemma clean_raises e m : clean e -> raises e m -> exists n, m = MUser n.
Proof.
  intros (_ & M & A) [f args u u' E F|th f args u u' E F|ps p a u u' E I F|rf b f args u u' E Q F|rf f args u u' E Q F];
    rewrite E in *; cbn in *.
  - exact (M _ _ _ _ F).
  - exact (M _ _ _ _ F).
  - rewrite Forall_forall in M. exact (M _ I _ _ _ _ F).
  - destruct Q as [->|[[th ->]|[->|[th ->]]]]; exact (A _ _ _ _ F).
  - destruct Q as [[o ->]|(th & o & ->)]; exact (A _ _ _ _ F).
Qed.

Lemma const_polite (v : V) : polite (const_fn v : ucode U (list V) V).
Proof. intros a u u' m. unfold const_fn. discriminate. Qed.

Lemma default_clean c me kd : clean (expectation_default c me kd : expectation V U).
Proof. split; [apply default_healthy|]. split; [exact I|]. destruct kd; exact I. Qed.

Lemma setter_clean c th st e t e' t' r : polite_setter st -> clean e ->
  apply_setter c th st e t = (e', t', r) -> clean e'.
Proof.
  intros P (H & M & A) E. split; [exact (proj1 (setter_spec _ _ _ _ _ _ _ _ H E))|].
  assert (Hm : c_mpoison (e_common e) = false).
  { destruct (c_mpoison (e_common e)) eqn:X; [|reflexivity]. destruct H. left. exact X. }
  destruct e as [[mt mp sq ti] ac]. cbn in Hm. subst mp. cbn in M, A.
  assert (Keep : polite_matcher mt /\ polite_action ac) by auto.
  destruct st as [x| | |ps|f|f|i|f|f|f|f|v|v|v]; cbn [polite_setter] in P; cbn in E.
  - injection E as <- _ _. unfold common_times. cbn. destruct (times_times c x ti). exact Keep.
  - injection E as <- _ _. unfold common_times. cbn [e_common c_times]. destruct (times_times c (ANum 1) ti). exact Keep.
  - injection E as <- _ _. exact Keep.
  - injection E as <- _ _. split; [exact P|exact A].
  - injection E as <- _ _. split; [exact P|exact A].
  - injection E as <- _ _. split; [exact P|exact A].
  - unfold common_in_sequence in E. cbn in E. destruct (times_is_exact c ti) as [[|]|?|].
    + destruct (next_handle c (t i)) as [s [h|?|]]; injection E as <- _ _; exact Keep.
    + injection E as <- _ _; exact Keep.
    + injection E as <- _ _; exact Keep.
    + injection E as <- _ _; exact Keep.
  - destruct ac as [rf [|]|rf|rf]; injection E as <- _ _; split; auto.
  - destruct ac as [rf [|]|rf|rf]; injection E as <- _ _; split; auto.
  - destruct ac as [rf [|]|rf|rf]; injection E as <- _ _; split; auto.
  - destruct ac as [rf [|]|rf|rf]; injection E as <- _ _; split; auto.
  - destruct ac as [rf [|]|rf|rf]; injection E as <- _ _; split; auto; apply const_polite.
  - destruct ac as [rf [|]|rf|rf]; injection E as <- _ _; split; auto; apply const_polite.
  - destruct ac as [rf [|]|rf|rf]; injection E as <- _ _; split; auto.
Qed.

Lemma setters_clean c th l e t e' t' r : Forall polite_setter l -> clean e ->
  apply_setters c th l e t = (e', t', r) -> clean e'.
Proof.
  intros F. revert e t. induction F as [|st l P F IH]; intros e t C; cbn.
  - intros E. injection E as <- _ _. exact C.
  - destruct (apply_setter c th st e t) as [[e1 t1] r1] eqn:E.
    assert (C1 := setter_clean _ _ _ _ _ _ _ _ P C E).
    destruct r1; intros H; [exact (IH _ _ C1 H)| |]; injection H as <- _ _; exact C1.
Qed.

Lemma healthy_common (k : common V U) a a' : healthy (Expectation k a) ->
  (forall rf, a' <> AStatic rf true) -> healthy (Expectation k a').
Proof. intros H N [P|[rf P]]; [apply H; left; exact P|exact (N _ P)]. Qed.

Lemma expectation_call_clean c me e args wr w e' w' r : clean e ->
  expectation_call c me e args wr w = (e', w', r) -> panics r \/ clean e'.
Proof.
  intros (H & M & A). unfold expectation_call.
  destruct (common_call c me (e_common e) (call_desc me args) w) as [[k w1] r1] eqn:E.
  destruct (common_call_spec _ _ _ _ _ _ _ _ E) as ([KM KP] & _ & _).
  assert (Hk : forall a, healthy (Expectation (e_common e) a) -> healthy (Expectation k a)).
  { intros a G. exact (common_healthy (Expectation (e_common e) a) k G KP). }
  assert (C1 : clean (set_common e k)).
  { split; [exact (common_healthy _ _ H KP)|]. cbn. rewrite KM. auto. }
  destruct r1 as [x|m|].
  2: { intros Q. injection Q as <- <- <-. left. now eexists. }
  2: { intros Q. injection Q as <- <- <-. right. exact C1. }
  destruct e as [cm ac]. cbn [e_action e_common] in *. destruct ac as [rf po|rf|rf].
  - unfold static_ret. destruct po.
    { intros Q. injection Q as <- <- <-. left. now eexists. }
    destruct (srfunc_call c me rf args w1) as [[rf' w2] r2] eqn:R.
    assert (A' : polite_action (AStatic rf' false)).
    { destruct rf as [| |f|th f|f|th f]; cbn in R;
        try (destruct (run_user f args w1)); try (destruct (Nat.eqb th (w_thread w1)));
        injection R as <- _ _; first [exact I|exact A]. }
    assert (C2 : clean (Expectation k (AStatic rf' false))).
    { split; [apply Hk; refine (healthy_common _ _ _ H _); discriminate|]. cbn [e_common e_action]. rewrite KM. auto. }
    destruct (let? x0 := r2 in unwrap_rf me k x0) as [v|m|]; intros Q; injection Q as <- <- <-; auto.
    left. now eexists.
  - intros Q. injection Q as <- <- <-. right. exact C1.
  - unfold mut_ret. destruct (show_locked k) as [s|m|].
    + destruct (mrfunc_call c rf args wr w1) as [[rf' w2] r2] eqn:R. intros Q. injection Q as <- <- <-. right.
      split; [apply Hk; refine (healthy_common _ _ _ H _); discriminate|]. cbn [e_common e_action]. rewrite KM. split; [exact M|].
      destruct rf as [[v|]|f o|th f o|v]; cbn in R.
      * injection R as <- _ _. exact I.
      * injection R as <- _ _. exact I.
      * destruct (f args (w_user w1)) as [u [?|?|]]; injection R as <- _ _; exact A.
      * destruct (Nat.eqb th (w_thread w1)); [destruct (f args (w_user w1)) as [u [?|?|]]|]; injection R as <- _ _; exact A.
      * injection R as <- _ _. exact I.
    + intros Q. injection Q as <- <- <-. left. now eexists.
    + intros Q. injection Q as <- <- <-. right. split; [apply C1|]. cbn. rewrite KM. auto.
Qed.

Lemma set_nth_Forall {A} (P : A -> Prop) l i x : Forall P l -> P x -> Forall P (set_nth l i x).
Proof. intros F X. revert i. induction F; intros [|i]; cbn; auto. Qed.

Lemma expectations_call_clean c me es args wr w es' w' r : Forall clean es ->
  expectations_call c me es args wr w = (es', w', r) -> panics r \/ Forall clean es'.
Proof.
  intros F. unfold expectations_call. destruct (find_exp c _ es args w) as [[es1 w1] r1] eqn:E.
  destruct (find_spec c me _ _ _ _ _ _ _ E) as (_ & A & _).
  destruct r1 as [[i|]|m1|].
  - destruct A as [[? A]| ->]; [discriminate|]. destruct (nth_error es i) as [e|] eqn:N.
    + destruct (expectation_call c me e args wr w1) as [[e' w2] r2] eqn:X. intros Q. injection Q as <- <- <-.
      assert (C : clean e). { rewrite Forall_forall in F. exact (F _ (nth_error_In _ _ N)). }
      destruct (expectation_call_clean _ _ _ _ _ _ _ _ _ C X) as [[m ->]|C']; [left; now eexists|].
      right. now apply set_nth_Forall.
    + intros Q. injection Q as <- <- <-. auto.
  - destruct A as [[? A]| ->]; [discriminate|]. intros Q. injection Q as <- <- <-. auto.
  - intros Q. injection Q as <- <- <-. left. now eexists.
  - destruct A as [[? A]| ->]; [discriminate|]. intros Q. injection Q as <- <- <-. auto.
Qed.

(** ** Stores *)

Definition clean_slot (s : slot V U) : Prop := forall es, stored s es -> Forall clean es.

Lemma gget_In (st : gstore V U) k es : gget st k = Some es -> exists k', In (k', es) st.
Proof.
  induction st as [|[k' es'] st IH]; cbn; [discriminate|].
  destruct (Nat.eqb k' k); intros H; [injection H as <-; eauto|]. destruct (IH H). eauto.
Qed.
Lemma gput_In (st : gstore V U) k es k' es' : In (k', es') (gput st k es) -> In (k', es') st \/ es' = es.
Proof.
  induction st as [|[k1 es1] st IH]; cbn.
  - intros [H|[]]. injection H as _ <-. auto.
  - destruct (Nat.eqb k1 k); cbn; intros [H|H]; auto.
    + injection H as _ <-. auto.
    + destruct (IH H); auto.
Qed.
Lemma slot_get_clean s k : clean_slot s -> Forall clean (slot_get s k).
Proof.
  destruct s as [es|st]; cbn; intros C.
  - exact (C _ eq_refl).
  - destruct (gget st k) as [es|] eqn:G; [|constructor]. destruct (gget_In _ _ _ G) as [k' I]. apply C. now exists k'.
Qed.
Lemma slot_put_clean s k es : clean_slot s -> Forall clean es -> clean_slot (slot_put s k es).
Proof.
  destruct s as [l|st]; cbn; intros C F x X; cbn in X.
  - now subst x.
  - destruct X as [k' X]. destruct (gput_In _ _ _ _ _ X) as [I| ->]; [|exact F]. apply C. now exists k'.
Qed.
Lemma slot_call_clean c md s k args wr w s' w' r : clean_slot s ->
  slot_call c md s k args wr w = (s', w', r) -> panics r \/ clean_slot s'.
Proof.
  intros C. destruct s as [es|st]; cbn.
  - destruct (expectations_call c (md_me md) es args wr w) as [[es' w1] r1] eqn:E. intros Q. injection Q as <- <- <-.
    destruct (expectations_call_clean _ _ _ _ _ _ _ _ _ (C _ eq_refl) E) as [P|F]; [now left|].
    right. intros x ->. exact F.
  - destruct (gget st k) as [es|] eqn:G.
    + destruct (expectations_call c (md_me md) es args wr w) as [[es' w1] r1] eqn:E. intros Q. injection Q as <- <- <-.
      assert (Ce : Forall clean es) by (destruct (gget_In _ _ _ G) as [k' I]; apply C; now exists k').
      destruct (expectations_call_clean _ _ _ _ _ _ _ _ _ Ce E) as [P|F]; [now left|].
      right. exact (slot_put_clean (SGeneric st) k es' C F).
    + intros Q. injection Q as <- <- <-. now right.
Qed.
Lemma slot_expect_clean c md s k th l t s' t' r : Forall polite_setter l -> clean_slot s ->
  slot_expect c md s k th l t = (s', t', r) -> clean_slot s'.
Proof.
  intros P C. unfold slot_expect. destruct (apply_setters _ _ _ _ _) as [[e t1] r1] eqn:E.
  intros Q. injection Q as <- <- <-. apply slot_put_clean; [exact C|]. apply Forall_app. split.
  - now apply slot_get_clean.
  - constructor; [|constructor]. exact (setters_clean _ _ _ _ _ _ _ _ P (default_clean _ _ _) E).
Qed.
Lemma slot_new_clean (md : mdecl V) : clean_slot (slot_new md).
Proof.
  unfold slot_new. destruct (md_generic md); intros es E; cbn in E.
  - destruct E as [k []].
  - subst. constructor.
Qed.
Lemma slot_clear_clean s : clean_slot (slot_clear s).
Proof.
  destruct s; intros x E; cbn in E.
  - subst. constructor.
  - destruct E as [k []].
Qed.

Definition clean_object (o : object V U) : Prop := Forall (fun f => clean_slot (f_slot f)) o.
Definition clean_stat (p : mdecl V * smutex V U) : Prop :=
  sm_poison (snd p) = false /\ clean_slot (sm_slot (snd p)).
Definition clean_sys (y : sys V U) : Prop :=
  Forall clean_object (y_objs y) /\ Forall clean_stat (y_stats y).

Lemma new_clean sd : clean_object (object_new sd).
Proof.
  unfold object_new, clean_object. apply Forall_forall. intros f I. apply in_map_iff in I as (md & <- & _).
  apply slot_new_clean.
Qed.
Lemma init_clean u (decls : list (mdecl V)) : clean_sys (init u decls).
Proof.
  split; [constructor|]. apply Forall_forall. intros f I. apply in_map_iff in I as (md & <- & _).
  split; [reflexivity|apply slot_new_clean].
Qed.

Context (sh : shuffle V U) (shuffled : forall s x, In x (sh s) -> In x s).

Lemma object_checkpoint_clean c o p o' r : clean_object o -> object_checkpoint c sh o p = (o', r) -> clean_object o'.
Proof.
  intros C. revert o' r. induction C as [|f o H C IH]; intros o' r; cbn.
  - intros E. injection E as <- _. constructor.
  - destruct (slot_drop c (f_decl f) sh (f_slot f) p) as [x|m|].
    + destruct (object_checkpoint c sh o p) as [o2 r2]. intros E. injection E as <- _.
      constructor; [apply slot_clear_clean|]. exact (IH _ _ eq_refl).
    + intros E. injection E as <- _. constructor; [apply slot_clear_clean|exact C].
    + intros E. injection E as <- _. constructor; [apply slot_clear_clean|exact C].
Qed.
Lemma static_checkpoint_clean c md sm p sm' r : clean_stat (md, sm) -> static_checkpoint c md sh sm p = (sm', r) ->
  clean_stat (md, sm').
Proof.
  intros [P C]. unfold static_checkpoint. cbn in P. rewrite P. intros E. injection E as <- _.
  split; [reflexivity|apply slot_clear_clean].
Qed.
Lemma context_drop_clean c md sm p sm' r : clean_stat (md, sm) -> context_drop c md sh sm p = (sm', r) ->
  clean_stat (md, sm').
Proof.
  unfold context_drop. destruct p.
  - intros _ E. injection E as <- _. split; [reflexivity|apply slot_clear_clean].
  - apply static_checkpoint_clean.
Qed.
Lemma module_checkpoint_clean c ss p ss' r : Forall clean_stat ss -> module_checkpoint c sh ss p = (ss', r) ->
  Forall clean_stat ss'.
Proof.
  intros C. revert ss' r. induction C as [|[md sm] ss H C IH]; intros ss' r; cbn.
  - intros E. injection E as <- _. constructor.
  - destruct (static_checkpoint c md sh sm p) as [sm' r1] eqn:E.
    assert (H' := static_checkpoint_clean _ _ _ _ _ _ H E). destruct r1 as [x|m|].
    + destruct (module_checkpoint c sh ss p) as [s2 r2]. intros Q. injection Q as <- _.
      constructor; [exact H'|]. exact (IH _ _ eq_refl).
    + intros Q. injection Q as <- _. now constructor.
    + intros Q. injection Q as <- _. now constructor.
Qed.

Lemma nth_Forall {A} (P : A -> Prop) l i x : Forall P l -> nth_error l i = Some x -> P x.
Proof. intros F N. rewrite Forall_forall in F. exact (F _ (nth_error_In _ _ N)). Qed.

Lemma step_clean c y o y' r : polite_op o -> clean_sys y -> step c sh y o = (y', r) ->
  panics r \/ clean_sys y'.
Proof.
  intros P [O S]. destruct o as [sd|i j k l|i j k args wr|i|i|s k l|s k args|s|s| |t|b|f]; cbn [step].
  - intros E. injection E as <- <-. right. split; [|exact S]. cbn. apply Forall_app. split; [exact O|].
    constructor; [apply new_clean|constructor].
  - destruct (nth_error (y_objs y) i) as [ob|] eqn:N1; [|intros E; injection E as <- <-; right; now split].
    destruct (nth_error ob j) as [f|] eqn:N2; [|intros E; injection E as <- <-; right; now split].
    destruct (slot_expect _ _ _ _ _ _ _) as [[s' t'] r1] eqn:E. intros Q. injection Q as <- <-. right.
    assert (Co := nth_Forall _ _ _ _ O N1). assert (Cf := nth_Forall _ _ _ _ Co N2). cbn in Cf.
    split; [|exact S]. cbn. apply set_nth_Forall; [exact O|]. apply set_nth_Forall; [exact Co|].
    exact (slot_expect_clean _ _ _ _ _ _ _ _ _ _ (P _ (SetObj _ _ _ _)) Cf E).
  - destruct (nth_error (y_objs y) i) as [ob|] eqn:N1; [|intros E; injection E as <- <-; right; now split].
    destruct (nth_error ob j) as [f|] eqn:N2; [|intros E; injection E as <- <-; right; now split].
    unfold field_call. destruct (slot_call _ _ _ _ _ _ _) as [[s' w'] r1] eqn:E. intros Q. injection Q as <- <-.
    assert (Co := nth_Forall _ _ _ _ O N1). assert (Cf := nth_Forall _ _ _ _ Co N2). cbn in Cf.
    destruct (slot_call_clean _ _ _ _ _ _ _ _ _ _ Cf E) as [[m ->]|C]; [left; now eexists|].
    right. split; [|exact S]. cbn. apply set_nth_Forall; [exact O|]. apply set_nth_Forall; [exact Co|exact C].
  - destruct (nth_error (y_objs y) i) as [ob|] eqn:N1; [|intros E; injection E as <- <-; right; now split].
    destruct (object_checkpoint _ _ _ _) as [ob' r1] eqn:E. intros Q. injection Q as <- <-. right.
    split; [|exact S]. cbn. apply set_nth_Forall; [exact O|].
    exact (object_checkpoint_clean _ _ _ _ _ (nth_Forall _ _ _ _ O N1) E).
  - destruct (nth_error (y_objs y) i) as [ob|] eqn:N1; [|intros E; injection E as <- <-; right; now split].
    intros Q. injection Q as <- <-. right. split; [|exact S]. cbn. apply set_nth_Forall; [exact O|constructor].
  - destruct (nth_error (y_stats y) s) as [[md sm]|] eqn:N1; [|intros E; injection E as <- <-; right; now split].
    assert (Cs := nth_Forall _ _ _ _ S N1). destruct Cs as [Cp Cs]. cbn in Cp, Cs.
    unfold context_expect. rewrite Cp.
    destruct (slot_expect _ _ _ _ _ _ _) as [[s' t'] r1] eqn:E.
    assert (Cn := slot_expect_clean _ _ _ _ _ _ _ _ _ _ (P _ (SetStat _ _ _)) Cs E).
    destruct r1; intros Q; injection Q as <- <-; [right|left; now eexists|right];
      (split; [exact O|]); cbn; apply set_nth_Forall; auto; now split.
  - destruct (nth_error (y_stats y) s) as [[md sm]|] eqn:N1; [|intros E; injection E as <- <-; right; now split].
    assert (Cs := nth_Forall _ _ _ _ S N1). destruct Cs as [Cp Cs]. cbn in Cp, Cs.
    unfold static_call. rewrite Cp. destruct (slot_call _ _ _ _ _ _ _) as [[s' w'] r1] eqn:E.
    destruct (slot_call_clean _ _ _ _ _ _ _ _ _ _ Cs E) as [[m ->]|C].
    { intros Q. injection Q as <- <-. left. now eexists. }
    destruct r1 as [[v|]|m|]; intros Q; injection Q as <- <-; [right|left; now eexists|left; now eexists|right];
      (split; [exact O|]); cbn; apply set_nth_Forall; auto; now split.
  - destruct (nth_error (y_stats y) s) as [[md sm]|] eqn:N1; [|intros E; injection E as <- <-; right; now split].
    destruct (static_checkpoint _ _ _ _ _) as [sm' r1] eqn:E. intros Q. injection Q as <- <-. right.
    split; [exact O|]. cbn. apply set_nth_Forall; [exact S|].
    exact (static_checkpoint_clean _ _ _ _ _ _ (nth_Forall _ _ _ _ S N1) E).
  - destruct (nth_error (y_stats y) s) as [[md sm]|] eqn:N1; [|intros E; injection E as <- <-; right; now split].
    destruct (context_drop _ _ _ _ _) as [sm' r1] eqn:E. intros Q. injection Q as <- <-. right.
    split; [exact O|]. cbn. apply set_nth_Forall; [exact S|].
    exact (context_drop_clean _ _ _ _ _ _ (nth_Forall _ _ _ _ S N1) E).
  - destruct (module_checkpoint _ _ _ _) as [ss r1] eqn:E. intros Q. injection Q as <- <-. right.
    split; [exact O|]. exact (module_checkpoint_clean _ _ _ _ _ S E).
  - intros E. injection E as <- <-. right. now split.
  - intros E. injection E as <- <-. right. now split.
  - intros E. injection E as <- <-. right. now split.
Qed.

Lemma clean_no_poison c y o y' : clean_sys y -> step c sh y o <> (y', Panic MPoison).
Proof.
  intros [O S] E.
  assert (Cl : forall me es args e, calls y o me es args -> In e es -> clean e).
  { intros me es args e C I. destruct C as [i j k args wr ob f N1 N2|s k args md sm N].
    - assert (Cf := nth_Forall _ _ _ _ (nth_Forall _ _ _ _ O N1) N2). cbn in Cf.
      assert (F := slot_get_clean _ k Cf). rewrite Forall_forall in F. auto.
    - destruct (nth_Forall _ _ _ _ S N) as [_ Cf]. cbn in Cf.
      assert (F := slot_get_clean _ k Cf). rewrite Forall_forall in F. auto. }
  destruct (step_reason sh shuffled _ _ _ _ _ E) as [R|(me & es & args & e & C & I & R)].
  - cbn in R. destruct R as [(me & es & args & e & C & I & R)|[(me & es & e & C & I & R)|(sm & L & R)]].
    + exact (proj1 (Cl _ _ _ _ C I) R).
    + assert (Ce : clean e).
      { assert (G : forall s, clean_slot s -> stored s es -> clean e).
        { intros s Cs St. assert (F := Cs _ St). rewrite Forall_forall in F. auto. }
        destruct C as [i ob f es N1 N2 St|i ob f es N1 N2 St|s md sm es N St|s md sm es N St|md sm es N St].
        - assert (Co := nth_Forall _ _ _ _ O N1). unfold clean_object in Co. rewrite Forall_forall in Co. exact (G _ (Co _ N2) St).
        - assert (Co := nth_Forall _ _ _ _ O N1). unfold clean_object in Co. rewrite Forall_forall in Co. exact (G _ (Co _ N2) St).
        - exact (G _ (proj2 (nth_Forall _ _ _ _ S N)) St).
        - exact (G _ (proj2 (nth_Forall _ _ _ _ S N)) St).
        - rewrite Forall_forall in S. exact (G _ (proj2 (S _ N)) St). }
      apply (proj1 Ce). now left.
    + assert (sm_poison sm = false); [|congruence].
      destruct L as [s k l md sm N|s k args md sm N|s md sm N|s md sm N|md sm N].
      1-4: exact (proj1 (nth_Forall _ _ _ _ S N)).
      rewrite Forall_forall in S. exact (proj1 (S _ N)).
  - destruct (clean_raises _ _ (Cl _ _ _ _ C I) R). discriminate.
Qed.

(** The first panic of a run is not about poison. *)
Lemma run_first c l : forall y y' rs, clean_sys y -> Forall polite_op l -> run c sh y l = (y', rs) ->
  forall i, nth_error rs i = Some (Panic MPoison) ->
  exists j m, (j < i)%nat /\ nth_error rs j = Some (Panic m) /\ m <> MPoison.
Proof.
  induction l as [|o l IH]; intros y y' rs C F; cbn.
  - intros E i. injection E as _ <-. destruct i; discriminate.
  - destruct (step c sh y o) as [y1 r] eqn:E. destruct (run c sh y1 l) as [y2 rs2] eqn:R.
    intros Q. injection Q as _ <-. inversion F as [|? ? P F']; subst.
    intros [|i] H; cbn in H.
    + injection H as ->. destruct (clean_no_poison _ _ _ _ C E).
    + destruct (step_clean _ _ _ _ _ P C E) as [[m ->]|C1].
      * exists 0%nat, m. split; [lia|]. split; [reflexivity|]. intros ->. exact (clean_no_poison _ _ _ _ C E).
      * destruct (IH _ _ _ C1 F' R _ H) as (j & m & L & N & D). exists (S j), m. split; [lia|]. auto.
Qed.
End Runs.
