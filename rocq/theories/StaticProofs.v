(** * StaticProofs: further proofs for C29 - C35 and C41 *)

From Coq Require Import Arith NArith List Bool String Lia Permutation.
From Verif Require Import Base Times TimesSpec TimesProofs Expect ExpectProofs Mock Spec SysSpec
  DispatchProofs FifoProofs CallProofs StProofs SysProofs ValidProofs.
Import ListNotations.
Open Scope N_scope.

Section P.
Context {V U : Type}.
Implicit Types (w : world U) (me : method V) (md : mdecl V) (e : expectation V U)
  (es : list (expectation V U)) (y : sys V U) (st : gstore V U).

(** ** C29: the declarations of an object never change *)
Definition decls_of (o : object V U) : list (mdecl V) := map f_decl o.

Lemma set_nth_map {A B} (g : A -> B) : forall (l : list A) i x a,
  nth_error l i = Some a -> g x = g a -> map g (set_nth l i x) = map g l.
Proof.
  induction l as [|a' l IH]; intros [|i] x a N E; simpl in *; try discriminate.
  - inversion N; subst. congruence.
  - f_equal. eauto.
Qed.

Lemma object_checkpoint_decls c sh : forall (o : object V U) b,
  decls_of (fst (object_checkpoint c sh o b)) = decls_of o.
Proof.
  unfold decls_of. induction o as [|f o IH]; intros b; cbn [object_checkpoint]; auto. unfold slot_checkpoint.
  destruct (slot_drop c (f_decl f) sh (f_slot f) b) as [[]|m|]; auto.
  specialize (IH b). destruct (object_checkpoint c sh o b) as [o2 r2]. simpl in *. congruence.
Qed.

Lemma step_objs c sh y o i ob :
  nth_error (y_objs y) i = Some ob -> o <> ODrop i ->
  exists ob', nth_error (y_objs (fst (step c sh y o))) i = Some ob' /\ decls_of ob' = decls_of ob.
Proof.
  intros N D. destruct o; cbn [step].
  - exists ob. simpl. rewrite nth_error_app1; [auto|]. apply nth_error_Some. congruence.
  - destruct (nth_error (y_objs y) o) as [ob1|] eqn:N1; [|eauto].
    destruct (nth_error ob1 m) as [f|] eqn:N2; [|eauto].
    destruct (slot_expect _ _ _ _ _ _ _) as [[s' t'] r]. cbn [fst y_objs].
    rewrite set_nth_nth. destruct (Nat.eqb_spec o i); [|eauto]. subst. rewrite N1. eexists. split; [reflexivity|].
    assert (ob1 = ob) by congruence. subst. unfold decls_of. eapply set_nth_map; eauto.
  - destruct (nth_error (y_objs y) o) as [ob1|] eqn:N1; [|eauto].
    destruct (nth_error ob1 m) as [f|] eqn:N2; [|eauto]. unfold field_call.
    destruct (slot_call _ _ _ _ _ _ _) as [[s' t'] r]. cbn [fst y_objs].
    rewrite set_nth_nth. destruct (Nat.eqb_spec o i); [|eauto]. subst. rewrite N1. eexists. split; [reflexivity|].
    assert (ob1 = ob) by congruence. subst. unfold decls_of. eapply set_nth_map; eauto.
  - destruct (nth_error (y_objs y) o) as [ob1|] eqn:N1; [|eauto].
    pose proof (object_checkpoint_decls c sh ob1 (w_panicking (y_world y))) as Q.
    destruct (object_checkpoint _ _ _ _) as [ob' r]. cbn [fst set_objs y_objs] in *.
    rewrite set_nth_nth. destruct (Nat.eqb_spec o i); [|eauto]. subst. rewrite N1. eexists. split; [reflexivity|].
    congruence.
  - destruct (nth_error (y_objs y) o) as [ob1|] eqn:N1; [|eauto]. cbn [fst set_objs y_objs].
    rewrite nth_set_nth_other by congruence. eauto.
  - destruct (nth_error (y_stats y) s) as [[md sm]|]; [|eauto].
    destruct (context_expect _ _ _ _ _ _ _) as [[sm' t'] r]. eauto.
  - destruct (nth_error (y_stats y) s) as [[md sm]|]; [|eauto].
    destruct (static_call _ _ _ _ _ _) as [[sm' t'] r]. eauto.
  - destruct (nth_error (y_stats y) s) as [[md sm]|]; [|eauto].
    destruct (static_checkpoint _ _ _ _ _) as [sm' r]. eauto.
  - destruct (nth_error (y_stats y) s) as [[md sm]|]; [|eauto].
    destruct (context_drop _ _ _ _ _) as [sm' r]. eauto.
  - destruct (module_checkpoint _ _ _ _) as [ss r]. eauto.
  - eauto.
  - eauto.
  - eauto.
Qed.

Lemma step_objs_length c sh y o :
  List.length (y_objs (fst (step c sh y o))) =
  (List.length (y_objs y) + match o with ONew _ => 1 | _ => 0 end)%nat.
Proof.
  destruct o; cbn [step].
  - simpl. rewrite app_length. reflexivity.
  - destruct (nth_error (y_objs y) o) as [ob1|]; [|simpl; lia].
    destruct (nth_error ob1 m) as [f|]; [|simpl; lia].
    destruct (slot_expect _ _ _ _ _ _ _) as [[s' t'] r]. simpl. rewrite set_nth_length. lia.
  - destruct (nth_error (y_objs y) o) as [ob1|]; [|simpl; lia].
    destruct (nth_error ob1 m) as [f|]; [|simpl; lia].
    destruct (field_call _ _ _ _ _ _) as [[s' t'] r]. simpl. rewrite set_nth_length. lia.
  - destruct (nth_error (y_objs y) o) as [ob1|]; [|simpl; lia].
    destruct (object_checkpoint _ _ _ _) as [ob' r]. simpl. rewrite set_nth_length. lia.
  - destruct (nth_error (y_objs y) o) as [ob1|]; [|simpl; lia]. simpl. rewrite set_nth_length. lia.
  - destruct (nth_error (y_stats y) s) as [[md sm]|]; [|simpl; lia].
    destruct (context_expect _ _ _ _ _ _ _) as [[sm' t'] r]. simpl. lia.
  - destruct (nth_error (y_stats y) s) as [[md sm]|]; [|simpl; lia].
    destruct (static_call _ _ _ _ _ _) as [[sm' t'] r]. simpl. lia.
  - destruct (nth_error (y_stats y) s) as [[md sm]|]; [|simpl; lia].
    destruct (static_checkpoint _ _ _ _ _) as [sm' r]. simpl. lia.
  - destruct (nth_error (y_stats y) s) as [[md sm]|]; [|simpl; lia].
    destruct (context_drop _ _ _ _ _) as [sm' r]. simpl. lia.
  - destruct (module_checkpoint _ _ _ _) as [ss r]. simpl. lia.
  - simpl. lia.
  - simpl. lia.
  - simpl. lia.
Qed.

Lemma news_app (l1 l2 : list (op V U)) : news (l1 ++ l2) = news l1 ++ news l2.
Proof. induction l1 as [|o l1 IH]; simpl; auto. destruct o; simpl; congruence. Qed.

Lemma created c sh u decls : forall l i sd,
  nth_error (news l) i = Some sd -> ~ In (ODrop i) l ->
  exists ob, nth_error (y_objs (after c sh (init u decls : sys V U) l)) i = Some ob /\
    decls_of ob = struct_fields sd.
Proof.
  assert (LEN : forall l, List.length (y_objs (after c sh (init u decls : sys V U) l)) = List.length (news l)).
  { intros l. induction l as [|o l IH] using rev_ind; [reflexivity|].
    rewrite after_snoc, step_objs_length, IH, news_app, app_length. destruct o; simpl; lia. }
  intros l. induction l as [|o l IH] using rev_ind; intros i sd N D.
  - destruct i; discriminate.
  - rewrite after_snoc. rewrite news_app in N.
    destruct (Nat.ltb_spec i (List.length (news l))) as [L|L].
    + rewrite nth_error_app1 in N by auto.
      destruct (IH i sd N) as (ob & A & B); [intros X; apply D, in_or_app; auto|].
      destruct (step_objs c sh _ o i ob A) as (ob' & A' & B').
      * intros ->. apply D. apply in_or_app. right. left. auto.
      * exists ob'. split; auto. congruence.
    + rewrite nth_error_app2 in N by auto. destruct o; simpl in N; try (destruct (i - List.length (news l))%nat; discriminate).
      destruct (i - List.length (news l))%nat as [|k] eqn:E; [|destruct k; discriminate].
      inversion N; subst. assert (i = List.length (news l)) by lia. subst i.
      cbn [step fst set_objs y_objs]. rewrite nth_error_app2 by (rewrite LEN; auto).
      rewrite LEN, Nat.sub_diag. exists (object_new sd). split; auto.
      unfold decls_of, object_new. rewrite map_map. apply map_id.
Qed.

Lemma cleared_new (o : object V U) : Forall field_ok o ->
  map cleared o = map (fun md => Field md (slot_new md)) (decls_of o).
Proof.
  unfold decls_of. intros F. rewrite map_map. apply map_ext_Forall.
  eapply Forall_impl; [|exact F]. intros f O. unfold cleared. rewrite (slot_clear_new (f_decl f)); auto.
Qed.

(** ** C30: a generic method is a family of ordinary methods *)
Lemma slot_call_family c md st k args wr w :
  let '(es', w', r) := expectations_call c (md_me md) (slot_get (SGeneric st) k) args wr w in
  exists s', slot_call c md (SGeneric st) k args wr w = (s', w', r) /\
    exists st', s' = SGeneric st' /\ slot_get s' k = es' /\
    forall k', k' <> k -> slot_get s' k' = slot_get (SGeneric st) k'.
Proof.
  unfold slot_call. cbn [slot_get]. destruct (gget st k) as [es|] eqn:G.
  - destruct (expectations_call c (md_me md) es args wr w) as [[es' w'] r].
    eexists. split; [reflexivity|]. eexists. split; [reflexivity|]. cbn [slot_get]. rewrite gget_gput_same.
    split; auto. intros k' D. rewrite gget_gput_other by auto. reflexivity.
  - cbn. eexists. split; [reflexivity|]. eexists. split; [reflexivity|]. cbn [slot_get]. rewrite G. auto.
Qed.

Lemma family c md : forall l st t w (fam : key -> field V U),
  (forall k, fam k = Field md (SPlain (slot_get (SGeneric st) k))) ->
  exists st' fam' t' w' rs,
    grun c (Field md (SGeneric st)) t w l = (Field md (SGeneric st'), t', w', rs) /\
    famrun c fam t w l = (fam', t', w', rs) /\
    forall k, fam' k = Field md (SPlain (slot_get (SGeneric st') k)).
Proof.
  induction l as [|o l IH]; intros st t w fam F.
  - exists st, fam, t, w, []. auto.
  - cbn [grun famrun].
    assert (S : exists st1 f1 t1 w1 r, gstep c (Field md (SGeneric st)) t w o = (Field md (SGeneric st1), t1, w1, r) /\
        gstep c (fam (gop_key o)) t w o = (f1, t1, w1, r) /\
        forall k, (if Nat.eqb k (gop_key o) then f1 else fam k) = Field md (SPlain (slot_get (SGeneric st1) k))).
    { rewrite F. destruct o as [k th chain|k args wr]; cbn [gstep gop_key f_decl f_slot].
      - unfold slot_expect. cbn [slot_get slot_put].
        destruct (apply_setters c th chain (expectation_default c (md_me md) (md_kind md)) t) as [[e t'] r].
        eexists; eexists; eexists; eexists; eexists. split; [reflexivity|]. split; [reflexivity|].
        intros k'. destruct (Nat.eqb_spec k' k).
        + subst. cbn [slot_get]. rewrite gget_gput_same. reflexivity.
        + rewrite F. cbn [slot_get]. rewrite gget_gput_other by auto. reflexivity.
      - unfold field_call. cbn [f_decl f_slot].
        pose proof (slot_call_family c md st k args wr w) as Q.
        change (slot_call c md (SPlain (slot_get (SGeneric st) k)) k args wr w)
          with (let '(es', w', r) := expectations_call c (md_me md) (slot_get (SGeneric st) k) args wr w in
                (SPlain (V:=V) (U:=U) es', w', r)).
        destruct (expectations_call c (md_me md) (slot_get (SGeneric st) k) args wr w) as [[es' w'] r].
        destruct Q as (s' & Q1 & st' & -> & Q2 & Q3). rewrite Q1.
        eexists; eexists; eexists; eexists; eexists. split; [reflexivity|]. split; [reflexivity|].
        intros k'. destruct (Nat.eqb_spec k' k).
        + subst k'. rewrite Q2. reflexivity.
        + rewrite F, Q3 by auto. reflexivity. }
    destruct S as (st1 & f1 & t1 & w1 & r & S1 & S2 & S3). rewrite S1, S2.
    destruct (IH st1 t1 w1 (fun k : key => if Nat.eqb k (gop_key o) then f1 else fam k) S3) as (st2 & fam2 & t2 & w2 & rs & A & B & C).
    rewrite A, B. exists st2, fam2, t2, w2, (r :: rs). auto.
Qed.

(** ** C31: the order of a hash map *)
Lemma slot_drop_orders c md md' sh1 sh2 s b : fair sh1 -> fair sh2 -> slot_ok md' s ->
  same_outcome (slot_drop (V := V) (U := U) c md sh1 s b) (slot_drop c md sh2 s b).
Proof.
  intros F1 F2 O. destruct b; [rewrite !slot_drop_unwinding; reflexivity|].
  pose proof (slot_drop_iff c md md' sh1 s F1 O) as I1. pose proof (slot_drop_iff c md md' sh2 s F2 O) as I2.
  pose proof (slot_drop_total c md sh1 s false) as T1. pose proof (slot_drop_total c md sh2 s false) as T2.
  destruct (slot_drop c md sh1 s false) as [[]|m|]; destruct (slot_drop c md sh2 s false) as [[]|m2|];
    simpl; auto; try contradiction.
  - pose proof (proj2 I2 (proj1 I1 eq_refl)). discriminate.
  - pose proof (proj2 I1 (proj1 I2 eq_refl)). discriminate.
Qed.

Lemma object_checkpoint_orders c sh1 sh2 : fair sh1 -> fair sh2 -> forall (o : object V U) b, Forall field_ok o ->
  fst (object_checkpoint c sh1 o b) = fst (object_checkpoint c sh2 o b) /\
  same_outcome (snd (object_checkpoint c sh1 o b)) (snd (object_checkpoint c sh2 o b)).
Proof.
  intros F1 F2. induction o as [|f o IH]; intros b O; cbn [object_checkpoint]; [split; reflexivity|].
  inversion O as [|? ? O1 O2]; subst. unfold slot_checkpoint.
  pose proof (slot_drop_orders c (f_decl f) (f_decl f) sh1 sh2 (f_slot f) b F1 F2 O1) as S.
  specialize (IH b O2). destruct IH as [IH1 IH2].
  destruct (slot_drop c (f_decl f) sh1 (f_slot f) b) as [[]|m|]; destruct (slot_drop c (f_decl f) sh2 (f_slot f) b) as [[]|m2|];
    simpl in S; try contradiction; auto.
  destruct (object_checkpoint c sh1 o b) as [a1 r1]; destruct (object_checkpoint c sh2 o b) as [a2 r2].
  simpl in *. split; congruence || auto.
Qed.

Lemma object_drop_orders c sh1 sh2 : fair sh1 -> fair sh2 -> forall (o : object V U) b, Forall field_ok o ->
  same_outcome (object_drop c sh1 o b) (object_drop c sh2 o b).
Proof.
  intros F1 F2. induction o as [|f o IH]; intros b O; cbn [object_drop]; [reflexivity|].
  inversion O as [|? ? O1 O2]; subst.
  pose proof (slot_drop_orders c (f_decl f) (f_decl f) sh1 sh2 (f_slot f) b F1 F2 O1) as S.
  specialize (IH b O2).
  destruct (slot_drop c (f_decl f) sh1 (f_slot f) b) as [[]|m|]; destruct (slot_drop c (f_decl f) sh2 (f_slot f) b) as [[]|m2|];
    simpl in S; try contradiction; auto.
  rewrite !object_drop_unwinding. simpl. auto.
Qed.

Lemma static_checkpoint_orders c md md' sh1 sh2 (sm : smutex V U) b :
  fair sh1 -> fair sh2 -> slot_ok md' (sm_slot sm) ->
  fst (static_checkpoint c md sh1 sm b) = fst (static_checkpoint c md sh2 sm b) /\
  same_outcome (snd (static_checkpoint c md sh1 sm b)) (snd (static_checkpoint c md sh2 sm b)).
Proof.
  intros F1 F2 O. unfold static_checkpoint. destruct (sm_poison sm); simpl; [auto|].
  split; auto. eapply slot_drop_orders; eauto.
Qed.

Lemma module_checkpoint_orders c sh1 sh2 : fair sh1 -> fair sh2 -> forall (ss : statics V U) b, Forall stat_ok ss ->
  fst (module_checkpoint c sh1 ss b) = fst (module_checkpoint c sh2 ss b) /\
  same_outcome (snd (module_checkpoint c sh1 ss b)) (snd (module_checkpoint c sh2 ss b)).
Proof.
  intros F1 F2. induction ss as [|[md sm] ss IH]; intros b O; cbn [module_checkpoint]; [split; reflexivity|].
  inversion O as [|? ? O1 O2]; subst.
  destruct (static_checkpoint_orders c md md sh1 sh2 sm b F1 F2 O1) as [S1 S2].
  specialize (IH b O2). destruct IH as [IH1 IH2].
  destruct (static_checkpoint c md sh1 sm b) as [sm1 [[]|m|]]; destruct (static_checkpoint c md sh2 sm b) as [sm2 [[]|m2|]];
    simpl in S1, S2; try contradiction; subst; auto.
  destruct (module_checkpoint c sh1 ss b) as [a1 r1]; destruct (module_checkpoint c sh2 ss b) as [a2 r2].
  simpl in *. split; congruence || auto.
Qed.

Lemma same_outcome_refl {A} (r : res A) : same_outcome r r.
Proof. destruct r; simpl; auto. Qed.
Lemma same_outcome_unit r r' : same_outcome r r' -> same_outcome (unit_res (V := V) r) (unit_res r').
Proof. destruct r, r'; simpl; auto. Qed.

Lemma step_orders c sh1 sh2 y o : fair sh1 -> fair sh2 -> sys_ok y ->
  fst (step c sh1 y o) = fst (step c sh2 y o) /\
  same_outcome (snd (step c sh1 y o)) (snd (step c sh2 y o)).
Proof.
  intros F1 F2 [O1 O2].
  destruct o; try (split; [reflexivity|apply same_outcome_refl]); cbn [step].
  - destruct (nth_error (y_objs y) o) as [ob|] eqn:N; [|split; [reflexivity|apply same_outcome_refl]].
    destruct (object_checkpoint_orders c sh1 sh2 F1 F2 ob (w_panicking (y_world y)) (nth_Forall _ _ _ _ O1 N)) as [A B].
    destruct (object_checkpoint c sh1 ob _) as [a1 r1]; destruct (object_checkpoint c sh2 ob _) as [a2 r2].
    simpl in *. subst. split; auto. apply same_outcome_unit; auto.
  - destruct (nth_error (y_objs y) o) as [ob|] eqn:N; [|split; [reflexivity|apply same_outcome_refl]].
    simpl. split; auto. apply same_outcome_unit. apply object_drop_orders; auto. exact (nth_Forall _ _ _ _ O1 N).
  - destruct (nth_error (y_stats y) s) as [[md sm]|] eqn:N; [|split; [reflexivity|apply same_outcome_refl]].
    destruct (static_checkpoint_orders c md md sh1 sh2 sm (w_panicking (y_world y)) F1 F2 (nth_Forall _ _ _ _ O2 N)) as [A B].
    destruct (static_checkpoint c md sh1 sm _) as [a1 r1]; destruct (static_checkpoint c md sh2 sm _) as [a2 r2].
    simpl in *. subst. split; auto. apply same_outcome_unit; auto.
  - destruct (nth_error (y_stats y) s) as [[md sm]|] eqn:N; [|split; [reflexivity|apply same_outcome_refl]].
    unfold context_drop. destruct (w_panicking (y_world y)).
    + rewrite !slot_drop_unwinding. split; reflexivity.
    + destruct (static_checkpoint_orders c md md sh1 sh2 sm false F1 F2 (nth_Forall _ _ _ _ O2 N)) as [A B].
      destruct (static_checkpoint c md sh1 sm _) as [a1 r1]; destruct (static_checkpoint c md sh2 sm _) as [a2 r2].
      simpl in *. subst. split; auto. apply same_outcome_unit; auto.
  - destruct (module_checkpoint_orders c sh1 sh2 F1 F2 (y_stats y) (w_panicking (y_world y)) O2) as [A B].
    destruct (module_checkpoint c sh1 _ _) as [a1 r1]; destruct (module_checkpoint c sh2 _ _) as [a2 r2].
    simpl in *. subst. split; auto. apply same_outcome_unit; auto.
Qed.

Lemma run_orders c sh1 sh2 : fair sh1 -> fair sh2 -> forall l y, sys_ok y ->
  fst (run c sh1 y l) = fst (run c sh2 y l) /\
  Forall2 same_outcome (snd (run c sh1 y l)) (snd (run c sh2 y l)).
Proof.
  intros F1 F2. induction l as [|o l IH]; intros y O; cbn [run]; [split; [reflexivity|constructor]|].
  destruct (step_orders c sh1 sh2 y o F1 F2 O) as [A B].
  pose proof (step_ok c sh1 y o O) as SO.
  destruct (step c sh1 y o) as [y1 r1]; destruct (step c sh2 y o) as [y2 r2]. simpl in *. subst y2.
  destruct (IH y1 SO) as [C D].
  destruct (run c sh1 y1 l) as [z1 rs1]; destruct (run c sh2 y1 l) as [z2 rs2]. simpl in *. subst. auto.
Qed.

(** ** C33, C41: dispatch that finds nothing *)
Lemma find_exp_none_inv c one : forall es args w es1 w1,
  Forall proper es ->
  find_exp c one es args w = (es1, w1, Ret None) ->
  exists bs, consulted es args w bs w1 /\
    forall j e b, nth_error es j = Some e -> nth_error bs j = Some b ->
      b = false \/ (saturated e /\ one = false).
Proof.
  induction es as [|e es IH]; intros args w es1 w1 P H; cbn [find_exp] in H.
  - inversion H; subst. exists []. split; [reflexivity|]. intros j e b N. destruct j; discriminate.
  - inversion P as [|? ? P1 P2]; subst.
    destruct (common_matches (e_common e) args w) as [[k w2] r2] eqn:M.
    assert (VD : forall b, r2 = Ret b -> verdict e args w w2 b /\ k = e_common e).
    { intros b Hb. subst. unfold common_matches in M. unfold verdict.
      destruct (c_mpoison (e_common e)); [discriminate|].
      destruct (matcher_matches (c_matcher (e_common e)) args w) as [w3 [b'|m|]]; inversion M; subst; auto. }
    assert (NEXT : forall b, r2 = Ret b -> (b = false \/ saturated e /\ one = false) ->
      (let '(es2, w3, r3) := find_exp c one es args w2 in
       (set_common e k :: es2, w3, let? o := r3 in Ret (option_map S o))) = (es1, w1, Ret None) ->
      exists bs, consulted (e :: es) args w bs w1 /\
        forall j e0 b, nth_error (e :: es) j = Some e0 -> nth_error bs j = Some b ->
          b = false \/ (saturated e0 /\ one = false)).
    { intros b Hb Q X. destruct (find_exp c one es args w2) as [[es2 w3] [[i|]|m|]] eqn:E; inversion X; subst.
      destruct (IH _ _ _ _ P2 E) as (bs & C & D). exists (b :: bs). split.
      - simpl. exists w2. split; auto. apply VD; auto.
      - intros [|j] e0 b0 N1 N2; simpl in *; [inversion N1; inversion N2; subst; auto|]. eauto. }
    destruct r2 as [[|]|m|]; try discriminate.
    + destruct (VD true eq_refl) as [_ ->].
      destruct (is_done_proper c e P1) as (d & E & S). rewrite E in H.
      destruct d; cbn [negb orb] in H; [|discriminate].
      destruct one; cbn [orb] in H; [discriminate|].
      apply (NEXT true); auto. right. split; auto. apply S. auto.
    + apply (NEXT false); auto.
Qed.

End P.
