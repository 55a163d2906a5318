(** * PoisonProofs: proofs for C29, C33, C34 and C41 *)

From Coq Require Import Arith NArith List Bool String Lia Permutation.
From Verif Require Import Base Times TimesSpec TimesProofs Expect ExpectProofs Mock Spec SysSpec
  DispatchProofs FifoProofs CallProofs StProofs SysProofs ValidProofs StaticProofs.
Import ListNotations.
Open Scope N_scope.

Section P.
Context {V U : Type}.
Implicit Types (w : world U) (me : method V) (md : mdecl V) (e : expectation V U)
  (es : list (expectation V U)) (y : sys V U) (st : gstore V U).

Lemma nth_error_ext' {A} : forall l1 l2 : list A, (forall j, nth_error l1 j = nth_error l2 j) -> l1 = l2.
Proof.
  induction l1 as [|a l1 IH]; intros [|b l2] H; auto.
  - specialize (H 0%nat). discriminate.
  - specialize (H 0%nat). discriminate.
  - f_equal; [specialize (H 0%nat); simpl in H; congruence|]. apply IH. intros j. apply (H (S j)).
Qed.

Lemma Forall2_len {A B} (R : A -> B -> Prop) l1 l2 : Forall2 R l1 l2 -> List.length l1 = List.length l2.
Proof. induction 1; simpl; congruence. Qed.

Lemma common_call_never_aborts c me k desc w : snd (common_call (V := V) (U := U) c me k desc w) <> Abort.
Proof.
  assert (T : snd (times_call c (c_times k)) <> Abort).
  { unfold times_call, uadd1, usub. simpl. destruct (tcount (c_times k) <? umax c); simpl.
    - destruct (_ <=? _); [|discriminate]. destruct (_ =? 1); [discriminate|].
      destruct (1 <=? _); [discriminate|]. destruct (checks c); discriminate.
    - destruct (checks c); simpl; [discriminate|].
      destruct (_ <=? _); [|discriminate]. destruct (_ =? 1); [discriminate|].
      destruct (1 <=? _); discriminate. }
  unfold common_call. destruct (times_call c (c_times k)) as [t' [[[]|e]|m|]]; simpl in T; try (simpl; congruence).
  - unfold verify_sequence. simpl.
    assert (VS : match c_seq k with Some h => handle_verify h desc (w_levels w) | None => Ret tt end <> Abort).
    { destruct (c_seq k) as [h|]; [|discriminate]. unfold handle_verify, inner_verify. destruct (_ =? _); discriminate. }
    destruct (match c_seq k with Some h => handle_verify h desc (w_levels w) | None => Ret tt end) as [[]|m|];
      [|discriminate|contradiction].
    assert (SS : snd (satisfy_sequence c (set_times k t') w) <> Abort).
    { unfold satisfy_sequence. simpl. destruct (c_seq k) as [h|]; [|discriminate].
      unfold handle_satisfy, inner_satisfy. simpl. destruct (_ =? _); discriminate. }
    destruct (times_is_satisfied t'); try discriminate;
    destruct (satisfy_sequence c (set_times k t') w); auto.
  - simpl. unfold show_locked. destruct (c_mpoison k); discriminate.
Qed.

(** ** C29: the same operations on two equal objects *)
Lemma twin_runs c sh : forall l y1 y2 i1 i2 ob,
  y_world y1 = y_world y2 -> y_seqs y1 = y_seqs y2 ->
  nth_error (y_objs y1) i1 = Some ob -> nth_error (y_objs y2) i2 = Some ob ->
  snd (run c sh y1 (map (on i1) l)) = snd (run c sh y2 (map (on i2) l)).
Proof.
  induction l as [|o l IH]; intros y1 y2 i1 i2 ob W S N1 N2; [reflexivity|].
  cbn [map run].
  assert (X : exists ob', snd (step c sh y1 (on i1 o)) = snd (step c sh y2 (on i2 o)) /\
     y_world (fst (step c sh y1 (on i1 o))) = y_world (fst (step c sh y2 (on i2 o))) /\
     y_seqs (fst (step c sh y1 (on i1 o))) = y_seqs (fst (step c sh y2 (on i2 o))) /\
     nth_error (y_objs (fst (step c sh y1 (on i1 o)))) i1 = Some ob' /\
     nth_error (y_objs (fst (step c sh y2 (on i2 o)))) i2 = Some ob').
  { destruct o; cbn [on step]; rewrite <- ?W, <- ?S; try (rewrite N1, N2).
    - destruct (nth_error ob m) as [f|] eqn:E; [|exists ob; auto].
      destruct (slot_expect _ _ _ _ _ _ _) as [[s' t'] r].
      eexists. cbn [fst snd y_world y_seqs y_objs].
      rewrite !(set_nth_nth), N1, N2, !Nat.eqb_refl. auto.
    - destruct (nth_error ob m) as [f|] eqn:E; [|exists ob; auto].
      destruct (field_call _ _ _ _ _ _) as [[f' w'] r].
      eexists. cbn [fst snd y_world y_seqs y_objs].
      rewrite !(set_nth_nth), N1, N2, !Nat.eqb_refl. auto.
    - destruct (object_checkpoint _ _ _ _) as [ob' r].
      eexists. cbn [fst snd y_world y_seqs y_objs set_objs].
      rewrite !(set_nth_nth), N1, N2, !Nat.eqb_refl. auto.
    - eexists. cbn [fst snd y_world y_seqs y_objs set_objs].
      rewrite !(set_nth_nth), N1, N2, !Nat.eqb_refl. auto.
    - exists ob. cbn. auto.
    - exists ob. cbn. auto.
    - exists ob. cbn. auto. }
  destruct X as (ob' & A & B & C & D & E).
  destruct (step c sh y1 (on i1 o)) as [z1 r1]; destruct (step c sh y2 (on i2 o)) as [z2 r2].
  cbn [fst snd] in *. specialize (IH z1 z2 i1 i2 ob' B C D E).
  destruct (run c sh z1 (map (on i1) l)) as [q1 rs1]; destruct (run c sh z2 (map (on i2) l)) as [q2 rs2].
  cbn [snd] in *. congruence.
Qed.

(** ** Static methods *)
Lemma step_stats_decls c sh y o : map fst (y_stats (fst (step c sh y o))) = map fst (y_stats y).
Proof.
  assert (SET : forall s md sm sm', nth_error (y_stats y) s = Some (md, sm) ->
    map fst (set_nth (y_stats y) s (md, sm')) = map fst (y_stats y)).
  { intros. eapply (set_nth_map fst); eauto. }
  destruct o; cbn [step]; auto.
  - destruct (nth_error (y_objs y) o) as [ob1|]; [|auto].
    destruct (nth_error ob1 m) as [f|]; [|auto].
    destruct (slot_expect _ _ _ _ _ _ _) as [[s' t'] r]. auto.
  - destruct (nth_error (y_objs y) o) as [ob1|]; [|auto].
    destruct (nth_error ob1 m) as [f|]; [|auto].
    destruct (field_call _ _ _ _ _ _) as [[s' t'] r]. auto.
  - destruct (nth_error (y_objs y) o) as [ob1|]; [|auto].
    destruct (object_checkpoint _ _ _ _) as [ob' r]. auto.
  - destruct (nth_error (y_objs y) o) as [ob1|]; auto.
  - destruct (nth_error (y_stats y) s) as [[md sm]|] eqn:N; [|auto].
    destruct (context_expect _ _ _ _ _ _ _) as [[sm' t'] r]. simpl. eauto.
  - destruct (nth_error (y_stats y) s) as [[md sm]|] eqn:N; [|auto].
    destruct (static_call _ _ _ _ _ _) as [[sm' t'] r]. simpl. eauto.
  - destruct (nth_error (y_stats y) s) as [[md sm]|] eqn:N; [|auto].
    destruct (static_checkpoint _ _ _ _ _) as [sm' r]. simpl. eauto.
  - destruct (nth_error (y_stats y) s) as [[md sm]|] eqn:N; [|auto].
    destruct (context_drop _ _ _ _ _) as [sm' r]. simpl. eauto.
  - clear SET. assert (X : forall ss b, map fst (fst (module_checkpoint (V:=V) (U:=U) c sh ss b)) = map fst ss).
    { induction ss as [|[md sm] ss IH]; intros b; cbn [module_checkpoint]; auto.
      destruct (static_checkpoint c md sh sm b) as [sm' [[]|m|]]; auto.
      specialize (IH b). destruct (module_checkpoint c sh ss b). simpl in *. congruence. }
    specialize (X (y_stats y) (w_panicking (y_world y))).
    destruct (module_checkpoint _ _ _ _) as [ss r]. auto.
Qed.

Lemma stats_decls c sh u decls l : map fst (y_stats (after c sh (init u decls : sys V U) l)) = decls.
Proof.
  induction l as [|o l IH] using rev_ind.
  - unfold after. simpl. rewrite map_map. simpl. apply map_id.
  - rewrite after_snoc, step_stats_decls. auto.
Qed.

(** What each operation does to the static methods. *)
Lemma static_other c sh y o s :
  touches o s = false -> nth_error (y_stats (fst (step c sh y o))) s = nth_error (y_stats y) s.
Proof.
  destruct o; cbn [step touches]; intros T; auto; try discriminate.
  - destruct (nth_error (y_objs y) o) as [ob1|]; [|auto].
    destruct (nth_error ob1 m) as [f|]; [|auto].
    destruct (slot_expect _ _ _ _ _ _ _) as [[s' t'] r]. auto.
  - destruct (nth_error (y_objs y) o) as [ob1|]; [|auto].
    destruct (nth_error ob1 m) as [f|]; [|auto].
    destruct (field_call _ _ _ _ _ _) as [[s' t'] r]. auto.
  - destruct (nth_error (y_objs y) o) as [ob1|]; [|auto].
    destruct (object_checkpoint _ _ _ _) as [ob' r]. auto.
  - destruct (nth_error (y_objs y) o) as [ob1|]; auto.
  - apply Nat.eqb_neq in T. destruct (nth_error (y_stats y) s0) as [[md sm]|] eqn:N; [|auto].
    destruct (context_expect _ _ _ _ _ _ _) as [[sm' t'] r]. simpl. apply nth_set_nth_other. auto.
  - apply Nat.eqb_neq in T. destruct (nth_error (y_stats y) s0) as [[md sm]|] eqn:N; [|auto].
    destruct (static_call _ _ _ _ _ _) as [[sm' t'] r]. simpl. apply nth_set_nth_other. auto.
  - apply Nat.eqb_neq in T. destruct (nth_error (y_stats y) s0) as [[md sm]|] eqn:N; [|auto].
    destruct (static_checkpoint _ _ _ _ _) as [sm' r]. simpl. apply nth_set_nth_other. auto.
  - apply Nat.eqb_neq in T. destruct (nth_error (y_stats y) s0) as [[md sm]|] eqn:N; [|auto].
    destruct (context_drop _ _ _ _ _) as [sm' r]. simpl. apply nth_set_nth_other. auto.
Qed.

Lemma module_checkpoint_poisoned c sh : forall (ss : statics V U) b s md sm,
  nth_error ss s = Some (md, sm) -> sm_poison sm = true ->
  nth_error (fst (module_checkpoint c sh ss b)) s = Some (md, sm) /\
  exists r, snd (module_checkpoint c sh ss b) = r /\ r <> Ret tt.
Proof.
  induction ss as [|[md0 sm0] ss IH]; intros b s md sm N P; [destruct s; discriminate|].
  cbn [module_checkpoint]. destruct s as [|s]; cbn [nth_error] in N.
  - inversion N; subst. unfold static_checkpoint. rewrite P. simpl. split; auto. eexists. split; eauto. discriminate.
  - destruct (static_checkpoint c md0 sh sm0 b) as [sm' [[]|m|]].
    + destruct (IH b s md sm N P) as [A B]. destruct (module_checkpoint c sh ss b). simpl in *. auto.
    + simpl. split; auto. eexists. split; eauto. discriminate.
    + simpl. split; auto. eexists. split; eauto. discriminate.
Qed.

Lemma poisoned_step c sh y o s md sm :
  nth_error (y_stats y) s = Some (md, sm) -> sm_poison sm = true ->
  (o = OCtxDrop s -> w_panicking (y_world y) = false) ->
  nth_error (y_stats (fst (step c sh y o))) s = Some (md, sm) /\
  (touches o s = true -> exists m, snd (step c sh y o) = Panic m \/ snd (step c sh y o) = Abort) /\
  (touches o s = true -> o <> OModCheckpoint -> snd (step c sh y o) = Panic MPoison).
Proof.
  intros N P D. destruct (touches o s) eqn:T.
  2:{ rewrite static_other by auto. split; [auto|]. split; discriminate. }
  destruct o; cbn [touches] in T; try discriminate; try (apply Nat.eqb_eq in T; subst s0); cbn [step].
  - rewrite N. unfold context_expect. rewrite P. simpl. rewrite set_nth_nth, N, Nat.eqb_refl. eauto.
  - rewrite N. unfold static_call. rewrite P. simpl. rewrite set_nth_nth, N, Nat.eqb_refl. eauto.
  - rewrite N. unfold static_checkpoint. rewrite P. simpl. rewrite set_nth_nth, N, Nat.eqb_refl. eauto.
  - rewrite N. unfold context_drop. rewrite (D eq_refl). unfold static_checkpoint. rewrite P. simpl.
    rewrite set_nth_nth, N, Nat.eqb_refl. eauto.
  - destruct (module_checkpoint_poisoned c sh (y_stats y) (w_panicking (y_world y)) s md sm N P) as [A (r & B & C)].
    destruct (module_checkpoint _ _ _ _) as [ss r']. simpl in *. subst r'. split; [auto|]. split; [|congruence].
    intros _. destruct r as [[]|m|]; [congruence|exists m; auto|exists MPoison; auto].
Qed.

Lemma poison_persists c sh : forall l y s md sm,
  nth_error (y_stats y) s = Some (md, sm) -> sm_poison sm = true ->
  (forall l1 l2, l = l1 ++ OCtxDrop s :: l2 -> w_panicking (y_world (after c sh y l1)) = false) ->
  nth_error (y_stats (after c sh y l)) s = Some (md, sm).
Proof.
  intros l. induction l as [|o l IH] using rev_ind; intros y s md sm N P D; [auto|].
  rewrite after_snoc. eapply poisoned_step; eauto.
  - eapply IH; eauto. intros l1 l2 ->. eapply (D l1 (l2 ++ [o])). rewrite <- app_assoc. reflexivity.
  - intros ->. apply (D l []). reflexivity.
Qed.

(** A static call that panics but leaves the lock unpoisoned found no
    expectation. *)
Lemma unpoisoned_call c md (sm : smutex V U) k args w sm' w' m :
  Forall proper (slot_get (sm_slot sm) k) ->
  sm_poison sm = false -> w_panicking w = false ->
  static_call c md sm k args w = (sm', w', Panic m) -> sm_poison sm' = false ->
  exists bs, consulted (slot_get (sm_slot sm) k) args w bs w' /\
    forall j e b, nth_error (slot_get (sm_slot sm) k) j = Some e -> nth_error bs j = Some b ->
      passes (List.length (slot_get (sm_slot sm) k) = 1%nat) e b.
Proof.
  intros PR P W H Q. unfold static_call in H. rewrite P in H.
  destruct (slot_call c md (sm_slot sm) k args (fun v => v) w) as [[s' w1] r] eqn:E.
  destruct r as [[v|]|m'|]; inversion H; subst; clear H.
  2:{ simpl in Q. rewrite W in Q. discriminate. }
  unfold slot_call in E.
  assert (G : forall es es', Forall proper es -> expectations_call c (md_me md) es args (fun v => v) w = (es', w', Ret None) ->
    exists bs, consulted es args w bs w' /\
    forall j e b, nth_error es j = Some e -> nth_error bs j = Some b -> passes (List.length es = 1%nat) e b).
  { intros es es' PE X. unfold expectations_call in X.
    destruct (find_exp c (Nat.eqb (List.length es) 1) es args w) as [[es1 w2] r2] eqn:F.
    destruct r2 as [[i|]|m'|]; try discriminate.
    - pose proof (find_exp_any _ _ _ _ _ _ _ _ F) as (_ & _ & F3 & F4). rewrite (F3 _ eq_refl) in X.
      specialize (F4 _ eq_refl). apply nth_error_Some in F4.
      destruct (nth_error es i) as [e|]; [|congruence].
      destruct (expectation_call c (md_me md) e args (fun v => v) w2) as [[e' w3] [v|m'|]]; discriminate.
    - inversion X; subst. destruct (find_exp_none_inv _ _ _ _ _ _ _ PE F) as (bs & A & B). exists bs. split; auto.
      intros j e b N1 N2. destruct (B j e b N1 N2) as [|[S O]]; [left; auto|right]. split; auto.
      apply Nat.eqb_neq. auto. }
  destruct (sm_slot sm) as [es|st]; cbn [slot_get] in *.
  - destruct (expectations_call c (md_me md) es args (fun v => v) w) as [[es' w2] r2] eqn:X.
    inversion E; subst. eauto.
  - destruct (gget st k) as [es|].
    + destruct (expectations_call c (md_me md) es args (fun v => v) w) as [[es' w2] r2] eqn:X.
      inversion E; subst. eauto.
    + inversion E; subst. exists []. split; [reflexivity|]. intros j e b X. destruct j; discriminate.
Qed.

(** A static method is used like an ordinary one, as long as nothing panics. *)
Lemma static_runs c sh s md : forall l y sm,
  nth_error (y_stats y) s = Some (md, sm) -> sm_poison sm = false ->
  let '(f, t, w, rs) := grun c (Field md (sm_slot sm)) (y_seqs y) (y_world y) (map (static_gop (w_thread (y_world y))) l) in
  Forall (fun r => exists x, r = Ret x) rs ->
  exists y', run c sh y (map (static_op s) l) = (y', rs) /\
    y_seqs y' = t /\ y_world y' = w /\ y_objs y' = y_objs y /\
    nth_error (y_stats y') s = Some (md, SMutex false (f_slot f)).
Proof.
  induction l as [|o l IH]; intros y sm N P; cbn [map grun run].
  - intros _. exists y. destruct sm as [p sl]. simpl in *. subst. auto.
  - destruct o as [k chain|k args]; cbn [static_gop static_op gstep step f_decl f_slot].
    + rewrite N. unfold context_expect. rewrite P.
      destruct (slot_expect c md (sm_slot sm) k (w_thread (y_world y)) chain (y_seqs y)) as [[s' t'] r] eqn:E.
      destruct r as [[]|m|].
      * specialize (IH (Sys (y_world y) t' (y_objs y) (set_nth (y_stats y) s (md, SMutex false s'))) (SMutex false s')).
        cbn [y_seqs y_world y_objs y_stats sm_slot sm_poison] in IH.
        rewrite set_nth_nth, N, Nat.eqb_refl in IH. specialize (IH eq_refl eq_refl).
        destruct (grun c (Field md s') t' (y_world y) _) as [[[f t] w] rs].
        intros F. inversion F; subst. destruct (IH H2) as (y' & R & A). rewrite R. exists y'. auto.
      * destruct (grun c (Field md s') t' (y_world y) _) as [[[f t] w] rs].
        intros F. inversion F; subst. destruct H1; discriminate.
      * destruct (grun c (Field md s') t' (y_world y) _) as [[[f t] w] rs].
        intros F. inversion F; subst. destruct H1; discriminate.
    + rewrite N. unfold static_call, field_call. rewrite P. cbn [f_decl f_slot].
      destruct (slot_call c md (sm_slot sm) k args (fun v => v) (y_world y)) as [[s' w'] r] eqn:E.
      assert (TH : w_thread w' = w_thread (y_world y)).
      { assert (X : forall es es1 r1, expectations_call c (md_me md) es args (fun v => v) (y_world y) = (es1, w', r1) ->
          w_thread w' = w_thread (y_world y)).
        { intros es es1 r1 X. apply expectations_call_any in X.
          destruct X as [(i & e & e' & w1 & r0 & _ & F & G & _)|(r0 & _ & _ & F & _)]; [|apply F].
          apply find_exp_any in F. apply expectation_call_shape in G.
          destruct F as (_ & (_ & F & _) & _). destruct G as (_ & _ & _ & _ & _ & G & _). congruence. }
        unfold slot_call in E. destruct (sm_slot sm) as [es|st].
        - destruct (expectations_call _ _ _ _ _ _) as [[a b] d] eqn:Y; inversion E; subst. eauto.
        - destruct (gget st k) as [es|]; [|inversion E; subst; auto].
          destruct (expectations_call _ _ _ _ _ _) as [[a b] d] eqn:Y; inversion E; subst. eauto. }
      destruct r as [[v|]|m|]; cbn [rbind].
      * specialize (IH (Sys w' (y_seqs y) (y_objs y) (set_nth (y_stats y) s (md, SMutex false s'))) (SMutex false s')).
        cbn [y_seqs y_world y_objs y_stats sm_slot sm_poison] in IH.
        rewrite set_nth_nth, N, Nat.eqb_refl, TH in IH. specialize (IH eq_refl eq_refl).
        destruct (grun c (Field md s') (y_seqs y) w' _) as [[[f t] w] rs].
        intros F. inversion F; subst. destruct (IH H2) as (y' & R & A). rewrite R. exists y'. auto.
      * destruct (grun c (Field md s') _ w' _) as [[[f t] w] rs].
        intros F. inversion F; subst. destruct H1; discriminate.
      * destruct (grun c (Field md s') _ w' _) as [[[f t] w] rs].
        intros F. inversion F; subst. destruct H1; discriminate.
      * destruct (grun c (Field md s') _ w' _) as [[[f t] w] rs].
        intros F. inversion F; subst. destruct H1; discriminate.
Qed.

(** ** C41: dispatch does not look at the return actions *)
Definition but_action i es es' : Prop :=
  List.length es' = List.length es /\
  forall j e e', nth_error es j = Some e -> nth_error es' j = Some e' ->
    e_common e' = e_common e /\ (j <> i -> e_action e' = e_action e).

Lemma find_exp_actions c one : forall es es' args w i,
  Forall2 (fun e e' => e_common e' = e_common e) es es' ->
  but_action i es es' ->
  exists es1 es1' w1 r,
    find_exp c one es args w = (es1, w1, r) /\ find_exp c one es' args w = (es1', w1, r) /\
    but_action i es1 es1' /\
    Forall2 (fun e e' => e_common e' = e_common e) es1 es1' /\
    Forall2 (fun e e1 => e_action e1 = e_action e) es es1 /\
    Forall2 (fun e e1 => e_action e1 = e_action e) es' es1'.
Proof.
  assert (RA : forall l : list (expectation V U), Forall2 (fun e e1 => e_action e1 = e_action e) l l).
  { induction l; constructor; auto. }
  induction es as [|e es IH]; intros es' args w i F B; inversion F; subst.
  - exists [], [], w, (Ret None). cbn [find_exp]. split; [auto|]. split; [auto|]. split; [exact B|]. split; [auto|]. split; auto.
  - assert (B2 : but_action (Nat.pred i) es l').
    { destruct B as [L B]. split; [simpl in L; lia|]. intros j a a' N1 N2.
      destruct (B (S j) a a' N1 N2) as [X Y]. split; auto. intros D. apply Y. lia. }
    assert (B3 : i = 0%nat -> but_action (List.length es) es l').
    { intros ->. destruct B as [L B]. split; [simpl in L; lia|]. intros j a a' N1 N2.
      destruct (B (S j) a a' N1 N2) as [X Y]. split; auto. }
    cbn [find_exp]. rewrite H1.
    destruct (common_matches (e_common e) args w) as [[k w2] r2] eqn:M.
    assert (AE : i <> 0%nat -> e_action y = e_action e).
    { destruct B as [_ B]. intros D. apply (B 0%nat e y eq_refl eq_refl). auto. }
    assert (STOP : forall r : res (option nat), exists es1 es1' w1 r0,
        (set_common e k :: es, w2, r) = (es1, w1, r0) /\ (set_common y k :: l', w2, r) = (es1', w1, r0) /\
        but_action i es1 es1' /\ Forall2 (fun e e' => e_common e' = e_common e) es1 es1' /\
        Forall2 (fun e0 e1 => e_action e1 = e_action e0) (e :: es) es1 /\
        Forall2 (fun e0 e1 => e_action e1 = e_action e0) (y :: l') es1').
    { intros r. exists (set_common e k :: es), (set_common y k :: l'), w2, r.
      split; [auto|]. split; [auto|]. split.
      - destruct B as [L B]. split; auto. intros [|j] a a' N1 N2; simpl in *.
        + inversion N1; inversion N2; subst. simpl. split; auto.
        + apply (B (S j) a a' N1 N2).
      - split; [constructor; auto|]. split; constructor; auto. }
    assert (NEXT : exists es1 es1' w1 r0,
        (let '(es2, w3, r3) := find_exp c one es args w2 in
         (set_common e k :: es2, w3, let? o := r3 in Ret (option_map S o))) = (es1, w1, r0) /\
        (let '(es2, w3, r3) := find_exp c one l' args w2 in
         (set_common y k :: es2, w3, let? o := r3 in Ret (option_map S o))) = (es1', w1, r0) /\
        but_action i es1 es1' /\ Forall2 (fun e e' => e_common e' = e_common e) es1 es1' /\
        Forall2 (fun e0 e1 => e_action e1 = e_action e0) (e :: es) es1 /\
        Forall2 (fun e0 e1 => e_action e1 = e_action e0) (y :: l') es1').
    { destruct (Nat.eq_dec i 0) as [->|NZ].
      - destruct (IH l' args w2 (List.length es) H3 (B3 eq_refl)) as (es1 & es1' & w1 & r & E1 & E2 & Q1 & Q2 & Q3 & Q4).
        rewrite E1, E2. eexists; eexists; eexists; eexists. split; [reflexivity|]. split; [reflexivity|].
        split; [|split; [constructor; auto|split; constructor; auto]].
        destruct Q1 as [QL QB]. split; [simpl; congruence|]. intros [|j] a a' N1 N2; simpl in *.
        + inversion N1; inversion N2; subst. simpl. split; congruence.
        + destruct (QB j a a' N1 N2) as [X Y]. split; auto. intros _. apply Y.
          apply Forall2_len in Q3. intros ->. assert (nth_error es1 (List.length es) <> None) by congruence.
          apply nth_error_Some in H. lia.
      - destruct (IH l' args w2 (Nat.pred i) H3 B2) as (es1 & es1' & w1 & r & E1 & E2 & Q1 & Q2 & Q3 & Q4).
        rewrite E1, E2. eexists; eexists; eexists; eexists. split; [reflexivity|]. split; [reflexivity|].
        split; [|split; [constructor; auto|split; constructor; auto]].
        destruct Q1 as [QL QB]. split; [simpl; congruence|]. intros [|j] a a' N1 N2; simpl in *.
        + inversion N1; inversion N2; subst. simpl. split; auto.
        + destruct (QB j a a' N1 N2) as [X Y]. split; auto. intros D. apply Y. lia. }
    destruct r2 as [[|]|m|]; auto.
    destruct (common_is_done c k) as [d|m|]; auto. destruct (negb d || one); auto.
Qed.

Lemma but_action_common i es es' : but_action i es es' -> Forall2 (fun e e' => e_common e' = e_common e) es es'.
Proof.
  revert es' i. induction es as [|e es IH]; intros [|e' es'] i [L B]; simpl in L; try lia; constructor.
  - apply (B 0%nat); auto.
  - apply (IH es' (Nat.pred i)). split; [lia|]. intros j a a' N1 N2.
    destruct (B (S j) a a' N1 N2) as [X Y]. split; auto. intros D. apply Y. lia.
Qed.

Lemma but_action_set i es es' j e e' : but_action i es es' -> e_common e' = e_common e ->
  (j <> i -> e_action e' = e_action e) -> but_action i (set_nth es j e) (set_nth es' j e').
Proof.
  intros [L B] C A. split; [rewrite !set_nth_length; auto|].
  intros k a a' N1 N2. rewrite set_nth_nth in N1, N2.
  destruct (Nat.eqb_spec j k).
  - subst. destruct (nth_error es k); [|discriminate]. destruct (nth_error es' k); [|discriminate].
    inversion N1; inversion N2; subst. auto.
  - eauto.
Qed.

(** With the action of expectation [i] replaced by another one, a call either has
    the same effect or is given to expectation [i]. *)
Lemma call_actions c me i es es' args wr w :
  but_action i es es' ->
  (exists es1 es1' w1 r,
     expectations_call c me es args wr w = (es1, w1, r) /\
     expectations_call c me es' args wr w = (es1', w1, r) /\
     but_action i es1 es1' /\
     (forall e e', nth_error es i = Some e -> nth_error es1 i = Some e' -> e_action e' = e_action e) /\
     (forall e e', nth_error es' i = Some e -> nth_error es1' i = Some e' -> e_action e' = e_action e)) \/
  (exists bs w1, consulted (firstn (S i) es) args w bs w1 /\ nth_error bs i = Some true /\
     exists e, nth_error es i = Some e /\
     expectations_call c me es args wr w =
       (let '(e2, w2, r) := expectation_call c me e args wr w1 in
        (set_nth es i e2, w2, let? v := r in Ret (Some v))) /\
     exists e', nth_error es' i = Some e' /\
     expectations_call c me es' args wr w =
       (let '(e2, w2, r) := expectation_call c me e' args wr w1 in
        (set_nth es' i e2, w2, let? v := r in Ret (Some v)))).
Proof.
  intros B. unfold expectations_call.
  pose proof (but_action_common _ _ _ B) as FC.
  assert (LE : List.length es' = List.length es) by apply B. rewrite LE.
  destruct (find_exp_actions c (Nat.eqb (List.length es) 1) es es' args w i FC B)
    as (es1 & es1' & w1 & r & E1 & E2 & B1 & C1 & A1 & A2).
  assert (KEEP1 : forall e e', nth_error es i = Some e -> nth_error es1 i = Some e' -> e_action e' = e_action e).
  { intros e e' N1 N2. destruct (Forall2_nth _ _ _ _ _ A1 N1) as (x & X1 & X2). congruence. }
  assert (KEEP2 : forall e e', nth_error es' i = Some e -> nth_error es1' i = Some e' -> e_action e' = e_action e).
  { intros e e' N1 N2. destruct (Forall2_nth _ _ _ _ _ A2 N1) as (x & X1 & X2). congruence. }
  pose proof (find_exp_any _ _ _ _ _ _ _ _ E1) as (_ & _ & F3 & F4).
  pose proof (find_exp_any _ _ _ _ _ _ _ _ E2) as (_ & _ & F3' & F4').
  rewrite E1, E2. destruct r as [[j|]|m|].
  2,3,4: left; exists es1, es1', w1; eexists; split; [reflexivity|]; split; [reflexivity|]; auto.
  pose proof (F3 _ eq_refl) as Q1; pose proof (F3' _ eq_refl) as Q2. subst es1 es1'.
  specialize (F4 _ eq_refl). specialize (F4' _ eq_refl).
  apply nth_error_Some in F4. apply nth_error_Some in F4'.
  destruct (nth_error es j) as [e|] eqn:N1; [|congruence]. destruct (nth_error es' j) as [e'|] eqn:N2; [|congruence].
  destruct (Nat.eq_dec j i) as [->|NE].
  - right. destruct (find_exp_consulted _ _ _ _ _ _ _ _ E1) as (bs & D1 & D2).
    exists bs, w1. split; [auto|]. split; [auto|]. exists e. split; [auto|]. split; [auto|]. exists e'. auto.
  - left. destruct B as [BL BB]. destruct (BB _ _ _ N1 N2) as [X Y]. specialize (Y NE).
    assert (e' = e) by (destruct e, e'; simpl in *; congruence). subst e'.
    destruct (expectation_call c me e args wr w1) as [[e2 w2] r2].
    exists (set_nth es j e2), (set_nth es' j e2), w2, (let? v := r2 in Ret (Some v)).
    split; [auto|]. split; [auto|]. split.
    { apply but_action_set; [split|..]; auto. }
    split; intros a a' M1 M2; rewrite nth_set_nth_other in M2 by auto; congruence.
Qed.

(** A poisoned action is never run. *)
Lemma poisoned_call c me e rf args wr w e' w' r :
  e_action e = AStatic rf true -> expectation_call c me e args wr w = (e', w', r) ->
  e_action e' = AStatic rf true /\ r <> Abort /\ (forall v, r <> Ret v) /\
  forall rf', expectation_call c me (set_action e (AStatic rf' true)) args wr w
    = (set_action e' (AStatic rf' true), w', r).
Proof.
  intros A E. unfold expectation_call in *. cbn [set_action e_common e_action].
  rewrite A in E.
  pose proof (common_call_never_aborts c me (e_common e) (call_desc me args) w) as NA.
  destruct (common_call c me (e_common e) (call_desc me args) w) as [[k w1] [[]|m|]].
  - simpl in E. inversion E; subst. simpl. repeat split; auto; discriminate.
  - inversion E; subst. simpl. repeat split; auto; discriminate.
  - exfalso. apply NA. reflexivity.
Qed.

Lemma poisoned_calls c me : forall l es i w rf rf' e,
  nth_error es i = Some e -> e_action e = AStatic rf true ->
  let '(es1, w1, rs) := exp_list_calls c me es w l in
  exists e', nth_error es1 i = Some e' /\ e_action e' = AStatic rf true /\
  exp_list_calls c me (set_nth es i (set_action e (AStatic rf' true))) w l =
    (set_nth es1 i (set_action e' (AStatic rf' true)), w1, rs).
Proof.
  induction l as [|[args wr] l IH]; intros es i w rf rf' e N A; cbn [exp_list_calls].
  - exists e. auto.
  - set (es' := set_nth es i (set_action e (AStatic rf' true))).
    assert (LT : (i < List.length es)%nat) by (apply nth_error_Some; congruence).
    assert (B : but_action i es es').
    { split; [unfold es'; apply set_nth_length|]. intros j a a' N1 N2. unfold es' in N2. rewrite set_nth_nth in N2.
      destruct (Nat.eqb_spec i j).
      - subst. rewrite N1 in N2. inversion N2; subst. rewrite N in N1. inversion N1; subst. simpl. split; auto. congruence.
      - rewrite N1 in N2. inversion N2; subst. auto. }
    assert (NE' : nth_error es' i = Some (set_action e (AStatic rf' true))).
    { unfold es'. rewrite set_nth_nth, Nat.eqb_refl, N. auto. }
    destruct (call_actions c me i es es' args wr w B) as
      [(es1 & es1' & w1 & r & E1 & E2 & B1 & K1 & K2)|(bs & w1 & _ & _ & e1 & N1 & E1 & e2 & N2 & E2)].
    + rewrite E1, E2. pose proof (expectations_call_any _ _ _ _ _ _ _ _ _ E1) as EA.
      assert (LE : List.length es1 = List.length es).
      { destruct EA as [(? & ? & ? & ? & ? & _ & _ & _ & -> & _)|(? & F & _)]; [apply set_nth_length|].
        apply find_exp_any in F. destruct F as (F & _). apply Forall2_len in F. auto. }
      destruct (nth_error es1 i) as [x|] eqn:N1; [|apply nth_error_None in N1; lia].
      specialize (K1 _ _ N eq_refl).
      assert (LE' : List.length es1' = List.length es1) by apply B1.
      destruct (nth_error es1' i) as [x'|] eqn:N1'; [|apply nth_error_None in N1'; lia].
      specialize (K2 _ _ NE' eq_refl).
      assert (XX : es1' = set_nth es1 i (set_action x (AStatic rf' true))).
      { apply nth_error_ext'. intros j. rewrite set_nth_nth. destruct (Nat.eqb_spec i j).
        - subst j. rewrite N1, N1'. destruct B1 as [_ BB]. destruct (BB _ _ _ N1 N1') as [C _].
          destruct x' as [k' a']. simpl in *. subst. reflexivity.
        - destruct (nth_error es1 j) as [z|] eqn:Z.
          + destruct (nth_error es1' j) as [z'|] eqn:Z'.
            * destruct B1 as [_ BB]. destruct (BB _ _ _ Z Z') as [C D]. destruct z, z'. simpl in *.
              rewrite C, (D (fun q => n (eq_sym q))). reflexivity.
            * apply nth_error_None in Z'. assert (nth_error es1 j <> None) by congruence. apply nth_error_Some in H. lia.
          + apply nth_error_None in Z. apply nth_error_None. lia. }
      specialize (IH es1 i w1 rf rf' x N1 (eq_trans K1 A)).
      destruct (exp_list_calls c me es1 w1 l) as [[es2 w2] rs].
      destruct IH as (e' & M1 & M2 & M3). exists e'. rewrite XX, M3. auto.
    + rewrite N in N1. inversion N1; subst e1. rewrite NE' in N2. inversion N2; subst e2.
      destruct (expectation_call c me e args wr w1) as [[x w2] r] eqn:EC.
      destruct (poisoned_call c me e rf args wr w1 x w2 r A EC) as (PA & _ & _ & PC).
      rewrite E1, E2, PC.
      assert (N3 : nth_error (set_nth es i x) i = Some x) by (rewrite set_nth_nth, Nat.eqb_refl, N; auto).
      specialize (IH (set_nth es i x) i w2 rf rf' x N3 PA).
      destruct (exp_list_calls c me (set_nth es i x) w2 l) as [[es2 w3] rs].
      destruct IH as (e' & M1 & M2 & M3). exists e'. split; [auto|]. split; [auto|].
      assert (XX : set_nth es' i (set_action x (AStatic rf' true)) = set_nth (set_nth es i x) i (set_action x (AStatic rf' true))).
      { apply nth_error_ext'. intros j. unfold es'. rewrite !set_nth_nth. destruct (Nat.eqb_spec i j); auto.
        destruct (nth_error es j); auto. }
      rewrite XX, M3. reflexivity.
Qed.

(** ** C41: a matcher that panics *)
Lemma find_exp_stops c one : forall es args w i e bs w1 k w2 m,
  Forall proper es -> nth_error es i = Some e ->
  consulted (firstn i es) args w bs w1 ->
  (forall j e' b, nth_error (firstn i es) j = Some e' -> nth_error bs j = Some b ->
     b = false \/ (saturated e' /\ one = false)) ->
  common_matches (e_common e) args w1 = (k, w2, Panic m) ->
  find_exp c one es args w = (set_nth es i (set_common e k), w2, Panic m).
Proof.
  induction es as [|e0 es IH]; intros args w i e bs w1 k w2 m HP N C F M; [destruct i; discriminate|].
  inversion HP as [|? ? P1 P2]; subst. destruct i as [|i]; cbn [nth_error firstn] in *.
  - inversion N; subst. destruct bs; simpl in C; [|contradiction]. subst w1.
    cbn [find_exp set_nth]. rewrite M. reflexivity.
  - destruct bs as [|b bs]; [contradiction|]. destruct C as (w3 & HV & C).
    cbn [find_exp set_nth]. rewrite (common_matches_verdict _ _ _ _ _ HV), set_common_id.
    rewrite (IH args w3 i e bs w1 k w2 m); auto.
    2:{ intros j e' b' N1 N2. apply (F (S j)); auto. }
    destruct b; [|reflexivity].
    destruct (is_done_proper c e0 P1) as (d & Hd & Hsat). rewrite Hd.
    destruct (F 0%nat e0 true eq_refl eq_refl) as [|[S O]]; [discriminate|]. subst one.
    apply Hsat in S. subst d. reflexivity.
Qed.

Lemma matcher_stops c me : forall es args wr w i e bs w1 k w2 m,
  Forall proper es -> nth_error es i = Some e ->
  consulted (firstn i es) args w bs w1 ->
  (forall j e' b, nth_error (firstn i es) j = Some e' -> nth_error bs j = Some b ->
     passes (List.length es = 1%nat) e' b) ->
  common_matches (e_common e) args w1 = (k, w2, Panic m) ->
  expectations_call c me es args wr w = (set_nth es i (set_common e k), w2, Panic m).
Proof.
  intros es args wr w i e bs w1 k w2 m HP N C F M. unfold expectations_call.
  rewrite (find_exp_stops c _ es args w i e bs w1 k w2 m); auto.
  intros j e' b N1 N2. destruct (F j e' b N1 N2) as [|[S A]]; auto. right. split; auto.
  apply Nat.eqb_neq. auto.
Qed.

(** ** C33: an unmatched call *)
Lemma unmatched_slot c md (s : slot V U) k args wr w bs w1 :
  let es := slot_get s k in
  Forall proper es ->
  consulted es args w bs w1 ->
  (forall j e b, nth_error es j = Some e -> nth_error bs j = Some b ->
     passes (List.length es = 1%nat) e b) ->
  slot_call c md s k args wr w = (s, w1, Ret None).
Proof.
  intros es PR C F.
  assert (Z : expectations_call c (md_me md) es args wr w = (es, w1, Ret None)).
  { unfold expectations_call. rewrite (find_exp_none c _ es args w bs w1); auto.
    intros j e0 b He Hb. destruct (F j e0 b He Hb) as [Q|[Q1 Q2]]; auto.
    right; split; auto. apply Nat.eqb_neq; auto. }
  unfold slot_call. unfold es in *. destruct s as [es0|st]; cbn [slot_get] in *; [rewrite Z; auto|].
  destruct (gget st k) as [es0|] eqn:G; [rewrite Z|].
  - rewrite gput_same_id by auto. reflexivity.
  - destruct bs; simpl in C; [subst; auto|contradiction].
Qed.

End P.
