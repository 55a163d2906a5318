(** * PropOwns: what is handed to a mock is dropped once (C90) *)

From Coq Require Import NArith List Bool String Permutation Lia.
From Verif Require Import Base Times Expect Mock SysSpec Owns OwnsSpec OwnsProofs.
Import ListNotations.
Open Scope N_scope.
Open Scope list_scope.

(** The functions of [Owns.v] are those of [Mock.v] with a list of what they destroy. *)
Theorem watching_destructors_changes_nothing :
  forall (V U : Type) c sh (y : sys V U) ops y' rs es,
  run_o c sh y ops = (y', rs, es) -> run c sh y ops = (y', rs) /\ List.length es = List.length ops.
Proof. intros V U c sh y ops y' rs es. apply run_same. Qed.
Print Assumptions watching_destructors_changes_nothing.

(** ** A test with a matcher that is replaced, a [return_once] that is used, and one that is not. *)
Definition own : method N := Method "MockFoo::foo" "MockFoo::foo" None (fun _ => "n"%string).
Definition ownd : mdecl N := MDecl own KStatic false false.
Definition owns : mdecl N := MDecl own KStatic false true.
Definition low : ucode unit (list N) bool := fun _ u => (u, Ret true).
Definition below : pred N unit := ("below"%string, fun a u => (u, Ret (a <? 10))).
Definition six : ucode unit (list N) N := fun _ u => (u, Ret 6).
Definition eight : ucode unit (list N) N := fun _ u => (u, Ret 8).
Definition straight (s : gstore N unit) : gstore N unit := s.
Lemma straight_fair : fair straight.
Proof. intros st. apply Permutation_refl. Qed.
Definition owntest : list (op N unit) :=
  [ONew (SDecl [] [ownd]);
   OExpect 0 0 0%nat [StWithf low; StReturnOnce six; StWith [below]];
   OExpect 0 0 0%nat [StReturning six; StReturnOnce eight; StTimes (ANum 1); StTimes (ARange 5 1); StWithf low];
   OCall 0 0 0%nat [3] (fun v => v)].

Example watching_destructors_changes_nothing_applies :
  snd (run_o debug64 straight (init tt []) (owntest ++ [ODrop 0])) =
    [Effect 0 []; Effect 3 [ThMatch low]; Effect 4 [ThRet six]; Effect 0 [ThRet six];
     Effect 0 [ThPred below; ThRet eight]].
Proof. vm_compute. reflexivity. Qed.

(** Nothing is destroyed twice and nothing is lost.  Of what a test has handed over, together with what
    the mocks held before, everything is either destroyed, once, or still held.  This is so for every
    order in which hash maps yield their entries, whatever panics; a test that aborts is not followed. *)
Theorem what_is_handed_over_is_held_or_dropped :
  forall (V U : Type) c sh (y : sys V U) ops y' rs es,
  fair sh -> run_o c sh y ops = (y', rs, es) -> ~ In Abort rs ->
  Permutation (held y ++ handed_over c sh y ops es) (dropped es ++ held y').
Proof. intros V U c sh y ops y' rs es F. apply run_conserves. exact F. Qed.
Print Assumptions what_is_handed_over_is_held_or_dropped.

Example what_is_handed_over_is_held_or_dropped_applies :
  exists y' rs es,
  run_o debug64 straight (init tt []) owntest = (y', rs, es) /\ ~ In Abort rs /\ held (init tt [] : sys N unit) = [] /\
  handed_over debug64 straight (init tt []) owntest es =
    [ThMatch low; ThRet six; ThPred below; ThRet six; ThRet eight] /\
  dropped es = [ThMatch low; ThRet six; ThRet six] /\ held y' = [ThPred below; ThRet eight].
Proof.
  do 3 eexists. split; [vm_compute; reflexivity|]. split; [|vm_compute; auto].
  intros H. repeat (destruct H as [H|H]; [discriminate|]). contradiction.
Qed.

(** When a test without static methods has dropped all its mock objects, everything it handed over has
    been destroyed once. *)
Theorem dropped_mocks_leak_nothing :
  forall (V U : Type) c sh u (ops : list (op V U)) y' rs es,
  fair sh -> run_o c sh (init u []) ops = (y', rs, es) -> ~ In Abort rs ->
  Forall (fun ob => ob = []) (y_objs y') ->
  Permutation (handed_over c sh (init u []) ops es) (dropped es).
Proof.
  intros V U c sh u ops y' rs es F R NA D.
  assert (E : y_stats y' = []).
  { destruct (run_same _ _ _ _ _ _ _ R) as [R' _]. revert R'. clear.
    assert (G : forall ops (y y' : sys V U) rs, y_stats y = [] -> run c sh y ops = (y', rs) -> y_stats y' = []).
    { induction ops0 as [| o ops0 IH]; cbn [run]; intros y y1 rs0 E H; [inversion H; subst; auto|].
      destruct (step c sh y o) as [y2 r] eqn:S0. destruct (run c sh y2 ops0) as [y3 rs3] eqn:R0. inversion H; subst.
      refine (IH _ _ _ _ R0). clear - E S0. unfold step in S0.
      assert (NS : forall s, nth_error (y_stats y) s = None) by (intros [|s]; rewrite E; auto).
      destruct o; rewrite ?NS in S0; try (inversion S0; subst; exact E);
        try (destruct (nth_error (y_objs y) o) as [ob|]; [|inversion S0; subst; exact E]).
      - destruct (nth_error ob m); [|inversion S0; subst; exact E].
        destruct (slot_expect _ _ _ _ _ _ _) as [[? ?] ?]. inversion S0; subst; exact E.
      - destruct (nth_error ob m); [|inversion S0; subst; exact E].
        destruct (field_call _ _ _ _ _ _) as [[? ?] ?]. inversion S0; subst; exact E.
      - destruct (object_checkpoint _ _ _ _) as [? ?]. inversion S0; subst; exact E.
      - inversion S0; subst; exact E.
      - rewrite E in S0. cbn in S0. inversion S0; subst. reflexivity. }
    intros R'. refine (G _ _ _ _ _ R'); reflexivity. }
  pose proof (what_is_handed_over_is_held_or_dropped _ _ _ _ _ _ _ _ _ F R NA) as P.
  rewrite init_held in P. cbn [app] in P. rewrite P. unfold held. rewrite E. cbn [flat_map].
  replace (flat_map object_held (y_objs y')) with (@nil (thing V U)).
  - rewrite !app_nil_r. auto.
  - clear - D. induction D as [| ob l H D IH]; cbn; auto. subst ob. cbn. auto.
Qed.
Print Assumptions dropped_mocks_leak_nothing.

Example dropped_mocks_leak_nothing_applies :
  exists y' rs es,
  run_o debug64 straight (init tt []) (owntest ++ [ODrop 0]) = (y', rs, es) /\ ~ In Abort rs /\
  Forall (fun ob => ob = []) (y_objs y') /\ List.length (dropped es) = 5%nat.
Proof.
  do 3 eexists. split; [vm_compute; reflexivity|]. split; [|split; [vm_compute; auto | reflexivity]].
  intros H. repeat (destruct H as [H|H]; [discriminate|]). contradiction.
Qed.

(** Dropping a mock destroys what it holds, even if dropping it panics. *)
Theorem dropping_a_mock_drops_what_it_holds :
  forall (V U : Type) c sh (y : sys V U) i ob y' r e,
  fair sh -> nth_error (y_objs y) i = Some ob -> step_o c sh y (ODrop i) = (y', r, e) -> r <> Abort ->
  Permutation (ef_dropped e) (object_held ob) /\ nth_error (y_objs y') i = Some [].
Proof.
  intros V U c sh y i ob y' r e F N H NA. cbn [step_o] in H. rewrite N in H.
  destruct (object_drop_o c sh ob (w_panicking (y_world y))) as [r' d] eqn:E. inversion H; subst. cbn [ef_dropped set_objs y_objs].
  split; [eapply object_drop_all; eauto; apply (@unit_res_abort V); auto|].
  destruct (set_nth_split _ _ _ N) as (l1 & l2 & _ & B & C). rewrite C, nth_error_app2, <- B, PeanoNat.Nat.sub_diag; [auto | lia].
Qed.
Print Assumptions dropping_a_mock_drops_what_it_holds.

Example dropping_a_mock_drops_what_it_holds_applies :
  let y := fst (run debug64 straight (init tt []) [ONew (SDecl [] [ownd]); OExpect 0 0 0%nat [StReturning six; StTimes (ANum 1)];
                                            OExpect 0 0 0%nat [StWithf low]]) in
  exists y' m, step_o debug64 straight y (ODrop 0) = (y', Panic m, Effect 0 [ThRet six; ThMatch low]).
Proof. do 2 eexists. vm_compute. reflexivity. Qed.

(** A checkpoint that succeeds destroys what the mock, or the module, held. *)
Theorem checkpoints_drop_what_they_check :
  forall (V U : Type) c sh (y y' : sys V U) e,
  fair sh ->
  (forall i ob, nth_error (y_objs y) i = Some ob -> step_o c sh y (OCheckpoint i) = (y', Ret None, e) ->
     Permutation (ef_dropped e) (object_held ob) /\
     exists ob', nth_error (y_objs y') i = Some ob' /\ object_held ob' = []) /\
  (step_o c sh y OModCheckpoint = (y', Ret None, e) ->
     Permutation (ef_dropped e) (flat_map static_held (y_stats y)) /\ flat_map static_held (y_stats y') = []).
Proof.
  intros V U c sh y y' e F. split.
  - intros i ob N H. cbn [step_o] in H. rewrite N in H.
    destruct (object_checkpoint_o c sh ob (w_panicking (y_world y))) as [[ob' r'] d] eqn:E.
    inversion H; subst. apply unit_res_ret in H2. subst r'.
    destruct (object_checkpoint_conserves _ _ _ _ F _ _ _ E ltac:(discriminate)) as [A B]. specialize (B eq_refl).
    rewrite B, app_nil_r in A. split; [symmetry; exact A|]. exists ob'. split; auto. cbn [set_objs y_objs].
    destruct (set_nth_split _ _ _ N) as (l1 & l2 & _ & X & C). rewrite C, nth_error_app2, <- X, PeanoNat.Nat.sub_diag; [auto | lia].
  - intros H. cbn [step_o] in H.
    destruct (module_checkpoint_o c sh (y_stats y) (w_panicking (y_world y))) as [[ss r'] d] eqn:E.
    inversion H; subst. apply unit_res_ret in H2. subst r'.
    destruct (module_checkpoint_conserves _ _ _ _ F _ _ _ E ltac:(discriminate)) as [A B]. specialize (B eq_refl).
    rewrite B, app_nil_r in A. split; [symmetry; exact A | exact B].
Qed.
Print Assumptions checkpoints_drop_what_they_check.

Example checkpoints_drop_what_they_check_applies :
  let y := fst (run debug64 straight (init tt [owns]) [OCtxExpect 0 0%nat [StReturning six]; ONew (SDecl [] [ownd]);
                                            OExpect 0 0 0%nat [StWithf low]]) in
  (exists y', step_o debug64 straight y (OCheckpoint 0) = (y', Ret None, Effect 0 [ThMatch low])) /\
  (exists y', step_o debug64 straight y OModCheckpoint = (y', Ret None, Effect 0 [ThRet six])).
Proof. split; eexists; vm_compute; reflexivity. Qed.

(** Dropping the context of a static method destroys what the method holds, if the store is not
    poisoned or the thread is unwinding. *)
Theorem dropping_a_context_drops_what_its_method_holds :
  forall (V U : Type) c sh (y : sys V U) s md sm y' r e,
  fair sh -> nth_error (y_stats y) s = Some (md, sm) ->
  w_panicking (y_world y) = true \/ sm_poison sm = false ->
  step_o c sh y (OCtxDrop s) = (y', r, e) -> r <> Abort ->
  Permutation (ef_dropped e) (static_held (md, sm)) /\
  exists sm', nth_error (y_stats y') s = Some (md, sm') /\ static_held (md, sm') = [].
Proof.
  intros V U c sh y s md sm y' r e F N W H NA. cbn [step_o] in H. rewrite N in H.
  destruct (context_drop_o c md sh sm (w_panicking (y_world y))) as [[sm' r'] d] eqn:E. inversion H; subst.
  destruct (context_drop_conserves _ _ _ _ _ _ _ _ F E (unit_res_abort (V := V) _ NA)) as [A B]. specialize (B W).
  rewrite B, app_nil_r in A. split; [symmetry; exact A|]. exists sm'. split; [|exact B]. cbn [set_stats y_stats].
  destruct (set_nth_split _ _ _ N) as (l1 & l2 & _ & X & C). rewrite C, nth_error_app2, <- X, PeanoNat.Nat.sub_diag; [auto | lia].
Qed.
Print Assumptions dropping_a_context_drops_what_its_method_holds.

(** A closure that panics poisons the store of a static method. *)
Definition fails : ucode unit (list N) N := fun _ u => (u, Panic (MUser 1)).
Definition poisoning : list (op N unit) := [OCtxExpect 0 0%nat [StReturning fails]; OStaticCall 0 0%nat [3]].

Example dropping_a_context_drops_what_its_method_holds_applies :
  let y := fst (run debug64 straight (init tt [owns]) (poisoning ++ [OUnwinding true])) in
  exists y', step_o debug64 straight y (OCtxDrop 0) = (y', Ret None, Effect 0 [ThRet fails]).
Proof. eexists. vm_compute. reflexivity. Qed.

(** Otherwise not: a context that is dropped normally leaves a poisoned store as it is, and what the
    test has handed over outlives the context. *)
Theorem contexts_drop_what_their_methods_hold_refuted :
  exists (ops : list (op N unit)) y' rs es,
  run_o debug64 straight (init tt [owns]) (ops ++ [OCtxDrop 0]) = (y', rs, es) /\ ~ In Abort rs /\
  handed_over debug64 straight (init tt [owns]) (ops ++ [OCtxDrop 0]) es = [ThRet fails] /\
  dropped es = [] /\ held y' = [ThRet fails].
Proof.
  exists poisoning. do 3 eexists. split; [vm_compute; reflexivity|]. split; [|vm_compute; auto].
  intros H. repeat (destruct H as [H|H]; [discriminate|]). contradiction.
Qed.
Print Assumptions contexts_drop_what_their_methods_hold_refuted.

(** A call destroys nothing but the [return_once] closure that it runs; the expectation that had it,
    one of those that the call chooses from, does not have it any more. *)
Theorem calls_drop_only_the_closure_they_run :
  forall (V U : Type) c sh (y : sys V U) o y' r e,
  is_call o = true -> step_o c sh y o = (y', r, e) ->
  ef_dropped e = [] \/
  exists f j x x', ef_dropped e = [ThRet f] /\ nth_error (candidates y o) j = Some x /\ has_once x f /\
                   nth_error (candidates y' o) j = Some x' /\ spent x'.
Proof.
  intros V U c sh y o y' r e IC H. destruct o; try discriminate IC; cbn [step_o candidates] in *.
  - destruct (nth_error (y_objs y) o) as [ob|] eqn:N; [|inversion H; auto].
    destruct (nth_error ob m) as [f|] eqn:N2; [|inversion H; auto].
    destruct (field_call_o c f k args wr (y_world y)) as [[[f' w'] r'] d] eqn:E. inversion H; subst. cbn [ef_dropped y_objs].
    unfold field_call_o in E. destruct (slot_call_o c (f_decl f) (f_slot f) k args wr (y_world y)) as [[[s2 w2] r2] d2] eqn:E2.
    inversion E; subst. destruct (slot_call_conserves _ _ _ _ _ _ _ _ _ _ _ E2) as [_ P].
    destruct P as [P|P]; auto. right. destruct P as (g & j & x & x' & A & B & C & D & F). exists g, j, x, x'.
    destruct (set_nth_split _ _ _ N) as (l1 & l2 & _ & X & Y). rewrite Y, nth_error_app2, <- X, PeanoNat.Nat.sub_diag; [|lia]. cbn [nth_error].
    destruct (set_nth_split _ _ _ N2) as (l3 & l4 & _ & X2 & Y2). rewrite Y2, nth_error_app2, <- X2, PeanoNat.Nat.sub_diag; [|lia]. cbn [nth_error f_slot].
    auto 10.
  - destruct (nth_error (y_stats y) s) as [[md sm]|] eqn:N; [|inversion H; auto].
    destruct (static_call_o c md sm k args (y_world y)) as [[[f' w'] r'] d] eqn:E. inversion H; subst. cbn [ef_dropped y_stats].
    unfold static_call_o in E. destruct (sm_poison sm); [inversion E; subst; auto|].
    destruct (slot_call_o c md (sm_slot sm) k args (fun v => v) (y_world y)) as [[[s2 w2] r2] d2] eqn:E2.
    destruct (slot_call_conserves _ _ _ _ _ _ _ _ _ _ _ E2) as [_ P].
    assert (X : d = d2 /\ sm_slot f' = s2) by (destruct r2 as [[v|]| |]; inversion E; subst; auto). destruct X as [-> <-].
    destruct P as [P|P]; auto. right. destruct P as (g & j & x & x' & A & B & C & D & F). exists g, j, x, x'.
    destruct (set_nth_split _ _ _ N) as (l1 & l2 & _ & X & Y). rewrite Y, nth_error_app2, <- X, PeanoNat.Nat.sub_diag; [|lia]. cbn [nth_error].
    auto 10.
Qed.
Print Assumptions calls_drop_only_the_closure_they_run.

Example calls_drop_only_the_closure_they_run_applies :
  let call := OCall 0 0 0%nat [3] (fun v => v) in
  snd (run_o debug64 straight (init tt []) [ONew (SDecl [] [ownd]); OExpect 0 0 0%nat [StReturnOnce six]; call; call]) =
    [Effect 0 []; Effect 1 []; Effect 0 [ThRet six]; Effect 0 []].
Proof. vm_compute. reflexivity. Qed.

(** An expectation whose chain has ended holds what the last setter of each sort was given, and nothing
    else; everything that setters before gave was destroyed. *)
Theorem chains_keep_their_last_closures :
  forall (V U : Type) c sh (y : sys V U) i m k l ob f y' e,
  nth_error (y_objs y) i = Some ob -> nth_error ob m = Some f ->
  step_o c sh y (OExpect i m k l) = (y', Ret None, e) ->
  let kd := md_kind (f_decl f) in
  exists ob' f' x, nth_error (y_objs y') i = Some ob' /\ nth_error ob' m = Some f' /\
    slot_get (f_slot f') k = slot_get (f_slot f) k ++ [x] /\
    held_by x = last_handed kd says_when l ++ last_handed kd (says_what kd) l /\
    Permutation (handed_chain kd l) (ef_dropped e ++ held_by x).
Proof.
  intros V U c sh y i m k l ob f y' e N N2 H. cbn [step_o] in H. rewrite N, N2 in H. unfold slot_expect_o in H.
  set (kd := md_kind (f_decl f)) in *.
  destruct (apply_setters_o c (w_thread (y_world y)) l (expectation_default c (md_me (f_decl f)) kd) (y_seqs y)) as [[[[x t2] r2] d2] n2] eqn:E.
  inversion H; subst. apply unit_res_ret in H2. subst r2.
  destruct (setters_last _ _ kd _ _ _ _ _ _ _ (default_kind c (f_decl f)) E) as [A B].
  destruct (setters_conserve _ _ kd _ _ _ _ _ _ _ _ (default_kind c (f_decl f)) E) as (P & _ & L). rewrite (L eq_refl) in *.
  cbn [ef_dropped y_objs].
  destruct (set_nth_split _ _ _ N) as (l1 & l2 & _ & X & Y). rewrite Y, nth_error_app2, <- X, PeanoNat.Nat.sub_diag; [|lia]. cbn [nth_error].
  destruct (set_nth_split _ _ _ N2) as (l3 & l4 & _ & X2 & Y2).
  do 3 eexists. split; [reflexivity|]. rewrite Y2, nth_error_app2, <- X2, PeanoNat.Nat.sub_diag; [|lia]. cbn [nth_error f_slot].
  split; [reflexivity|]. cbn [f_slot]. split.
  - destruct (f_slot f) as [es|st]; cbn [slot_get slot_put]; [reflexivity|].
    match goal with |- context [gget (gput st k ?q) k] => replace (gget (gput st k q) k) with (Some q); [reflexivity|] end.
    generalize (match gget st k with Some es => es | None => [] end ++ [x]). intros q. clear.
    induction st as [| [k0 es0] st IH]; cbn.
    + rewrite PeanoNat.Nat.eqb_refl. auto.
    + destruct (Nat.eqb k0 k) eqn:Z; cbn; rewrite Z; auto.
  - split.
    + rewrite held_parts, A, B. unfold last_handed, kd.
      destruct (find says_when (rev l)), (find (says_what (md_kind (f_decl f))) (rev l)); auto;
        destruct (md_kind (f_decl f)); reflexivity.
    + rewrite firstn_all in P. unfold kd in P. rewrite default_held in P. exact P.
Qed.
Print Assumptions chains_keep_their_last_closures.

Example chains_keep_their_last_closures_applies :
  let y := fst (run debug64 straight (init tt []) [ONew (SDecl [] [ownd])]) in
  let l := [StReturning six; StWithf low; StReturnOnce eight; StTimes (ANum 1); StWith [below]] in
  (exists y', step_o debug64 straight y (OExpect 0 0 0%nat l) = (y', Ret None, Effect 5 [ThRet six; ThMatch low])) /\
  last_handed KStatic says_when l ++ last_handed KStatic (says_what KStatic) l = [ThPred below; ThRet eight].
Proof. split; [eexists|]; vm_compute; reflexivity. Qed.

(** The setters whose arguments count as handed over are those that were called: all of a chain that
    ends, and otherwise those up to the one that panics.  The rest of the chain makes no difference,
    and a shorter chain would not have panicked. *)
Theorem chains_hand_over_until_they_panic :
  forall (V U : Type) c sh (y : sys V U) i m k l y' r e,
  step_o c sh y (OExpect i m k l) = (y', r, e) ->
  step_o c sh y (OExpect i m k (firstn (ef_setters e) l)) = (y', r, e) /\
  (forall ob f, nth_error (y_objs y) i = Some ob -> nth_error ob m = Some f -> r = Ret None -> ef_setters e = List.length l) /\
  (forall j, (j < ef_setters e)%nat -> snd (step c sh y (OExpect i m k (firstn j l))) = Ret None).
Proof.
  intros V U c sh y i m k l y' r e H. cbn [step_o step] in *.
  destruct (nth_error (y_objs y) i) as [ob|]; [|inversion H; subst; cbn; split; [reflexivity | split; [discriminate | intros; lia]]].
  destruct (nth_error ob m) as [f|] eqn:N2; [|inversion H; subst; cbn; split; [reflexivity | split; [|intros; lia]]; intros ob0 f0 X; inversion X; subst; congruence].
  unfold slot_expect_o in *.
  destruct (apply_setters_o c (w_thread (y_world y)) l (expectation_default c (md_me (f_decl f)) (md_kind (f_decl f))) (y_seqs y)) as [[[[x t2] r2] d2] n2] eqn:E.
  inversion H; subst. cbn [ef_setters]. destruct (setters_count _ _ _ _ _ _ _ _ _ _ E) as (A & B & C). rewrite A.
  split; [reflexivity|]. split.
  - intros ob0 f0 _ _ R. apply B. apply (@unit_res_ret V). exact R.
  - intros j J. specialize (C j J). unfold slot_expect.
    destruct (apply_setters_o c (w_thread (y_world y)) (firstn j l) (expectation_default c (md_me (f_decl f)) (md_kind (f_decl f))) (y_seqs y)) as [[[[x3 t3] r3] d3] n3] eqn:E3.
    rewrite (apply_setters_same _ _ _ _ _ _ _ _ _ _ E3). cbn [fst snd] in *. subst r3. reflexivity.
Qed.
Print Assumptions chains_hand_over_until_they_panic.

Example chains_hand_over_until_they_panic_applies :
  let y := fst (run debug64 straight (init tt []) [ONew (SDecl [] [ownd])]) in
  exists y' m, step_o debug64 straight y (OExpect 0 0 0%nat [StWithf low; StTimes (ARange 5 1); StReturning six]) =
    (y', Panic m, Effect 2 []).
Proof. do 2 eexists. vm_compute. reflexivity. Qed.
