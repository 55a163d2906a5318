(** * PropFragile: C81, single-threaded closures must stay on their thread *)

From Coq Require Import PeanoNat NArith List Bool String Lia.
From Verif Require Import Base Times Expect Mock Names Messages MessageSpec
  Fragile FragileSpec FragileProofs FragileRuns.
Import ListNotations.
Open Scope N_scope.
Open Scope list_scope.

(** A test that stays on one thread, or that sets no single-threaded closures, has nothing to
    fear: it runs as in [Mock.v], where the destructors of [Fragile] do nothing. *)
Theorem single_threaded_tests_are_unaffected :
  forall (V U : Type) c (sh : shuffle V U) u decls l,
  (forall s x, In x (sh s) <-> In x s) -> Forall stays l \/ Forall without_st l ->
  frun c sh (init u decls) l = run c sh (init u decls) l.
Proof.
  intros V U c sh u decls l S [F|F].
  - apply run_stays; auto. apply init_settled.
  - apply run_without; auto. apply init_settled.
Qed.

(** Nor has an operation that only drops closures, or calls [return_once_st] closures, of its
    own thread. *)
Theorem closures_at_home_are_unaffected :
  forall (V U : Type) c (sh : shuffle V U) y o,
  (forall s x, In x (sh s) <-> In x s) -> at_home y o -> fstep c sh y o = step c sh y o.
Proof. intros V U c sh y o S. apply step_home. intros s x. apply S. Qed.

(** But no mock, checkpoint or context that holds a closure of another thread can be dropped
    quietly there, even if every expectation is satisfied and even while panicking. *)
Theorem strangers_never_die_quietly :
  forall (V U : Type) c (sh : shuffle V U) y o me es e t,
  (forall s x, In x (sh s) <-> In x s) ->
  validates y o me es -> In e es -> In t (homes e) -> t <> w_thread (y_world y) ->
  forall v, snd (fstep c sh y o) <> Ret v.
Proof. intros V U c sh y o me es e t S. exact (stranger_step sh S c y o me es e t). Qed.

(** Exactly: if all the expectations can be dropped without complaint, one closure that is away
    from home makes the drop panic, and two abort the process.  Otherwise look at the first
    expectation that complains or has a closure of another thread.  If it does not complain, the
    later ones get no chance to: it is again the number of closures that matters.  If it does,
    its own message is seen only if neither it nor those after it have such a closure. *)
Theorem drops_elsewhere :
  forall (V U : Type) c (sh : shuffle V U) y o l,
  discards sh y o l ->
  let th := w_thread (y_world y) in
  let p := w_panicking (y_world y) in
  let r := snd (fstep c sh y o) in
  (Forall (content p) (map snd l) ->
     r = match strangers th (map snd l) with [] => Ret None | [_] => Panic MDropThread | _ => Abort end)
  /\ forall l1 me e l2, l = l1 ++ (me, e) :: l2 ->
     Forall (content p) (map snd l1) -> strangers th (map snd l1) = [] ->
     (content p e -> strangers th [e] <> [] ->
        r = match strangers th (e :: map snd l2) with [_] => Panic MDropThread | _ => Abort end)
     /\ (~ content p e -> strangers th (e :: map snd l2) = [] -> exists m, r = Panic m /\ m <> MDropThread)
     /\ (~ content p e -> strangers th (e :: map snd l2) <> [] -> r = Abort).
Proof.
  intros V U c sh y o l D th p r. unfold r. rewrite (discards_step sh c y o l D). fold th p. split.
  - intros F. rewrite content_all by exact F. unfold exps_of, verdict.
    destruct (strangers th (map snd l)) as [|? [|? ?]]; reflexivity.
  - intros l1 me e l2 -> F S. rewrite drops_prefix by assumption. repeat split.
    + intros C N. rewrite drops_stranger by assumption. unfold exps_of, verdict.
      assert (X : strangers th (e :: map snd l2) <> []).
      { change (e :: map snd l2) with ([e] ++ map snd l2). rewrite strangers_app.
        destruct (strangers th [e]); [congruence|discriminate]. }
      destruct (strangers th (e :: map snd l2)) as [|? [|? ?]]; [congruence|reflexivity|reflexivity].
    + intros N Z. destruct (drops_complaint c th me e l2 p N) as (m & M & ->). unfold exps_of. rewrite Z.
      exists m. split; [reflexivity|exact M].
    + intros N Z. destruct (drops_complaint c th me e l2 p N) as (m & M & ->). unfold exps_of.
      destruct (strangers th (e :: map snd l2)); [congruence|reflexivity].
Qed.

(** A call from another thread that reaches a [return_once_st] closure, which [Mock.v] lets
    panic, kills the process: the closure dies while that panic unwinds. *)
Theorem once_st_elsewhere_aborts :
  forall (V U : Type) c (sh : shuffle V U) y o me es args me' es' args' i e e' t f,
  calls y o me es args -> nth_error es i = Some e ->
  calls (fst (fstep c sh y o)) o me' es' args' -> nth_error es' i = Some e' -> counted e' <> counted e ->
  e_action e = AStatic (SOnceSt t f) false -> t <> w_thread (y_world y) ->
  c_seq (e_common e) = None -> counted e + 1 < bound e -> bound e <= umax c ->
  snd (fstep c sh y o) = Abort.
Proof.
  intros V U c sh y o me es args me' es' args' i e e' t f C N C' N' D A T S L B.
  apply (once_step sh c y o me es args me' es' args' i e e' t f C C' N N' D A S); auto; lia.
Qed.

(** ** Cases *)

Definition foo : mdecl N := MDecl (Method "MockFoo::bar" "MockFoo::bar" None show_N) KStatic false false.
Definition foo_decl : sdecl N := SDecl [] [foo; foo].
Definition baz : mdecl N := MDecl (Method "mock_ffi::baz" "mock_ffi::baz" None show_N) KStatic false true.
Definition start : sys N unit := init tt [baz].
Definition asis (s : gstore N unit) := s.
Definition answer (n : N) : ucode unit (list N) N := fun _ u => (u, Ret n).
Definition yes : ucode unit (list N) bool := fun _ u => (u, Ret true).
Definition same (v : N) := v.
Definition results l := snd (frun debug64 asis start l).

Lemma asis_same : forall (s : gstore N unit) x, In x (asis s) <-> In x s.
Proof. reflexivity. Qed.

(** A mock with single-threaded closures that goes to another thread and comes back. *)
Definition trip : list (op N unit) :=
  [ONew foo_decl; OExpect 0 0 0%nat [StWithfSt yes; StTimes (ANum 1); StReturningSt (answer 7)];
   OCall 0 0 0%nat [5] same].
Example single_threaded_tests_are_unaffected_applies :
  Forall stays (trip ++ [ODrop 0]) /\ results (trip ++ [ODrop 0]) = [Ret None; Ret None; Ret (Some 7); Ret None]
  /\ Forall without_st [ONew foo_decl; OExpect 0 0 0%nat [StReturning (answer 7)]; OThread 1; ODrop 0 : op N unit].
Proof.
  split; [|split; [vm_compute; reflexivity|]].
  - repeat constructor; intros t; discriminate.
  - repeat constructor; intros l H; inversion H; subst; repeat constructor; exact (fun x => x).
Qed.
Example there_and_back :
  results (trip ++ [OThread 1; OThread 0; ODrop 0]) = [Ret None; Ret None; Ret (Some 7); Ret None; Ret None; Ret None].
Proof. vm_compute. reflexivity. Qed.
Example closures_at_home_are_unaffected_applies :
  at_home (fst (frun debug64 asis start (trip ++ [OThread 1; OThread 0]))) (ODrop 0).
Proof.
  split.
  - intros me es e t C I H. vm_compute in C. inversion C as [|i ob f es0 N1 N2 St| | |]; subst.
    vm_compute in N1. injection N1 as <-. destruct N2 as [<-|[<-|[]]]; cbn in St; subst; cbn in I.
    + destruct I as [<-|[]]. cbn in H. destruct H as [<-|[<-|[]]]; reflexivity.
    + destruct I.
  - intros me es args e t f b C. inversion C.
Qed.

(** The same, dropped there: both closures of the expectation are away from home. *)
Definition away : sys N unit := fst (frun debug64 asis start (trip ++ [OThread 1])).
Example strangers_never_die_quietly_applies :
  exists me es e t, validates away (ODrop 0) me es /\ In e es /\ In t (homes e) /\ t <> w_thread (y_world away)
  /\ snd (fstep debug64 asis away (ODrop 0)) = Abort /\ snd (step debug64 asis away (ODrop 0)) = Ret None.
Proof.
  do 4 eexists. split; [|split; [|split; [|split; [|split; vm_compute; reflexivity]]]].
  - eapply ValDrop; [vm_compute; reflexivity|left; reflexivity|vm_compute; reflexivity].
  - left. reflexivity.
  - left. reflexivity.
  - vm_compute. discriminate.
Qed.

(** Two expectations, the first with a closure of thread 0.  What thread 1 sees when it drops
    the mock depends on the order and the counts. *)
Definition two (s1 s2 : list (setter N unit)) : sys N unit :=
  fst (frun debug64 asis start
    [ONew foo_decl; OExpect 0 0 0%nat s1; OExpect 0 1 0%nat s2; OThread 1]).
Definition quiet_st : list (setter N unit) := [StReturningSt (answer 7)].
Definition missed : list (setter N unit) := [StTimes (ANum 1); StReturning (answer 7)].
Example drops_elsewhere_applies :
  (exists l, discards asis (two quiet_st []) (ODrop 0) l /\ Forall (content false) (map snd l)
     /\ strangers 1 (map snd l) = [0%nat])
  /\ (exists me e l2, discards asis (two missed quiet_st) (ODrop 0) ([] ++ (me, e) :: l2) /\ ~ content false e
     /\ strangers 1 (e :: map snd l2) = [0%nat])
  /\ (exists me e l2, discards asis (two quiet_st missed) (ODrop 0) ([] ++ (me, e) :: l2) /\ content false e
     /\ strangers 1 [e] <> [])
  /\ snd (fstep debug64 asis (two quiet_st []) (ODrop 0)) = Panic MDropThread
  /\ snd (fstep debug64 asis (two quiet_st missed) (ODrop 0)) = Panic MDropThread
  /\ snd (fstep debug64 asis (two quiet_st quiet_st) (ODrop 0)) = Abort
  /\ snd (fstep debug64 asis (two missed quiet_st) (ODrop 0)) = Abort
  /\ snd (fstep debug64 asis (two missed []) (ODrop 0)) = Panic (MTooFew "MockFoo::bar" "<anything>" 0 1).
Proof.
  split; [|split; [|split; [|repeat split; vm_compute; reflexivity]]].
  - eexists. split; [eapply DiscObject; vm_compute; reflexivity|]. split; [|reflexivity].
    repeat (apply Forall_cons; [right; split; [reflexivity|split; [vm_compute; discriminate|reflexivity]]|]). apply Forall_nil.
  - do 3 eexists. split; [|split].
    + pose proof (DiscObject asis (two missed quiet_st) 0 _ eq_refl) as D. cbn in D. exact D.
    + intros [X|(_ & X & _)]; [discriminate|]. cbn in X. now apply X.
    + reflexivity.
  - do 3 eexists. split; [|split].
    + pose proof (DiscObject asis (two quiet_st missed) 0 _ eq_refl) as D. cbn in D. exact D.
    + right. split; [reflexivity|split; [vm_compute; discriminate|reflexivity]].
    + discriminate.
Qed.

(** [return_once_st] called on another thread. *)
Definition once_away : sys N unit :=
  fst (frun debug64 asis start [ONew foo_decl; OExpect 0 0 0%nat [StReturnOnceSt (answer 7)]; OThread 1]).
Example once_st_elsewhere_aborts_applies :
  exists me es me' es' e e' f,
    calls once_away (OCall 0 0 0%nat [5] same) me es [5] /\ nth_error es 0 = Some e
    /\ calls (fst (fstep debug64 asis once_away (OCall 0 0 0%nat [5] same))) (OCall 0 0 0%nat [5] same) me' es' [5]
    /\ nth_error es' 0 = Some e' /\ counted e' <> counted e
    /\ e_action e = AStatic (SOnceSt 0 f) false /\ (0 <> w_thread (y_world once_away))%nat
    /\ c_seq (e_common e) = None /\ counted e + 1 < bound e /\ bound e <= umax debug64.
Proof.
  do 7 eexists. split; [econstructor; vm_compute; reflexivity|]. split; [vm_compute; reflexivity|].
  split; [econstructor; vm_compute; reflexivity|]. split; [vm_compute; reflexivity|].
  repeat split; try discriminate; vm_compute; congruence.
Qed.
(** [Mock.v] lets that call panic. *)
Example once_st_panics_first :
  snd (step debug64 asis once_away (OCall 0 0 0%nat [5] same)) = Panic MWrongThread
  /\ snd (fstep debug64 asis once_away (OCall 0 0 0%nat [5] same)) = Abort.
Proof. vm_compute. auto. Qed.

(** ** What is not so *)

(** Dropping a mock while the thread panics never panics again (C27 for [Mock.v]): not with
    single-threaded closures. *)
Theorem drops_while_panicking_are_quiet_refuted :
  exists y : sys N unit, w_panicking (y_world y) = true /\ snd (step debug64 asis y (ODrop 0)) = Ret None
    /\ snd (fstep debug64 asis y (ODrop 0)) = Panic MDropThread.
Proof.
  exists (fst (frun debug64 asis start
    [ONew foo_decl; OExpect 0 0 0%nat quiet_st; OThread 1; OUnwinding true])).
  vm_compute. auto.
Qed.

(** A mock whose expectations were called as often as they should can be dropped: not with
    single-threaded closures. *)
Theorem right_counts_suffice_refuted :
  exists (y : sys N unit) o l, discards asis y o l /\ Forall (content false) (map snd l)
    /\ snd (fstep debug64 asis y o) = Abort.
Proof.
  exists (two quiet_st quiet_st), (ODrop 0). eexists.
  split; [eapply DiscObject; vm_compute; reflexivity|]. split; [|vm_compute; reflexivity].
  repeat (apply Forall_cons; [right; split; [reflexivity|split; [vm_compute; discriminate|reflexivity]]|]). apply Forall_nil.
Qed.

(** A context that set no expectation itself is harmless: not if another test, on another
    thread, has set a single-threaded closure for the same function. *)
Theorem contexts_only_drop_their_own_refuted :
  exists y : sys N unit, w_thread (y_world y) = 1%nat
    /\ y = fst (frun debug64 asis start [OCtxExpect 0 0%nat quiet_st; OThread 1])
    /\ snd (fstep debug64 asis y (OCtxDrop 0)) = Panic MDropThread.
Proof. eexists. split; [|split; [reflexivity|]]; vm_compute; reflexivity. Qed.

Print Assumptions single_threaded_tests_are_unaffected.
Print Assumptions closures_at_home_are_unaffected.
Print Assumptions strangers_never_die_quietly.
Print Assumptions drops_elsewhere.
Print Assumptions once_st_elsewhere_aborts.
Print Assumptions drops_while_panicking_are_quiet_refuted.
Print Assumptions right_counts_suffice_refuted.
Print Assumptions contexts_only_drop_their_own_refuted.
