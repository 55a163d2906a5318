(** * PropContexts: contexts of a static function and several threads (C77, C78) *)

From Coq Require Import NArith List Bool String.
From Verif Require Import Base Times Expect Mock Conc ConcSpec Contexts ContextsSpec
  ContextsProofs ContextsLin ContextsTests ContextsEnd ContextsModel.
Import ListNotations.
Open Scope N_scope.

(** ** C77: operations happen one at a time *)

(** Threads call a static mock function, set expectations on it (with whole builder
    chains), checkpoint and drop contexts, in any interleaving.  Each thread is then
    seen to do what its program says: it starts an operation, does its piece (or, for
    the drop of a context during a panic, up to two pieces) on the store, and gets back
    what this piece returns when all pieces of all threads are executed one after the
    other, without interruption, in the order of [tr].  When nobody is using the store, it
    is as these uninterrupted pieces leave it. *)
Theorem context_operations_are_atomic :
  forall (V U : Type) c g sh u l q (ms : list (cmeth V U)) poison progs sched s' tr,
  (forall cm, In cm ms -> cm_mutex cm = Some g) ->
  Forall no_setup progs ->
  xrun c g sh (xstart u l q ms poison progs) sched = (s', tr) ->
  let (st', outs) := atomic_all c sh ((ms, poison, u, l), q) (atoms tr) in
  (forall t p, nth_error progs t = Some p -> follows t p (events_of t tr) (answers_of t outs)) /\
  (cs_sl (x_sys s') g = None ->
   st' = ((cs_meths (x_sys s'), cs_sp (x_sys s') g, cs_user (x_sys s'), cs_levels (x_sys s')), x_seqs s')).
Proof. exact @linearizable. Qed.
Print Assumptions context_operations_are_atomic.

(** Programs for the examples: a method without arguments that returns a number. *)
Definition mc : method N := Method "f" "f" None (fun _ => "?"%string).
Definition store0 : list (cmeth N unit) := [CMeth mc (Some 0%nat) []].
Definition returns (n : N) : xop N unit := XExpect 0 [StTimes (ANum 1); StReturnConst n].
Definition call0 : xop N unit := XCall (CCall 0 []).
Fixpoint straight (l : list (xop N unit)) : prog N unit :=
  match l with [] => Stop | o :: l' => Do o (fun _ => straight l') end.
Definition id_order (l : list (cmeth N unit)) := l.
Definition begin (progs : list (prog N unit)) : xsys N unit :=
  xstart tt (fun _ => 0) sequence_new store0 false progs.
Definition steps (n : nat) (t : nat) : list nat := repeat t n.

(** Two threads set one expectation each and call; the steps of the builder chains
    and calls alternate. *)
Example context_operations_are_atomic_applies :
  let p n := straight [returns n; call0] in
  let tr := snd (xrun debug64 0 id_order (begin [p 5; p 7]) (List.concat (repeat [0; 1]%nat 40))) in
  Forall no_setup [p 5; p 7] /\
  map fst (atoms tr) = [0; 1; 0; 1]%nat /\
  returns_of 0 tr = [Ret None; Ret (Some 5)] /\ returns_of 1 tr = [Ret None; Ret (Some 7)].
Proof. vm_compute. repeat split; repeat constructor. Qed.

(** The drop of a context during a panic is not one piece.  Here a call that panics
    comes between [clear_poison] and [lock]: nothing is drained, and the store is left
    poisoned, with its expectation.  If the drop came wholly before or after the call the
    store would be left empty and usable. *)
Definition boom : xop N unit := XExpect 0 [StReturning (fun _ u => (u, Panic (MUser 1)))].

Theorem context_drop_is_atomic_refuted :
  exists (ms : list (cmeth N unit)) sched s' tr,
  let drop := XDrop true in
  let start := ((ms, false, tt, fun _ => 0), sequence_new) in
  (forall cm, In cm ms -> cm_mutex cm = Some 0%nat) /\
  xrun debug64 0 id_order (xstart tt (fun _ => 0) sequence_new ms false [straight [drop]; straight [call0]]) sched = (s', tr) /\
  x_threads s' = [TIdle Stop; TIdle Stop] /\
  cs_sp (x_sys s') 0%nat = true /\ List.length (cexps (x_sys s') 0) = 1%nat /\
  (forall o1 o2, (o1 = drop /\ o2 = call0) \/ (o1 = call0 /\ o2 = drop) ->
   let st1 := fst (seq_op debug64 id_order start 0 o1) in
   let '((ms2, poison, _, _), _) := fst (seq_op debug64 id_order st1 1 o2) in
   poison = false /\ ms2 = store0).
Proof.
  exists (cs_meths (x_sys (fst (xrun debug64 0 id_order (begin [straight [boom]]) (steps 10 0))))),
    (steps 2 0 ++ steps 20 1 ++ steps 10 0)%list.
  eexists. eexists. cbv zeta.
  split; [|split; [vm_compute; reflexivity|split; [reflexivity|split; [reflexivity|split; [reflexivity|]]]]].
  - intros cm I. vm_compute in I. destruct I as [<-|[]]. reflexivity.
  - intros o1 o2 [[-> ->]|[-> ->]]; vm_compute; auto.
Qed.
Print Assumptions context_drop_is_atomic_refuted.

(** The uninterrupted operations are those of [Mock.v], of which C01 - C35 speak. *)
Theorem context_operations_are_those_of_the_model :
  forall (V U : Type) c md g sh shf (ms : list (cmeth V U)) sm u l q t o,
  md_kind md = KStatic -> same_store md g ms sm -> same_order sh shf ms sm ->
  match o with XCall x => (cc_m x < List.length ms)%nat | XExpect m _ => (m < List.length ms)%nat | _ => True end ->
  let '((ms', poison', u', l', q'), r) := seq_op c sh ((ms, sm_poison sm, u, l), q) t o in
  let '(sm', q2, w2, r2) := mock_op c md shf sm q (World u l t false) o in
  r2 = r /\ q2 = q' /\ w_user w2 = u' /\ w_levels w2 = l' /\ sm_poison sm' = poison' /\
  same_store md g ms' sm'.
Proof. exact @ops_agree. Qed.
Print Assumptions context_operations_are_those_of_the_model.

(** A generic function with two instances, the second of which has an expectation
    that is not met when the context is dropped. *)
Example context_operations_are_those_of_the_model_applies :
  let md := MDecl mc KStatic true true in
  let e := fst (fst (apply_setters debug64 0 [StTimes (ANum 1)] (expectation_default debug64 mc KStatic) sequence_new)) in
  let ms := [CMeth mc (Some 0%nat) []; CMeth mc (Some 0%nat) [e]] in
  let sm := SMutex false (SGeneric [(1%nat, [e])]) : smutex N unit in
  same_store md 0 ms sm /\ same_order id_order (fun st => st) ms sm /\
  snd (seq_op debug64 id_order ((ms, false, tt, fun _ => 0), sequence_new) 0 (XDrop false)) =
    Panic (MTooFew "f" "<anything>" 0 1).
Proof.
  cbv zeta. split; [|split; [|]].
  - split; [exact I|]. intros [|[|[]]] cm; simpl; intros [= <-]; reflexivity.
  - split; [auto|]. reflexivity.
  - vm_compute. reflexivity.
Qed.

(** ** C78: tests that keep apart *)

(** Every thread runs tests, one after the other.  A test takes a mutex that all tests
    share, makes a context, uses the function through it until its end or its first
    panic, drops the context and releases the mutex (as mockall's example of
    synchronization).  Then, whatever the scheduler does and however the tests end, each
    test sees exactly what it sees when it is the only test of the process. *)
Theorem synchronised_tests_are_isolated :
  forall (V U : Type) c g sh u l q (ms : list (cmeth V U)) ts sched s' tr,
  (forall cm, In cm ms -> cm_mutex cm = Some g /\ cm_exps cm = []) ->
  Forall (Forall (fun x => body_ok (snd x))) ts ->
  xrun c g sh (xstart u l q ms false (map run_tests ts)) sched = (s', tr) ->
  forall t tests, nth_error ts t = Some tests ->
  prefix (returns_of t tr) (flat_map (alone c sh ms t) tests).
Proof.
  intros V U c g sh u l q ms ts sched s' tr HM HB H.
  apply (isolated c g sh ms) with (u := u) (l := l) (q := q) (ts := ts) (sched := sched) (s' := s'); auto.
  - clear - HM. induction ms as [|[me mu es] ms IH]; [reflexivity|]. simpl. f_equal.
    + pose proof (HM _ (or_introl eq_refl)) as [_ E]. simpl in E. subst es. reflexivity.
    + apply IH. intros cm I. apply HM. right. auto.
  - intros cm I. apply HM. auto.
Qed.
Print Assumptions synchronised_tests_are_isolated.

(** Three tests on two threads: the first fails since a call panics, the second since
    an expectation is not met, the third passes. *)
Example synchronised_tests_are_isolated_applies :
  let t1 := (tt, straight [boom; call0]) in
  let t2 := (tt, straight [returns 5]) in
  let t3 := (tt, straight [returns 7; call0]) in
  let tr := snd (xrun debug64 0 id_order (begin (map run_tests [[t1; t2]; [t3]]))
                   (List.concat (repeat [0; 1]%nat 100))) in
  Forall (Forall (fun x : test N unit => body_ok (snd x))) [[t1; t2]; [t3]] /\
  map (fun r : answer N => match r with Ret None => 0 | Ret (Some _) => 1 | _ => 2 end) (returns_of 0 tr) =
    [0; 0; 0; 2; 0; 0; 0; 0; 0; 2; 0] /\
  returns_of 1 tr = [Ret None; Ret None; Ret None; Ret (Some 7); Ret None; Ret None].
Proof. vm_compute. repeat split; repeat constructor. Qed.

(** Without the mutex tests interfere: the end of one test removes the expectation of
    the other, whose call then panics. *)
Theorem unsynchronised_tests_are_isolated_refuted :
  exists p sched s' tr,
  xrun debug64 0 id_order (begin [p; p]) sched = (s', tr) /\
  run_prog debug64 id_order ((store0, false, tt, fun _ => 0), sequence_new) 0 p =
    [Ret None; Ret (Some 5); Ret None] /\
  nth_error (returns_of 0 tr) 1 = Some (Panic (MNoMatch "f()")).
Proof.
  exists (straight [XExpect 0 [StReturnConst 5]; call0; XDrop false]),
    (steps 5 0 ++ steps 60 1 ++ steps 30 0)%list.
  eexists. eexists. split; [vm_compute; reflexivity|]. split; vm_compute; reflexivity.
Qed.
Print Assumptions unsynchronised_tests_are_isolated_refuted.

(** A test that catches a panic of the mock function and ends normally spoils the
    next one although they keep apart: its context cannot be dropped, since the store is
    poisoned, and the next test cannot set an expectation. *)
Theorem caught_panics_are_isolated_refuted :
  exists (first second : list (xop N unit)) sched s' tr,
  let test l := straight ([XLockU; XSetup tt] ++ l ++ [XDrop false; XUnlockU]) in
  xrun debug64 0 id_order (begin [test first; test second]) sched = (s', tr) /\
  run_prog debug64 id_order ((store0, false, tt, fun _ => 0), sequence_new) 1 (test second) =
    [Ret None; Ret None; Ret None; Ret (Some 5); Ret None; Ret None] /\
  nth_error (returns_of 1 tr) 2 = Some (Panic MPoison).
Proof.
  exists [boom; call0], [returns 5; call0], (steps 60 0 ++ steps 60 1)%list.
  eexists. eexists. cbv zeta. split; [vm_compute; reflexivity|]. split; vm_compute; reflexivity.
Qed.
Print Assumptions caught_panics_are_isolated_refuted.

(** ** C79: nobody waits for ever *)

(** Whatever has happened so far, the scheduler can go on such that all threads come to
    the end of their programs, provided that programs unlock the mutex that they lock
    and do not lock it twice; unless the process aborts. *)
Theorem context_operations_never_deadlock :
  forall (V U : Type) c g sh u l q (ms : list (cmeth V U)) poison progs sched s' tr,
  (forall cm, In cm ms -> cm_mutex cm = Some g) ->
  Forall (brackets false) progs -> Forall (existing (List.length ms)) progs ->
  xrun c g sh (xstart u l q ms poison progs) sched = (s', tr) ->
  exists more s2 tr2, xrun c g sh s' more = (s2, tr2) /\
    (aborted (tr ++ tr2) \/ forall th, In th (x_threads s2) -> th = TIdle Stop).
Proof. exact @can_end. Qed.
Print Assumptions context_operations_never_deadlock.

(** This holds for tests as in C78. *)
Theorem synchronised_tests_can_end :
  forall (V U : Type) c g sh u l q (ms : list (cmeth V U)) poison ts sched s' tr,
  (forall cm, In cm ms -> cm_mutex cm = Some g) ->
  Forall (Forall (fun x => body_ok (snd x) /\ existing (List.length ms) (snd x))) ts ->
  xrun c g sh (xstart u l q ms poison (map run_tests ts)) sched = (s', tr) ->
  exists more s2 tr2, xrun c g sh s' more = (s2, tr2) /\
    (aborted (tr ++ tr2) \/ forall th, In th (x_threads s2) -> th = TIdle Stop).
Proof.
  intros V U c g sh u l q ms poison ts sched s' tr HM HB H.
  apply (can_end c g sh u l q ms poison (map run_tests ts) sched); auto.
  - rewrite Forall_map. eapply Forall_impl; [|exact HB]. intros tl F. apply tests_brackets.
    eapply Forall_impl; [|exact F]. simpl. tauto.
  - rewrite Forall_map. eapply Forall_impl; [|exact HB]. intros tl F. apply tests_existing.
    eapply Forall_impl; [|exact F]. simpl. tauto.
Qed.
Print Assumptions synchronised_tests_can_end.

(** The three tests of above, stopped in the middle of everything: one thread holds the
    mutex and the store, in the middle of a builder; the other waits. *)
Example synchronised_tests_can_end_applies :
  let t1 := (tt, straight [boom; call0]) in
  let t2 := (tt, straight [returns 5]) in
  let t3 := (tt, straight [returns 7; call0]) in
  let ts := [[t1; t2]; [t3]] in
  let s := fst (xrun debug64 0 id_order (begin (map run_tests ts)) ([1] ++ steps 5 0 ++ steps 3 1 ++ [0])%nat%list) in
  Forall (Forall (fun x : test N unit => body_ok (snd x) /\ existing (List.length store0) (snd x))) ts /\
  x_mutex s = Some 0%nat /\ cs_sl (x_sys s) 0%nat = Some 0%nat /\
  exists k, nth_error (x_threads s) 1 = Some (TIn XLockU k QLockU).
Proof. vm_compute. repeat split; repeat constructor. eexists. reflexivity. Qed.

(** Without the condition on the mutex they can wait for ever: here the first thread
    keeps it, and whatever the scheduler does the second does not come to its end. *)
Theorem unbracketed_programs_never_deadlock_refuted :
  exists progs sched s' tr,
  xrun debug64 0 id_order (begin progs) sched = (s', tr) /\
  forall more, ~ (forall th, In th (x_threads (fst (xrun debug64 0 id_order s' more))) -> th = TIdle Stop).
Proof.
  exists [straight [XLockU]; straight [XLockU]], [0; 0; 1]%nat. eexists. eexists. split; [vm_compute; reflexivity|].
  match goal with |- forall more, ~ (forall th, In th (x_threads (fst (xrun _ _ _ ?s _))) -> _) => set (s0 := s) end.
  assert (F : forall more, fst (xrun debug64 0 id_order s0 more) = s0).
  { induction more as [|t more IH]; [reflexivity|]. simpl.
    assert (S0 : exists e, xstep debug64 0 id_order s0 t = (s0, e)).
    { destruct t as [|[|t]]; [| |destruct t]; eexists; vm_compute; reflexivity. }
    destruct S0 as [e S0]. rewrite S0. destruct (xrun debug64 0 id_order s0 more) as [s2 e2]. exact IH. }
  intros more H. rewrite F in H. specialize (H _ (or_intror (or_introl eq_refl))). discriminate H.
Qed.
Print Assumptions unbracketed_programs_never_deadlock_refuted.
