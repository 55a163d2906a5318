(** * PropGuards: guards of [ctx.expect()] that are kept in variables (C88) *)

From Coq Require Import NArith List Bool String.
From Verif Require Import Base Times Expect Mock Conc ConcSpec Contexts ContextsSpec Guards GuardsSpec
  GuardsProofs GuardsMore GuardsEnd.
Import ListNotations.
Open Scope N_scope.
Open Scope list_scope.

(** While a thread has a guard, nobody gets to the expectations: not another thread, and not the
    thread itself but through the guard.  The store is as it was, but for the expectation of the
    guard, to which the thread's setters were applied. *)
Theorem guards_keep_others_out :
  forall (V U : Type) c g sh u l q (ms : list (cmeth V U)) poison progs sched0 s tr0 t m i sched s' tr,
  (forall cm, In cm ms -> cm_mutex cm = Some g) ->
  grun c g sh (gstart u l q ms poison progs) sched0 = (s, tr0) -> has_guard s t m i ->
  grun c g sh s sched = (s', tr) -> guard_stays t tr ->
  has_guard s' t m i /\ only_by_guard t tr /\
  (exists e, nth_error (cexps (x_sys (g_x s)) m) i = Some e) /\
  (no_new_sequences tr -> forall e, nth_error (cexps (x_sys (g_x s)) m) i = Some e ->
   exists e', apply_setters c t (setters_of t tr) e (x_seqs (g_x s)) = (e', x_seqs (g_x s'), Ret tt) /\
     cs_meths (x_sys (g_x s')) = with_exp (cs_meths (x_sys (g_x s))) m i e').
Proof.
  intros V U c g sh u l q ms poison progs sched0 s tr0 t m i sched s' tr HM R0 HG R ST.
  pose proof (grun_inv c g sh _ _ _ _ (gstart_inv g u l q ms poison progs HM) R0) as I.
  destruct (guard_run c g sh _ _ _ _ _ _ _ I HG R ST) as (H & K1 & K2 & _).
  split; [exact H|]. split; [exact K1|]. split; [|exact K2].
  destruct (guard_cexp g _ _ _ _ I HG) as (CE & _). unfold cexp in CE.
  destruct (nth_error (cexps (x_sys (g_x s)) m) i) as [e|]; [eauto|congruence].
Qed.
Print Assumptions guards_keep_others_out.

Definition mg : method N := Method "f" "f" None (fun _ => "?"%string).
Definition gstore : list (cmeth N unit) := [CMeth mg (Some 0%nat) []].
Definition no_order (l : list (cmeth N unit)) : list (cmeth N unit) := l.
(** A test that sets an expectation in two statements, with something else in between. *)
Definition two_statements : gprog N unit :=
  GExpect 0 (fun _ => GSet (StReturnConst 5) (fun _ => GUser (fun u => u) (GSet (StTimes (ANum 2)) (fun _ => GDrop false
    (GDo (XCall (CCall 0 [])) (fun _ => GStop)))))).
Definition caller : gprog N unit := GDo (XCall (CCall 0 [])) (fun _ => GStop).
Definition gbegin (l : list (gprog N unit)) : gsys N unit := gstart tt (fun _ => 0) sequence_new gstore false l.
Notation "n *** t" := (repeat t%nat n%nat) (at level 39).

(** Another thread calls the function between the two statements; it gets nowhere. *)
Example guards_keep_others_out_applies :
  let s := fst (grun debug64 0 no_order (gbegin [two_statements; caller]) (3 *** 0)) in
  has_guard s 0 0 0 /\
  let (s', tr) := grun debug64 0 no_order s (10 *** 1 ++ [0; 1; 0; 1]%nat) in
  guard_stays 0 tr /\ no_new_sequences tr /\ setters_of 0 tr = [StTimes (ANum 2)] /\
  nth_error (g_threads s') 1 = Some (GIn None (XCall (CCall 0 [])) (fun _ => GStop) (QCall (PLockS (CCall 0 [])))).
Proof.
  cbv zeta. split; [eexists; split; vm_compute; reflexivity|]. vm_compute. split; [|split; [|split; reflexivity]].
  - intros b H. repeat (destruct H as [H|H]; [discriminate H|]). exact H.
  - intros t u H. repeat (destruct H as [H|H]; [discriminate H|]). exact H.
Qed.

(** From [ctx.expect()] to the end of the guard: the expectation is what [ctx.expect()] with these
    setters in one chain makes, however many statements they are in and whatever happens in between,
    and so are the sequences.  The store is poisoned if a setter panicked, or the guard was dropped
    by a panic. *)
Theorem a_guard_is_one_builder :
  forall (V U : Type) c g sh u l q (ms : list (cmeth V U)) poison progs sched0 s0 tr0 t s1 ev1 m i sched s2 tr s3 ev3 b,
  (forall cm, In cm ms -> cm_mutex cm = Some g) ->
  grun c g sh (gstart u l q ms poison progs) sched0 = (s0, tr0) ->
  gstep c g sh s0 t = (s1, ev1) -> In (GvGuard t m i) ev1 ->
  grun c g sh s1 sched = (s2, tr) -> guard_stays t tr -> no_new_sequences tr ->
  gstep c g sh s2 t = (s3, ev3) -> In (GvGone t b) ev3 ->
  let '((ms', poison', _, _), q', r) := atomic_op c sh (seen g s0) (t, AExpect m (setters_of t (tr ++ ev3))) in
  cs_meths (x_sys (g_x s3)) = ms' /\ x_seqs (g_x s3) = q' /\
  cs_sp (x_sys (g_x s3)) g = b /\ cs_sl (x_sys (g_x s3)) g = None /\
  ((poison' = b /\ exists st k, nth_error (g_threads s2) t = Some (GIdle (Some (m, i)) (GSet st k)) /\
                    nth_error (g_threads s3) t = Some (GIdle None (k r))) \/
   (poison' = false /\ r = Ret None /\
    exists k, nth_error (g_threads s2) t = Some (GIdle (Some (m, i)) (GDrop b k)) /\
              nth_error (g_threads s3) t = Some (GIdle None k))).
Proof.
  intros V U c g sh u l q ms poison progs sched0 s0 tr0 t s1 ev1 m i sched s2 tr s3 ev3 b HM R0.
  apply lifetime. exact (grun_inv c g sh _ _ _ _ (gstart_inv g u l q ms poison progs HM) R0).
Qed.
Print Assumptions a_guard_is_one_builder.

(** The test above; the other thread's call comes after the guard is gone. *)
Example a_guard_is_one_builder_applies :
  let run s l := fst (grun debug64 0 no_order s l) in
  let s0 := run (gbegin [two_statements; caller]) [0%nat] in
  let (s1, ev1) := gstep debug64 0 no_order s0 0 in
  let (s2, tr) := grun debug64 0 no_order s1 ([0; 1; 0; 1; 1; 0])%nat in
  let (s3, ev3) := gstep debug64 0 no_order s2 0 in
  In (GvGuard 0 0 0) ev1 /\ guard_stays 0 tr /\ no_new_sequences tr /\ In (GvGone 0 false) ev3 /\
  setters_of 0 (tr ++ ev3) = [StReturnConst 5; StTimes (ANum 2)] /\
  returns_g (snd (grun debug64 0 no_order s3 (20 *** 1 ++ 20 *** 0))) =
    [(1%nat, XCall (CCall 0 []), Ret (Some 5)); (0%nat, XCall (CCall 0 []), Ret (Some 5))].
Proof.
  vm_compute. repeat split; auto.
  - intros b H. repeat (destruct H as [H|H]; [discriminate H|]). exact H.
  - intros t u H. repeat (destruct H as [H|H]; [discriminate H|]). exact H.
Qed.

(** A thread that calls the function, checkpoints or drops a context, or asks for a second guard,
    while it has a guard: whatever the schedule, that operation never returns, the guard is never
    dropped, and nobody's operation gets to the expectations any more. *)
Theorem using_the_function_under_a_guard_waits_for_ever :
  forall (V U : Type) c g sh u l q (ms : list (cmeth V U)) poison progs sched0 s tr0 t mi p sched s' tr,
  (forall cm, In cm ms -> cm_mutex cm = Some g) ->
  grun c g sh (gstart u l q ms poison progs) sched0 = (s, tr0) ->
  nth_error (g_threads s) t = Some (GIdle (Some mi) p) ->
  (exists o k, p = GDo o k /\ needs_store o = true) \/ (exists m k, p = GExpect m k) ->
  grun c g sh s sched = (s', tr) ->
  (forall o r, ~ In (GvReturn t o r) tr) /\ guard_stays t tr /\
  (forall t' a, In (GvAtom t' a) tr -> touches a = false) /\
  (forall t' m i, ~ In (GvGuard t' m i) tr) /\
  (no_new_sequences tr -> cs_meths (x_sys (g_x s')) = cs_meths (x_sys (g_x s))).
Proof.
  intros V U c g sh u l q ms poison progs sched0 s tr0 t mi p sched s' tr HM R0 N P R.
  eapply self_wait; [|exact N| |exact R].
  - exact (grun_inv c g sh _ _ _ _ (gstart_inv g u l q ms poison progs HM) R0).
  - destruct P as [(o & k & -> & E)|(m & k & ->)]; cbn; auto.
Qed.
Print Assumptions using_the_function_under_a_guard_waits_for_ever.

(** A test that calls the function before the guard's scope ends. *)
Example using_the_function_under_a_guard_waits_for_ever_applies :
  let early := GExpect 0 (fun _ => GSet (StReturnConst 5) (fun _ => GDo (XCall (CCall 0 [])) (fun _ => GDrop false GStop))) in
  let s := fst (grun debug64 0 no_order (gbegin [early; caller]) (3 *** 0)) in
  exists o k, nth_error (g_threads s) 0 = Some (GIdle (Some (0, 0)%nat) (GDo o k)) /\ needs_store o = true.
Proof. cbv zeta. eexists. eexists. split; vm_compute; reflexivity. Qed.

(** The thread that has a guard can always use it, and drop it. *)
Theorem the_holder_of_a_guard_never_waits :
  forall (V U : Type) c g sh u l q (ms : list (cmeth V U)) poison progs sched s tr t m i p s' ev,
  (forall cm, In cm ms -> cm_mutex cm = Some g) ->
  grun c g sh (gstart u l q ms poison progs) sched = (s, tr) ->
  nth_error (g_threads s) t = Some (GIdle (Some (m, i)) p) -> gstep c g sh s t = (s', ev) ->
  match p with
  | GSet _ k => exists r, nth_error (g_threads s') t = Some (GIdle (match r with Ret _ => Some (m, i) | _ => None end) (k r))
  | GUser f k => nth_error (g_threads s') t = Some (GIdle (Some (m, i)) k) /\
                 cs_user (x_sys (g_x s')) = f (cs_user (x_sys (g_x s)))
  | GDrop b k => nth_error (g_threads s') t = Some (GIdle None k) /\ cs_sl (x_sys (g_x s')) g = None
  | _ => True
  end.
Proof.
  intros V U c g sh u l q ms poison progs sched s tr t m i p s' ev HM R.
  apply holder_moves. exact (grun_inv c g sh _ _ _ _ (gstart_inv g u l q ms poison progs HM) R).
Qed.
Print Assumptions the_holder_of_a_guard_never_waits.

Example the_holder_of_a_guard_never_waits_applies :
  let s := fst (grun debug64 0 no_order (gbegin [two_statements; caller]) (2 *** 0 ++ 5 *** 1)) in
  exists st k, nth_error (g_threads s) 0 = Some (GIdle (Some (0, 0)%nat) (GSet st k)).
Proof. cbv zeta. eexists. eexists. vm_compute. reflexivity. Qed.

(** Programs that use nothing but the guard while they have one, and drop it, never deadlock. *)
Theorem tidy_guards_never_deadlock :
  forall (V U : Type) c g sh u l q (ms : list (cmeth V U)) poison progs sched s' tr,
  (forall cm, In cm ms -> cm_mutex cm = Some g) ->
  Forall (tidy (List.length ms) false false) progs ->
  grun c g sh (gstart u l q ms poison progs) sched = (s', tr) ->
  exists more s2 tr2, grun c g sh s' more = (s2, tr2) /\
    (g_aborted (tr ++ tr2) \/ forall th, In th (g_threads s2) -> th = GIdle None GStop).
Proof. exact @guards_can_end. Qed.
Print Assumptions tidy_guards_never_deadlock.

(** A test that sets an expectation in two statements, giving up if one of them panics. *)
Example tidy_guards_never_deadlock_applies :
  let careful : gprog N unit :=
    GExpect 0 (fun r => match r with
      | Ret _ => GSet (StTimes (ARange 2 5)) (fun r => match r with
        | Ret _ => GUser (fun u => u) (GSet (StReturnConst 5) (fun r => match r with
                   | Ret _ => GDrop true caller | _ => GStop end))
        | _ => GStop end)
      | _ => GStop end) in
  Forall (tidy (List.length gstore) false false) [careful; caller].
Proof.
  assert (C : tidy (List.length gstore) false false caller) by (cbn; repeat split; auto).
  cbv zeta. constructor; [|constructor; [exact C|constructor]].
  cbn - [tidy caller]. split; [auto|]. split; [auto|]. intros [o|m|] NA; [| |congruence]; [|split; auto].
  split; [auto|]. intros [o1|m1|] NA1; [| |congruence]; [|split; auto].
  cbn - [caller]. split; [auto|]. intros [o2|m2|] NA2; [| |congruence]; [|split; auto].
  split; [auto|exact C].
Qed.

(** A chain of setters is a guard whose scope is the statement: programs of C77 that are written with
    guards do the same, step by step. *)
Theorem chains_are_short_guards :
  forall (V U : Type) c g sh u l q (ms : list (cmeth V U)) poison progs sched s tr s' tr',
  (forall cm, In cm ms -> cm_mutex cm = Some g) ->
  xrun c g sh (xstart u l q ms poison progs) sched = (s, tr) ->
  grun c g sh (gstart u l q ms poison (map with_guards progs)) sched = (s', tr') ->
  x_sys s = x_sys (g_x s') /\ x_seqs s = x_seqs (g_x s') /\ x_mutex s = x_mutex (g_x s') /\
  pieces_x tr = pieces_g tr' /\ returns_x tr = returns_g tr'.
Proof.
  intros V U c g sh u l q ms poison progs sched s tr s' tr' HM R R'.
  destruct (SIM_run c g sh _ _ _ _ _ _ _ (SIM_start u l q ms poison progs)
    (gstart_inv g u l q ms poison (map with_guards progs) HM) R R') as (((A & B & D) & _) & P1 & P2).
  auto.
Qed.
Print Assumptions chains_are_short_guards.

(** Two threads set one expectation each and call; their steps alternate. *)
Example chains_are_short_guards_applies :
  let p n : prog N unit := Do (XExpect 0 [StTimes (ANum 1); StReturnConst n]) (fun _ => Do (XCall (CCall 0 [])) (fun _ => Stop)) in
  let sched := List.concat (repeat [0; 1]%nat 40) in
  let tr := snd (grun debug64 0 no_order (gbegin (map with_guards [p 5; p 7])) sched) in
  map fst (pieces_g tr) = [0; 1; 0; 1]%nat /\
  map snd (returns_g tr) = [Ret (Some 5); Ret (Some 7)].
Proof. vm_compute. split; reflexivity. Qed.
