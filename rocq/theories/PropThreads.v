(** * PropThreads: C36 - C40, C56, C57 *)

From Coq Require Import Arith NArith List Bool String Lia.
From Verif Require Import Base Times Expect Mock Conc ConcSpec ConcProofs LockProofs ThreadProofs
  LinProofs Samples.
Import ListNotations.
Open Scope N_scope.

(** A fresh expectation of a method that returns an owned value. *)
Definition fresh {V U} (lo hi : N) (sq : option seqhandle) (rf : srfunc V U) : expectation V U :=
  Expectation (Common MtAlways false sq (Times 0 (TRange lo hi))) (AStatic rf false).

Lemma psum_start {V U} (w : pc V U -> nat) u l (ms : list (cmeth V U)) sp progs :
  w PIdle = 0%nat -> psum w (cstart u l ms sp progs) = 0%nat.
Proof.
  intros Z. unfold psum. simpl. induction progs as [|y progs IH]; [reflexivity|].
  change (w PIdle + list_sum (map (fun th => w (th_pc th)) (map (fun p => Thread p PIdle) progs)) = 0)%nat.
  rewrite Z, IH. reflexivity.
Qed.

(** ** C36: call counts *)

(** Whatever the scheduler does, the counter of an expectation is the number of calls
    that reached it, modulo the size of [usize]; its range and matcher stay. *)
Theorem count_under_every_schedule :
  forall (V U : Type) c u l (ms : list (cmeth V U)) sp progs sched s' tr m i e,
  crun c (cstart u l ms sp progs) sched = (s', tr) ->
  cexp (cstart u l ms sp progs) m i = Some e -> tcount (c_times (e_common e)) <= umax c ->
  exists e', cexp s' m i = Some e' /\
    trange_of (c_times (e_common e')) = trange_of (c_times (e_common e)) /\
    tcount (c_times (e_common e')) =
      (tcount (c_times (e_common e)) + N.of_nat (reached m i tr)) mod (umax c + 1).
Proof.
  intros V U c u l ms sp progs sched s' tr m i e H C L.
  destruct (crun_counts c sched _ _ _ _ _ _ H C L) as (e' & A & (_ & B & _) & D). eauto.
Qed.
Print Assumptions count_under_every_schedule.

(** Whatever the scheduler does, an expectation that has counted [n] calls before answers
    fewer than [end - n] further calls, where [end] is the excluded upper end of its
    range: [max - n] calls. *)
Theorem budget_under_every_schedule :
  forall (V U : Type) c u l (ms : list (cmeth V U)) sp progs sched s' tr m i e,
  crun c (cstart u l ms sp progs) sched = (s', tr) ->
  cexp (cstart u l ms sp progs) m i = Some e ->
  tcount (c_times (e_common e)) + N.of_nat (reached m i tr) <= umax c ->
  (0 < answered m i tr)%nat ->
  tcount (c_times (e_common e)) + N.of_nat (answered m i tr) <
    rend (trange_of (c_times (e_common e))).
Proof.
  intros V U c u l ms sp progs sched s' tr m i e H C L P.
  assert (Z : psum (passed m i) (cstart u l ms sp progs) = 0%nat).
  { apply psum_start. reflexivity. }
  destruct (crun_budget_gen c sched _ _ _ m i e (tcount (c_times (e_common e))) 0%nat H C) as [A|A];
    rewrite ?Z; auto; lia.
Qed.
Print Assumptions budget_under_every_schedule.

(** Three threads call a method once each that allows two calls: the calls run
    in lock step, two are answered and the third panics. *)
Definition rr3 (n : nat) : list nat := List.concat (repeat [0; 1; 2]%nat n).

Example budget_applies :
  let s0 := cstart ([] : U0) (fun _ => 0) [CMeth me0 None [fresh 1 3 None (SMut seven)]]
              (fun _ => false) (repeat [CCall 0 [5]] 3) in
  let '(s', tr) := crun debug64 s0 (rr3 20) in
  reached 0 0 tr = 3%nat /\ answered 0 0 tr = 2%nat /\
  (exists er, In (2%nat, CCall 0 [5], Panic er) (returned tr)) /\
  option_map (fun e => tcount (c_times (e_common e))) (cexp s' 0 0) = Some 3.
Proof. vm_compute. repeat split. eexists. left. reflexivity. Qed.

(** ** C37: [return_once] *)

(** Whatever the scheduler does, the closure given to [return_once] (or
    [return_once_st]) runs at most once. *)
Theorem return_once_under_every_schedule :
  forall (V U : Type) c u l (ms : list (cmeth V U)) sp progs sched s' tr m i k f p o,
  crun c (cstart u l ms sp progs) sched = (s', tr) ->
  cexp (cstart u l ms sp progs) m i = Some (Expectation k (AStatic f p)) ->
  f = SOnce o \/ (exists t, f = SOnceSt t o) ->
  (closure_runs m i tr <= 1)%nat.
Proof.
  intros V U c u l ms sp progs sched s' tr m i k f p o H C F.
  assert (Z : psum (execing m i) (cstart u l ms sp progs) = 0%nat).
  { apply psum_start. reflexivity. }
  pose proof (crun_once c sched _ _ _ m i _ 0%nat H C) as Q. rewrite Z in Q.
  assert (O : once_like (Expectation k (AStatic f p)) /\ once_left (Expectation k (AStatic f p)) = 1%nat)
    by (destruct F as [->|[t ->]]; split; try exact I; reflexivity).
  destruct O as [O1 O2]. specialize (Q O1). rewrite O2 in Q. simpl in Q. lia.
Qed.
Print Assumptions return_once_under_every_schedule.

Example return_once_applies :
  let s0 := cstart ([] : U0) (fun _ => 0) [CMeth me0 None [fresh 0 100 None (SOnce seven)]]
              (fun _ => false) (repeat [CCall 0 [5]] 3) in
  let '(s', tr) := crun debug64 s0 (rr3 20) in
  closure_runs 0 0 tr = 1%nat /\ List.length (returned tr) = 3%nat /\ answered 0 0 tr = 1%nat.
Proof. vm_compute. repeat split. Qed.

(** ** C56: a closure never runs twice at the same time *)

(** Whatever the scheduler does, two runs of the return closure of one expectation
    never overlap. *)
Theorem closures_do_not_overlap :
  forall (V U : Type) c u l (ms : list (cmeth V U)) sp progs sched s' tr m i,
  crun c (cstart u l ms sp progs) sched = (s', tr) ->
  one_at_a_time (closure_events m i tr).
Proof.
  intros V U c u l ms sp progs sched s' tr m i H.
  apply (closure_inv_one m i s').
  change tr with ([] ++ tr). eapply crun_closure; eauto.
  - apply start_locks.
  - left. exists []. split; [reflexivity|]. intros t th N. simpl in N. rewrite nth_error_map in N.
    destruct (nth_error progs t); [|discriminate]. injection N as <-. reflexivity.
Qed.
Print Assumptions closures_do_not_overlap.

Example closures_do_not_overlap_applies :
  let s0 := cstart ([] : U0) (fun _ => 0) [CMeth me0 None [fresh 0 100 None (SMut seven)]]
              (fun _ => false) (repeat [CCall 0 [5]] 3) in
  closure_events 0 0 (snd (crun debug64 s0 (rr3 30))) =
    [(true, 0%nat); (false, 0%nat); (true, 1%nat); (false, 1%nat); (true, 2%nat); (false, 2%nat)].
Proof. vm_compute. reflexivity. Qed.

(** ** C57: no deadlock *)

(** From every state that threads can reach, everybody finishes under every
    scheduler that keeps giving all of them turns. *)
Theorem calls_never_deadlock :
  forall (V U : Type) c u l (ms : list (cmeth V U)) sp progs sched,
  let s := fst (crun c (cstart u l ms sp progs) sched) in
  exists k, forall rounds,
    (k <= List.length rounds)%nat ->
    Forall (fun r => forall t, (t < List.length progs)%nat -> In t r) rounds ->
    finished (fst (crun c s (List.concat rounds))).
Proof.
  intros V U c u l ms sp progs sched s. exists (cost s). intros rounds LE F.
  apply fair_finish; auto.
  - unfold s. destruct (crun c (cstart u l ms sp progs) sched) as [s1 tr] eqn:E.
    eapply crun_locks; [|eauto]. apply start_locks.
  - unfold s. rewrite crun_nthreads. simpl. rewrite map_length. exact F.
Qed.
Print Assumptions calls_never_deadlock.

(** Threads that compete for a static function, a matcher and a closure: in the
    middle two of them wait, later all have finished. *)
Example calls_never_deadlock_applies :
  let s0 := cstart ([] : U0) (fun _ => 0) [CMeth me0 (Some 0%nat) [fresh 0 100 None (SMut seven)]]
              (fun _ => false) (repeat [CCall 0 [5]; CCall 0 [6]] 3) in
  let s1 := fst (crun debug64 s0 (rr3 5)) in
  map (fun th => match th_pc th with PLockS _ => true | _ => false end) (cs_threads s1) =
    [false; true; true] /\
  map (fun th => (th_todo th, match th_pc th with PIdle => true | _ => false end))
      (cs_threads (fst (crun debug64 s1 (rr3 100)))) = repeat ([], true) 3.
Proof. vm_compute. repeat split. Qed.

(** ** C38: static functions *)

(** All instances of a static mock function (one [cmeth] per choice of its type
    parameters) share a mutex.  Whatever the scheduler does there is an order of the
    calls, [locked tr], such that the calls that have returned did so with the results
    which they have when the calls are executed one by one in this order, without
    interruption.  At most one call of the list has not returned; if none is missing,
    the state is the one that the uninterrupted calls leave behind.  The order agrees
    with each thread's own order of calls; since this holds of every prefix of an
    execution, it also agrees with the order of calls that do not overlap in time. *)
Theorem static_calls_linearizable :
  forall (V U : Type) c u l (ms : list (cmeth V U)) sp progs sched s' tr g,
  (forall cm, In cm ms -> cm_mutex cm = Some g) ->
  (forall p x, In p progs -> In x p -> (cc_m x < List.length ms)%nat) ->
  crun c (cstart u l ms sp progs) sched = (s', tr) ->
  let (st, rs) := atomic_run c (ms, sp g, u, l) (locked tr) in
  prefix (returned tr) rs /\
  (List.length (locked tr) <= S (List.length (returned tr)))%nat /\
  (List.length (locked tr) = List.length (returned tr) ->
     st = (cs_meths s', cs_sp s' g, cs_user s', cs_levels s')) /\
  forall t prog, nth_error progs t = Some prog ->
    prefix (by_thread t (map fst (returned tr))) (by_thread t (locked tr)) /\
    prefix (by_thread t (locked tr)) (started t tr) /\
    prefix (started t tr) prog.
Proof.
  intros V U c u l ms sp progs sched s' tr g HG HP H.
  set (s0 := cstart u l ms sp progs) in *.
  assert (L0 : locks_ok s0) by apply start_locks.
  assert (O0 : one_store g s0).
  { intros m cm N. apply HG. eapply nth_error_In. exact N. }
  assert (I0 : lin_inv c (ms, sp g, u, l) g s0 []) by reflexivity.
  assert (TH : forall t th, nth_error (cs_threads s0) t = Some th ->
     exists prog, nth_error progs t = Some prog /\ th = Thread prog PIdle).
  { intros t th N. simpl in N. rewrite nth_error_map in N.
    destruct (nth_error progs t) as [prog|]; [|discriminate]. injection N as <-. eauto. }
  assert (A0 : all_exist s0).
  { intros t th x N I. destruct (TH _ _ N) as (prog & P & ->). simpl in I.
    apply nth_error_Some. apply (HP prog); auto. eapply nth_error_In; eauto. }
  assert (R0 : order_inv progs s0 []).
  { intros t th N. destruct (TH _ _ N) as (prog & P & ->). exists prog. simpl. auto. }
  pose proof (crun_lin _ _ _ _ _ _ _ _ L0 O0 I0 H) as I.
  pose proof (crun_order c g progs sched _ _ _ _ O0 A0 R0 H) as R.
  simpl in I, R.
  destruct (atomic_run c (ms, sp g, u, l) (locked tr)) as [st rs] eqn:E.
  assert (LEN : forall st1 rs1 ll, atomic_run c (ms, sp g, u, l) ll = (st1, rs1) ->
     List.length rs1 = List.length ll).
  { intros st1 rs1 ll. revert st1 rs1. generalize (ms, sp g, u, l) as st2.
    induction ll as [|y ll IH]; intros st2 st1 rs1; simpl.
    - intros [= <- <-]. reflexivity.
    - destruct (atomic_call c st2 y) as [st3 r3]. destruct (atomic_run c st3 ll) as [st4 rs4] eqn:E4.
      intros [= <- <-]. simpl. f_equal. eapply IH; eauto. }
  assert (X : prefix (returned tr) rs /\ (List.length (locked tr) <= S (List.length (returned tr)))%nat /\
    (List.length (locked tr) = List.length (returned tr) -> st = (cs_meths s', cs_sp s' g, cs_user s', cs_levels s'))).
  { unfold lin_inv in I. destruct (cs_sl s' g) as [t|] eqn:SL.
    - destruct I as (th & x & cm0 & ms1 & u1 & l1 & ll & _ & _ & _ & LK & AR & _).
      rewrite LK, atomic_run_snoc, AR in E.
      destruct (atomic_call c (ms1, false, u1, l1) (t, x)) as [st2 r2]. injection E as <- <-.
      pose proof (LEN _ _ _ AR) as LE.
      rewrite LK, app_length. simpl. split; [eexists; reflexivity|]. split; [lia|]. intros. lia.
    - rewrite E in I. injection I as -> ->. pose proof (LEN _ _ _ E) as LE. split; [exists []; symmetry; apply app_nil_r|].
      split; [lia|auto]. }
  destruct X as (X1 & X2 & X3). split; [exact X1|]. split; [exact X2|]. split; [exact X3|].
  intros t prog P.
  assert (NT : exists th, nth_error (cs_threads s') t = Some th).
  { destruct (nth_error (cs_threads s') t) as [th|] eqn:N; [eauto|]. apply nth_error_None in N.
    pose proof (crun_nthreads c sched s0) as Q. rewrite H in Q. simpl in Q. rewrite map_length in Q.
    rewrite Q in N. apply nth_error_None in N. congruence. }
  destruct NT as [th N]. destruct (R _ _ N) as (prog' & P' & B & D).
  rewrite P in P'. injection P' as <-.
  assert (Y : exists a b, by_thread t (locked tr) = by_thread t (map fst (returned tr)) ++ a /\
     started t tr = by_thread t (locked tr) ++ b).
  { destruct (th_pc th); simpl in D.
    1: { destruct D as [D1 D2]. exists [], []. rewrite !app_nil_r. auto. }
    1: { destruct D as [D1 D2]. exists [], [x]. rewrite !app_nil_r. auto. }
    all: destruct D as (y & _ & D1 & D2); exists [y], []; rewrite !app_nil_r; auto. }
  destruct Y as (a & b & Y1 & Y2).
  split; [exists a; auto|]. split; [exists b; auto|]. exists (th_todo th). auto.
Qed.
Print Assumptions static_calls_linearizable.

(** Three threads, two expectations; the second thread's call is in the middle of
    things when the schedule ends. *)
Example static_calls_linearizable_applies :
  let ms := [CMeth me0 (Some 4%nat) [fresh 1 2 None (SMut seven); fresh 1 3 None (SMut adder)]] in
  let s0 := cstart ([] : U0) (fun _ => 0) ms (fun _ => false) (repeat [CCall 0 [5]; CCall 0 [6]] 3) in
  let tr := snd (crun debug64 s0 (rr3 20 ++ repeat 1%nat 3)) in
  locked tr = [(0%nat, CCall 0 [5]); (1%nat, CCall 0 [5])] /\
  returned tr = [(0%nat, CCall 0 [5], Ret 7)] /\
  snd (atomic_run debug64 (ms, false, [] : U0, (fun _ => 0)) (locked tr)) =
    [(0%nat, CCall 0 [5], Ret 7); (1%nat, CCall 0 [5], Ret 5)].
Proof. vm_compute. repeat split. Qed.

(** ** C39: methods of an object *)

(** The calls of [l] are those of the threads' programs, in some order that each
    thread's own order agrees with. *)
Definition serial {V} (progs : list (list (ccall V))) (l : list (nat * ccall V)) : Prop :=
  forall t, by_thread t l = nth t progs [].

Definition is_panic {A B} (p : A * res B) : bool :=
  match snd p with Ret _ => false | _ => true end.

(** Two calls by two threads: there are two serial orders. *)
Lemma serial_two {V} (x : ccall V) l :
  serial [[x]; [x]] l -> l = [(0%nat, x); (1%nat, x)] \/ l = [(1%nat, x); (0%nat, x)].
Proof.
  intros S. pose proof (S 0%nat) as S0. pose proof (S 1%nat) as S1.
  assert (B : Forall (fun p => fst p = 0%nat \/ fst p = 1%nat) l).
  { apply Forall_forall. intros [t y] I. simpl.
    destruct t as [|[|t]]; auto. exfalso. pose proof (S (Datatypes.S (Datatypes.S t))) as St.
    assert (Q : In y (by_thread (Datatypes.S (Datatypes.S t)) l)).
    { unfold by_thread. apply in_map_iff. exists (Datatypes.S (Datatypes.S t), y). split; [reflexivity|].
      apply filter_In. split; auto. apply Nat.eqb_refl. }
    rewrite St in Q. simpl in Q. destruct t; exact Q. }
  unfold by_thread in S0, S1.
  destruct l as [|[t1 y1] [|[t2 y2] [|[t3 y3] l]]]; simpl in *.
  1: discriminate.
  all: repeat match goal with
       | [B : Forall _ (_ :: _) |- _] =>
           apply Forall_cons_iff in B as [[E|E] B]; simpl in E; subst
       end; simpl in *; try discriminate.
  all: injection S0 as ->; injection S1 as ->; auto.
Qed.

(** Calls of a method of a shared object are not executed as if one at a time.  Two
    threads call a method with two expectations that each allow one call; in every serial
    order both calls are answered, but under this schedule both threads find the first
    expectation not yet done, and one of them panics. *)
Theorem object_calls_linearizable_refuted :
  exists (ms : list (cmeth V0 U0)) progs sched s' tr,
  (forall cm, In cm ms -> cm_mutex cm = None) /\
  crun debug64 (cstart [] (fun _ => 0) ms (fun _ => false) progs) sched = (s', tr) /\
  finished s' /\
  existsb is_panic (returned tr) = true /\
  forall l, serial progs l ->
    existsb is_panic (snd (atomic_run debug64 (ms, false, [], (fun _ => 0)) l)) = false.
Proof.
  exists [CMeth me0 None [fresh 1 2 None (SMut seven); fresh 1 2 None (SMut seven)]],
    [[CCall 0 [5]]; [CCall 0 [5]]], (repeat 0%nat 4 ++ repeat 1%nat 4 ++ List.concat (repeat [0; 1]%nat 20)).
  eexists. eexists. split; [|split; [vm_compute; reflexivity|split; [|split]]].
  - intros cm [<-|[]]. reflexivity.
  - intros [|[|t]] th E; vm_compute in E; try (injection E as <-; split; reflexivity).
    destruct t; discriminate.
  - reflexivity.
  - intros l S. apply serial_two in S as [->| ->]; vm_compute; reflexivity.
Qed.
Print Assumptions object_calls_linearizable_refuted.

(** The same for a method in a sequence: two threads make the two calls that the first
    member of a sequence expects.  In every serial order both are answered and the sequence
    is at its second member; under this schedule both threads move the sequence: one
    of them is told that an already-satisfied method was called another time, and
    the sequence has gone past its second member, which was never called. *)
Theorem object_sequence_linearizable_refuted :
  exists (ms : list (cmeth V0 U0)) progs sched s' tr t x i,
  (forall cm, In cm ms -> cm_mutex cm = None) /\
  crun debug64 (cstart [] (fun _ => 0) ms (fun _ => false) progs) sched = (s', tr) /\
  finished s' /\
  In (EvViolation t x i) tr /\ In (EvReturn t x (Panic (MSeqSatisfy 1 0))) tr /\
  cs_levels s' 3%nat = 2 /\ reached 1 0 tr = 0%nat /\
  forall l, serial progs l ->
    let '((_, _, _, lv), rs) := atomic_run debug64 (ms, false, [], (fun _ => 0)) l in
    existsb is_panic rs = false /\ lv 3%nat = 1.
Proof.
  exists [CMeth me0 None [fresh 2 3 (Some (SeqHandle 3%nat 0)) (SMut seven)];
          CMeth me0 None [fresh 1 2 (Some (SeqHandle 3%nat 1)) (SMut seven)]],
    [[CCall 0 [5]]; [CCall 0 [5]]], (repeat 0%nat 5 ++ repeat 1%nat 5 ++ List.concat (repeat [0; 1]%nat 20)).
  eexists. eexists. exists 1%nat, (CCall 0 [5]), 0%nat.
  split; [|split; [vm_compute; reflexivity|split; [|split; [|split; [|split; [|split]]]]]].
  - intros cm [<-|[<-|[]]]; reflexivity.
  - intros [|[|t]] th E; vm_compute in E; try (injection E as <-; split; reflexivity).
    destruct t; discriminate.
  - simpl. auto 20.
  - simpl. auto 20.
  - reflexivity.
  - reflexivity.
  - intros l S. apply serial_two in S as [->| ->]; vm_compute; auto.
Qed.
Print Assumptions object_sequence_linearizable_refuted.

(** ** C40: sequences *)

(** Let no two expectations have the same position of a sequence, and let the members that
    a sequence has already passed have been called their minimum number of times.
    Whatever the scheduler does: as long as no call has been told that an
    already-satisfied method was called another time, a call is only accepted by a
    member of a sequence after every earlier member has been called its minimum number
    of times (for a member of a sequence that is the exact number). *)
Theorem sequence_under_every_schedule :
  forall (V U : Type) c u l (ms : list (cmeth V U)) sp progs sched s' tr pre post t x i e h m' i' e' h',
  let s0 := cstart u l ms sp progs in
  (forall m1 i1 e1 h1 m2 i2 e2 h2,
     cexp s0 m1 i1 = Some e1 -> c_seq (e_common e1) = Some h1 ->
     cexp s0 m2 i2 = Some e2 -> c_seq (e_common e2) = Some h2 ->
     sh_inner h1 = sh_inner h2 -> sh_seq h1 = sh_seq h2 -> m1 = m2 /\ i1 = i2) ->
  (forall m i e h, cexp s0 m i = Some e -> c_seq (e_common e) = Some h ->
     sh_seq h < l (sh_inner h) ->
     rstart (trange_of (c_times (e_common e))) <= tcount (c_times (e_common e))) ->
  crun c s0 sched = (s', tr) ->
  tr = pre ++ EvEnter t x i :: post ->
  (forall t1 x1 i1, ~ In (EvViolation t1 x1 i1) pre) ->
  cexp s0 (cc_m x) i = Some e -> c_seq (e_common e) = Some h ->
  cexp s0 m' i' = Some e' -> c_seq (e_common e') = Some h' ->
  sh_inner h' = sh_inner h -> sh_seq h' < sh_seq h ->
  rstart (trange_of (c_times (e_common e'))) <=
    tcount (c_times (e_common e')) + N.of_nat (reached m' i' pre).
Proof.
  intros V U c u l ms sp progs sched s' tr pre post t x i e h m' i' e' h' s0 DIST LV H TR NV C Q C' Q' SI LT.
  assert (NV' : violated pre = false).
  { unfold violated. destruct (existsb _ pre) eqn:E; auto. apply existsb_exists in E as (ev & I & E).
    destruct ev; try discriminate. exfalso. eapply NV; eauto. }
  assert (I0 : seq_inv s0 s0 []).
  { apply start_seq_inv; auto. intros t1 th N. simpl in N. rewrite nth_error_map in N.
    destruct (nth_error progs t1); [|discriminate]. injection N as <-. reflexivity. }
  pose proof (crun_enter c s0 DIST sched s0 s' [] tr pre t x i post I0 H TR NV'
    e h m' i' e' h' C Q C' Q' SI LT) as R.
  apply (R e'). exact C'.
Qed.
Print Assumptions sequence_under_every_schedule.

(** Two methods in a sequence; thread 0 makes the two calls of the first, thread 1 calls
    the second until it is accepted. *)
Example sequence_under_every_schedule_applies :
  let ms := [CMeth me0 None [fresh 2 3 (Some (SeqHandle 3%nat 0)) (SMut seven)];
             CMeth me0 None [fresh 1 100 (Some (SeqHandle 3%nat 1)) (SMut seven)]] in
  let s0 := cstart ([] : U0) (fun _ => 0) ms (fun _ => false)
              [repeat (CCall 0 [5]) 2; repeat (CCall 1 [5]) 6] in
  let tr := snd (crun debug64 s0 (List.concat (repeat [0; 1]%nat 40))) in
  (forall m1 i1 e1 h1 m2 i2 e2 h2,
     cexp s0 m1 i1 = Some e1 -> c_seq (e_common e1) = Some h1 ->
     cexp s0 m2 i2 = Some e2 -> c_seq (e_common e2) = Some h2 ->
     sh_inner h1 = sh_inner h2 -> sh_seq h1 = sh_seq h2 -> m1 = m2 /\ i1 = i2) /\
  map (fun ev => match ev with EvEnter t _ _ => Some (t, true) | EvReturn t _ (Panic _) => Some (t, false)
                 | _ => None end)
      (filter (fun ev => match ev with EvEnter _ _ _ | EvReturn _ _ (Panic _) => true | _ => false end) tr) =
    [Some (0%nat, true); Some (1%nat, false); Some (1%nat, false); Some (0%nat, true);
     Some (1%nat, false); Some (1%nat, true)].
Proof.
  cbv zeta. split; [|vm_compute; reflexivity].
  intros [|[|m1]] [|i1] e1 h1 [|[|m2]] [|i2] e2 h2 C1 H1 C2 H2 I S; auto.
  all: try (destruct i1; discriminate C1); try (destruct i2; discriminate C2).
  all: try (destruct m1; discriminate C1); try (destruct m2; discriminate C2).
  all: injection C1 as <-; injection C2 as <-; injection H1 as <-; injection H2 as <-; discriminate S.
Qed.
