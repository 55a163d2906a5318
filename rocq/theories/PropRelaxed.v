(** * PropRelaxed: C73, what remains true with relaxed atomic operations

    An execution is a list of moves: [Go t k] is a step of thread [t] (whose load, if it is
    one, reads a value as old as [k]), [Sync t t'] makes [t] know all that [t'] knows. *)

From Coq Require Import Arith NArith List Bool String Lia.
From Verif Require Import Base Times Expect Mock Conc ConcSpec ConcProofs LockProofs ThreadProofs
  LinProofs Relaxed RelaxedSpec RelaxedProofs PropThreads PropSerial RelaxedSync Samples.
Import ListNotations.
Open Scope N_scope.

(** ** What holds whatever is read *)

(** The count of an expectation is its old count and the calls that reached it. *)
Theorem count_with_relaxed_loads :
  forall (V U : Type) c u l (ms : list (cmeth V U)) sp progs mvs r' log m i e,
  rrun c (relaxed_start u l ms sp progs) mvs = (r', log) ->
  cexp (cstart u l ms sp progs) m i = Some e -> tcount (c_times (e_common e)) <= umax c ->
  exists e', cexp (rs_now r') m i = Some e' /\
    trange_of (c_times (e_common e')) = trange_of (c_times (e_common e)) /\
    tcount (c_times (e_common e')) =
      (tcount (c_times (e_common e)) + N.of_nat (reached m i (events log))) mod (umax c + 1).
Proof.
  intros V U c u l ms sp progs mvs r' log m i e H C L.
  destruct (rrun_counts c mvs _ _ _ m i e (start_good u l ms sp progs) H C L) as (e' & A & (_ & B & _) & D). eauto.
Qed.
Print Assumptions count_with_relaxed_loads.

(** An expectation that has counted [n] calls before answers at most [max - n] further
    ones. *)
Theorem budget_with_relaxed_loads :
  forall (V U : Type) c u l (ms : list (cmeth V U)) sp progs mvs r' log m i e,
  rrun c (relaxed_start u l ms sp progs) mvs = (r', log) ->
  cexp (cstart u l ms sp progs) m i = Some e ->
  tcount (c_times (e_common e)) + N.of_nat (reached m i (events log)) <= umax c ->
  (0 < answered m i (events log))%nat ->
  tcount (c_times (e_common e)) + N.of_nat (answered m i (events log)) <
    rend (trange_of (c_times (e_common e))).
Proof.
  intros V U c u l ms sp progs mvs r' log m i e H C L P.
  assert (Z : psum (passed m i) (rs_now (relaxed_start u l ms sp progs)) = 0%nat) by (apply psum_start; reflexivity).
  destruct (rrun_budget c mvs _ _ _ m i e (start_good u l ms sp progs) H C Z L) as (e' & _ & _ & _ & B1 & B2).
  destruct B1 as [B1|B1]; lia.
Qed.
Print Assumptions budget_with_relaxed_loads.

(** The closure of [return_once] runs at most once. *)
Theorem return_once_with_relaxed_loads :
  forall (V U : Type) c u l (ms : list (cmeth V U)) sp progs mvs r' log m i k f p o,
  rrun c (relaxed_start u l ms sp progs) mvs = (r', log) ->
  cexp (cstart u l ms sp progs) m i = Some (Expectation k (AStatic f p)) ->
  f = SOnce o \/ (exists t, f = SOnceSt t o) ->
  (closure_runs m i (events log) <= 1)%nat.
Proof.
  intros V U c u l ms sp progs mvs r' log m i k f p o H C F.
  apply (rrun_once c mvs _ _ _ m i (start_good u l ms sp progs) H).
  exists (Expectation k (AStatic f p)). split; [exact C|].
  assert (Z : psum (execing m i) (rs_now (relaxed_start u l ms sp progs)) = 0%nat) by (apply psum_start; reflexivity).
  rewrite Z. destruct F as [->|[t ->]]; split; try exact I; apply Nat.le_refl.
Qed.
Print Assumptions return_once_with_relaxed_loads.

(** Runs of the return closure of an expectation never overlap. *)
Theorem closures_do_not_overlap_with_relaxed_loads :
  forall (V U : Type) c u l (ms : list (cmeth V U)) sp progs mvs r' log m i,
  rrun c (relaxed_start u l ms sp progs) mvs = (r', log) ->
  one_at_a_time (closure_events m i (events log)).
Proof.
  intros V U c u l ms sp progs mvs r' log m i H.
  apply (closure_inv_one m i (rs_now r')).
  apply (rrun_closure c mvs _ _ _ m i (start_good u l ms sp progs) H).
  left. exists []. split; [reflexivity|]. intros t th N. simpl in N. rewrite nth_error_map in N.
  destruct (nth_error progs t); [|discriminate]. injection N as <-. reflexivity.
Qed.
Print Assumptions closures_do_not_overlap_with_relaxed_loads.

(** From every state that can be reached, whatever is read from then on, the calls all
    return within a fixed number of rounds in which every thread moves. *)
Theorem relaxed_calls_never_deadlock :
  forall (V U : Type) c u l (ms : list (cmeth V U)) sp progs mvs,
  let r := fst (rrun c (relaxed_start u l ms sp progs) mvs) in
  exists k, forall rounds,
    (k <= List.length rounds)%nat ->
    Forall (fun rd => forall t, (t < List.length progs)%nat -> In t (movers rd)) rounds ->
    finished (rs_now (fst (rrun c r (List.concat rounds)))).
Proof.
  intros V U c u l ms sp progs mvs r. exists (cost (rs_now r)). intros rounds LE F.
  apply fair_finish_r; auto.
  - apply rrun_good, start_good.
  - unfold r. rewrite rrun_nthreads. simpl. rewrite map_length. exact F.
Qed.
Print Assumptions relaxed_calls_never_deadlock.

(** A method in a sequence runs only after the ones before it in the sequence have been
    called often enough: reading an old level can lead to a refusal, never to an
    answer out of order. *)
Theorem sequence_with_relaxed_loads :
  forall (V U : Type) c u l (ms : list (cmeth V U)) sp progs mvs r' log pre post t x i e h m' i' e' h',
  let s0 := cstart u l ms sp progs in
  (forall m1 i1 e1 h1 m2 i2 e2 h2,
     cexp s0 m1 i1 = Some e1 -> c_seq (e_common e1) = Some h1 ->
     cexp s0 m2 i2 = Some e2 -> c_seq (e_common e2) = Some h2 ->
     sh_inner h1 = sh_inner h2 -> sh_seq h1 = sh_seq h2 -> m1 = m2 /\ i1 = i2) ->
  (forall m i e h, cexp s0 m i = Some e -> c_seq (e_common e) = Some h ->
     sh_seq h < l (sh_inner h) ->
     rstart (trange_of (c_times (e_common e))) <= tcount (c_times (e_common e))) ->
  rrun c (relaxed_start u l ms sp progs) mvs = (r', log) ->
  events log = pre ++ EvEnter t x i :: post ->
  (forall t1 x1 i1, ~ In (EvViolation t1 x1 i1) pre) ->
  cexp s0 (cc_m x) i = Some e -> c_seq (e_common e) = Some h ->
  cexp s0 m' i' = Some e' -> c_seq (e_common e') = Some h' ->
  sh_inner h' = sh_inner h -> sh_seq h' < sh_seq h ->
  rstart (trange_of (c_times (e_common e'))) <=
    tcount (c_times (e_common e')) + N.of_nat (reached m' i' pre).
Proof.
  intros V U c u l ms sp progs mvs r' log pre post t x i e h m' i' e' h' s0 DIST LV H TR NV C Q C' Q' SI LT.
  assert (NV' : violated pre = false).
  { unfold violated. destruct (existsb _ pre) eqn:E; auto. apply existsb_exists in E as (ev & I & E).
    destruct ev; try discriminate. exfalso. eapply NV; eauto. }
  assert (I0 : rseq_inv s0 (relaxed_start u l ms sp progs) []).
  { intros _. split; [|intros old []]. apply start_seq_inv; auto. intros t1 th N. simpl in N. rewrite nth_error_map in N.
    destruct (nth_error progs t1); [|discriminate]. injection N as <-. reflexivity. }
  pose proof (rrun_enter c s0 DIST mvs _ r' [] log pre t x i post (start_good u l ms sp progs) I0 H TR NV'
    e h m' i' e' h' C Q C' Q' SI LT) as R.
  apply (R e'). exact C'.
Qed.
Print Assumptions sequence_with_relaxed_loads.

(** A step that goes through the threads and always asks for the oldest value. *)
Definition oldest (ts : list nat) : list rmove := map (fun t => Go t 0) ts.

(** Three threads call a method that may be called twice, always reading the oldest
    values that they can: two calls are answered and one panics. *)
Example relaxed_budget_applies :
  let r0 := relaxed_start ([] : U0) (fun _ => 0) [CMeth me0 None [fresh 1 3 None (SMut seven)]]
              (fun _ => false) (repeat [CCall 0 [5]] 3) in
  let log := snd (rrun debug64 r0 (oldest (rr3 20))) in
  answered 0 0 (events log) = 2%nat /\ reached 0 0 (events log) = 3%nat /\ closure_runs 0 0 (events log) = 2%nat /\
  closure_events 0 0 (events log) = [(true, 0%nat); (false, 0%nat); (true, 1%nat); (false, 1%nat)].
Proof. vm_compute. repeat split. Qed.

Example relaxed_once_applies :
  let r0 := relaxed_start ([] : U0) (fun _ => 0) [CMeth me0 None [fresh 0 100 None (SOnce seven)]]
              (fun _ => false) (repeat [CCall 0 [5]] 3) in
  let log := snd (rrun debug64 r0 (oldest (rr3 20))) in
  closure_runs 0 0 (events log) = 1%nat /\ List.length (returned (events log)) = 3%nat.
Proof. vm_compute. repeat split. Qed.

(** Two methods in a sequence.  Thread 0 makes the two calls of the first one; thread 1,
    which calls the second one meanwhile, is refused while it reads the old level. *)
Example relaxed_sequence_applies :
  let ms := [CMeth me0 None [fresh 2 3 (Some (SeqHandle 3%nat 0)) (SMut seven)];
             CMeth me0 None [fresh 1 100 (Some (SeqHandle 3%nat 1)) (SMut seven)]] in
  let r0 := relaxed_start ([] : U0) (fun _ => 0) ms (fun _ => false)
              [repeat (CCall 0 [5]) 2; [CCall 1 [5]]; [CCall 1 [6]]] in
  let log := snd (rrun debug64 r0 (oldest (repeat 0 30 ++ repeat 1 20)%nat ++ [Sync 2 0] ++ oldest (repeat 2%nat 20))) in
  map (fun ev => match ev with EvEnter t _ _ => (t, true) | EvReturn t _ _ => (t, false) | _ => (0%nat, false) end)
      (filter (fun ev => match ev with EvEnter _ _ _ | EvReturn _ _ (Panic _) => true | _ => false end) (events log)) =
    [(0%nat, true); (0%nat, true); (1%nat, false); (2%nat, true)].
Proof. vm_compute. reflexivity. Qed.

(** ** Where the old values cannot be seen *)

(** The lock of the store of static methods makes every caller know what the caller
    before it did: the executions are those of [Conc.v], so that concurrent calls of
    static methods have the results of some order of the calls. *)
Theorem static_calls_are_consistent :
  forall (V U : Type) c u l (ms : list (cmeth V U)) sp progs mvs r' log g,
  (forall cm, In cm ms -> cm_mutex cm = Some g) ->
  rrun c (relaxed_start u l ms sp progs) mvs = (r', log) ->
  crun c (cstart u l ms sp progs) (movers mvs) = (rs_now r', events log).
Proof.
  intros V U c u l ms sp progs mvs r' log g HG H.
  apply (rrun_static c g mvs (relaxed_start u l ms sp progs)); auto.
  - apply start_good.
  - apply start_bounded.
  - intros m cm N. apply HG. eapply nth_error_In. exact N.
  - apply start_holder.
Qed.
Print Assumptions static_calls_are_consistent.

Theorem relaxed_static_calls_linearizable :
  forall (V U : Type) c u l (ms : list (cmeth V U)) sp progs mvs r' log g,
  (forall cm, In cm ms -> cm_mutex cm = Some g) ->
  (forall p x, In p progs -> In x p -> (cc_m x < List.length ms)%nat) ->
  rrun c (relaxed_start u l ms sp progs) mvs = (r', log) ->
  let tr := events log in
  let (st, rs) := atomic_run c (ms, sp g, u, l) (locked tr) in
  prefix (returned tr) rs /\
  (List.length (locked tr) <= S (List.length (returned tr)))%nat /\
  (List.length (locked tr) = List.length (returned tr) ->
     st = (cs_meths (rs_now r'), cs_sp (rs_now r') g, cs_user (rs_now r'), cs_levels (rs_now r'))) /\
  forall t prog, nth_error progs t = Some prog ->
    prefix (by_thread t (map fst (returned tr))) (by_thread t (locked tr)) /\
    prefix (by_thread t (locked tr)) (started t tr) /\
    prefix (started t tr) prog.
Proof.
  intros V U c u l ms sp progs mvs r' log g HG HP H tr.
  apply (static_calls_linearizable V U c u l ms sp progs (movers mvs) (rs_now r') tr g HG HP).
  eapply static_calls_are_consistent; eauto.
Qed.
Print Assumptions relaxed_static_calls_linearizable.

(** Two static methods that share a store, in a sequence; two threads ask for the oldest
    values in vain. *)
Example relaxed_static_applies :
  let ms := [CMeth me0 (Some 4%nat) [fresh 1 2 None (SMut seven); fresh 1 2 None (SMut seven)]] in
  let r0 := relaxed_start ([] : U0) (fun _ => 0) ms (fun _ => false) [[CCall 0 [5]]; [CCall 0 [6]]] in
  let log := snd (rrun debug64 r0 (oldest (List.concat (repeat [0; 1]%nat 40)))) in
  returned (events log) = [(0%nat, CCall 0 [5], Ret 7); (1%nat, CCall 0 [6], Ret 7)].
Proof. vm_compute. reflexivity. Qed.

(** Calls of any methods that do not overlap, each made by a thread that has synchronised
    with the one that made the call before: the results and the state are those of the
    sequential model. *)
Theorem handed_over_calls_are_sequential :
  forall (V U : Type) c u l (ms : list (cmeth V U)) sp progs mvs r' log,
  rrun c (relaxed_start u l ms sp progs) mvs = (r', log) ->
  apart (events log) = true -> handed_over log = true ->
  let tr := events log in
  let '((ms1, sp1, u1, l1), rs) := single_run c (ms, sp, u, l) (begun tr) in
  prefix (returned tr) rs /\
  (List.length (begun tr) <= S (List.length (returned tr)))%nat /\
  (List.length (begun tr) = List.length (returned tr) ->
     rs = returned tr /\ cs_meths (rs_now r') = ms1 /\ cs_user (rs_now r') = u1 /\
     cs_levels (rs_now r') = l1 /\ forall g, cs_sp (rs_now r') g = sp1 g).
Proof.
  intros V U c u l ms sp progs mvs r' log H AP HO tr.
  apply (separate_calls_are_sequential V U c u l ms sp progs (movers mvs) (rs_now r') tr); [|exact AP].
  apply (rrun_hand c mvs (relaxed_start u l ms sp progs) [] r' log); auto.
  - apply start_good.
  - apply start_bounded.
  - apply start_hand.
Qed.
Print Assumptions handed_over_calls_are_sequential.

(** The threads of a test that take turns; a third one is told by the second. *)
Definition two_exps : list (cmeth V0 U0) :=
  [CMeth me0 None [fresh 1 2 None (SMut seven); fresh 0 100 None (SMut adder)]].

Example handed_over_applies :
  let r0 := relaxed_start ([] : U0) (fun _ => 0) two_exps (fun _ => false)
              [[CCall 0 [5]]; [CCall 0 [6]]; [CCall 0 [8]]] in
  let log := snd (rrun debug64 r0 (oldest (repeat 0%nat 20) ++ [Sync 1 0] ++ oldest (repeat 1%nat 20) ++
                [Sync 2 1] ++ oldest (repeat 2%nat 20))) in
  apart (events log) = true /\ handed_over log = true /\
  returned (events log) = [(0%nat, CCall 0 [5], Ret 7); (1%nat, CCall 0 [6], Ret 6); (2%nat, CCall 0 [8], Ret 8)].
Proof. vm_compute. repeat split. Qed.

(** ** Where they can *)

(** Calls of an object's methods that do not overlap in time, but by threads that do not
    synchronise, need not have the results of these calls one after the other: the
    second caller does not see that the first expectation is exhausted, and panics instead
    of getting the second expectation's answer. *)
Theorem separate_calls_are_sequential_refuted :
  exists (ms : list (cmeth V0 U0)) progs mvs r' log,
  rrun debug64 (relaxed_start [] (fun _ => 0) ms (fun _ => false) progs) mvs = (r', log) /\
  finished (rs_now r') /\ apart (events log) = true /\
  existsb is_panic (returned (events log)) = true /\
  existsb is_panic (snd (single_run debug64 (ms, (fun _ => false), [], (fun _ => 0)) (begun (events log)))) = false.
Proof.
  exists two_exps, [[CCall 0 [5]]; [CCall 0 [6]]], (oldest (repeat 0 20 ++ repeat 1 20)%nat).
  destruct (rrun debug64 (relaxed_start [] (fun _ => 0) two_exps (fun _ => false) [[CCall 0 [5]]; [CCall 0 [6]]])
    (oldest (repeat 0 20 ++ repeat 1 20)%nat)) as [r' log] eqn:E.
  exists r', log. split; [reflexivity|].
  assert (TH : cs_threads (rs_now r') = [Thread [] PIdle; Thread [] PIdle]).
  { replace r' with (fst (rrun debug64 (relaxed_start [] (fun _ => 0) two_exps (fun _ => false)
      [[CCall 0 [5]]; [CCall 0 [6]]]) (oldest (repeat 0 20 ++ repeat 1 20)%nat)))
      by (rewrite E; reflexivity). vm_compute. reflexivity. }
  assert (LG : events log = events (snd (rrun debug64 (relaxed_start [] (fun _ => 0) two_exps (fun _ => false)
    [[CCall 0 [5]]; [CCall 0 [6]]]) (oldest (repeat 0 20 ++ repeat 1 20)%nat)))) by (rewrite E; reflexivity).
  rewrite LG. clear E LG. split; [|vm_compute; repeat split].
  intros t th N. pose proof (eq_trans (f_equal (fun l => nth_error l t) (eq_sym TH)) N) as M.
  clear N. rename M into N. destruct t as [|[|t]]; simpl in N; try (injection N as <-; split; reflexivity).
  destruct t; discriminate.
Qed.
Print Assumptions separate_calls_are_sequential_refuted.

(** The same in a sequence: the first member is called and returns, then another thread calls
    the second one and is told that the sequence is violated. *)
Theorem separate_sequence_calls_refuted :
  exists (ms : list (cmeth V0 U0)) progs mvs r' log t x d,
  rrun debug64 (relaxed_start [] (fun _ => 0) ms (fun _ => false) progs) mvs = (r', log) /\
  finished (rs_now r') /\ apart (events log) = true /\
  In (EvReturn t x (Panic (MSeqVerify d 1 0))) (events log) /\
  existsb is_panic (snd (single_run debug64 (ms, (fun _ => false), [], (fun _ => 0)) (begun (events log)))) = false.
Proof.
  set (ms := [CMeth me0 None [fresh 1 2 (Some (SeqHandle 3%nat 0)) (SMut seven)];
              CMeth me0 None [fresh 1 2 (Some (SeqHandle 3%nat 1)) (SMut seven)]] : list (cmeth V0 U0)).
  set (r0 := relaxed_start ([] : U0) (fun _ => 0) ms (fun _ => false) [[CCall 0 [5]]; [CCall 1 [6]]]).
  exists ms, [[CCall 0 [5]]; [CCall 1 [6]]], (oldest (repeat 0 20 ++ repeat 1 20)%nat).
  destruct (rrun debug64 r0 (oldest (repeat 0 20 ++ repeat 1 20)%nat)) as [r' log] eqn:E.
  exists r', log, 1%nat, (CCall 1 [6]), "MockFoo::bar(big)"%string. split; [exact E|].
  assert (TH : cs_threads (rs_now r') = [Thread [] PIdle; Thread [] PIdle]).
  { replace r' with (fst (rrun debug64 r0 (oldest (repeat 0 20 ++ repeat 1 20)%nat)))
      by (rewrite E; reflexivity). vm_compute. reflexivity. }
  assert (LG : events log = events (snd (rrun debug64 r0 (oldest (repeat 0 20 ++ repeat 1 20)%nat)))) by (rewrite E; reflexivity).
  rewrite LG. clear E LG. split; [|split; [vm_compute; reflexivity|split; [|vm_compute; reflexivity]]].
  2:{ vm_compute. repeat (first [left; reflexivity|right]). }
  intros t th N. pose proof (eq_trans (f_equal (fun l => nth_error l t) (eq_sym TH)) N) as M.
  clear N. rename M into N. destruct t as [|[|t]]; simpl in N; try (injection N as <-; split; reflexivity).
  destruct t; discriminate.
Qed.
Print Assumptions separate_sequence_calls_refuted.

(** Nothing is lost: every execution of [Conc.v] is one with relaxed loads, in which each load
    reads the last value. *)
Theorem relaxed_includes_consistent :
  forall (V U : Type) c u l (ms : list (cmeth V U)) sp progs sched s' tr,
  crun c (cstart u l ms sp progs) sched = (s', tr) ->
  exists mvs r' log, movers mvs = sched /\
    rrun c (relaxed_start u l ms sp progs) mvs = (r', log) /\ rs_now r' = s' /\ events log = tr.
Proof.
  intros V U c u l ms sp progs sched s' tr H.
  apply (crun_relaxed c sched (relaxed_start u l ms sp progs)). exact H.
Qed.
Print Assumptions relaxed_includes_consistent.

Example relaxed_includes_applies :
  let '(s', tr) := crun debug64 (cstart [] (fun _ => 0) two_exps (fun _ => false) [[CCall 0 [5]]; [CCall 0 [6]]])
    (repeat 0 20 ++ repeat 1 20)%nat in
  returned tr = [(0%nat, CCall 0 [5], Ret 7); (1%nat, CCall 0 [6], Ret 6)].
Proof. vm_compute. reflexivity. Qed.
