(** * PropCounts: C01 - C05, call counts *)

From Coq Require Import NArith List Bool String Lia.
From Verif Require Import Base Times TimesSpec Expect Mock Spec Samples CountProofs SoleProofs.
Import ListNotations.
Open Scope N_scope.

(** C01.  One expectation [.times(x).returning(f)] on a new mock, then any
    history of calls: dropping the mock outside unwinding succeeds if and only
    if the number of calls is one that [x] names. *)
Theorem times_counts :
  forall (V U : Type) c (md : mdecl V) x (f : ucode U (list V) V) calls w th t sh s t' r f' w' rs,
  md_generic md = false -> md_kind md = KStatic ->
  arg_below (umax c) x -> satisfiable (umax c) x -> total_fn f ->
  N.of_nat (List.length calls) < umax c ->
  slot_expect c md (slot_new md) 0%nat th [StTimes x; StReturning f] t = (s, t', r) ->
  field_calls c (Field md s) 0%nat w calls = (f', w', rs) ->
  (object_drop c sh [f'] false = Ret tt <-> in_arg x (N.of_nat (List.length calls))).
Proof. exact times_counts_proof. Qed.
Print Assumptions times_counts.

(** C01, the message: below the minimum it says so with both numbers, above the
    maximum likewise. *)
Theorem times_messages :
  forall (V U : Type) c (md : mdecl V) x (f : ucode U (list V) V) calls w th t sh s t' r f' w' rs,
  md_generic md = false -> md_kind md = KStatic ->
  arg_below (umax c) x -> satisfiable (umax c) x -> total_fn f ->
  N.of_nat (List.length calls) < umax c ->
  slot_expect c md (slot_new md) 0%nat th [StTimes x; StReturning f] t = (s, t', r) ->
  field_calls c (Field md s) 0%nat w calls = (f', w', rs) ->
  let n := N.of_nat (List.length calls) in
  let name := me_name (md_me md) in
  (n < arg_min x ->
     object_drop c sh [f'] false = Panic (MTooFew name "<anything>" n (arg_min x))) /\
  (forall m, arg_max x = Some m -> m < n -> arg_min x <= n ->
     object_drop c sh [f'] false = Panic (MTooMany name "<anything>" n m)).
Proof. exact times_messages_proof. Qed.
Print Assumptions times_messages.

Example times_counts_case :
  let x := AIncl 1 2 in
  let calls := [[1]; [2]; [3]] in
  arg_below (umax debug64) x /\ satisfiable (umax debug64) x /\ total_fn adder /\
  N.of_nat (List.length calls) < umax debug64 /\
  exists s f' w' rs,
    slot_expect debug64 md0 (slot_new md0) 0%nat 0%nat [StTimes x; StReturning adder] t0 = (s, t0, Ret tt) /\
    field_calls debug64 (Field md0 s) 0%nat w0 calls = (f', w', rs) /\
    object_drop debug64 idshuffle [f'] false
      = Panic (MTooMany "MockFoo::bar" "<anything>" 3 2).
Proof.
  simpl. repeat split; try lia; try apply adder_total.
  - exists 1. simpl. lia.
  - repeat eexists.
Qed.

(** C02, what the code does, for every argument that can be written: [times]
    succeeds exactly if the range names a count that the counter can
    reach or is one of the two empty ranges [..0] and [MAX..], unless the upper
    end does not fit in a [usize]. *)
Theorem times_accepts_exact :
  forall (V U : Type) c th x (e : expectation V U) t e' t' r,
  checks c = true -> 1 <= umax c -> arg_usize (umax c) x ->
  apply_setter c th (StTimes x) e t = (e', t', r) ->
  (r = Ret tt <->
     (satisfiable (umax c) x \/ x = ATo 0 \/ x = AFrom (umax c))
     /\ ~ arg_max x = Some (umax c)) /\
  (r <> Ret tt -> e' = e /\ t' = t /\ (r = Panic MBackwards \/ r = Panic MOverflow)).
Proof. exact times_accepts_exact_proof. Qed.
Print Assumptions times_accepts_exact.

(** The same in a release build, where an upper end that does not fit wraps to zero
    and is accepted. *)
Theorem times_accepts_release :
  forall (V U : Type) c th x (e : expectation V U) t e' t' r,
  checks c = false -> 1 <= umax c -> arg_usize (umax c) x ->
  apply_setter c th (StTimes x) e t = (e', t', r) ->
  (r = Ret tt <->
     satisfiable (umax c) x \/ x = ATo 0 \/ x = AFrom (umax c) \/ arg_max x = Some (umax c)) /\
  (r <> Ret tt -> e' = e /\ t' = t /\ r = Panic MBackwards).
Proof. exact times_accepts_release_proof. Qed.
Print Assumptions times_accepts_release.

(** C02, in both builds: apart from the four arguments named in the claim, [times] accepts
    exactly what some count satisfies. *)
Theorem times_accepts_iff_satisfiable :
  forall (V U : Type) c th x (e : expectation V U) t e' t' r,
  1 <= umax c -> arg_usize (umax c) x ->
  x <> ATo 0 -> x <> AFrom (umax c) -> arg_max x <> Some (umax c) ->
  apply_setter c th (StTimes x) e t = (e', t', r) ->
  (r = Ret tt <-> satisfiable (umax c) x).
Proof. exact times_accepts_iff_satisfiable_proof. Qed.
Print Assumptions times_accepts_iff_satisfiable.

(** C02, the two other setters of a counter, [Times::n] and [Times::range], which nothing
    generated calls: a number or a range that is accepted afterwards has the counter satisfied at
    exactly the counts it names; a number is refused only at [usize::MAX], in a build
    with overflow checks, and a range exactly if it is empty; a refusal changes nothing,
    and the calls counted so far stay counted. *)
Theorem number_and_range_setters :
  forall c t n a b,
  n <= umax c ->
  (let '(t', r) := times_n c n t in
   (r = Ret tt <-> checks c = false \/ n < umax c) /\
   (r <> Ret tt -> t' = t /\ r = Panic MOverflow) /\
   times_count t' = times_count t /\
   (n < umax c -> times_is_satisfied t' = Satisfied <-> in_arg (ANum n) (times_count t))) /\
  (let '(t', r) := times_range a b t in
   (r = Ret tt <-> exists k, in_arg (ARange a b) k) /\
   (r <> Ret tt -> t' = t /\ r = Panic MBackwards) /\
   times_count t' = times_count t /\
   (r = Ret tt -> times_is_satisfied t' = Satisfied <-> in_arg (ARange a b) (times_count t))).
Proof. exact number_and_range_setters_proof. Qed.
Print Assumptions number_and_range_setters.

Example number_and_range_setters_case :
  5 <= umax debug64 /\
  times_is_satisfied (fst (times_n debug64 5 (Times 5 (TRange 0 1)))) = Satisfied /\
  times_range 3 3 (Times 5 (TRange 0 1)) = (Times 5 (TRange 0 1), Panic MBackwards) /\
  times_is_satisfied (fst (times_range 3 5 (Times 5 (TRange 0 1)))) = TooMany.
Proof. repeat split. simpl. lia. Qed.

(** C02 refuted: [times(..0)] and [times(usize::MAX..)] are accepted, though no
    count below the maximum satisfies them; and after [times(..0)] with a second
    expectation every call of the method panics with an arithmetic overflow. *)
Theorem empty_times_accepted_refuted :
  exists x th (e e' : expectation V0 U0) t,
    arg_usize (umax debug64) x /\ (forall k, ~ in_arg x k) /\
    apply_setter debug64 th (StTimes x) e t = (e', t, Ret tt).
Proof. exact empty_times_accepted. Qed.
Print Assumptions empty_times_accepted_refuted.

Theorem times_to_zero_breaks_dispatch_refuted :
  exists f t,
    field_setup debug64 (Field md0 (slot_new md0)) 0%nat 0%nat t0
      [[StTimes (ATo 0)]; [StReturning seven]] = (f, t) /\
    forall args w, exists f' w',
      field_call debug64 f 0%nat args (fun v => v) w = (f', w', Panic MOverflow).
Proof. exact times_to_zero_breaks_dispatch. Qed.
Print Assumptions times_to_zero_breaks_dispatch_refuted.

Theorem full_times_overflow_refuted :
  exists x th (e : expectation V0 U0) t,
    arg_usize (umax debug64) x /\ satisfiable (umax debug64) x /\
    apply_setter debug64 th (StTimes x) e t = (e, t, Panic MOverflow).
Proof. exact full_times_overflow. Qed.
Print Assumptions full_times_overflow_refuted.

Example times_accepts_case :
  checks debug64 = true /\ 1 <= umax debug64 /\ arg_usize (umax debug64) (ARange 5 2) /\
  ARange 5 2 <> ATo 0 /\ ARange 5 2 <> AFrom (umax debug64) /\ arg_max (ARange 5 2) <> Some (umax debug64) /\
  exists e', apply_setter debug64 0%nat (StTimes (ARange 5 2)) (@expectation_default V0 U0 debug64 me0 KStatic) t0
    = (e', t0, Panic MBackwards).
Proof. unfold arg_usize. simpl. repeat split; try lia; try discriminate. eexists. reflexivity. Qed.

(** [times(usize::MAX)] is accepted in a release build. *)
Example times_accepts_release_case :
  let c := Cfg 255 false false in
  checks c = false /\ 1 <= umax c /\ arg_usize (umax c) (ANum 255) /\
  exists e', apply_setter c 0%nat (StTimes (ANum 255)) (@expectation_default V0 U0 c me0 KStatic) t0 = (e', t0, Ret tt).
Proof. unfold arg_usize. simpl. repeat split; try lia. eexists. reflexivity. Qed.

(** C03.  One expectation [.times(x).returning(f)] on a new mock: the results of
    any history of calls and the final user state are those of
    [sole_answers]: the first [arg_max x] calls get the closure's answers, in
    order, and every later call number [k] panics with [k] and the maximum. *)
Theorem sole_expectation_answers :
  forall (V U : Type) c (md : mdecl V) x (f : ucode U (list V) V) calls w th t s t' r f' w' rs,
  md_generic md = false -> md_kind md = KStatic ->
  arg_below (umax c) x -> satisfiable (umax c) x -> total_fn f ->
  N.of_nat (List.length calls) < umax c ->
  slot_expect c md (slot_new md) 0%nat th [StTimes x; StReturning f] t = (s, t', r) ->
  field_calls c (Field md s) 0%nat w calls = (f', w', rs) ->
  (w_user w', rs) = sole_answers (md_me md) (arg_max x) f 0 calls (w_user w).
Proof. exact sole_expectation_answers_proof. Qed.
Print Assumptions sole_expectation_answers.

(** C03, in terms of numbers only: call number [i] (from 0) returns if and only
    if [i] is below the maximum. *)
Theorem sole_expectation_budget :
  forall (V U : Type) c (md : mdecl V) x (f : ucode U (list V) V) calls w th t s t' r f' w' rs i ri,
  md_generic md = false -> md_kind md = KStatic ->
  arg_below (umax c) x -> satisfiable (umax c) x -> total_fn f ->
  N.of_nat (List.length calls) < umax c ->
  slot_expect c md (slot_new md) 0%nat th [StTimes x; StReturning f] t = (s, t', r) ->
  field_calls c (Field md s) 0%nat w calls = (f', w', rs) ->
  nth_error rs i = Some ri ->
  ((exists v, ri = Ret v) <-> (forall m, arg_max x = Some m -> N.of_nat i < m)).
Proof. exact sole_expectation_budget_proof. Qed.
Print Assumptions sole_expectation_budget.

Example sole_expectation_case :
  exists s f' w' rs,
    slot_expect debug64 md0 (slot_new md0) 0%nat 0%nat [StTimes (AIncl 1 2); StReturning adder] t0
      = (s, t0, Ret tt) /\
    field_calls debug64 (Field md0 s) 0%nat w0 [[1]; [2]; [3]] = (f', w', rs) /\
    rs = [Ret 1; Ret 2; Panic (MCall "MockFoo::bar" "<anything>" (TeTooMany 3 2))] /\
    w_user w' = [[1]; [2]].
Proof. repeat eexists. Qed.

(** C04.  Dropping one expectation, in whatever state: while unwinding it never
    panics, otherwise it succeeds if and only if the count is in the range (and
    its matcher did not panic earlier). *)
Theorem dying_expectation :
  forall (V U : Type) c (md : mdecl V) (e : expectation V U) sh,
  object_drop c sh [Field md (SPlain [e])] true = Ret tt /\
  (object_drop c sh [Field md (SPlain [e])] false = Ret tt <->
     in_range e /\ c_mpoison (e_common e) = false).
Proof. exact dying_expectation_proof. Qed.
Print Assumptions dying_expectation.

Example dying_expectation_case :
  let e n := @Expectation V0 U0 (Common MtAlways false None (Times n (TRange 2 4))) (AStatic SDefault false) in
  in_range (e 3) /\ ~ in_range (e 1) /\ ~ in_range (e 4).
Proof. unfold in_range; simpl. lia. Qed.

(** C05, alone: [never()] or [times(0)]; every call panics, and the mock passes
    validation exactly if it was not called. *)
Theorem never_alone :
  forall (V U : Type) c (md : mdecl V) (f : ucode U (list V) V) st calls w th t s t' r f' w' rs sh,
  md_generic md = false -> md_kind md = KStatic -> 1 < umax c ->
  st = StNever \/ st = StTimes (ANum 0) ->
  N.of_nat (List.length calls) < umax c ->
  slot_expect c md (slot_new md) 0%nat th [st; StReturning f] t = (s, t', r) ->
  field_calls c (Field md s) 0%nat w calls = (f', w', rs) ->
  r = Ret tt /\ w' = w /\
  rs = map (fun _ => Panic (MCall (me_name (md_me md)) "<anything>" TeNever)) calls /\
  (object_drop c sh [f'] false = Ret tt <-> calls = []).
Proof. exact never_alone_proof. Qed.
Print Assumptions never_alone.

(** C05, among others: a call never enters an expectation whose maximum is
    reached (in particular a [never()] one): the expectation is the same after the
    call. *)
Theorem never_among_others :
  forall (V U : Type) c me (es : list (expectation V U)) args wr w es' w' r i e,
  (2 <= List.length es)%nat -> Forall live es -> Forall proper es ->
  nth_error es i = Some e -> saturated e ->
  expectations_call c me es args wr w = (es', w', r) ->
  nth_error es' i = Some e.
Proof. exact never_among_others_proof. Qed.
Print Assumptions never_among_others.

Example never_among_others_case :
  let '(f, _) := field_setup debug64 (Field md0 (slot_new md0)) 0%nat 0%nat t0
       [[StNever]; [StReturning seven]] in
  (2 <= List.length (slot_get (f_slot f) 0%nat))%nat /\
  Forall live (slot_get (f_slot f) 0%nat) /\ Forall proper (slot_get (f_slot f) 0%nat) /\
  (exists e, nth_error (slot_get (f_slot f) 0%nat) 0 = Some e /\ saturated e) /\
  snd (field_call debug64 f 0%nat [1] (fun v => v) w0) = Ret 7.
Proof.
  simpl. split; [lia|]. split; [|split; [|split]].
  - repeat constructor; intros args w; exists w, true; split; reflexivity.
  - repeat constructor; unfold proper; simpl; lia.
  - eexists; split; [reflexivity|]. unfold saturated; simpl; lia.
  - reflexivity.
Qed.
