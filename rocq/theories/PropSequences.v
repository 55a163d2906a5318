(** * PropSequences: C20 - C24 *)

From Coq Require Import Arith NArith List Bool String Lia.
From Verif Require Import Base Times TimesSpec TimesProofs Expect ExpectProofs Mock Spec SysSpec
  DispatchProofs FifoProofs CallProofs SoleProofs ReturnProofs SysProofs SeqProofs AcceptProofs Samples.
Import ListNotations.
Open Scope N_scope.

(** C20.  Take any test, with any number of mock objects, static methods, sequences
    and caught panics, in which no call count is changed after [in_sequence].  If an
    operation is answered with a value by the expectation [e], which has position
    [sh_seq h] of a sequence, then for every earlier position [j] of that sequence there
    was a moment in the test at which the expectation with position [j] had been called
    its full number of times. *)
Theorem sequence_safety :
  forall (V U : Type) c sh u (decls : list (mdecl V)) (l : list (op V U)) o y' v p e e' h,
  (forall s, seq_uses s l <= umax c) ->
  Forall (fun o => orderly (op_chain o)) l ->
  let y := after c sh (init u decls) l in
  step c sh y o = (y', Ret (Some v)) ->
  at_place y p = Some e -> at_place y' p = Some e' -> count_of e' <> count_of e ->
  handle_of e = Some h ->
  forall j, j < sh_seq h ->
  exists l1 l2 p1 e1,
    l = l1 ++ l2 /\
    at_place (after c sh (init u decls) l1) p1 = Some e1 /\
    handle_of e1 = Some (SeqHandle (sh_inner h) j) /\
    full e1.
Proof. exact @seq_safe. Qed.
Print Assumptions sequence_safety.

(** A test over two objects, with a caught out-of-order call and a checkpoint. *)
Example sequence_safety_applies :
  let sd := SDecl [] [md0] in
  let l := [ONew sd; ONew sd;
            OExpect 0 0 0%nat [StTimes (ANum 2); StInSequence 5; StReturning seven];
            OExpect 1 0 0%nat [StTimes (ANum 1); StInSequence 5; StReturning seven];
            OCall 1 0 0%nat [1] (fun v => v);      (* out of order: panics, caught *)
            OCall 0 0 0%nat [1] (fun v => v);
            OCall 0 0 0%nat [1] (fun v => v);
            OCheckpoint 0;
            OExpect 0 0 0%nat [StOnce; StInSequence 5; StReturning seven]] in
  let y := after debug64 idshuffle (init ([] : U0) []) l in
  (forall s, seq_uses s l <= umax debug64) /\
  Forall (fun o => orderly (op_chain o)) l /\
  snd (step debug64 idshuffle (after debug64 idshuffle (init [] []) (firstn 4 l)) (nth 4 l (OThread 0))) =
    Panic (MSeqVerify "MockFoo::bar(1)" 1 0) /\
  option_map handle_of (at_place y (PObj 1 0 0%nat 0)) = Some (Some (SeqHandle 5%nat 1)) /\
  w_levels (y_world y) 5%nat = 1.
Proof.
  cbn zeta. split; [|split; [|split; [|split]]].
  - intros s. unfold seq_uses. cbn [map op_chain positions sum umax debug64].
    destruct (Nat.eqb 5 s); cbn; lia.
  - repeat constructor; simpl; repeat split; repeat constructor; auto.
  - reflexivity.
  - reflexivity.
  - reflexivity.
Qed.

Example sequence_safety_step :
  let sd := SDecl [] [md0] in
  let l := [ONew sd; ONew sd;
            OExpect 0 0 0%nat [StTimes (ANum 2); StInSequence 5; StReturning seven];
            OExpect 1 0 0%nat [StTimes (ANum 1); StInSequence 5; StReturning seven];
            OCall 0 0 0%nat [1] (fun v => v);
            OCall 0 0 0%nat [1] (fun v => v)] in
  let y := after debug64 idshuffle (init ([] : U0) []) l in
  let o := OCall 1 0 0%nat [1] (fun v => v) in
  snd (step debug64 idshuffle y o) = Ret (Some 7) /\
  option_map count_of (at_place y (PObj 1 0 0%nat 0)) = Some 0 /\
  option_map count_of (at_place (fst (step debug64 idshuffle y o)) (PObj 1 0 0%nat 0)) = Some 1.
Proof. repeat split. Qed.

(** C20 needs "no call count is changed after [in_sequence]": with
    [.once().in_sequence(s).times(5)] the second member is answered although the first
    was called only once. *)
Theorem sequence_safety_any_chain_refuted :
  exists (l : list (op V0 U0)) o y' v p e e' h,
  let y := after debug64 idshuffle (init [] []) l in
  step debug64 idshuffle y o = (y', Ret (Some v)) /\
  at_place y p = Some e /\ at_place y' p = Some e' /\ count_of e' <> count_of e /\
  handle_of e = Some h /\ sh_seq h = 1 /\
  (* the only member with position 0 *)
  exists e1, at_place y (PObj 0 0 0%nat 0) = Some e1 /\ handle_of e1 = Some (SeqHandle (sh_inner h) 0) /\
    rstart (trange_of (c_times (e_common e1))) = 0 /\
    rend (trange_of (c_times (e_common e1))) = 6 /\ count_of e1 = 1.
Proof.
  exists [ONew (SDecl [] [md0]); ONew (SDecl [] [md0]);
          OExpect 0 0 0%nat [StOnce; StInSequence 5; StTimes (AToIncl 5); StReturning seven];
          OExpect 1 0 0%nat [StTimes (ANum 1); StInSequence 5; StReturning seven];
          OCall 0 0 0%nat [1] (fun v => v)].
  exists (OCall 1 0 0%nat [1] (fun v => v)).
  eexists; eexists; exists (PObj 1 0 0%nat 0); eexists; eexists; eexists.
  cbn zeta. split; [reflexivity|]. split; [reflexivity|]. split; [reflexivity|].
  split; [discriminate|]. split; [reflexivity|]. split; [reflexivity|].
  eexists. split; [reflexivity|]. repeat split; reflexivity.
Qed.
Print Assumptions sequence_safety_any_chain_refuted.

(** C21.  [xs] are members of a new sequence [s], set up in this order, each alone on
    its own method (possibly of different objects), with positive counts and return
    closures that do not panic.  A list of calls of members is answered without any
    panic if and only if it is an initial part of "member 0 as often as its count, then
    member 1 as often as its count, ...". *)
Theorem sequence_acceptance :
  forall (V U : Type) c sh (y : sys V U) (s : nat) (xs : list (sx V U)) (calls : list (nat * list V)),
  1 <= umax c -> N.of_nat (List.length xs) <= umax c ->
  Forall (fun x => total_fn (sx_fun x) /\ 1 <= sx_count x /\ sx_count x < umax c) xs ->
  NoDup (map (fun x => (sx_obj x, sx_meth x)) xs) ->
  Forall (fun x => idle y (sx_obj x) (sx_meth x)) xs ->
  new_sequence y s ->
  Forall (fun ia => (fst ia < List.length xs)%nat) calls ->
  (Forall answered (snd (run c sh (after c sh y (map (sx_expect s) xs)) (sx_calls xs calls)))
   <-> prefix (map fst calls) (wanted 0 xs)).
Proof. intros V U c sh y s xs calls. exact (acceptance s c sh y xs calls). Qed.
Print Assumptions sequence_acceptance.

Definition seq_sample : list (sx V0 U0) := [SX 0 0 2 seven; SX 1 0 1 adder; SX 0 1 3 seven].
Definition seq_start : sys V0 U0 :=
  after debug64 idshuffle (init [] []) [ONew (SDecl [] [md0; md0]); ONew (SDecl [[md0]] [])].

Example sequence_acceptance_applies :
  1 <= umax debug64 /\ N.of_nat (List.length seq_sample) <= umax debug64 /\
  Forall (fun x => total_fn (sx_fun x) /\ 1 <= sx_count x /\ sx_count x < umax debug64) seq_sample /\
  NoDup (map (fun x => (sx_obj x, sx_meth x)) seq_sample) /\
  Forall (fun x => idle seq_start (sx_obj x) (sx_meth x)) seq_sample /\
  new_sequence seq_start 4 /\
  wanted 0 seq_sample = [0; 0; 1; 2; 2; 2]%nat /\
  snd (run debug64 idshuffle (after debug64 idshuffle seq_start (map (sx_expect 4) seq_sample))
         (sx_calls seq_sample [(0%nat, [1]); (0%nat, [2]); (1%nat, [3]); (2%nat, [4])]))
    = [Ret (Some 7); Ret (Some 7); Ret (Some 3); Ret (Some 7)] /\
  snd (run debug64 idshuffle (after debug64 idshuffle seq_start (map (sx_expect 4) seq_sample))
         (sx_calls seq_sample [(0%nat, [1]); (1%nat, [2])]))
    = [Ret (Some 7); Panic (MSeqVerify "MockFoo::bar(2)" 1 0)].
Proof.
  split; [discriminate|]. split; [discriminate|].
  split; [repeat constructor; auto using seven_total, adder_total; discriminate|].
  split; [repeat constructor; simpl; intuition discriminate|].
  split; [repeat constructor; eexists; eexists; repeat split; reflexivity|].
  repeat split; reflexivity.
Qed.

(** C21, the exception: a member whose count is 0 blocks the sequence.  Whatever calls
    are made, no call of it or of a later member is ever answered. *)
Theorem zero_count_member_blocks_sequence :
  forall (V U : Type) c sh (y : sys V U) (s : nat) (xs : list (sx V U)) (calls : list (nat * list V)) k xk,
  1 <= umax c -> N.of_nat (List.length xs) <= umax c ->
  N.of_nat (List.length calls) <= umax c ->
  Forall (fun x => sx_count x < umax c) xs ->
  NoDup (map (fun x => (sx_obj x, sx_meth x)) xs) ->
  Forall (fun x => idle y (sx_obj x) (sx_meth x)) xs ->
  new_sequence y s ->
  Forall (fun ia => (fst ia < List.length xs)%nat) calls ->
  nth_error xs k = Some xk -> sx_count xk = 0 ->
  Forall2 (fun ia r => answered r -> (fst ia < k)%nat) calls
    (snd (run c sh (after c sh y (map (sx_expect s) xs)) (sx_calls xs calls))).
Proof. intros V U c sh y s xs calls k xk. exact (zero_blocks s c sh y xs calls k xk). Qed.
Print Assumptions zero_count_member_blocks_sequence.

Example zero_count_applies :
  let xs := [SX 0 0 1 seven; SX 1 0 0 adder; SX 0 1 1 seven] : list (sx V0 U0) in
  Forall (fun x => idle seq_start (sx_obj x) (sx_meth x)) xs /\
  new_sequence seq_start 4 /\
  wanted 0 xs = [0; 2]%nat /\
  snd (run debug64 idshuffle (after debug64 idshuffle seq_start (map (sx_expect 4) xs))
         (sx_calls xs [(0%nat, [1]); (2%nat, [2])]))
    = [Ret (Some 7); Panic (MSeqVerify "MockFoo::bar(2)" 2 1)].
Proof.
  cbn zeta. split; [repeat constructor; eexists; eexists; repeat split; reflexivity|].
  repeat split; reflexivity.
Qed.

(** C22.  Run any builder chain [l] that succeeds and call [in_sequence(s)]: if the call
    count in force (the last one set, or "any number") admits exactly one count, the
    expectation takes the next free position of the sequence and the sequence
    moves on by one; if it admits several, [in_sequence] panics and neither the
    expectation nor the sequence changes. *)
Theorem in_sequence_needs_exact_count :
  forall (V U : Type) c (me : method V) kd th (l : list (setter V U)) t e t' s,
  checks c = true -> 1 <= umax c ->
  apply_setters c th l (expectation_default c me kd) t = (e, t', Ret tt) ->
  let x := final_count l AFull in
  arg_below (umax c) x -> satisfiable (umax c) x ->
  sq_next (t s) + positions s l < umax c ->
  let next := SeqHandle (sq_inner (t s)) (sq_next (t s) + positions s l) in
  ((exists k, k < umax c /\ in_arg x k /\ forall k', k' < umax c -> in_arg x k' -> k' = k) /\
   exists e2 t2,
     apply_setters c th (l ++ [StInSequence s]) (expectation_default c me kd) t = (e2, t2, Ret tt) /\
     c_seq (e_common e2) = Some next /\
     sq_next (t2 s) = sh_seq next + 1)
  \/
  ((exists k k', k < umax c /\ k' < umax c /\ in_arg x k /\ in_arg x k' /\ k <> k') /\
   exists t2,
     apply_setters c th (l ++ [StInSequence s]) (expectation_default c me kd) t = (e, t2, Panic MNotExact) /\
     forall i, t2 i = t' i).
Proof.
  intros V U c me kd th l t e t' s CK U1 H x AB SA LT next.
  destruct (last_setter_gen c th kd CK U1 l (expectation_default c me kd) t e t' AFull
              ltac:(destruct kd; reflexivity) ltac:(destruct kd; exact I || reflexivity)
              eq_refl eq_refl H) as (A1 & A2 & A3 & A4 & A5 & A6 & A7).
  assert (T : t' s = Sequence (sq_inner (t s)) (sq_next (t s) + positions s l)) by auto.
  assert (L2 : sq_next (t' s) < umax c) by (rewrite T; exact LT).
  rewrite !apply_setters_app, H. cbn [apply_setters].
  assert (TR : trange_from c x = Ret (trange_of (c_times (e_common e)))) by auto.
  destruct (in_sequence_iff c th e t' s x _ AB SA TR eq_refl L2) as [[B1 B2]|[B1 B2]]; rewrite B2.
  - left. split; [exact B1|]. eexists; eexists. split; [reflexivity|].
    cbn [e_common c_seq]. rewrite T. split; [reflexivity|].
    unfold set_seq. rewrite Nat.eqb_refl. reflexivity.
  - right. split; [exact B1|]. eexists. split; [reflexivity|].
    intros i. unfold set_seq. destruct (Nat.eqb_spec i s); subst; auto.
Qed.
Print Assumptions in_sequence_needs_exact_count.

Example in_sequence_applies :
  snd (apply_setters (V := V0) (U := U0) debug64 0 [StTimes (ATo 1); StInSequence 3] (expectation_default debug64 me0 KStatic) t0) = Ret tt /\
  snd (apply_setters (V := V0) (U := U0) debug64 0 [StInSequence 3] (expectation_default debug64 me0 KStatic) t0) = Panic MNotExact /\
  snd (apply_setters (V := V0) (U := U0) debug64 0 [StTimes (AIncl 1 2); StInSequence 3] (expectation_default debug64 me0 KStatic) t0) = Panic MNotExact.
Proof. repeat split. Qed.

(** C22, the bypass: "a sequenced expectation has an exact call count" is false, because
    the count can still be changed after [in_sequence]. *)
Theorem sequenced_is_exact_refuted :
  exists (l : list (setter V0 U0)) e t,
  apply_setters debug64 0 l (expectation_default debug64 me0 KStatic) t0 = (e, t, Ret tt) /\
  handle_of e = Some (SeqHandle 3%nat 0) /\
  times_is_exact debug64 (c_times (e_common e)) = Ret false.
Proof.
  exists [StOnce; StInSequence 3; StTimes (AFrom 2)]. eexists; eexists. repeat split; reflexivity.
Qed.
Print Assumptions sequenced_is_exact_refuted.

(** C23, first half.  An operation changes the state of a sequence only by calling an
    expectation that belongs to that sequence. *)
Theorem only_members_move_a_sequence :
  forall (V U : Type) c sh (y y' : sys V U) o r s,
  1 <= umax c ->
  step c sh y o = (y', r) ->
  w_levels (y_world y') s <> w_levels (y_world y) s ->
  exists p e e' h,
    at_place y p = Some e /\ at_place y' p = Some e' /\ count_of e' <> count_of e /\
    handle_of e = Some h /\ sh_inner h = s /\ sh_seq h = w_levels (y_world y) s.
Proof. exact @level_moves. Qed.
Print Assumptions only_members_move_a_sequence.

(** C23, second half.  If no expectation of the test belongs to a sequence in the set
    [D], now or later, then the states of these sequences are irrelevant: replace them by
    any others, and every later operation gives the same result; and no operation
    changes them.  In particular expectations without a sequence impose no order. *)
Theorem unrelated_sequences :
  forall (V U : Type) c sh (D : seqid -> Prop) (l : list (op V U)) (y : sys V U) (lv : levels),
  (forall p e h, at_place y p = Some e -> handle_of e = Some h -> ~ D (sh_inner h)) ->
  (forall o s, In o l -> In (StInSequence s) (op_chain o) -> ~ D (sq_inner (y_seqs y s))) ->
  (forall s, ~ D s -> lv s = w_levels (y_world y) s) ->
  snd (run c sh (Sys (set_levels (y_world y) lv) (y_seqs y) (y_objs y) (y_stats y)) l) =
    snd (run c sh y l) /\
  forall s, D s -> w_levels (y_world (after c sh y l)) s = w_levels (y_world y) s.
Proof.
  intros V U c sh D l y lv H1 H2 H3. apply (run_lv D c sh l y lv).
  - intros p e A h Hh. exact (H1 p e h A Hh).
  - rewrite Forall_forall. intros o I s Hs. exact (H2 o s I Hs).
  - exact H3.
Qed.
Print Assumptions unrelated_sequences.

Example unrelated_sequences_applies :
  let y := after debug64 idshuffle seq_start (map (sx_expect 4) seq_sample) in
  let l := [OExpect 1 0 0%nat [StOnce; StInSequence 9]; OCall 0 0 0%nat [1] (fun v => v)] in
  let D := fun s => s = 6%nat in
  (forall o s, In o l -> In (StInSequence s) (op_chain o) -> ~ D (sq_inner (y_seqs y s))) /\
  (exists e h, at_place y (PObj 0 0 0%nat 0) = Some e /\ handle_of e = Some h /\ sh_inner h = 4%nat) /\
  snd (run debug64 idshuffle y l) = [Ret None; Ret (Some 7)].
Proof.
  cbn zeta. split; [|split].
  - intros o s [<-|[<-|[]]] H; simpl in H.
    + destruct H as [H|[H|[]]]; inversion H; subst. discriminate.
    + contradiction.
  - eexists; eexists. repeat split; reflexivity.
  - reflexivity.
Qed.

(** C24.  A call that is dispatched to the expectation [e] (the oldest that matches and
    is not used up) out of its turn panics, leaves every sequence as it was, and uses
    up one of [e]'s calls; nothing else changes. *)
Theorem out_of_turn_call_still_counts :
  forall (V U : Type) c md (es : list (expectation V U)) args wr w i e bs w1 h,
  Forall proper es ->
  nth_error es i = Some e ->
  consulted (firstn (S i) es) args w bs w1 ->
  nth_error bs i = Some true -> ~ saturated e ->
  (forall j e' b, (j < i)%nat -> nth_error es j = Some e' -> nth_error bs j = Some b ->
     passes (List.length es = 1%nat) e' b) ->
  handle_of e = Some h -> sh_seq h <> w_levels w (sh_inner h) ->
  count_of e < umax c ->
  exists e',
    field_call c (Field md (SPlain es)) 0%nat args wr w =
      (Field md (SPlain (set_nth es i e')), w1,
       Panic (MSeqVerify (call_desc (md_me md) args) (sh_seq h) (w_levels w (sh_inner h)))) /\
    count_of e' = count_of e + 1 /\
    w_levels w1 = w_levels w /\
    e' = Expectation (Common (c_matcher (e_common e)) (c_mpoison (e_common e)) (c_seq (e_common e))
                        (Times (count_of e + 1) (trange_of (c_times (e_common e))))) (e_action e).
Proof.
  intros V U c md es args wr w i e bs w1 h P N C B S PS HH D CT.
  pose proof (consulted_frame _ _ _ _ _ C) as (FL & _ & _).
  assert (D' : sh_seq h <> w_levels w1 (sh_inner h)) by (rewrite FL; auto).
  assert (RE : tcount (c_times (e_common e)) + 1 < rend (trange_of (c_times (e_common e))))
    by (unfold saturated in S; lia).
  pose proof (violation_call c (md_me md) e args wr w1 h HH D' CT RE) as X.
  pose proof (fifo_pick c (md_me md) es args wr w i e bs w1 _ _ _ P N C B (or_introl S) PS X) as Y.
  eexists. split.
  - unfold field_call, slot_call. cbn [f_decl f_slot]. rewrite Y. cbn [rbind]. rewrite FL. reflexivity.
  - repeat split; auto.
Qed.
Print Assumptions out_of_turn_call_still_counts.

(** C24, over the maximum: a call on a lone used-up expectation is refused, changes no
    sequence, and is counted too. *)
Theorem call_over_maximum_still_counts :
  forall (V U : Type) c md e args wr (w : world U) w1,
  proper e -> verdict e args w w1 true -> saturated e -> count_of e < umax c ->
  exists m,
    field_call c (Field md (SPlain [e])) 0%nat args wr w =
      (Field md (SPlain [Expectation (Common (c_matcher (e_common e)) false (c_seq (e_common e))
                        (Times (count_of e + 1) (trange_of (c_times (e_common e))))) (e_action e)]),
       w1, Panic m : res V) /\
    w_levels w1 = w_levels w.
Proof.
  intros V U c md e args wr w w1 P VD S CT. pose proof VD as [MP _].
  assert (C : consulted [e] args w [true] w1) by (simpl; eauto).
  pose proof (consulted_frame _ _ _ _ _ C) as (FL & _ & _).
  assert (X : exists m, expectation_call c (md_me md) e args wr w1 =
    (Expectation (Common (c_matcher (e_common e)) false (c_seq (e_common e))
                        (Times (count_of e + 1) (trange_of (c_times (e_common e))))) (e_action e), w1, Panic m)).
  { unfold expectation_call. rewrite common_call_over; auto. unfold show_locked. rewrite MP. cbn [rbind].
    eexists. unfold set_common, set_times, count_of. rewrite MP. reflexivity. }
  destruct X as [m X]. exists m. split; [|auto].
  unfold field_call, slot_call. cbn [f_decl f_slot].
  rewrite (fifo_pick c (md_me md) [e] args wr w 0 e [true] w1 _ _ _
            (Forall_cons _ P (Forall_nil _)) eq_refl C eq_refl (or_intror eq_refl)
            (fun j e' b L => False_ind _ (Nat.nlt_0_r j L)) X).
  reflexivity.
Qed.
Print Assumptions call_over_maximum_still_counts.

(** A consequence of C24: an early call that is caught makes the sequence impossible to
    complete. *)
Example early_call_spoils_the_sequence :
  let xs := [SX 0 0 1 seven; SX 1 0 1 seven] : list (sx V0 U0) in
  snd (run debug64 idshuffle (after debug64 idshuffle seq_start (map (sx_expect 4) xs))
         (sx_calls xs [(1%nat, [1]); (0%nat, [2]); (1%nat, [3])]))
    = [Panic (MSeqVerify "MockFoo::bar(1)" 1 0); Ret (Some 7);
       Panic (MCall "MockFoo::bar" "<anything>" (TeTooMany 2 1))].
Proof. reflexivity. Qed.
