(** * PropViolation: C39, calls that find their sequence has moved *)

From Coq Require Import Arith NArith List Bool String Lia.
From Verif Require Import Base Times Expect Mock Conc ConcSpec ConcProofs ViolationSpec ViolationProofs
  Samples PropThreads.
Import ListNotations.
Open Scope N_scope.

(** Whatever the scheduler does: a call that finds, after its sequence has accepted it, that
    other calls have moved the sequence on, panics; the message shows how far the
    sequence had got and the place of the called expectation, in this order, and the
    sequence was past that place.  (The levels do not wrap around within the run.) *)
Theorem violations_tell_level_and_place :
  forall (V U : Type) c u l (ms : list (cmeth V U)) sp progs sched s' pre post t x' r t' x i,
  let s0 := cstart u l ms sp progs in
  (forall q, l q + N.of_nat (List.length sched) <= umax c) ->
  crun c s0 sched = (s', pre ++ EvReturn t x' r :: post) ->
  last_of t pre = Some (EvViolation t' x i) ->
  x' = x /\ exists e h level, cexp s0 (cc_m x) i = Some e /\ c_seq (e_common e) = Some h /\
    r = Panic (MSeqSatisfy level (sh_seq h)) /\ sh_seq h < level.
Proof.
  intros V U c u l ms sp progs sched s' pre post t x' r t' x i s0 B H L.
  assert (I0 : vinv c s0 (N.of_nat (List.length sched)) s0 []).
  { split.
    - intros m j e C. exists e. auto.
    - exact B.
    - intros t1 th y j e h N'. simpl in N'. rewrite nth_error_map in N'.
      destruct (nth_error progs t1); [|discriminate]. injection N' as <-. discriminate.
    - discriminate. }
  destruct (crun_answer c s0 sched s0 s' [] _ pre t x' r post t' x i I0 H eq_refl L)
    as (E & e & h & a & C & Q & LT & R).
  split; auto. exists e, h, a. auto.
Qed.
Print Assumptions violations_tell_level_and_place.

(** The run of [object_sequence_linearizable_refuted]: the sequence had got to 1, the place
    of the called expectation is 0. *)
Example violations_tell_level_and_place_applies :
  let ms := [CMeth me0 None [fresh 2 3 (Some (SeqHandle 3%nat 0)) (SMut seven)];
             CMeth me0 None [fresh 1 2 (Some (SeqHandle 3%nat 1)) (SMut seven)]] in
  let s0 := cstart ([] : U0) (fun _ => 0) ms (fun _ => false) [[CCall 0 [5]]; [CCall 0 [5]]] in
  let sched := repeat 0%nat 5 ++ repeat 1%nat 5 ++ List.concat (repeat [0; 1]%nat 20) in
  (forall q, (fun _ : nat => 0) q + N.of_nat (List.length sched) <= umax debug64) /\
  exists s' pre post, crun debug64 s0 sched =
      (s', pre ++ EvReturn 1 (CCall 0 [5]) (Panic (MSeqSatisfy 1 0)) :: post) /\
    last_of 1 pre = Some (EvViolation 1 (CCall 0 [5]) 0).
Proof.
  cbv zeta. split; [intros _; vm_compute; discriminate|].
  match goal with |- context [crun ?c ?s ?sc] =>
    let tr := eval vm_compute in (snd (crun c s sc)) in
    let rest := eval vm_compute in ((fix go (w : list (event V0)) := match w with
      | EvReturn 1 _ _ :: _ => w | _ :: w' => go w' | [] => [] end) tr) in
    let n := eval vm_compute in (List.length tr - List.length rest)%nat in
    exists (fst (crun c s sc)), (firstn n tr), (tl rest) end.
  split; vm_compute; reflexivity.
Qed.
