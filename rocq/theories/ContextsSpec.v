(** * ContextsSpec: what the theorems about contexts and threads speak about

    The operations of [Contexts.v] without interruption, what a thread may be seen to
    do, and tests that keep apart by a mutex as in mockall/examples/synchronization.rs.
    Nothing here refers to the steps of [Contexts.v]. *)

From Coq Require Import NArith List Bool String.
From Verif Require Import Base Times Expect Mock Conc ConcSpec Contexts.
Import ListNotations.
Open Scope N_scope.

Section ContextsSpec.
Context {V U : Type}.
Notation xop := (xop V U).
Notation prog := (prog V U).
Notation atom := (atom V U).
Notation xevent := (xevent V U).
Notation answer := (answer V).
Implicit Types (tr : list xevent).

(** The store, its poison flag, the user state, the levels; the sequences. *)
Definition xstate : Type := (astate (V := V) (U := U) * seqtab)%type.

(** One piece, executed without interruption by thread [t]. *)
Definition atomic_op (c : cfg) (sh : list (cmeth V U) -> list (cmeth V U)) (st : xstate)
    (ta : nat * atom) : xstate * answer :=
  let '((ms, poison, u, l), q) := st in
  let (t, a) := ta in
  match a with
  | ACall x =>
      let (st', r) := atomic_call c (ms, poison, u, l) (t, x) in
      ((st', q), let? v := r in Ret (Some v))
  | AExpect m l0 =>
      match nth_error ms m with
      | None => (st, Abort)                      (* no such instance *)
      | Some cm =>
          if poison then (st, Panic MPoison)
          else
            let '(e, q', r) := apply_setters c t l0 (expectation_default c (cm_me cm) KStatic) q in
            ((set_nth ms m (CMeth (cm_me cm) (cm_mutex cm) (cm_exps cm ++ [e])),
              match r with Panic _ => true | _ => false end, u, l, q'), let? x := r in Ret None)
      end
  | ACheckpoint =>
      if poison then (st, Panic MPoison)
      else ((map (fun cm => CMeth (cm_me cm) (cm_mutex cm) []) ms, false, u, l, q),
            let? x := drop_store c (sh ms) false in Ret None)
  | AClear => ((ms, false, u, l, q), Ret None)
  | ADrain =>
      if poison then (st, Ret None)
      else ((map (fun cm => CMeth (cm_me cm) (cm_mutex cm) []) ms, false, u, l, q),
            let? x := drop_store c (sh ms) true in Ret None)
  | ALockU | AUnlockU => (st, Ret None)
  | ASetup u' => ((ms, poison, u', fun _ => 0, sequence_new), Ret None)
  end.

(** Pieces executed one after the other. *)
Fixpoint atomic_all (c : cfg) sh (st : xstate) (l : list (nat * atom))
  : xstate * list (nat * atom * answer) :=
  match l with
  | [] => (st, [])
  | ta :: l' =>
      let (st1, r) := atomic_op c sh st ta in
      let (st2, rs) := atomic_all c sh st1 l' in
      (st2, (ta, r) :: rs)
  end.

(** The piece that decides what an operation returns. *)
Definition final (o : xop) : atom :=
  match o with
  | XCall x => ACall x
  | XExpect m l => AExpect m l
  | XCheckpoint | XDrop false => ACheckpoint
  | XDrop true => ADrain
  | XLockU => ALockU
  | XUnlockU => AUnlockU
  | XSetup u => ASetup u
  end.

(** The pieces of an operation: dropping a context while a panic is on its way may
    clear the poison flag first. *)
Inductive pieces : xop -> list atom -> Prop :=
| pi_final o : pieces o [final o]
| pi_clear : pieces (XDrop true) [AClear; ADrain].

(** What one thread with program [p] may be seen to do, [rs] being what the final
    pieces return: every operation starts, does its pieces, and returns what the
    last of them returned; then the thread goes on according to that. *)
Inductive follows (t : nat) : prog -> list xevent -> list answer -> Prop :=
| fo_none p : follows t p [] []
| fo_start o k l l' : pieces o (l ++ l') -> l' <> [] ->
    follows t (Do o k) (XStart t o :: map (XAtom t) l) []
| fo_done o k l r : pieces o l ->
    follows t (Do o k) (XStart t o :: map (XAtom t) l) [r]
| fo_return o k l r evs rs : pieces o l -> follows t (k r) evs rs ->
    follows t (Do o k) (XStart t o :: map (XAtom t) l ++ XReturn t o r :: evs) (r :: rs).

Definition thread_of (e : xevent) : nat :=
  match e with XStart t _ | XAtom t _ | XReturn t _ _ => t end.
Definition events_of (t : nat) tr : list xevent :=
  filter (fun e => Nat.eqb (thread_of e) t) tr.
Fixpoint atoms tr : list (nat * atom) :=
  match tr with
  | [] => []
  | XAtom t a :: tr' => (t, a) :: atoms tr'
  | _ :: tr' => atoms tr'
  end.
(** What the final pieces of thread [t] returned. *)
Fixpoint answers_of (t : nat) (l : list (nat * atom * answer)) : list answer :=
  match l with
  | [] => []
  | (t', AClear, _) :: l' => answers_of t l'
  | (t', _, r) :: l' => if Nat.eqb t' t then r :: answers_of t l' else answers_of t l'
  end.

(** A program that leaves the user state and the sequences to calls and builders. *)
Fixpoint no_setup (p : prog) : Prop :=
  match p with
  | Stop => True
  | Do o k => match o with XSetup _ => False | _ => True end /\ forall r, no_setup (k r)
  end.

(** ** Tests that keep apart *)

(** One operation without interruption. *)
Definition seq_op (c : cfg) sh (st : xstate) (t : nat) (o : xop) : xstate * answer :=
  match o with
  | XDrop true => atomic_op c sh (fst (atomic_op c sh st (t, AClear))) (t, ADrain)
  | _ => atomic_op c sh st (t, final o)
  end.

(** A program that runs alone: what its operations return. *)
Fixpoint run_prog (c : cfg) sh (st : xstate) (t : nat) (p : prog) : list answer :=
  match p with
  | Stop => []
  | Do o k => let (st', r) := seq_op c sh st t o in r :: run_prog c sh st' t (k r)
  end.

(** The body of a test between the making of the context and its destruction: a
    panic ends it. *)
Fixpoint with_context (body next : prog) : prog :=
  match body with
  | Stop => Do (XDrop false) (fun r =>
      match r with Abort => Stop | _ => Do XUnlockU (fun _ => next) end)
  | Do o k => Do o (fun r =>
      match r with
      | Ret _ => with_context (k r) next
      | Panic _ => Do (XDrop true) (fun r' =>
          match r' with Abort => Stop | _ => Do XUnlockU (fun _ => next) end)
      | Abort => Stop
      end)
  end.

(** A test: its data before it begins, and its body.  As in synchronization.rs it locks
    the mutex, makes the context, and drops both at its end. *)
Definition test : Type := (U * prog)%type.
Definition run_test (x : test) (next : prog) : prog :=
  Do XLockU (fun _ => Do (XSetup (fst x)) (fun _ => with_context (snd x) next)).
Definition run_tests (l : list test) : prog := fold_right run_test Stop l.

(** A body only uses the mock function. *)
Fixpoint body_ok (p : prog) : Prop :=
  match p with
  | Stop => True
  | Do o k =>
      match o with XLockU | XUnlockU | XSetup _ => False | _ => True end /\ forall r, body_ok (k r)
  end.

(** What a test sees when it is the only one of the process. *)
Definition alone (c : cfg) sh (ms : list (cmeth V U)) (t : nat) (x : test) : list answer :=
  run_prog c sh ((ms, false, fst x, fun _ => 0), sequence_new) t (run_test x Stop).

(** The program takes the mutex only when it does not have it, gives it up only when it
    has it, and has not got it in the end; unless it aborts.  [held]: it has it now. *)
Fixpoint brackets (held : bool) (p : prog) : Prop :=
  match p with
  | Stop => held = false
  | Do o k =>
      match o with
      | XLockU => held = false /\ forall r, r <> Abort -> brackets true (k r)
      | XUnlockU => held = true /\ forall r, r <> Abort -> brackets false (k r)
      | _ => forall r, r <> Abort -> brackets held (k r)
      end
  end.

(** The program calls, and sets expectations on, the first [n] instances only. *)
Fixpoint existing (n : nat) (p : prog) : Prop :=
  match p with
  | Stop => True
  | Do o k =>
      match o with XCall x => (cc_m x < n)%nat | XExpect m _ => (m < n)%nat | _ => True end /\
      forall r, r <> Abort -> existing n (k r)
  end.

(** The process aborted. *)
Definition aborted tr : Prop := exists t o, In (XReturn t o Abort) tr.

(** What the operations of thread [t] returned. *)
Fixpoint returns_of (t : nat) tr : list answer :=
  match tr with
  | [] => []
  | XReturn t' _ r :: tr' => if Nat.eqb t' t then r :: returns_of t tr' else returns_of t tr'
  | _ :: tr' => returns_of t tr'
  end.

(** ** The operations of [Mock.v]

    The instances [ms] have the expectations that the store [sm] of the function [md]
    keeps for the keys 0, 1, .. (for a function that is not generic there is one). *)
Definition same_store (md : mdecl V) (g : nat) (ms : list (cmeth V U)) (sm : smutex V U) : Prop :=
  match sm_slot sm with SPlain _ => List.length ms = 1%nat | SGeneric _ => True end /\
  forall k cm, nth_error ms k = Some cm -> cm = CMeth (md_me md) (Some g) (slot_get (sm_slot sm) k).

(** The two iteration orders agree. *)
Definition same_order sh (shf : shuffle V U) (ms : list (cmeth V U)) (sm : smutex V U) : Prop :=
  (forall cm, In cm (sh ms) -> In cm ms) /\
  List.concat (map cm_exps (sh ms)) =
    match sm_slot sm with SPlain es => es | SGeneric st => List.concat (map snd (shf st)) end.

(** An operation as in [Mock.v]. *)
Definition mock_op (c : cfg) (md : mdecl V) (shf : shuffle V U) (sm : smutex V U) (q : seqtab) (w : world U)
    (o : xop) : smutex V U * seqtab * world U * answer :=
  match o with
  | XCall x =>
      let '(sm', w', r) := static_call c md sm (cc_m x) (cc_args x) w in
      (sm', q, w', let? v := r in Ret (Some v))
  | XExpect m l => let '(sm', q', r) := context_expect c md sm m l q w in (sm', q', w, unit_res r)
  | XCheckpoint => let (sm', r) := static_checkpoint c md shf sm false in (sm', q, w, unit_res r)
  | XDrop b => let (sm', r) := context_drop c md shf sm b in (sm', q, w, unit_res r)
  | XLockU | XUnlockU => (sm, q, w, Ret None)
  | XSetup u => (sm, sequence_new, World u (fun _ => 0) (w_thread w) false, Ret None)
  end.
End ContextsSpec.

Arguments test : clear implicits.
Arguments xstate : clear implicits.
