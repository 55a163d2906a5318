(** * Contexts: several threads and the contexts of one static function

    Threads that call a static mock function, set expectations on it through
    [Context] objects, checkpoint and drop them: mock_function.rs 539-562, 1243-1490
    and 1555-1652, cut into atomic steps.  Calls are those of [Conc.v].

    - A step is one acquisition of a mutex, one builder call, one piece of a call, the
      removal of the expectations or their destruction.
    - [g] is the mutex of the function's store.  All instances of a generic function
      share it; an instance that nobody has used yet is one without expectations.
    - Simplified: as in [Conc.v].  The guard that [expect] returns lives until the
      end of the builder chain.
    - The test's own mutex, by which the documentation (lib.rs 844-852, examples/synchronization.rs) advises to keep
      tests apart, is [x_mutex]; whoever locks it ignores that it may be poisoned. *)

From Coq Require Import NArith List Bool String.
From Verif Require Import Base Times Expect Conc.
Import ListNotations.
Open Scope N_scope.

Section Contexts.
Context {V U : Type}.

(** What an operation returns; [Ret None] is [()].  mock_function.rs 474-578,
    1604-1648. *)
Definition answer : Type := res (option V).

(** One operation of a test.  mock_function.rs 474-578 (calls), 1621-1625
    ([expect]), 1609-1617 ([checkpoint]), 1632-1648 ([drop]); the last three are the
    test's own (mockall/src/lib.rs 846-852 advises synchronisation). *)
Inductive xop : Type :=
| XCall (x : ccall V)                            (* MockX::foo(..) *)
| XExpect (m : nat) (l : list (setter V U))      (* ctx.expect().. for instance [m] *)
| XCheckpoint                                    (* ctx.checkpoint() *)
| XDrop (unwinding : bool)                       (* drop(ctx) *)
| XLockU                                         (* MTX.lock() *)
| XUnlockU                                       (* drop the guard of MTX *)
| XSetup (u : U).                                (* new sequences and data of the test *)

(** What a thread does next may depend on what the operations before returned.  The
    test; it only uses the operations of mock_function.rs 474-578, 1604-1648. *)
Inductive prog : Type :=
| Stop
| Do (o : xop) (k : answer -> prog).

(** Where a thread is inside an operation.  The numbers are lines of
    mock_function.rs, 1243-1648. *)
Inductive xpc : Type :=
| QCall (p : pc V U)
| QLockE (m : nat) (l : list (setter V U))       (* 1624: lock for [expect] *)
| QSet (m : nat) (l : list (setter V U))         (* 1243-1404: the builder calls to come *)
| QLockC                                         (* 1613: lock for [checkpoint] *)
| QClear                                         (* 1637: [clear_poison] *)
| QLockD                                         (* 1641: lock, but ignore the error *)
| QDrain (unwinding : bool)                      (* 1615-1616, 1643: [checkpoint], lock held *)
| QVec (l : list (cmeth V U)) (unwinding : bool) (* 1617: drop what was drained *)
| QLockU
| QUnlockU
| QSetup (u : U).

(** std's threads, executing the operations of mock_function.rs 474-578, 1604-1648.
    *)
Inductive xthread : Type :=
| TIdle (p : prog)
| TIn (o : xop) (k : answer -> prog) (q : xpc).

(** [x_sys]: the store and everything that calls use (its threads are not used);
    [x_seqs]: the sequences of the test; [x_mutex]: who holds the test's own mutex.
    The static of mock_function.rs 1434-1439, 1505-1508; sequences of lib.rs
    1766-1769. *)
Record xsys : Type := XSys {
  x_sys : csys V U;
  x_seqs : seqtab;
  x_mutex : option nat;
  x_threads : list xthread
}.

(** What happens to the store: the pieces that operations consist of.
    mock_function.rs 549-560, 1611-1625, 1632-1648. *)
Inductive atom : Type :=
| ACall (x : ccall V)
| AExpect (m : nat) (l : list (setter V U))
| ACheckpoint
| AClear                                         (* the poison flag was set, and is cleared *)
| ADrain
| ALockU
| AUnlockU
| ASetup (u : U).

(** What can be seen of the operations of mock_function.rs 474-578, 1604-1648. *)
Inductive xevent : Type :=
| XStart (t : nat) (o : xop)                     (* the operation begins *)
| XAtom (t : nat) (a : atom)                     (* it gets to the store *)
| XReturn (t : nat) (o : xop) (r : answer).      (* it returns or panics *)

(** The first statement of an operation: mock_function.rs 549, 1613, 1624,
    1635-1641. *)
Definition first (o : xop) : xpc :=
  match o with
  | XCall x => QCall (PLockS x)
  | XExpect m l => QLockE m l
  | XCheckpoint | XDrop false => QLockC
  | XDrop true => QClear
  | XLockU => QLockU
  | XUnlockU => QUnlockU
  | XSetup u => QSetup u
  end.

(** Update of a component: the store of mock_function.rs 1434-1439, 1505-1508. *)
Definition put_meths (s : csys V U) (ms : list (cmeth V U)) : csys V U :=
  CSys (cs_user s) (cs_levels s) ms (cs_ml s) (cs_rl s) (cs_sl s) (cs_sp s) (cs_threads s).

(** [Expectations::expect] (1216-1221, 2535-2542): a new expectation at the end. *)
Definition push_exp (c : cfg) (cm : cmeth V U) : cmeth V U :=
  CMeth (cm_me cm) (cm_mutex cm) (cm_exps cm ++ [expectation_default c (cm_me cm) KStatic]).

(** [checkpoint] (1210-1213, 2471-2476) takes all expectations away. *)
Definition emptied (cm : cmeth V U) : cmeth V U := CMeth (cm_me cm) (cm_mutex cm) [].

(** Dropping the drained expectations, as in [drop_many] of [Mock.v].
    mock_function.rs 1613-1617. *)
Fixpoint drop_store (c : cfg) (l : list (cmeth V U)) (unwinding : bool) : res unit :=
  match l with
  | [] => Ret tt
  | cm :: l' =>
      match drop_exps c (cm_me cm) (cm_exps cm) unwinding with
      | Ret _ => drop_store c l' unwinding
      | Abort => Abort
      | Panic m =>
          match drop_store c l' true with
          | Ret _ => Panic m
          | _ => Abort
          end
      end
  end.

(** An operation that returns [()]: mock_function.rs 1611-1617, 1633. *)
Definition unit_answer (r : res unit) : answer := let? x := r in Ret None.

(** The result of a call among the events of [Conc.v], and its way to the store.
    mock_function.rs 549-560. *)
Fixpoint call_answer (ev : list (event V)) : option answer :=
  match ev with
  | [] => None
  | EvReturn _ _ r :: _ => Some (let? v := r in Ret (Some v))
  | _ :: ev' => call_answer ev'
  end.
(** The acquisition of the store's mutex by a call: mock_function.rs 549. *)
Fixpoint call_atoms (ev : list (event V)) : list (nat * atom) :=
  match ev with
  | [] => []
  | EvLocked t x :: ev' => (t, ACall x) :: call_atoms ev'
  | _ :: ev' => call_atoms ev'
  end.

Section Steps.
Context (c : cfg) (g : nat) (sh : list (cmeth V U) -> list (cmeth V U)).
(** [sh]: the order in which the [HashMap] of a generic function drains. *)

(** One step inside an operation. The result: the state, but for the thread; where
    the thread is then, or what the operation returns; the pieces done. A blocked
    thread stays where it is, as does one that names an instance that does not
    exist.  The lines are beside the cases; mock_function.rs 539-562, 1243-1404,
    1604-1648. *)
Definition qstep (s : xsys) (t : nat) (q : xpc) : xsys * (xpc + answer) * list (nat * atom) :=
  let y := x_sys s in
  let put y' := XSys y' (x_seqs s) (x_mutex s) (x_threads s) in
  match q with
  | QCall p =>
      match pc_call p with
      | None => (s, inl q, [])
      | Some x =>
          match nth_error (cs_meths y) (cc_m x) with
          | None => (s, inl q, [])
          | Some cm =>
              let '(y', p', ev) := pstep c y t cm p in
              (put y', match call_answer ev with Some r => inr r | None => inl (QCall p') end,
               call_atoms ev)
          end
      end
  | QLockE m l =>
      (* 1621-1625, 1464-1470, 1525-1539 *)
      match nth_error (cs_meths y) m with
      | None => (s, inl q, [])
      | Some cm =>
          if free (cs_sl y g) then
            if cs_sp y g then (s, inr (Panic MPoison), [(t, AExpect m l)])
            else (put (put_sl (put_meths y (set_nth (cs_meths y) m (push_exp c cm))) g (Some t) false),
                  inl (QSet m l), [(t, AExpect m l)])
          else (s, inl q, [])
      end
  | QSet m [] => (put (put_sl y g None false), inr (Ret None), [])
  | QSet m (st :: l) =>
      let i := Nat.pred (List.length (cexps y m)) in
      match cexp y m i with
      | None => (s, inl q, [])
      | Some e =>
          let '(e', seqs, r) := apply_setter c t st e (x_seqs s) in
          let y' := put_exp y m i e' in
          let put' y'' := XSys y'' seqs (x_mutex s) (x_threads s) in
          match r with
          | Ret _ => (put' y', inl (QSet m l), [])
          | Panic msg => (put' (put_sl y' g None true), inr (Panic msg), [])
          | Abort => (put' (put_sl y' g None false), inr Abort, [])
          end
      end
  | QLockC =>
      if free (cs_sl y g) then
        if cs_sp y g then (s, inr (Panic MPoison), [(t, ACheckpoint)])
        else (put (put_sl y g (Some t) false), inl (QDrain false), [(t, ACheckpoint)])
      else (s, inl q, [])
  | QClear =>
      (put (put_sl y g (cs_sl y g) false), inl QLockD, if cs_sp y g then [(t, AClear)] else [])
  | QLockD =>
      if free (cs_sl y g) then
        if cs_sp y g then (s, inr (Ret None), [(t, ADrain)])
        else (put (put_sl y g (Some t) false), inl (QDrain true), [(t, ADrain)])
      else (s, inl q, [])
  | QDrain b =>
      (put (put_sl (put_meths y (map emptied (cs_meths y))) g None false),
       inl (QVec (sh (cs_meths y)) b), [])
  | QVec l b => (s, inr (unit_answer (drop_store c l b)), [])
  | QLockU =>
      match x_mutex s with
      | None => (XSys y (x_seqs s) (Some t) (x_threads s), inr (Ret None), [(t, ALockU)])
      | Some _ => (s, inl q, [])
      end
  | QUnlockU => (XSys y (x_seqs s) None (x_threads s), inr (Ret None), [(t, AUnlockU)])
  | QSetup u =>
      (XSys (put_world y (World u (fun _ => 0) t false)) sequence_new (x_mutex s) (x_threads s),
       inr (Ret None), [(t, ASetup u)])
  end.

(** Update of a component: std's threads; mock_function.rs 474-578, 1604-1648. *)
Definition put_xthread (s : xsys) (t : nat) (th : xthread) : xsys :=
  XSys (x_sys s) (x_seqs s) (x_mutex s) (set_nth (x_threads s) t th).

(** One step of thread [t].  mock_function.rs 474-578, 1604-1648. *)
Definition xstep (s : xsys) (t : nat) : xsys * list xevent :=
  match nth_error (x_threads s) t with
  | None | Some (TIdle Stop) => (s, [])
  | Some (TIdle (Do o k)) => (put_xthread s t (TIn o k (first o)), [XStart t o])
  | Some (TIn o k q) =>
      let '(s', out, l) := qstep s t q in
      let ev := map (fun ta => XAtom (fst ta) (snd ta)) l in
      match out with
      | inl q' => (put_xthread s' t (TIn o k q'), ev)
      | inr r => (put_xthread s' t (TIdle (k r)), ev ++ [XReturn t o r])
      end
  end.

(** Interleaving; no lines of its own, [qstep] cites mock_function.rs 539-562,
    1604-1648. *)
Fixpoint xrun (s : xsys) (sched : list nat) : xsys * list xevent :=
  match sched with
  | [] => (s, [])
  | t :: sched' =>
      let (s1, ev1) := xstep s t in
      let (s2, ev2) := xrun s1 sched' in
      (s2, ev1 ++ ev2)
  end.
End Steps.

(** Threads that are about to execute the given programs.  The state in which the
    operations of mock_function.rs 474-578, 1604-1648 begin. *)
Definition xstart (u : U) (l : levels) (q : seqtab) (ms : list (cmeth V U)) (poison : bool)
    (progs : list prog) : xsys :=
  XSys (CSys u l ms (fun _ _ => None) (fun _ _ => None) (fun _ => None) (fun _ => poison) [])
       q None (map TIdle progs).
End Contexts.

Arguments xop : clear implicits.
Arguments prog : clear implicits.
Arguments xpc : clear implicits.
Arguments xthread : clear implicits.
Arguments xsys : clear implicits.
Arguments atom : clear implicits.
Arguments xevent : clear implicits.
Arguments answer : clear implicits.
