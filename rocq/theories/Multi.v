(** * Multi: guards of several static functions

    A test may keep the guards that [ctx.expect()] returned for several functions at once:

      let mut a = ctx_f.expect();
      let mut b = ctx_g.expect();
      a.times(2);
      b.returning(h);
      drop(a);
      ...

    [Guards.v] has one function.  Here there are as many as in [Mock.v], each with a store and a lock.
    Simplified: an operation that takes and releases one lock itself (a call, a checkpoint, the drop of a
    context) is one step, which is C77 for one function; return closures and predicates do not use
    mocks (see C71, C85); a panic is given to the program, which drops the guards that go out of
    scope. *)

From Coq Require Import NArith List Bool String.
From Verif Require Import Base Times Expect Mock.
Import ListNotations.
Open Scope N_scope.

Section Multi.
Context {V U : Type}.

(** Operations on a static function that don't leave a guard behind: calls (mock_function.rs 539-562),
    [checkpoint] (1606-1617) and [drop] (1632-1648) of contexts; and the user's own code. *)
Inductive hop : Type :=
| HCall (s : nat) (ky : key) (args : list V)
| HCheckpoint (s : nat)
| HCtxDrop (s : nat)
| HUser (f : U -> U).

(** The operation of [Mock.v] that it is: mock_function.rs 539-562, 1606-1617, 1632-1648. *)
Definition op_of (o : hop) : op V U :=
  match o with
  | HCall s ky args => OStaticCall s ky args
  | HCheckpoint s => OCtxCheckpoint s
  | HCtxDrop s => OCtxDrop s
  | HUser f => OUser f
  end.

(** The function whose lock it takes: mock_function.rs 549-552, 1611-1616, 1642-1644. *)
Definition lock_of (o : hop) : option nat :=
  match o with HCall s _ _ | HCheckpoint s | HCtxDrop s => Some s | HUser _ => None end.

(** What a thread does next: an operation; [expect] (mock_function.rs 1621-1625); a setter of the
    guard of function [s] (1243-1407); the end of that guard's scope, by a panic or not (the
    [MutexGuard] of 1453-1456, 1513-1517). *)
Inductive hprog : Type :=
| HStop
| HDo (o : hop) (k : res (option V) -> hprog)
| HExpect (s : nat) (ky : key) (k : res (option V) -> hprog)
| HSet (s : nat) (st : setter V U) (k : res (option V) -> hprog)
| HDrop (s : nat) (unwinding : bool) (k : hprog).

(** The guards of a thread (mock_function.rs 1453-1456, 1513-1517): the function, the instance and
    the position [i] of the expectation. *)
Definition held : Type := list (nat * (key * nat)).
(** The guards and the rest of the program.  mock_function.rs 1453-1456, 1513-1517. *)
Record hthread : Type := HThread { ht_held : held; ht_prog : hprog }.

(** [hs_own]: the thread that has locked the function's store (the mutex of mock_function.rs
    1434-1439, 1505-1508). *)
Record hsys : Type := HSys {
  hs_sys : sys V U;
  hs_own : nat -> option nat;
  hs_threads : list hthread
}.

(** What can be seen: mock_function.rs 539-562, 1243-1407, 1604-1648. *)
Inductive hevent : Type :=
| EvDo (t : nat) (o : hop) (r : res (option V))
| EvRefused (t s : nat)
| EvGuard (t s : nat) (ky : key)
| EvSet (t s : nat) (st : setter V U)
| EvGone (t s : nat) (unwinding : bool).

(** The guard for function [s] among those of a thread: a variable of the type of mock_function.rs
    1453-1456, 1513-1517. *)
Fixpoint guard_for (s : nat) (l : held) : option (key * nat) :=
  match l with
  | [] => None
  | (s', x) :: l' => if Nat.eqb s' s then Some x else guard_for s l'
  end.
(** The guards but that one, whose scope has ended: mock_function.rs 1453-1456, 1513-1517. *)
Definition without (s : nat) (l : held) : held := filter (fun x => negb (Nat.eqb (fst x) s)) l.

(** Update of a component: the mutex of mock_function.rs 1434-1439, 1505-1508. *)
Definition put_own (own : nat -> option nat) (s : nat) (o : option nat) : nat -> option nat :=
  fun s' => if Nat.eqb s' s then o else own s'.
(** Update of a component: the store of mock_function.rs 1434-1439, 1505-1508. *)
Definition put_stat (y : sys V U) (s : nat) (md : mdecl V) (sm : smutex V U) : sys V U :=
  set_stats y (set_nth (y_stats y) s (md, sm)).
(** The thread that does the operation ([std::thread::current] in mock_function.rs 1844-1859), not
    panicking. *)
Definition on_thread (y : sys V U) (t : nat) : sys V U :=
  set_world y (World (w_user (y_world y)) (w_levels (y_world y)) t false).
(** [Mutex::lock] doesn't wait: mock_function.rs 1612-1614, 1624. *)
Definition unlocked (own : nat -> option nat) (s : option nat) : bool :=
  match s with None => true | Some s => match own s with None => true | Some _ => false end end.

Section Steps.
Context (c : cfg) (sh : shuffle V U).

(** One step of a thread; [None] if it waits, or is done, or uses a guard that it hasn't, which the
    borrow checker excludes.  mock_function.rs 539-562, 1243-1407, 1459-1470, 1519-1539, 1604-1648. *)
Definition htstep (y : sys V U) (own : nat -> option nat) (t : nat) (th : hthread)
  : option (sys V U * (nat -> option nat) * hthread * hevent) :=
  let gs := ht_held th in
  match ht_prog th with
  | HStop => None
  | HDo o k =>
      if unlocked own (lock_of o) then
        let (y', r) := step c sh (on_thread y t) (op_of o) in
        Some (y', own, HThread gs (k r), EvDo t o r)
      else None
  | HExpect s ky k =>
      match nth_error (y_stats y) s with
      | None => None
      | Some (md, sm) =>
          if unlocked own (Some s) then
            if sm_poison sm then Some (y, own, HThread gs (k (Panic MPoison)), EvRefused t s)
            else
              let es := slot_get (sm_slot sm) ky in
              let es' := es ++ [expectation_default c (md_me md) (md_kind md)] in
              Some (put_stat y s md (SMutex false (slot_put (sm_slot sm) ky es')), put_own own s (Some t),
                    HThread ((s, (ky, List.length es)) :: gs) (k (Ret None)), EvGuard t s ky)
          else None
      end
  | HSet s st k =>
      match guard_for s gs, nth_error (y_stats y) s with
      | Some (ky, i), Some (md, sm) =>
          match nth_error (slot_get (sm_slot sm) ky) i with
          | None => None
          | Some e =>
              let '(e', q, r) := apply_setter c t st e (y_seqs y) in
              let es' := set_nth (slot_get (sm_slot sm) ky) i e' in
              let y1 := put_stat y s md (SMutex (sm_poison sm) (slot_put (sm_slot sm) ky es')) in
              Some (Sys (y_world y1) q (y_objs y1) (y_stats y1), own, HThread gs (k (unit_res r)), EvSet t s st)
          end
      | _, _ => None
      end
  | HDrop s b k =>
      match guard_for s gs, nth_error (y_stats y) s with
      | Some _, Some (md, sm) =>
          Some (put_stat y s md (SMutex (sm_poison sm || b) (sm_slot sm)), put_own own s None,
                HThread (without s gs) k, EvGone t s b)
      | _, _ => None
      end
  end.

(** Interleaving of the steps of the functions of mock_function.rs 539-562, 1243-1407, 1604-1648. *)
Definition hstep (s : hsys) (t : nat) : hsys * list hevent :=
  match nth_error (hs_threads s) t with
  | None => (s, [])
  | Some th =>
      match htstep (hs_sys s) (hs_own s) t th with
      | None => (s, [])
      | Some (y, own, th', ev) => (HSys y own (set_nth (hs_threads s) t th'), [ev])
      end
  end.

(** The same for a whole schedule: mock_function.rs 539-562, 1243-1407, 1604-1648. *)
Fixpoint hrun (s : hsys) (sched : list nat) : hsys * list hevent :=
  match sched with
  | [] => (s, [])
  | t :: sched' =>
      let (s1, ev1) := hstep s t in
      let (s2, ev2) := hrun s1 sched' in
      (s2, ev1 ++ ev2)
  end.
End Steps.

(** Threads that are about to execute the given programs; nobody has a guard.  The state in which
    the functions of mock_function.rs 539-562, 1604-1648 begin. *)
Definition hstart (y : sys V U) (progs : list hprog) : hsys :=
  HSys y (fun _ => None) (map (HThread []) progs).

(** [checkpoint()] of a module: one function after the other, mock_item.rs 185, 190-194.  [i]: the
    next function, [n]: how many are left. *)
Fixpoint module_checkpoint_prog (i n : nat) (k : res (option V) -> hprog) : hprog :=
  match n with
  | O => k (Ret None)
  | S n' => HDo (HCheckpoint i)
              (fun r => match r with Ret _ => module_checkpoint_prog (S i) n' k | _ => k r end)
  end.
End Multi.

Arguments hop : clear implicits.
Arguments hprog : clear implicits.
Arguments hthread : clear implicits.
Arguments hsys : clear implicits.
Arguments hevent : clear implicits.
