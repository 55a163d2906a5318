(** * Guards: expectations of static functions that are kept in variables

    [ctx.expect()] returns an [ExpectationGuard], which holds the lock of the function's store
    until it is dropped.  In [Contexts.v] this is at the end of a builder chain; here the test may
    keep the guard in a variable, and do other things before it drops it:

      let mut g = ctx.expect();
      g.times(2);
      ...
      g.returning(f);
      drop(g);

    Everything else is as in [Contexts.v]. *)

From Coq Require Import NArith List Bool String.
From Verif Require Import Base Times Expect Conc Contexts.
Import ListNotations.
Open Scope N_scope.

Section Guards.
Context {V U : Type}.

(** What a thread does next.  The operations of [Contexts.v]; and [expect] (mock_function.rs
    1621-1625), the setters of the guard (1243-1407), code of the user that has nothing to do with
    mockall, and the end of the guard's scope, while panicking or not (1440-1443, 1513-1517: the
    [MutexGuard] in it). *)
Inductive gprog : Type :=
| GStop
| GDo (o : xop V U) (k : answer V -> gprog)
| GExpect (m : nat) (k : answer V -> gprog)
| GSet (st : setter V U) (k : answer V -> gprog)
| GUser (f : U -> U) (k : gprog)
| GDrop (unwinding : bool) (k : gprog).

(** The guard of a thread: the instance of the function and the position of the expectation,
    [i] of [ExpectationGuard] (mock_function.rs 1453-1456, 1513-1517).  The thread is between two
    operations, in one of [Contexts.v], or waits for the lock in [expect] (1624). *)
Inductive gthread : Type :=
| GIdle (gd : option (nat * nat)) (p : gprog)
| GIn (gd : option (nat * nat)) (o : xop V U) (k : answer V -> gprog) (q : xpc V U)
| GLock (gd : option (nat * nat)) (m : nat) (k : answer V -> gprog).

(** [g_x]: as in [Contexts.v], without its threads.  The static of mock_function.rs 1434-1439,
    1505-1508. *)
Record gsys : Type := GSys {
  g_x : xsys V U;
  g_threads : list gthread
}.

(** What can be seen: pieces of the operations of [Contexts.v] and their results, new guards,
    setters, and the ends of guards.  mock_function.rs 474-578, 1243-1407, 1604-1648. *)
Inductive gevent : Type :=
| GvAtom (t : nat) (a : atom V U)
| GvReturn (t : nat) (o : xop V U) (r : answer V)
| GvGuard (t m i : nat)
| GvSet (t : nat) (st : setter V U)
| GvGone (t : nat) (panicking : bool).

Section Steps.
Context (c : cfg) (g : nat) (sh : list (cmeth V U) -> list (cmeth V U)).

(** Update of a component: the store of mock_function.rs 1434-1439. *)
Definition put_sys (s : xsys V U) (y : csys V U) (q : seqtab) : xsys V U :=
  XSys y q (x_mutex s) (x_threads s).

(** One step of a thread: the state, where the thread is then, and what can be seen.  A blocked
    thread stays where it is, as does one that uses a guard it doesn't have, which the borrow
    checker excludes.  mock_function.rs 1243-1407, 1459-1476, 1519-1541, 1621-1625. *)
Definition gtstep (s : xsys V U) (t : nat) (th : gthread) : xsys V U * gthread * list gevent :=
  let y := x_sys s in
  match th with
  | GIdle gd (GDo o k) => (s, GIn gd o k (first o), [])
  | GIdle gd (GExpect m k) => (s, GLock gd m k, [])
  | GIdle gd (GUser f k) =>
      (put_sys s (put_world y (World (f (cs_user y)) (cs_levels y) t false)) (x_seqs s), GIdle gd k, [])
  | GIdle (Some (m, i)) (GSet st k) =>
      match cexp y m i with
      | None => (s, th, [])
      | Some e =>
          let '(e', seqs, r) := apply_setter c t st e (x_seqs s) in
          let y' := put_exp y m i e' in
          match r with
          | Ret _ => (put_sys s y' seqs, GIdle (Some (m, i)) (k (Ret None)), [GvSet t st])
          | Panic msg => (put_sys s (put_sl y' g None true) seqs, GIdle None (k (Panic msg)), [GvSet t st; GvGone t true])
          | Abort => (put_sys s (put_sl y' g None false) seqs, GIdle None (k Abort), [GvSet t st; GvGone t false])
          end
      end
  | GIdle (Some _) (GDrop b k) => (put_sys s (put_sl y g None b) (x_seqs s), GIdle None k, [GvGone t b])
  | GIdle None (GSet _ _) | GIdle None (GDrop _ _) | GIdle _ GStop => (s, th, [])
  | GLock gd m k =>
      match nth_error (cs_meths y) m with
      | None => (s, th, [])
      | Some cm =>
          if free (cs_sl y g) then
            if cs_sp y g then (s, GIdle gd (k (Panic MPoison)), [GvAtom t (AExpect m [])])
            else (put_sys s (put_sl (put_meths y (set_nth (cs_meths y) m (push_exp c cm))) g (Some t) false) (x_seqs s),
                  GIdle (Some (m, List.length (cm_exps cm))) (k (Ret None)),
                  [GvAtom t (AExpect m []); GvGuard t m (List.length (cm_exps cm))])
          else (s, th, [])
      end
  | GIn gd o k q =>
      let '(s', out, l) := qstep c g sh s t q in
      let ev := map (fun ta => GvAtom (fst ta) (snd ta)) l in
      match out with
      | inl q' => (s', GIn gd o k q', ev)
      | inr r => (s', GIdle gd (k r), ev ++ [GvReturn t o r])
      end
  end.

(** Interleaving of the steps of the functions of mock_function.rs 474-578, 1243-1407, 1604-1648. *)
Definition gstep (s : gsys) (t : nat) : gsys * list gevent :=
  match nth_error (g_threads s) t with
  | None => (s, [])
  | Some th =>
      let '(x, th', ev) := gtstep (g_x s) t th in
      (GSys x (set_nth (g_threads s) t th'), ev)
  end.

(** The same for a whole schedule: mock_function.rs 474-578, 1243-1407, 1604-1648. *)
Fixpoint grun (s : gsys) (sched : list nat) : gsys * list gevent :=
  match sched with
  | [] => (s, [])
  | t :: sched' =>
      let (s1, ev1) := gstep s t in
      let (s2, ev2) := grun s1 sched' in
      (s2, ev1 ++ ev2)
  end.
End Steps.

(** Threads that are about to execute the given programs.  The state in which the operations of
    mock_function.rs 474-578, 1604-1648 begin. *)
Definition gstart (u : U) (l : levels) (q : seqtab) (ms : list (cmeth V U)) (poison : bool)
    (progs : list gprog) : gsys :=
  GSys (xstart u l q ms poison []) (map (GIdle None) progs).
End Guards.

Arguments gprog : clear implicits.
Arguments gthread : clear implicits.
Arguments gsys : clear implicits.
Arguments gevent : clear implicits.
