(** * Nest: closures that call mocks

    The return closures of [Expect.v] run in one go.  Here a return closure may call
    mock functions, also the one that runs it.  While it runs, the mutex of its own
    [Rfunc] is held (mock_function.rs 2184-2195), and, for a static method or a free
    function, the mutex of the store (539-560).  [std::sync::Mutex] is not reentrant:
    a thread that locks a mutex which it holds does not go on.

    - The steps of a call are those of [Conc.v]; a thread is a stack of calls.
    - Simplified: matchers, and the closures of methods that return [&mut T], call no
      mocks. *)

From Coq Require Import NArith List Bool String.
From Verif Require Import Base Times Expect Conc.
Import ListNotations.

Section Nest.
Context (V U : Type).

(** A call that a closure or a test makes.  mock_function.rs 474-578. *)
Record ncall : Type := NCall { nc_m : nat; nc_args : list V }.

(** What a closure has come to: a value, or a call of a mock together with what it
    will do with the outcome of the call. The outcome may be a panic: then the
    closure can catch it or let it pass.  The closures of mock_function.rs
    1925-1944. *)
Inductive rval : Type :=
| RVal (v : V)
| RReq (y : ncall) (k : res V -> U -> U * res rval).

(** The arguments of a nested call: mock_function.rs 474-578. *)
Definition to_call (y : ncall) : ccall rval := CCall (nc_m y) (map RVal (nc_args y)).

(** The outcome of a call. No call ends with a request (see [nstep]).
    mock_function.rs 549-576. *)
Definition to_val (r : res rval) : res V :=
  let? v := r in match v with RVal v => Ret v | RReq _ _ => Abort end.

(** A thread: the calls that its test still makes, the calls that it is in,
    innermost first, and the outcomes of the calls made by the test.  std's threads;
    mock_function.rs 474-578. *)
Record nthread : Type := NThread {
  nt_todo : list ncall;
  nt_stack : list (pc rval U);
  nt_out : list (res V)
}.

(** The shared state is that of [Conc.v]; its [cs_threads] are not used.
    mock_function.rs 1434-1439, 1505-1508, 2175-2178. *)
Record nsys : Type := NSys { ns_base : csys rval U; ns_threads : list nthread }.

(** The beginning of a call (mock_function.rs 539-576).  A call of a method that does
    not exist is a program that does not compile. *)
Definition enter (b : csys rval U) (y : ncall) : option (pc rval U) :=
  match nth_error (cs_meths b) (nc_m y) with
  | None => None
  | Some cm => Some (match cm_mutex cm with
                     | Some _ => PLockS (to_call y)
                     | None => PLockM (to_call y) 0
                     end)
  end.

(** The innermost call has ended with [r]: the closure that made it goes on, or the
    test does.  Return from mock_function.rs 549-576 into the closure called at
    1955-1981. *)
Definition resume (b : csys rval U) (below : list (pc rval U)) (out : list (res V)) (r : res V)
  : csys rval U * list (pc rval U) * list (res V) :=
  match below with
  | PExit x i (Ret (RReq _ k)) :: rest =>
      let (u, r') := k r (cs_user b) in
      (put_world b (World u (cs_levels b) 0 false), PExit x i r' :: rest, out)
  | _ => (b, below, out ++ [r])
  end.

(** How the innermost call ended, if it did.  mock_function.rs 549-576. *)
Fixpoint ret_of (ev : list (event rval)) : option (res rval) :=
  match ev with
  | [] => None
  | EvReturn _ _ r :: _ => Some r
  | _ :: ev' => ret_of ev'
  end.

(** One step of thread [t].  mock_function.rs 474-578; the closure runs at
    1955-1981. *)
Definition tstep (c : cfg) (b : csys rval U) (t : nat) (th : nthread) : csys rval U * nthread :=
  let (todo, stack, out) := th in
  match stack with
  | [] =>
      match todo with
      | [] => (b, th)
      | y :: rest =>
          match enter b y with
          | None => (b, th)
          | Some p => (b, NThread rest [p] out)
          end
      end
  | p :: below =>
      match p with
      | PExit x i (Ret (RReq y k)) =>
          (* the closure calls a mock *)
          match enter b y with
          | None => (b, th)
          | Some p' => (b, NThread todo (p' :: stack) out)
          end
      | _ =>
          match pc_call p with
          | None => (b, th)
          | Some x =>
              match nth_error (cs_meths b) (cc_m x) with
              | None => (b, th)
              | Some cm =>
                  let '(b', p', ev) := pstep c b t cm p in
                  match ret_of ev with
                  | None => (b', NThread todo (p' :: below) out)
                  | Some r =>
                      let '(b2, stack', out') := resume b' below out (to_val r) in
                      (b2, NThread todo stack' out')
                  end
              end
          end
      end
  end.

(** One step of one thread: mock_function.rs 474-578. *)
Definition nstep (c : cfg) (s : nsys) (t : nat) : nsys :=
  match nth_error (ns_threads s) t with
  | None => s
  | Some th =>
      let (b, th') := tstep c (ns_base s) t th in
      NSys b (set_nth (ns_threads s) t th')
  end.

(** Interleaving; no lines of its own, [tstep] cites mock_function.rs 474-578. *)
Fixpoint nrun (c : cfg) (s : nsys) (sched : list nat) : nsys :=
  match sched with
  | [] => s
  | t :: sched' => nrun c (nstep c s t) sched'
  end.

(** The state in which the calls of mock_function.rs 474-578 are made. *)
Definition nstart (u : U) (l : levels) (ms : list (cmeth rval U)) (sp : nat -> bool)
    (progs : list (list ncall)) : nsys :=
  NSys (cstart u l ms sp []) (map (fun p => NThread p [] []) progs).

End Nest.

Arguments NCall {V}.
Arguments nc_m {V}.
Arguments nc_args {V}.
Arguments RVal {V U}.
Arguments RReq {V U}.
Arguments NThread {V U}.
Arguments nt_todo {V U}.
Arguments nt_stack {V U}.
Arguments nt_out {V U}.
Arguments NSys {V U}.
Arguments ns_base {V U}.
Arguments ns_threads {V U}.
Arguments to_call {V U}.
Arguments to_val {V U}.
Arguments enter {V U}.
Arguments resume {V U}.
Arguments ret_of {V U}.
Arguments tstep {V U}.
Arguments nstep {V U}.
Arguments nrun {V U}.
Arguments nstart {V U}.
