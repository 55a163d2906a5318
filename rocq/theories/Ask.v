(** * Ask: predicates that call mocks

    In [Nest.v] return closures call mocks.  Here the predicates of [withf] (and of
    [with]) may do so, too.  While a predicate runs, the mutex of its matcher is held
    (mock_function.rs 985-987), and, for a static method or a free function, the mutex
    of the store (549-560); no count has changed yet and no [Rfunc] is locked.

    - A predicate that calls no mock before its verdict runs in one step, as in
      [Conc.v].
    - Simplified: the predicates of one [with] are one function here.  The closures of
      methods that return [&mut T] call no mocks. *)

From Coq Require Import NArith List Bool String.
From Verif Require Import Base Times Expect Conc Nest.
Import ListNotations.

Section Ask.
Context (V U : Type).
Notation rval := (rval V U).
Notation ncall := (ncall V).

(** What a predicate has come to: a verdict, or a call of a mock together with what
    it will do with the outcome.  The predicates of mock_function.rs 1708-1713. *)
Inductive aval : Type :=
| ABool (b : bool)
| AReq (y : ncall) (k : res V -> U -> U * res aval).

(** A predicate; [ak_owner]: the thread that may run it, if it was set with
    [withf_st].  mock_function.rs 1010-1028, 1708-1713. *)
Record asker : Type := Asker {
  ak_owner : option nat;
  ak_run : ucode U (list rval) aval
}.

(** A call in progress, or the predicate of expectation [i] of the call [x], with the
    matcher's mutex held: mock_function.rs 985-987, 1722-1732. *)
Inductive frame : Type :=
| FCall (p : pc rval U)
| FAsk (x : ccall rval) (i : nat) (r : res aval).

(** As [nthread].  std's threads; mock_function.rs 474-578. *)
Record athread : Type := AThread {
  at_todo : list ncall;
  at_stack : list frame;
  at_out : list (res V)
}.

(** As [nsys].  mock_function.rs 939, 1434-1439, 1505-1508, 2175-2178. *)
Record asys : Type := ASys { as_base : csys rval U; as_threads : list athread }.

(** The predicates that may call mocks, by method and expectation.  The expectations
    that are not listed have the matchers of [Expect.v].  mock_function.rs 939,
    1708-1713. *)
Definition asks : Type := nat -> nat -> option asker.

(** The call of the predicate: mock_function.rs 1722-1732; a [Fragile] one looks at
    the thread first. *)
Definition ask_first (a : asker) (args : list rval) (t : nat) (u : U) : U * res aval :=
  match ak_owner a with
  | Some o => if Nat.eqb o t then ak_run a args u else (u, Panic MWrongThread)
  | None => ak_run a args u
  end.

(** The verdict.  No predicate ends with a request (see [atstep]).  mock_function.rs
    1722-1732. *)
Definition verdict (r : res aval) : res bool :=
  let? v := r in match v with ABool b => Ret b | AReq _ _ => Abort end.

(** The predicate ends: the mutex is given up, poisoned if the predicate panicked, and
    the search goes on.  mock_function.rs 985-987, 2352-2355, 2429-2432. *)
Definition ask_end (b : csys rval U) (x : ccall rval) (i : nat) (r : res bool)
  : csys rval U * pc rval U :=
  match cexp b (cc_m x) i with
  | None => (b, PEval x i)
  | Some e =>
      let k := e_common e in
      let k' := match r with
                | Panic _ => Common (c_matcher k) true (c_seq k) (c_times k)
                | _ => k
                end in
      (put_ml (put_exp b (cc_m x) i (set_common e k')) x i None,
       match r with
       | Ret true => PDone x i
       | Ret false => PLockM x (S i)
       | Panic m => PFin x (Panic m)
       | Abort => PFin x Abort
       end)
  end.

(** The thread is about to run a predicate that may call mocks.  The mutex must not be
    poisoned: [lock().unwrap()], mock_function.rs 986. *)
Definition asking (ps : asks) (b : csys rval U) (p : pc rval U) : option (ccall rval * nat * asker) :=
  match p with
  | PEval x i =>
      match cexp b (cc_m x) i with
      | Some e =>
          if c_mpoison (e_common e) then None
          else match ps (cc_m x) i with
               | Some a => Some (x, i, a)
               | None => None
               end
      | None => None
      end
  | _ => None
  end.

(** The user's state has changed: what closures and predicates do, mock_function.rs
    1722-1732, 1947-1983. *)
Definition put_user (b : csys rval U) (u : U) : csys rval U :=
  put_world b (World u (cs_levels b) 0 false).

(** The innermost call has ended with [r]: the closure or predicate that made it goes
    on, or the test does.  Return from mock_function.rs 549-576 into the closure
    called at 1955-1981 or the predicate called at 1722-1732. *)
Definition aresume (b : csys rval U) (below : list frame) (out : list (res V)) (r : res V)
  : csys rval U * list frame * list (res V) :=
  match below with
  | FCall (PExit x i (Ret (RReq _ k))) :: rest =>
      let (u, r') := k r (cs_user b) in (put_user b u, FCall (PExit x i r') :: rest, out)
  | FAsk x i (Ret (AReq _ k)) :: rest =>
      let (u, r') := k r (cs_user b) in (put_user b u, FAsk x i r' :: rest, out)
  | _ => (b, below, out ++ [r])
  end.

(** The call that a closure or a predicate is about to make: mock_function.rs
    1722-1732, 1955-1981. *)
Definition request (q : frame) : option ncall :=
  match q with
  | FCall (PExit _ _ (Ret (RReq y _))) => Some y
  | FAsk _ _ (Ret (AReq y _)) => Some y
  | _ => None
  end.

(** One step of thread [t].  mock_function.rs 474-578; predicates run at 1722-1732 and
    closures at 1955-1981. *)
Definition atstep (c : cfg) (ps : asks) (b : csys rval U) (t : nat) (th : athread)
  : csys rval U * athread :=
  let (todo, stack, out) := th in
  match stack with
  | [] =>
      match todo with
      | [] => (b, th)
      | y :: rest =>
          match enter b y with
          | None => (b, th)
          | Some p => (b, AThread rest [FCall p] out)
          end
      end
  | q :: below =>
      match request q with
      | Some y =>
          match enter b y with
          | None => (b, th)
          | Some p => (b, AThread todo (FCall p :: stack) out)
          end
      | None =>
          match q with
          | FAsk x i r =>
              let (b', p) := ask_end b x i (verdict r) in
              (b', AThread todo (FCall p :: below) out)
          | FCall p =>
              match asking ps b p with
              | Some (x, i, a) =>
                  let (u, r) := ask_first a (cc_args x) t (cs_user b) in
                  match r with
                  | Ret (AReq _ _) => (put_user b u, AThread todo (FAsk x i r :: below) out)
                  | _ =>
                      let (b', p') := ask_end (put_user b u) x i (verdict r) in
                      (b', AThread todo (FCall p' :: below) out)
                  end
              | None =>
                  match pc_call p with
                  | None => (b, th)
                  | Some x =>
                      match nth_error (cs_meths b) (cc_m x) with
                      | None => (b, th)
                      | Some cm =>
                          let '(b', p', ev) := pstep c b t cm p in
                          match ret_of ev with
                          | None => (b', AThread todo (FCall p' :: below) out)
                          | Some r =>
                              let '(b2, stack', out') := aresume b' below out (to_val r) in
                              (b2, AThread todo stack' out')
                          end
                      end
                  end
              end
          end
      end
  end.

(** One step of one thread: mock_function.rs 474-578. *)
Definition astep (c : cfg) (ps : asks) (s : asys) (t : nat) : asys :=
  match nth_error (as_threads s) t with
  | None => s
  | Some th =>
      let (b, th') := atstep c ps (as_base s) t th in
      ASys b (set_nth (as_threads s) t th')
  end.

(** Interleaving; no lines of its own, [atstep] cites mock_function.rs 474-578. *)
Fixpoint arun (c : cfg) (ps : asks) (s : asys) (sched : list nat) : asys :=
  match sched with
  | [] => s
  | t :: sched' => arun c ps (astep c ps s t) sched'
  end.

(** The state in which the calls of mock_function.rs 474-578 are made. *)
Definition astart (u : U) (l : levels) (ms : list (cmeth rval U)) (sp : nat -> bool)
    (progs : list (list ncall)) : asys :=
  ASys (cstart u l ms sp []) (map (fun p => AThread p [] []) progs).

End Ask.

Arguments ABool {V U}.
Arguments AReq {V U}.
Arguments Asker {V U}.
Arguments ak_owner {V U}.
Arguments ak_run {V U}.
Arguments FCall {V U}.
Arguments FAsk {V U}.
Arguments AThread {V U}.
Arguments at_todo {V U}.
Arguments at_stack {V U}.
Arguments at_out {V U}.
Arguments ASys {V U}.
Arguments as_base {V U}.
Arguments as_threads {V U}.
Arguments ask_first {V U}.
Arguments verdict {V U}.
Arguments ask_end {V U}.
Arguments asking {V U}.
Arguments put_user {V U}.
Arguments aresume {V U}.
Arguments request {V U}.
Arguments atstep {V U}.
Arguments astep {V U}.
Arguments arun {V U}.
Arguments astart {V U}.
