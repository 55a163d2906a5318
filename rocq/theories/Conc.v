(** * Conc: calls from several threads

    The same call path as in [Expect.v] and [Mock.v], cut into its atomic steps
    (mock_function.rs 474-578, 956-968, 985-987, 1947-1983, 2028-2038, 2184-2195,
    2349-2359, 2426-2436; lib.rs 1587-1637, 1706-1715).  Between any two steps of a
    thread any other thread may run.

    - A step is one atomic operation ([fetch_add], [load]), one acquisition of a
      mutex, or one piece of user code.
    - Mutexes are explicit: a thread that wants a held mutex cannot move.
    - Simplified: atomic operations are sequentially consistent (the code uses
      [Ordering::Relaxed], see [Relaxed.v]); the effect of a user
      closure happens at once; threads are not
      already unwinding when they call a method; every thread catches the panic
      of a call and goes on with its next call.
    - While threads share a mock nobody can set expectations on it or drop it
      (both need [&mut self] or ownership), so calls are the only operations. *)

From Coq Require Import NArith List Bool String.
From Verif Require Import Base Times Expect.
Import ListNotations.
Open Scope N_scope.

Section Conc.
Context {V U : Type}.

(** One call: the method's position in [cs_meths], the arguments.  A call of a mock
    function: mock_function.rs 474-578. *)
Record ccall : Type := CCall { cc_m : nat; cc_args : list V }.

(** Where a thread is inside a call. [i]: position of the expectation.  The lines
    are beside the constructors: mock_function.rs 539-576, 956-998, 2184-2195;
    lib.rs 1587-1637, 1706-1715. *)
Inductive pc : Type :=
| PIdle
| PLockS (x : ccall)                     (* 549: lock the static store *)
| PLockM (x : ccall) (i : nat)           (* 986: lock the matcher of expectation [i] *)
| PEval (x : ccall) (i : nat)            (* 986: [matches], lock held *)
| PDone (x : ccall) (i : nat)            (* 980, lib.rs 1616: load the counter *)
| PCount (x : ccall) (i : nat)           (* lib.rs 1588: [fetch_add] on the counter *)
| PShow (x : ccall) (i : nat) (e : timeserr)
                                         (* 959-962: lock and print the matcher, panic *)
| PVerify (x : ccall) (i : nat)          (* lib.rs 1713: load the level of the sequence *)
| PLoad1 (x : ccall) (i : nat)           (* lib.rs 1628: first load of [is_satisfied] *)
| PLoad2 (x : ccall) (i : nat) (lower : bool)
                                         (* lib.rs 1629: second load *)
| PSatisfy (x : ccall) (i : nat)         (* lib.rs 1707: [fetch_add] on the level *)
| PLockR (x : ccall) (i : nat)           (* 2188: lock the [Rfunc] *)
| PRun (x : ccall) (i : nat)             (* 1951: look at the [Rfunc], lock held *)
| PExec (x : ccall) (i : nat) (f : ucode U (list V) V)
                                         (* 1960-1976: the closure is called, lock held *)
| PExit (x : ccall) (i : nat) (r : res V)
                                         (* ... and returns or panics, lock held *)
| PShowR (x : ccall) (i : nat) (e : rferr)
                                         (* 2033, 2190: lock and print the matcher, panic *)
| PFin (x : ccall) (r : res (option V)). (* leave [Expectations::call] *)

(** std's threads; their calls are those of mock_function.rs 474-578. *)
Record thread : Type := Thread { th_todo : list ccall; th_pc : pc }.

(** One method that threads can call: a [Vec] of expectations (mock_function.rs
    1205-1206).  Each instance of a generic method is a method of its own (2464-2532:
    one [Vec] per choice of the type parameters).  [cm_mutex]: the mutex around
    the store of a static method or free function (539-560); the instances of a
    generic static method share one.  [None]: not static. *)
Record cmeth : Type := CMeth {
  cm_me : method V;
  cm_mutex : option nat;
  cm_exps : list (expectation V U)
}.

(** The shared state. [cs_ml], [cs_rl]: who holds the mutex of the matcher / [Rfunc]
    of expectation [i] of method [m]; [cs_sl], [cs_sp]: who holds the mutex of a
    static store, and is it poisoned.  The mutexes are those of mock_function.rs
    939, 2177 and 1434-1439, 1505-1508. *)
Record csys : Type := CSys {
  cs_user : U;
  cs_levels : levels;
  cs_meths : list cmeth;
  cs_ml : nat -> nat -> option nat;
  cs_rl : nat -> nat -> option nat;
  cs_sl : nat -> option nat;
  cs_sp : nat -> bool;
  cs_threads : list thread
}.

(** What an outside observer can see of a step.  A call begins and ends
    (mock_function.rs 474-578), takes the store's mutex (549), and runs user code
    (1722-1732, 1947-1983). *)
Inductive event : Type :=
| EvStart (t : nat) (x : ccall)                   (* the call begins *)
| EvLocked (t : nat) (x : ccall)                  (* it got the static store *)
| EvReach (t : nat) (x : ccall) (i : nat)         (* it is counted by expectation [i] *)
| EvEnter (t : nat) (x : ccall) (i : nat)         (* count and sequence accepted it *)
| EvViolation (t : nat) (x : ccall) (i : nat)     (* "Was an already-satisfied method called
                                                     another time?" (lib.rs 1708) *)
| EvRun (t : nat) (x : ccall) (i : nat)           (* the return closure is called *)
| EvRan (t : nat) (x : ccall) (i : nat)           (* the return closure has ended *)
| EvAnswer (t : nat) (x : ccall) (i : nat) (v : V)
                                                  (* expectation [i] produced a value *)
| EvReturn (t : nat) (x : ccall) (r : res V).     (* the call returns or panics *)

(** [Expectations] of a method: mock_function.rs 1205. *)
Definition cexps (s : csys) (m : nat) : list (expectation V U) :=
  match nth_error (cs_meths s) m with
  | Some cm => cm_exps cm
  | None => []
  end.

(** [self.0[i]]: mock_function.rs 1205. *)
Definition cexp (s : csys) (m i : nat) : option (expectation V U) :=
  nth_error (cexps s m) i.

(** Store a new state of expectation [i].  The fields that change behind [&self]:
    mock_function.rs 938-942, 2175-2178. *)
Definition put_exp (s : csys) (m i : nat) (e : expectation V U) : csys :=
  match nth_error (cs_meths s) m with
  | None => s
  | Some cm =>
      CSys (cs_user s) (cs_levels s)
           (set_nth (cs_meths s) m (CMeth (cm_me cm) (cm_mutex cm) (set_nth (cm_exps cm) i e)))
           (cs_ml s) (cs_rl s) (cs_sl s) (cs_sp s) (cs_threads s)
  end.

(** Update of a component: user code of mock_function.rs 1722-1732, 1947-1983;
    levels of lib.rs 1706-1709. *)
Definition put_world (s : csys) (w : world U) : csys :=
  CSys (w_user w) (w_levels w) (cs_meths s) (cs_ml s) (cs_rl s) (cs_sl s) (cs_sp s) (cs_threads s).

(** Update of a component: std's threads; mock_function.rs 474-578. *)
Definition put_thread (s : csys) (t : nat) (th : thread) : csys :=
  CSys (cs_user s) (cs_levels s) (cs_meths s) (cs_ml s) (cs_rl s) (cs_sl s) (cs_sp s)
       (set_nth (cs_threads s) t th).

(** Update of a component: the holders of the mutexes of mock_function.rs 939, 2177.
    *)
Definition set2 (f : nat -> nat -> option nat) (m i : nat) (o : option nat)
  : nat -> nat -> option nat :=
  fun m' i' => if (Nat.eqb m' m && Nat.eqb i' i)%bool then o else f m' i'.

(** [matcher.lock()] and the end of its guard: mock_function.rs 986, 961. *)
Definition put_ml (s : csys) (x : ccall) (i : nat) (o : option nat) : csys :=
  CSys (cs_user s) (cs_levels s) (cs_meths s) (set2 (cs_ml s) (cc_m x) i o)
       (cs_rl s) (cs_sl s) (cs_sp s) (cs_threads s).
(** [rfunc.lock()] and the end of its guard: mock_function.rs 2188-2194. *)
Definition put_rl (s : csys) (x : ccall) (i : nat) (o : option nat) : csys :=
  CSys (cs_user s) (cs_levels s) (cs_meths s) (cs_ml s)
       (set2 (cs_rl s) (cc_m x) i o) (cs_sl s) (cs_sp s) (cs_threads s).
(** Set the holder and the poison flag of a static store.  [EXPECTATIONS.lock()]:
    mock_function.rs 549-560. *)
Definition put_sl (s : csys) (g : nat) (o : option nat) (b : bool) : csys :=
  CSys (cs_user s) (cs_levels s) (cs_meths s) (cs_ml s) (cs_rl s)
       (fun g' => if Nat.eqb g' g then o else cs_sl s g')
       (fun g' => if Nat.eqb g' g then b else cs_sp s g') (cs_threads s).

(** The world as thread [t] sees it.  As [world] in Expect.v: mock_function.rs 1039,
    1635; [Fragile] looks at the thread, 1712, 1932-1939. *)
Definition cworld (s : csys) (t : nat) : world U :=
  World (cs_user s) (cs_levels s) t false.

(** [std::sync::Mutex]: mock_function.rs 939, 2177, 1434-1439. *)
Definition free (o : option nat) : bool := match o with None => true | Some _ => false end.

(** Give up the [Rfunc]'s mutex; [rf] is its contents and [b] its poison flag.  The
    end of the guard's scope: mock_function.rs 2188-2195. *)
Definition unlock_r (s : csys) (x : ccall) (i : nat) (k : common V U) (rf : srfunc V U) (b : bool)
  : csys :=
  put_rl (put_exp s (cc_m x) i (Expectation k (AStatic rf b))) x i None.

(** One step of thread [t] which is at [p], in the method [cm]. The result is the
    state (but for the thread), the new [pc], and the events. A blocked thread stays
    where it is.  The lines are beside the cases: mock_function.rs 539-576, 956-998,
    2184-2195, 2349-2359, 2426-2436; lib.rs 1587-1637, 1706-1715. *)
Definition pstep (c : cfg) (s : csys) (t : nat) (cm : cmeth) (p : pc)
  : csys * pc * list event :=
  let me := cm_me cm in
  let w := cworld s t in
  match p with
  | PIdle => (s, p, [])                          (* not reached: see [cstep] *)
  | PLockS x =>
      (* mock_function.rs 549-550 *)
      match cm_mutex cm with
      | None => (s, p, [])
      | Some g =>
          if free (cs_sl s g) then
            if cs_sp s g then (s, PIdle, [EvLocked t x; EvReturn t x (Panic MPoison)])
            else (put_sl s g (Some t) false, PLockM x 0, [EvLocked t x])
          else (s, p, [])
      end
  | PLockM x i =>
      (* 2352-2355, 2429-2432: the [find] *)
      match cexp s (cc_m x) i with
      | None => (s, PFin x (Ret None), [])
      | Some _ =>
          if free (cs_ml s (cc_m x) i)
          then (put_ml s x i (Some t), PEval x i, [])
          else (s, p, [])
      end
  | PEval x i =>
      match cexp s (cc_m x) i with
      | None => (s, p, [])
      | Some e =>
          let '(k, w', r) := common_matches (e_common e) (cc_args x) w in
          let s1 := put_ml (put_world (put_exp s (cc_m x) i (set_common e k)) w') x i None in
          (s1,
           match r with
           | Ret true => PDone x i
           | Ret false => PLockM x (S i)
           | Panic m => PFin x (Panic m)
           | Abort => PFin x Abort
           end, [])
      end
  | PDone x i =>
      match cexp s (cc_m x) i with
      | None => (s, p, [])
      | Some e =>
          let one := Nat.eqb (List.length (cexps s (cc_m x))) 1 in
          (s,
           match common_is_done c (e_common e) with
           | Ret d => if (negb d || one)%bool then PCount x i else PLockM x (S i)
           | Panic m => PFin x (Panic m)
           | Abort => PFin x Abort
           end, [])
      end
  | PCount x i =>
      match cexp s (cc_m x) i with
      | None => (s, p, [])
      | Some e =>
          let (t', r) := times_call c (c_times (e_common e)) in
          (put_exp s (cc_m x) i (set_common e (set_times (e_common e) t')),
           match r with
           | Ret (Ok _) => PVerify x i
           | Ret (Err er) => PShow x i er
           | Panic m => PFin x (Panic m)
           | Abort => PFin x Abort
           end, [EvReach t x i])
      end
  | PShow x i er =>
      match cexp s (cc_m x) i with
      | None => (s, p, [])
      | Some e =>
          if free (cs_ml s (cc_m x) i) then
            (s, PFin x (let? d := show_locked (e_common e) in Panic (MCall (me_name me) d er)), [])
          else (s, p, [])
      end
  | PVerify x i =>
      match cexp s (cc_m x) i with
      | None => (s, p, [])
      | Some e =>
          match verify_sequence (e_common e) (call_desc me (cc_args x)) w with
          | Ret _ => (s, PLoad1 x i, [EvEnter t x i])
          | Panic m => (s, PFin x (Panic m), [])
          | Abort => (s, PFin x Abort, [])
          end
      end
  | PLoad1 x i =>
      match cexp s (cc_m x) i with
      | None => (s, p, [])
      | Some e =>
          let tm := c_times (e_common e) in
          (s, PLoad2 x i (rstart (trange_of tm) <=? tcount tm), [])
      end
  | PLoad2 x i lower =>
      match cexp s (cc_m x) i with
      | None => (s, p, [])
      | Some e =>
          let tm := c_times (e_common e) in
          let upper := tcount tm <? rend (trange_of tm) in
          let r := if (lower && upper)%bool then Satisfied
                   else if lower then TooMany else TooFew in
          (s, match r with TooFew => PLockR x i | _ => PSatisfy x i end, [])
      end
  | PSatisfy x i =>
      match cexp s (cc_m x) i with
      | None => (s, p, [])
      | Some e =>
          let (w', r) := satisfy_sequence c (e_common e) w in
          (put_world s w',
           match r with
           | Ret _ => PLockR x i
           | Panic m => PFin x (Panic m)
           | Abort => PFin x Abort
           end,
           match r with Ret _ => [] | _ => [EvViolation t x i] end)
      end
  | PLockR x i =>
      match cexp s (cc_m x) i with
      | None => (s, p, [])
      | Some e =>
          match e_action e with
          | AStatic _ _ =>
              if free (cs_rl s (cc_m x) i)
              then (put_rl s x i (Some t), PRun x i, [])
              else (s, p, [])
          | ARef rf =>
              match rrfunc_call c rf with
              | Ok v => (s, PFin x (Ret (Some v)), [EvAnswer t x i v])
              | Err er => (s, PShowR x i er, [])
              end
          | AMut rf =>
              (* needs [&mut self]: no other thread can be in this method *)
              let '(rf', w', r) := mut_ret c me (e_common e) rf (cc_args x) (fun v => v) w in
              (put_world (put_exp s (cc_m x) i (set_action e (AMut rf'))) w',
               PFin x (let? v := r in Ret (Some v)),
               match r with Ret v => [EvAnswer t x i v] | _ => [] end)
          end
      end
  | PRun x i =>
      match cexp s (cc_m x) i with
      | None => (s, p, [])
      | Some e =>
          let k := e_common e in
          match e_action e with
          | AStatic rf true => (unlock_r s x i k rf true, PFin x (Panic MPoison), [])
          | AStatic rf false =>
              match rf with
              | SDefault =>
                  match return_default c (me_default me) with
                  | Ok v => (unlock_r s x i k rf false, PFin x (Ret (Some v)), [EvAnswer t x i v])
                  | Err er => (s, PShowR x i er, [])
                  end
              | SExpired => (s, PShowR x i ReTwice, [])
              | SMut f => (s, PExec x i f, [])
              | SMutSt owner f =>
                  if Nat.eqb owner t then (s, PExec x i f, [])
                  else (unlock_r s x i k rf true, PFin x (Panic MWrongThread), [])
              | SOnce f =>
                  (put_exp s (cc_m x) i (Expectation k (AStatic SExpired false)),
                   PExec x i f, [])
              | SOnceSt owner f =>
                  if Nat.eqb owner t then
                    (put_exp s (cc_m x) i (Expectation k (AStatic SExpired false)),
                     PExec x i f, [])
                  else (unlock_r s x i k SExpired true, PFin x (Panic MWrongThread), [])
              end
          | _ => (s, p, [])
          end
      end
  | PExec x i f =>
      match cexp s (cc_m x) i with
      | None => (s, p, [])
      | Some e =>
          match e_action e with
          | AStatic _ _ =>
              let (u, r) := f (cc_args x) (cs_user s) in
              (put_world s (set_user w u), PExit x i r, [EvRun t x i])
          | _ => (s, p, [])
          end
      end
  | PExit x i r =>
      match cexp s (cc_m x) i with
      | None => (s, p, [])
      | Some e =>
          match e_action e with
          | AStatic rf _ =>
              match r with
              | Ret v =>
                  (unlock_r s x i (e_common e) rf false, PFin x (Ret (Some v)),
                   [EvRan t x i; EvAnswer t x i v])
              | Panic m => (unlock_r s x i (e_common e) rf true, PFin x (Panic m), [EvRan t x i])
              | Abort => (unlock_r s x i (e_common e) rf false, PFin x Abort, [EvRan t x i])
              end
          | _ => (s, p, [])
          end
      end
  | PShowR x i er =>
      match cexp s (cc_m x) i with
      | None => (s, p, [])
      | Some e =>
          if free (cs_ml s (cc_m x) i) then
            let r := (let? d := show_locked (e_common e) in Panic (MRet (me_name me) d er)) in
            match e_action e with
            | AStatic rf _ => (unlock_r s x i (e_common e) rf true, PFin x r, [])
            | _ => (s, PFin x r, [])
            end
          else (s, p, [])
      end
  | PFin x r =>
      (* 551-560: unlock the store, poisoned if a panic is on its way, then
         turn [None] into the panic *)
      let s1 := match cm_mutex cm with
                | Some g => put_sl s g None (match r with Panic _ => true | _ => false end)
                | None => s
                end in
      (s1, PIdle,
       [EvReturn t x (let? o := r in
                      match o with
                      | Some v => Ret v
                      | None => Panic (MNoMatch (call_desc me (cc_args x)))
                      end)])
  end.

(** The call that a thread is executing.  The arguments of mock_function.rs 474-578.
    *)
Definition pc_call (p : pc) : option ccall :=
  match p with
  | PIdle => None
  | PLockS x | PLockM x _ | PEval x _ | PDone x _ | PCount x _ | PShow x _ _
  | PVerify x _ | PLoad1 x _ | PLoad2 x _ _ | PSatisfy x _ | PLockR x _ | PRun x _
  | PExec x _ _ | PExit x _ _ | PShowR x _ _ | PFin x _ => Some x
  end.

(** One step of thread [t]. An idle thread begins its next call; a call of a method
    that does not exist is a program that does not compile.  mock_function.rs
    474-578. *)
Definition cstep (c : cfg) (s : csys) (t : nat) : csys * list event :=
  match nth_error (cs_threads s) t with
  | None => (s, [])
  | Some th =>
      match pc_call (th_pc th) with
      | None =>
          match th_todo th with
          | [] => (s, [])
          | x :: rest =>
              match nth_error (cs_meths s) (cc_m x) with
              | None => (put_thread s t (Thread rest PIdle), [])
              | Some cm =>
                  (put_thread s t (Thread rest (match cm_mutex cm with Some _ => PLockS x | None => PLockM x 0 end)),
                   [EvStart t x])
              end
          end
      | Some x =>
          match nth_error (cs_meths s) (cc_m x) with
          | None => (s, [])
          | Some cm =>
              let '(s', p', ev) := pstep c s t cm (th_pc th) in
              (put_thread s' t (Thread (th_todo th) p'), ev)
          end
      end
  end.

(** An execution: the scheduler picks the threads.  Interleaving; no lines of its
    own, [pstep] cites mock_function.rs 474-578. *)
Fixpoint crun (c : cfg) (s : csys) (sched : list nat) : csys * list event :=
  match sched with
  | [] => (s, [])
  | t :: sched' =>
      let (s1, ev1) := cstep c s t in
      let (s2, ev2) := crun c s1 sched' in
      (s2, ev1 ++ ev2)
  end.

(** Threads that are about to execute the given lists of calls; [sp] tells which
    static stores are already poisoned.  The state in which the calls of
    mock_function.rs 474-578 are made. *)
Definition cstart (u : U) (l : levels) (ms : list cmeth) (sp : nat -> bool)
    (progs : list (list ccall)) : csys :=
  CSys u l ms (fun _ _ => None) (fun _ _ => None) (fun _ => None) sp
       (map (fun p => Thread p PIdle) progs).

End Conc.

Arguments ccall : clear implicits.
Arguments pc : clear implicits.
Arguments thread : clear implicits.
Arguments cmeth : clear implicits.
Arguments csys : clear implicits.
Arguments event : clear implicits.
