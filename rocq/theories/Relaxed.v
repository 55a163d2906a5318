(** * Relaxed: the memory order of the atomic operations

    The calls of [Conc.v] once more, with the memory order that the code asks for:
    every [load] and [fetch_add] is [Ordering::Relaxed] (lib.rs 1588, 1616, 1628, 1629,
    1707, 1713).  A relaxed load need not see the last write: it may see any write that
    the thread has not already been made aware of a later one.

    - The model keeps all past states.  A load reads from the state at some earlier
      time; the time is chosen together with the thread that moves.
    - Each thread has a view: for every atomic variable, the time before which it
      cannot look back.  Reading or changing a variable moves the view of this
      variable.  Acquiring a mutex adds the view of the thread that released it
      (std::sync::Mutex: release and acquire).  Threads of the user's program can also
      synchronise with each other ([Sync]: a join, a channel, another mutex, ...).
    - [fetch_add] acts on the last value, in every memory order.
    - All writes to the variables are [fetch_add]s, so that the order in which the
      steps are taken is the modification order of each variable.
    - Simplified: a load never reads a value that is written later (the "load
      buffering" of the C++ memory model).  User closures do not synchronise threads,
      other than by [Sync]: this allows more old values, not fewer. *)

From Coq Require Import NArith List Bool Arith.
From Verif Require Import Base Times Expect Conc.
Import ListNotations.
Open Scope N_scope.

(** The atomic variables: [Times::count] (lib.rs 1579-1583) of expectation [i] of method
    [m], [SeqInner::satisfaction_level] (lib.rs 1699-1703). *)
Inductive loc : Type :=
| LCount (m i : nat)
| LLevel (q : seqid).

(** The mutexes: around a matcher (mock_function.rs 939), around an [Rfunc]
    (2177), around the store of a static method (539-560). *)
Inductive mutex : Type :=
| MxMatch (m i : nat)
| MxRet (m i : nat)
| MxStore (g : nat).

(** Equality of variables (lib.rs 1579-1583, 1699-1703). *)
Definition loc_eqb (a b : loc) : bool :=
  match a, b with
  | LCount m i, LCount m' i' => Nat.eqb m m' && Nat.eqb i i'
  | LLevel q, LLevel q' => Nat.eqb q q'
  | _, _ => false
  end.

(** Equality of mutexes (mock_function.rs 939, 2177, 539-560). *)
Definition mutex_eqb (a b : mutex) : bool :=
  match a, b with
  | MxMatch m i, MxMatch m' i' | MxRet m i, MxRet m' i' => Nat.eqb m m' && Nat.eqb i i'
  | MxStore g, MxStore g' => Nat.eqb g g'
  | _, _ => false
  end.

(** The earliest time at which each variable may still be read.  C++ memory model,
    for [Ordering::Relaxed] at lib.rs 1588, 1616, 1628, 1629, 1707, 1713. *)
Definition view : Type := loc -> nat.
(** Acquiring a mutex: what both know (mock_function.rs 549, 960, 986, 2188). *)
Definition join (a b : view) : view := fun lc => Nat.max (a lc) (b lc).
(** A thread has seen a variable (lib.rs 1588, 1616, 1628, 1629, 1707, 1713). *)
Definition set_view (v : view) (lc : loc) (k : nat) : view :=
  fun lc' => if loc_eqb lc' lc then k else v lc'.

Section Relaxed.
Context {V U : Type}.
(** The state of Conc.v; mock_function.rs 939, 1205, 2177. *)
Notation csys := (csys V U).
(** The places of Conc.v; mock_function.rs 539-576. *)
Notation pc := (pc V U).

(** [rs_past]: the past states, the oldest one first; [rs_view t]: the view of
    thread [t]; [rs_mx]: the view that the next thread to acquire a mutex gets.  No
    lines of its own: the history that [Ordering::Relaxed] (lib.rs 1588, 1616, 1628,
    1629, 1707, 1713) may read. *)
Record rsys : Type := RSys {
  rs_now : csys;
  rs_past : list csys;
  rs_view : nat -> view;
  rs_mx : mutex -> view
}.

(** The number of steps so far; see [rsys] (lib.rs 1588-1713). *)
Definition rs_time (r : rsys) : nat := List.length (rs_past r).
(** What was stored at a time; see [rsys] (lib.rs 1588-1713). *)
Definition state_at (r : rsys) (k : nat) : csys := nth k (rs_past r ++ [rs_now r]) (rs_now r).

(** The variable of the sequence that expectation [i] of [m] is in.  lib.rs
    1682-1685, 1699-1703; mock_function.rs 941. *)
Definition level_of (s : csys) (m i : nat) : option loc :=
  match cexp s m i with
  | Some e => match c_seq (e_common e) with
              | Some h => Some (LLevel (sh_inner h))
              | None => None
              end
  | None => None
  end.

(** The variable that a thread at [p] is about to load: lib.rs 1616, 1628, 1629, 1713. *)
Definition loads (s : csys) (p : pc) : option loc :=
  match p with
  | PDone x i | PLoad1 x i | PLoad2 x i _ => Some (LCount (cc_m x) i)
  | PVerify x i => level_of s (cc_m x) i
  | _ => None
  end.

(** The variable that it is about to add to: lib.rs 1588, 1707. *)
Definition adds (s : csys) (p : pc) : option loc :=
  match p with
  | PCount x i => Some (LCount (cc_m x) i)
  | PSatisfy x i => level_of s (cc_m x) i
  | _ => None
  end.

(** [EXPECTATIONS] of a static method: mock_function.rs 549. *)
Definition store_of (s : csys) (m : nat) : list mutex :=
  match nth_error (cs_meths s) m with
  | Some cm => match cm_mutex cm with Some g => [MxStore g] | None => [] end
  | None => []
  end.

(** The mutexes that are acquired on the way from [p] to [p']: mock_function.rs 549, 960,
    986, 2188. *)
Definition acquired (s : csys) (p p' : pc) : list mutex :=
  match p, p' with
  | PLockS x, PLockM _ _ | PLockS x, PIdle => store_of s (cc_m x)
  | PLockM x i, PEval _ _ => [MxMatch (cc_m x) i]
  | PShow x i _, PFin _ _ | PShowR x i _, PFin _ _ => [MxMatch (cc_m x) i]
  | PLockR x i, PRun _ _ => [MxRet (cc_m x) i]
  | _, _ => []
  end.

(** The mutexes that are released on the way: the ends of the guards' scopes.
    mock_function.rs 549-560, 961, 986, 2188-2195. *)
Definition released_mx (s : csys) (p p' : pc) : list mutex :=
  match p, p' with
  | PLockS x, PIdle | PFin x _, PIdle => store_of s (cc_m x)
  | PEval x i, _ => [MxMatch (cc_m x) i]
  | PShow x i _, PFin _ _ => [MxMatch (cc_m x) i]
  | PShowR x i _, PFin _ _ => [MxMatch (cc_m x) i; MxRet (cc_m x) i]
  | PRun x i, PFin _ _ | PExit x i _, PFin _ _ => [MxRet (cc_m x) i]
  | _, _ => []
  end.

(** A step of an execution: thread [t] moves, and if it loads a variable it reads
    the value that it had at time [k] (the last value, if [k] is not possible); or
    thread [t] synchronises with [t'], and knows from now on what [t'] knows.  See
    [view]: lib.rs 1588, 1616, 1628, 1629, 1707, 1713. *)
Inductive rmove : Type :=
| Go (t k : nat)
| Sync (t t' : nat).

(** What can be seen of an execution: the events of [Conc.v] and the
    synchronisations.  See [event] of Conc.v: mock_function.rs 474-578. *)
Definition rlog : Type := list (nat * nat + event V).

(** Update of a component; the threads of mock_function.rs 474-578. *)
Definition set_at {A} (f : nat -> A) (t : nat) (a : A) : nat -> A :=
  fun t' => if Nat.eqb t' t then a else f t'.

(** Where a thread is: mock_function.rs 474-578. *)
Definition pc_of (s : csys) (t : nat) : pc :=
  match nth_error (cs_threads s) t with Some th => th_pc th | None => PIdle end.

(** The view of thread [t] after a step from [s] to [s'] that loads nothing.  lib.rs
    1588, 1707; mock_function.rs 549, 960, 986, 2188. *)
Definition view_after (r : rsys) (s' : csys) (t : nat) : view :=
  let p := pc_of (rs_now r) t in
  let v := fold_right join (rs_view r t) (map (rs_mx r) (acquired (rs_now r) p (pc_of s' t))) in
  match adds (rs_now r) p with
  | Some lc => set_view v lc (S (rs_time r))
  | None => v
  end.

(** A step of Conc.v whose load reads an old value: lib.rs 1588, 1616, 1628, 1629,
    1707, 1713. *)
Definition rstep (c : cfg) (r : rsys) (mv : rmove) : rsys * rlog :=
  let s := rs_now r in
  match mv with
  | Sync t t' =>
      (RSys s (rs_past r) (set_at (rs_view r) t (join (rs_view r t) (rs_view r t'))) (rs_mx r),
       [inl (t, t')])
  | Go t k =>
      match nth_error (cs_threads s) t with
      | None => (r, [])
      | Some th =>
          match pc_call (th_pc th), loads s (th_pc th) with
          | Some x, Some lc =>
              match nth_error (cs_meths s) (cc_m x) with
              | None => (r, [])
              | Some cm =>
                  let k' := if (Nat.leb (rs_view r t lc) k && Nat.leb k (rs_time r))%bool
                            then k else rs_time r in
                  let '(_, p', ev) := pstep c (state_at r k') t cm (th_pc th) in
                  (RSys (put_thread s t (Thread (th_todo th) p')) (rs_past r ++ [s])
                        (set_at (rs_view r) t (set_view (rs_view r t) lc k')) (rs_mx r),
                   map inr ev)
              end
          | _, _ =>
              let (s', ev) := cstep c s t in
              let v := view_after r s' t in
              let rel := released_mx s (th_pc th) (pc_of s' t) in
              (RSys s' (rs_past r ++ [s]) (set_at (rs_view r) t v)
                    (fun mx => if existsb (mutex_eqb mx) rel then join (rs_mx r mx) v else rs_mx r mx),
               map inr ev)
          end
      end
  end.

(** Interleaving; no lines of its own, [rstep] cites lib.rs 1588-1713. *)
Fixpoint rrun (c : cfg) (r : rsys) (mvs : list rmove) : rsys * rlog :=
  match mvs with
  | [] => (r, [])
  | mv :: mvs' =>
      let (r1, l1) := rstep c r mv in
      let (r2, l2) := rrun c r1 mvs' in
      (r2, l1 ++ l2)
  end.

(** The beginning: nothing has changed yet, every thread knows everything.  The
    state in which the calls of mock_function.rs 474-578 are made. *)
Definition relaxed_start (u : U) (l : levels) (ms : list (cmeth V U)) (sp : nat -> bool)
    (progs : list (list (ccall V))) : rsys :=
  RSys (cstart u l ms sp progs) [] (fun _ _ => 0%nat) (fun _ _ => 0%nat).

End Relaxed.

Arguments rsys : clear implicits.
Arguments rlog : clear implicits.
