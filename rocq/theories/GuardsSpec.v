(** * GuardsSpec: what the theorems about guards speak about

    Nothing here refers to the steps of [Guards.v]. *)

From Coq Require Import NArith List Bool String.
From Verif Require Import Base Times Expect Mock Conc ConcSpec Contexts ContextsSpec Guards.
Import ListNotations.
Open Scope N_scope.

Section GuardsSpec.
Context {V U : Type}.
Notation gsys := (gsys V U).
Notation gevent := (gevent V U).
Implicit Types (tr : list gevent).

(** The guard that thread [t] has. *)
Definition guard_of (th : gthread V U) : option (nat * nat) :=
  match th with GIdle gd _ | GIn gd _ _ _ | GLock gd _ _ => gd end.
Definition has_guard (s : gsys) (t m i : nat) : Prop :=
  exists th, nth_error (g_threads s) t = Some th /\ guard_of th = Some (m, i).

(** Pieces of operations that look at the expectations. *)
Definition touches (a : atom V U) : bool :=
  match a with ACall _ | AExpect _ _ | ACheckpoint | ADrain => true | _ => false end.
(** Operations that use the function's store. *)
Definition needs_store (o : xop V U) : bool :=
  match o with XCall _ | XExpect _ _ | XCheckpoint | XDrop _ => true | _ => false end.

(** The setters that thread [t] has used its guards for. *)
Fixpoint setters_of (t : nat) tr : list (setter V U) :=
  match tr with
  | [] => []
  | GvSet t' st :: tr' => if Nat.eqb t' t then st :: setters_of t tr' else setters_of t tr'
  | _ :: tr' => setters_of t tr'
  end.

(** The guard of [t] isn't dropped; nobody makes new sequences. *)
Definition guard_stays (t : nat) tr : Prop := forall b, ~ In (GvGone t b) tr.
Definition no_new_sequences tr : Prop := forall t u, ~ In (GvAtom t (ASetup u)) tr.

(** Thread [t] is the only one that gets to the expectations, and only by means of its guard. *)
Definition only_by_guard (t : nat) tr : Prop :=
  (forall t' a, In (GvAtom t' a) tr -> touches a = false) /\
  (forall t' m i, ~ In (GvGuard t' m i) tr) /\
  (forall t' st, In (GvSet t' st) tr -> t' = t).

(** The store with another expectation at one place. *)
Definition with_exp (ms : list (cmeth V U)) (m i : nat) (e : expectation V U) : list (cmeth V U) :=
  match nth_error ms m with
  | None => ms
  | Some cm => set_nth ms m (CMeth (cm_me cm) (cm_mutex cm) (set_nth (cm_exps cm) i e))
  end.

(** The state, as the operations of [ContextsSpec.v] see it. *)
Definition seen (g : nat) (s : gsys) : (@xstate V U) :=
  let y := x_sys (g_x s) in ((cs_meths y, cs_sp y g, cs_user y, cs_levels y), x_seqs (g_x s)).

(** ** Programs of [Contexts.v], written with guards: [ctx.expect().a().b();] is

      { let mut g = ctx.expect(); g.a(); g.b(); }                                        *)
Fixpoint chain (l : list (setter V U)) (k : answer V -> gprog V U) : gprog V U :=
  match l with
  | [] => GDrop false (k (Ret None))
  | st :: l' => GSet st (fun r => match r with Ret _ => chain l' k | _ => k r end)
  end.
Fixpoint with_guards (p : prog V U) : gprog V U :=
  match p with
  | Stop => GStop
  | Do o k =>
      match o with
      | XExpect m l =>
          GExpect m (fun r => match r with Ret _ => chain l (fun r' => with_guards (k r')) | _ => with_guards (k r) end)
      | _ => GDo o (fun r => with_guards (k r))
      end
  end.

(** The pieces, but for the lists of setters; what the operations other than [expect] return. *)
Definition plain (a : atom V U) : atom V U := match a with AExpect m _ => AExpect m [] | _ => a end.
Fixpoint pieces_x (tr : list (xevent V U)) : list (nat * atom V U) :=
  match tr with
  | [] => []
  | XAtom t a :: tr' => (t, plain a) :: pieces_x tr'
  | _ :: tr' => pieces_x tr'
  end.
Fixpoint pieces_g tr : list (nat * atom V U) :=
  match tr with
  | [] => []
  | GvAtom t a :: tr' => (t, plain a) :: pieces_g tr'
  | _ :: tr' => pieces_g tr'
  end.
Fixpoint returns_x (tr : list (xevent V U)) : list (nat * xop V U * answer V) :=
  match tr with
  | [] => []
  | XReturn t (XExpect _ _) r :: tr' => returns_x tr'
  | XReturn t o r :: tr' => (t, o, r) :: returns_x tr'
  | _ :: tr' => returns_x tr'
  end.
Fixpoint returns_g tr : list (nat * xop V U * answer V) :=
  match tr with
  | [] => []
  | GvReturn t o r :: tr' => (t, o, r) :: returns_g tr'
  | _ :: tr' => returns_g tr'
  end.
End GuardsSpec.

(** ** Programs that give their guards back *)
Section Tidy.
Context {V U : Type}.

(** A program that uses nothing but its guard while it has one, drops it in the end, and gives back
    the test's own mutex; it names one of the first [n] instances only.  [gd]: it has a guard;
    [held]: it has the mutex. *)
Fixpoint tidy (n : nat) (gd held : bool) (p : gprog V U) : Prop :=
  match p with
  | GStop => gd = false /\ held = false
  | GDo o k =>
      gd = false /\
      match o with XCall x => (cc_m x < n)%nat | XExpect m _ => (m < n)%nat | _ => True end /\
      match o with
      | XLockU => held = false /\ forall r, r <> Abort -> tidy n false true (k r)
      | XUnlockU => held = true /\ forall r, r <> Abort -> tidy n false false (k r)
      | _ => forall r, r <> Abort -> tidy n false held (k r)
      end
  | GExpect m k =>
      gd = false /\ (m < n)%nat /\
      forall r, r <> Abort -> tidy n (match r with Ret _ => true | _ => false end) held (k r)
  | GSet st k =>
      gd = true /\ forall r, r <> Abort -> tidy n (match r with Ret _ => true | _ => false end) held (k r)
  | GUser _ k => tidy n gd held k
  | GDrop _ k => gd = true /\ tidy n false held k
  end.

(** The process aborted. *)
Definition g_aborted (tr : list (gevent V U)) : Prop := exists t o, In (GvReturn t o Abort) tr.
End Tidy.
