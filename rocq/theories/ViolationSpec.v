(** * ViolationSpec: calls that find their sequence has moved

    Only about lists of observable events (those of Conc.v). *)

From Coq Require Import NArith List.
From Verif Require Import Base Times Expect Mock Conc.
Import ListNotations.
Open Scope N_scope.

Section ViolationSpec.
Context {V : Type}.

(** The thread that did it. *)
Definition event_thread (ev : event V) : nat :=
  match ev with
  | EvStart t _ | EvLocked t _ | EvReach t _ _ | EvEnter t _ _ | EvViolation t _ _
  | EvRun t _ _ | EvRan t _ _ | EvAnswer t _ _ _ | EvReturn t _ _ => t
  end.

(** The last thing that thread [t] did. *)
Definition last_of (t : nat) (tr : list (event V)) : option (event V) :=
  fold_left (fun o ev => if Nat.eqb (event_thread ev) t then Some ev else o) tr None.

End ViolationSpec.
