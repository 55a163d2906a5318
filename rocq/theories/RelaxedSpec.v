(** * RelaxedSpec: what the theorems about relaxed memory speak about *)

From Coq Require Import NArith List Bool Arith.
From Verif Require Import Base Times Expect Mock Conc ConcSpec Relaxed.
Import ListNotations.
Open Scope N_scope.

Section RelaxedSpec.
Context {V U : Type}.

(** The events of an execution, without the synchronisations. *)
Fixpoint events (l : rlog V) : list (event V) :=
  match l with
  | [] => []
  | inl _ :: l' => events l'
  | inr ev :: l' => ev :: events l'
  end.

(** The threads in the order in which they moved. *)
Fixpoint movers (mvs : list rmove) : list nat :=
  match mvs with
  | [] => []
  | Go t _ :: mvs' => t :: movers mvs'
  | Sync _ _ :: mvs' => movers mvs'
  end.

Definition is_in (t : nat) (l : list nat) : bool := existsb (Nat.eqb t) l.

(** Calls are handed over: the thread that begins a call has made the last call itself,
    or it has synchronised, since that call returned, with the thread that made it
    or with another one that has done so.  [know]: the threads that may begin;
    [None]: all of them, since no call has returned yet. *)
Fixpoint handed_from (know : option (list nat)) (l : rlog V) : bool :=
  match l with
  | [] => true
  | inl (t, t') :: l' =>
      handed_from (match know with
                   | Some ts => Some (if is_in t' ts then t :: ts else ts)
                   | None => None
                   end) l'
  | inr (EvStart t _) :: l' =>
      (match know with Some ts => is_in t ts | None => true end && handed_from know l')%bool
  | inr (EvReturn t _ _) :: l' => handed_from (Some [t]) l'
  | inr _ :: l' => handed_from know l'
  end.
Definition handed_over (l : rlog V) : bool := handed_from None l.

End RelaxedSpec.
