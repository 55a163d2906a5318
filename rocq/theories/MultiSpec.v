(** * MultiSpec: what the theorems about guards of several functions speak about

    Nothing here refers to the steps of [Multi.v]. *)

From Coq Require Import NArith List Bool String.
From Verif Require Import Base Times Expect Mock Multi.
Import ListNotations.
Open Scope N_scope.

Section MultiSpec.
Context {V U : Type}.
Notation hsys := (hsys V U).
Notation hevent := (hevent V U).
Notation sys := (sys V U).

(** Thread [t] has a guard of function [s]. *)
Definition has (x : hsys) (t s : nat) : Prop :=
  exists th, nth_error (hs_threads x) t = Some th /\ In s (map fst (ht_held th)).
(** Thread [t] is about to use function [s], for which it needs the lock. *)
Definition wants (x : hsys) (t s : nat) : Prop :=
  exists th, nth_error (hs_threads x) t = Some th /\
    ((exists o k, ht_prog th = HDo o k /\ lock_of o = Some s) \/ (exists ky k, ht_prog th = HExpect s ky k)).
Definition done (x : hsys) : Prop := forall th, In th (hs_threads x) -> th = HThread [] HStop.
Definition h_aborted (tr : list hevent) : Prop := exists t o, In (EvDo t o Abort) tr.

(** The function that an event is about, and the setters of its guards. *)
Definition about (ev : hevent) : option nat :=
  match ev with
  | EvDo _ o _ => lock_of o
  | EvRefused _ s | EvGuard _ s _ | EvSet _ s _ | EvGone _ s _ => Some s
  end.
Fixpoint setters_on (s : nat) (tr : list hevent) : list (setter V U) :=
  match tr with
  | [] => []
  | EvSet _ s' st :: tr' => if Nat.eqb s' s then st :: setters_on s tr' else setters_on s tr'
  | _ :: tr' => setters_on s tr'
  end.

(** ** One thing after the other

    What happened, with each guard as one event at the end of its scope. *)
Inductive hatom : Type :=
| HaDo (t : nat) (o : hop V U) (r : res (option V))
| HaRefused (s : nat)
| HaGuard (t s : nat) (ky : key) (l : list (setter V U)) (unwinding : bool).

(** [open s]: the instance and the setters of the guard of [s] so far. *)
Definition note_open (open : nat -> option (key * list (setter V U))) (s : nat) x :=
  fun s' => if Nat.eqb s' s then x else open s'.
Fixpoint atoms (open : nat -> option (key * list (setter V U))) (tr : list hevent) : list hatom :=
  match tr with
  | [] => []
  | EvDo t o r :: tr' => HaDo t o r :: atoms open tr'
  | EvRefused t s :: tr' => HaRefused s :: atoms open tr'
  | EvGuard t s ky :: tr' => atoms (note_open open s (Some (ky, []))) tr'
  | EvSet t s st :: tr' =>
      match open s with
      | None => atoms open tr'
      | Some (ky, l) => atoms (note_open open s (Some (ky, l ++ [st]))) tr'
      end
  | EvGone t s b :: tr' =>
      match open s with
      | None => atoms open tr'
      | Some (ky, l) => HaGuard t s ky l b :: atoms (note_open open s None) tr'
      end
  end.

(** Setters but [in_sequence]. *)
Definition sequence_free (st : setter V U) : bool := match st with StInSequence _ => false | _ => true end.

(** The expectation that the setters make, one after the other; one that panics doesn't keep the
    test from using the guard again. *)
Definition built (c : cfg) (t : nat) (l : list (setter V U)) (e : expectation V U) : expectation V U :=
  fold_left (fun e st => fst (fst (apply_setter c t st e sequence_new))) l e.

(** These events happen one after the other in the model of sequential tests, [Mock.v]. *)
Inductive replays (c : cfg) (sh : shuffle V U) : sys -> list hatom -> sys -> Prop :=
| rp_nil y : replays c sh y [] y
| rp_do y t o r y1 l y2 :
    step c sh (Sys (World (w_user (y_world y)) (w_levels (y_world y)) t false) (y_seqs y) (y_objs y) (y_stats y)) (op_of o) = (y1, r) ->
    replays c sh y1 l y2 -> replays c sh y (HaDo t o r :: l) y2
| rp_refused y s md sm l y2 :
    nth_error (y_stats y) s = Some (md, sm) -> sm_poison sm = true ->
    replays c sh y l y2 -> replays c sh y (HaRefused s :: l) y2
| rp_guard y t s ky ls b md sm l y2 :
    nth_error (y_stats y) s = Some (md, sm) -> sm_poison sm = false ->
    replays c sh
      (Sys (y_world y) (y_seqs y) (y_objs y)
         (set_nth (y_stats y) s
            (md, SMutex b (slot_put (sm_slot sm) ky
                   (slot_get (sm_slot sm) ky ++ [built c t ls (expectation_default c (md_me md) (md_kind md))]))))) l y2 ->
    replays c sh y (HaGuard t s ky ls b :: l) y2.

(** ** Programs that take locks in order

    [rank]: an order of the functions, the first [n] of which exist.  [gs]: the functions of which
    the program has guards.  It uses other functions only if they come after all these, drops only
    guards that it has, and drops all in the end. *)
Fixpoint orderly (n : nat) (rank : nat -> nat) (gs : list nat) (p : hprog V U) : Prop :=
  match p with
  | HStop => gs = []
  | HDo o k =>
      (forall s, lock_of o = Some s -> forall s', In s' gs -> (rank s' < rank s)%nat) /\
      forall r, r <> Abort -> orderly n rank gs (k r)
  | HExpect s ky k =>
      (s < n)%nat /\ (forall s', In s' gs -> (rank s' < rank s)%nat) /\
      forall r, r <> Abort -> orderly n rank (match r with Ret _ => s :: gs | _ => gs end) (k r)
  | HSet s st k => In s gs /\ forall r, r <> Abort -> orderly n rank gs (k r)
  | HDrop s b k => In s gs /\ orderly n rank (filter (fun s' => negb (Nat.eqb s' s)) gs) k
  end.
End MultiSpec.
