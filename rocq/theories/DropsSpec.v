(** * DropsSpec: what destructors do, in order *)

From Coq Require Import NArith List Bool.
From Verif Require Import Base Times Expect Mock Spec SysSpec Owns OwnsSpec Drops.
Import ListNotations.

Section DropsSpec.
Context {V U : Type}.

(** The expectations of a method in the order in which they are destroyed. *)
Definition in_order (sh : shuffle V U) (s : slot V U) : list (expectation V U) :=
  match s with
  | SPlain es => es
  | SGeneric st => flat_map snd (sh st)
  end.

(** What is done to destroy an expectation, and to destroy an object: for each expectation its check,
    and then the destructors of what it holds. *)
Definition acts_of (me : method V) (e : expectation V U) : list (method V * act V U) :=
  (me, ActCheck (e_common e)) :: map (fun x => (me, ActDestroy x)) (held_by e).
Definition object_acts (sh : shuffle V U) (ob : object V U) : list (method V * act V U) :=
  flat_map (fun f => flat_map (acts_of (md_me (f_decl f))) (in_order sh (f_slot f))) ob.

(** Doing one of it, on a thread that is panicking or is not. *)
Definition perform (dt : dtors V U) (c : cfg) (a : method V * act V U) (p : bool) (u : U) : U * res unit :=
  match a with
  | (me, ActCheck k) => (u, common_drop c me k p)
  | (_, ActDestroy x) => dt x p u
  end.

(** All of it returns. *)
Inductive returns (dt : dtors V U) (c : cfg) (p : bool) : list (method V * act V U) -> U -> U -> Prop :=
| returns_nil : forall u, returns dt c p [] u u
| returns_cons : forall a l u u1 u2,
    perform dt c a p u = (u1, Ret tt) -> returns dt c p l u1 u2 -> returns dt c p (a :: l) u u2.

(** How it ends: everything returns; or the first panic goes through, and the rest returns while it
    unwinds; or something fails once more. *)
Inductive ends (dt : dtors V U) (c : cfg) (p : bool) (l : list (method V * act V U)) (u : U)
  : U -> res unit -> Prop :=
| ends_well : forall u', returns dt c p l u u' -> ends dt c p l u u' (Ret tt)
| ends_in_panic : forall l1 a l2 u1 u2 u' m,
    l = l1 ++ a :: l2 -> returns dt c p l1 u u1 -> perform dt c a p u1 = (u2, Panic m) ->
    returns dt c true l2 u2 u' -> ends dt c p l u u' (Panic m)
| ends_at_once : forall l1 a l2 u1 u2 u',
    l = l1 ++ a :: l2 -> returns dt c p l1 u u1 -> perform dt c a p u1 = (u2, Abort) ->
    ends dt c p l u u' Abort
| ends_badly : forall l1 a l2 b l3 u1 u2 u3 u4 u' m r,
    l = l1 ++ a :: l2 ++ b :: l3 -> returns dt c p l1 u u1 -> perform dt c a p u1 = (u2, Panic m) ->
    returns dt c true l2 u2 u3 -> perform dt c b true u3 = (u4, r) -> (forall x, r <> Ret x) ->
    ends dt c p l u u' Abort.

(** Destructors that do not panic while the thread is panicking, as those of mocks, and never abort. *)
Definition polite (dt : dtors V U) : Prop :=
  forall x u, (exists u', dt x true u = (u', Ret tt)) /\ snd (dt x false u) <> Abort.

(** What a setter replaces. *)
Definition replaced (kd : kind) (st : setter V U) (e : expectation V U) : list (thing V U) :=
  if says_when st then held_when e
  else if says_what kd st then held_what e
  else [].

(** The locks of an expectation. *)
Definition matcher_poisoned (e : expectation V U) : bool := c_mpoison (e_common e).
Definition action_poisoned (e : expectation V U) : bool :=
  match e_action e with AStatic _ b => b | _ => false end.

(** The expectations of a method of an object. *)
Definition set_for (y : sys V U) (i m : nat) (k : key) : list (expectation V U) :=
  match nth_error (y_objs y) i with
  | None => []
  | Some ob => match nth_error ob m with Some f => slot_get (f_slot f) k | None => [] end
  end.

(** The same for a static method, and whether its store is poisoned. *)
Definition static_set_for (y : sys V U) (s : nat) (k : key) : list (expectation V U) :=
  match nth_error (y_stats y) s with Some (_, sm) => slot_get (sm_slot sm) k | None => [] end.
Definition store_poisoned (y : sys V U) (s : nat) : bool :=
  match nth_error (y_stats y) s with Some (_, sm) => sm_poison sm | None => false end.

(** What a checkpoint does to a method. *)
Definition field_acts (sh : shuffle V U) (f : field V U) : list (method V * act V U) :=
  flat_map (acts_of (md_me (f_decl f))) (in_order sh (f_slot f)).
Definition emptied (f f' : field V U) : Prop := f_decl f' = f_decl f /\ all_of (f_slot f') = [].

(** ... and to a static function. *)
Definition static_acts (sh : shuffle V U) (x : mdecl V * smutex V U) : list (method V * act V U) :=
  flat_map (acts_of (md_me (fst x))) (in_order sh (sm_slot (snd x))).
Definition static_emptied (x x' : mdecl V * smutex V U) : Prop :=
  fst x' = fst x /\ sm_poison (snd x') = false /\ all_of (sm_slot (snd x')) = [].

End DropsSpec.

(** ** Mocks that closures own

    The user state is a number of mock objects, with a user state of their own.  [own x] are the
    numbers of the objects that [x] owns.  Its destructor destroys them. *)
Section Owning.
Context {V U V2 U2 : Type}.
Notation state := (list (object V2 U2) * U2)%type.

Definition owning (own : thing V state -> list nat) (dt2 : dtors V2 U2) (c : cfg) (sh : shuffle V2 U2)
  : dtors V state :=
  fun x => glue_d (fun i p (s : state) =>
    match nth_error (fst s) i with
    | None => (s, Ret tt)
    | Some ob => let (u', r) := object_drop_d dt2 c sh ob p (snd s) in ((set_nth (fst s) i [], u'), r)
    end) (own x).

(** The destructors of things that own nothing. *)
Definition idle : dtors V2 U2 := fun _ _ u => (u, Ret tt).

(** All expectations of an object are sound (their counts are in range and their matchers have not
    panicked). *)
Definition object_sound {W X : Type} (ob : object W X) : Prop :=
  Forall (fun f => Forall sound (all_of (f_slot f))) ob.

End Owning.
