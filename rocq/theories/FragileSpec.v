(** * FragileSpec: where single-threaded closures live and die *)

From Coq Require Import NArith List Bool String.
From Verif Require Import Base Times Expect Mock MessageSpec.
Import ListNotations.
Open Scope N_scope.

Section FragileSpec.
Context {V U : Type}.

(** The threads on which the single-threaded closures of an expectation were set: that of its
    matcher, then that of its return action. *)
Definition homes (e : expectation V U) : list nat :=
  match c_matcher (e_common e) with MtFuncSt t _ => [t] | _ => [] end
  ++ match e_action e with
     | AStatic (SMutSt t _) _ | AStatic (SOnceSt t _) _ | AMut (XMutSt t _ _) => [t]
     | _ => []
     end.

(** Those that are not at home on this thread. *)
Definition strangers (th : nat) (es : list (expectation V U)) : list nat :=
  filter (fun t => negb (Nat.eqb t th)) (flat_map homes es).

(** Everything that the operation drops, and every [return_once_st] closure that it may use up,
    belongs to the thread that does it. *)
Definition at_home (y : sys V U) (o : op V U) : Prop :=
  (forall me es e t, validates y o me es -> In e es -> In t (homes e) -> t = w_thread (y_world y))
  /\ forall me es args e t f b, calls y o me es args -> In e es ->
     e_action e = AStatic (SOnceSt t f) b -> t = w_thread (y_world y).

(** The expectations of a method in a slot, in the order in which they are dropped. *)
Definition exps_in (sh : shuffle V U) (s : slot V U) : list (expectation V U) :=
  match s with
  | SPlain es => es
  | SGeneric st => flat_map snd (sh st)
  end.

(** The operation drops these expectations, one after the other: a mock object, or the
    expectations of a static function whose lock is not poisoned. *)
Inductive discards (sh : shuffle V U) (y : sys V U) : op V U -> list (method V * expectation V U) -> Prop :=
| DiscObject i ob :
    nth_error (y_objs y) i = Some ob ->
    discards sh y (ODrop i) (flat_map (fun f => map (pair (md_me (f_decl f))) (exps_in sh (f_slot f))) ob)
| DiscCheckpoint s md sm :
    nth_error (y_stats y) s = Some (md, sm) -> sm_poison sm = false ->
    discards sh y (OCtxCheckpoint s) (map (pair (md_me md)) (exps_in sh (sm_slot sm)))
| DiscContext s md sm :
    nth_error (y_stats y) s = Some (md, sm) -> sm_poison sm = false \/ w_panicking (y_world y) = true ->
    discards sh y (OCtxDrop s) (map (pair (md_me md)) (exps_in sh (sm_slot sm))).

(** The expectation can be dropped without complaint: it was called as often as it should, or
    the thread is panicking anyway. *)
Definition content (panicking : bool) (e : expectation V U) : Prop :=
  panicking = true \/ c_mpoison (e_common e) = false /\ least e <= counted e < bound e.

(** Setters that make single-threaded closures. *)
Definition st_setter (s : setter V U) : Prop :=
  match s with
  | StWithfSt _ | StReturningSt _ | StReturnOnceSt _ | StReturnConstSt _ => True
  | _ => False
  end.
(** The test does not use them, or stays on one thread. *)
Definition without_st (o : op V U) : Prop := forall l, sets_up o l -> Forall (fun s => ~ st_setter s) l.
Definition stays (o : op V U) : Prop := forall t, o <> OThread t.

End FragileSpec.
