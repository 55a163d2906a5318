(** * PrintsSpec: what the theorems about printing speak about

    Nothing here refers to the functions of [Prints.v]. *)

From Coq Require Import NArith List Bool String.
From Verif Require Import Base Times Expect Mock Spec SysSpec Prints.
Import ListNotations.
Open Scope N_scope.

Section Spec.
Context {V U : Type}.

(** ** Printing that nobody sees *)
Section Unseen.
Context {O : Type} (obs : U -> O).

(** User code that depends on, and whose effect on, [obs] is determined by [obs]. *)
Definition sees {A B : Type} (f : ucode U A B) : Prop :=
  forall a u u', obs u = obs u' -> snd (f a u) = snd (f a u') /\ obs (fst (f a u)) = obs (fst (f a u')).

Definition sees_setter (st : setter V U) : Prop :=
  match st with
  | StWith ps => forall q, In q ps -> sees (snd q)
  | StWithf f | StWithfSt f => sees f
  | StReturning f | StReturningSt f | StReturnOnce f | StReturnOnceSt f => sees f
  | _ => True
  end.

Definition sees_op (o : op V U) : Prop :=
  match o with
  | OExpect _ _ _ l | OCtxExpect _ _ l => forall st, In st l -> sees_setter st
  | OUser f => forall u u', obs u = obs u' -> obs (f u) = obs (f u')
  | _ => True
  end.

(** Printers that return the texts of [Mock.v], and whose effects are not in [obs]. *)
Definition unseen (p : printers V U) : Prop :=
  (forall me v u, exists u', p_arg p me v u = (u', Ret (me_debug me v)) /\ obs u' = obs u) /\
  (forall n u, exists u', p_pred p n u = (u', Ret n) /\ obs u' = obs u).
End Unseen.

(** ** Printing that is logged *)
Section Logged.
Context {E : Type} (log : U -> list E) (said : method V -> V -> list E) (told : string -> list E).

(** Printers that don't panic, and add something to the log each time they run. *)
Definition logged (p : printers V U) : Prop :=
  (forall me v u, exists u' s, p_arg p me v u = (u', Ret s) /\ log u' = log u ++ said me v) /\
  (forall n u, exists u' s, p_pred p n u = (u', Ret s) /\ log u' = log u ++ told n).

(** What the arguments, and the predicates of an expectation, add. *)
Definition said_args (me : method V) (args : list V) : list E := flat_map (said me) args.
Definition told_by (e : expectation V U) : list E :=
  match c_matcher (e_common e) with MtPred ps => flat_map (fun q => told (fst q)) ps | _ => [] end.

(** The expectation at [i] recorded a call, the others did not. *)
Definition only_counted (c : cfg) (es es' : list (expectation V U)) (i : nat) (e : expectation V U) : Prop :=
  nth_error es i = Some e /\ count_at es' i = Some (uwrap1 c (count_of e)) /\
  forall j, j <> i -> count_at es' j = count_at es j.
Definition none_counted (es es' : list (expectation V U)) : Prop := forall j, count_at es' j = count_at es j.

(** A call: the arguments are printed once; and again if an expectation is chosen, followed by its
    predicates if the method returns [&mut T]. *)
Definition call_prints (c : cfg) (me : method V) (es es' : list (expectation V U)) (args : list V)
    (r : res V) (more : list E) : Prop :=
  let a := said_args me args in
  (none_counted es es' /\ more = a /\ forall v, r <> Ret v) \/
  (exists i e, only_counted c es es' i e /\
    match r with
    | Ret _ => more = a ++ a ++ match e_action e with AMut _ => told_by e | _ => [] end
    | _ => more = a ++ a \/ more = a ++ a ++ told_by e
    end).

(** Expectations that are dropped one after the other: predicates are printed up to the first one that
    complains; a matcher that panicked before is not printed. *)
Inductive drop_prints : list (expectation V U) -> list E -> Prop :=
| DpNone : drop_prints [] []
| DpSound e es more : sound e -> drop_prints es more -> drop_prints (e :: es) (told_by e ++ more)
| DpFirst e es : ~ sound e ->
    drop_prints (e :: es) (if c_mpoison (e_common e) then [] else told_by e).
End Logged.

(** Printing things one after the other, up to the first printer that panics.  What the printers did,
    including the one that panicked, stays done. *)
Inductive prints_each {A : Type} (f : A -> U -> U * res string) : list A -> U -> U -> res (list string) -> Prop :=
| PeNone u : prints_each f [] u u (Ret [])
| PeText a l u u1 s u' ss :
    f a u = (u1, Ret s) -> prints_each f l u1 u' (Ret ss) -> prints_each f (a :: l) u u' (Ret (s :: ss))
| PeLater a l u u1 s u' m :
    f a u = (u1, Ret s) -> prints_each f l u1 u' (Panic m) -> prints_each f (a :: l) u u' (Panic m)
| PePanic a l u u' m : f a u = (u', Panic m) -> prints_each f (a :: l) u u' (Panic m).

(** Nothing to return: a [return_once] that was used, or no [return_*] and no default. *)
Inductive no_value (c : cfg) (me : method V) : action V U -> Prop :=
| NvTwice : no_value c me (AStatic SExpired false)
| NvNone : nightly c = false \/ me_default me = None -> no_value c me (AStatic SDefault false)
| NvRef : no_value c me (ARef (RDefault None))
| NvMut : no_value c me (AMut (XDefault None)).

(** All expectations of a store, in the order in which they are dropped. *)
Definition drop_order (sh : shuffle V U) (s : slot V U) : list (expectation V U) :=
  match s with SPlain es => es | SGeneric st => List.concat (map snd (sh st)) end.
Definition object_order (sh : shuffle V U) (o : object V U) : list (expectation V U) :=
  flat_map (fun f => drop_order sh (f_slot f)) o.

End Spec.
