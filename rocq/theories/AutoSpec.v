(** * AutoSpec: which mocks may be moved to and shared between threads

    In the terms of the user's declarations. *)

From Coq Require Import List Bool String.
From Verif Require Import Ast AstSpec Sig MockFn MockFnSpec Item ItemSpec GenSpec GenRunSpec AutoTraits.
Import ListNotations.

(** What the user's types implement, by their absolute names: a type [t], written in the
    module [ns] below the user's module [m]. *)
Definition known (knows : marker -> ty -> Prop) (m : modpath) (own : list ident)
  (a : marker) (ns : list ident) (t : ty) : Prop := knows a (absolute m ns own t).

(** The function returns a reference, not a ['static] one. *)
Definition lends (x : fn_item) : Prop :=
  exists t mu, sg_output (fi_sig x) = Some t /\ borrows mu t.

(** The mock is [Send] ([Sync]) if its type parameters are, and what its methods lend, except
    for methods that are generic. *)
Definition safe (knows : marker -> ty -> Prop) (at_ : modpath) (own : list ident) (a : marker)
  (m : mockable_struct) : Prop :=
  (forall i, In i (type_names (ms_generics m)) -> known knows at_ own a [] (ty_of i))
  /\ forall tr x, In (tr, x) (object_fns m) -> lends x -> ~ separated x ->
       known knows at_ own a [] (stored (sg_output (fi_sig x))).

(** The where clause holds: the types to which it says so are [Send] and [Sync]. *)
Definition grants (user : marker -> list ident -> ty -> Prop) (ns : list ident) (w : list wpred) : Prop :=
  forall t, In (shared t) w -> user Send ns t /\ user Sync ns t.
