(** * CallSpec: vocabulary for calls of mock functions

    How an argument of the mock function is handed to the expectation, stated
    without the functions of Derive.v and MockFn.v. *)

From Coq Require Import List Bool String NArith Arith.
From Verif Require Import Ast AstSpec Derive DeriveSpec.
Import ListNotations.
Open Scope string_scope.
Open Scope list_scope.

(** [&(dyn l)] and [&mut (dyn l)] *)
Definition object_ref (m : bool) (l : list bound) : ty := TRef None m (TParen (TDyn true l)).

Definition is_mut (p : pat) : Prop := exists r i s, p = PatIdent r true i s.

(** [fits g (p, t) e (p', t')]: in a function with generics [g] and argument
    [p: t], the expression [e] refers to that argument and has the type [t'], if
    need be by an unsizing coercion ("The Rust Reference", "Type coercions"); the
    expectation calls it [p']. *)
Inductive fits (g : generics) : pat * ty -> callexpr -> pat * ty -> Prop :=
| FitsSame p t : fits g (p, t) (CArg (without_mut p)) (without_mut p, t)
| FitsBox p i l :
    declared g i l ->
    fits g (p, ty_of i) (CBoxNew (without_mut p)) (without_mut p, boxed l)
| FitsRef p i l :
    declared g i l ->
    fits g (p, ty_of i) (CRefTo (without_mut p)) (without_mut p, object_ref false l)
| FitsMutRef p i l :
    declared g i l -> is_mut p ->
    fits g (p, ty_of i) (CMutRefTo (without_mut p)) (without_mut p, object_ref true l)
| FitsRefArg p i l m :
    declared g i l ->
    fits g (p, TRef None m (ty_of i)) (CArg (without_mut p)) (without_mut p, object_ref m l)
| FitsSlice p i l :
    declared g i l ->
    fits g (p, TRef None false (TSlice (ty_of i))) (CDynSlice (without_mut p) l)
         (without_mut p, TRef None false (TSlice (object_ref false l))).

(** The list begins with a bound by [FnMut]. *)
Definition fn_mut_first (l : list bound) : Prop :=
  exists m f lead a r rest, l = BTrait m f (Path lead (Seg "FnMut" a :: r)) :: rest.

(** An argument [&F], where [F] is bounded by [FnMut] first. *)
Definition shared_fn_mut (g : generics) (t : ty) : Prop :=
  exists i l, t = TRef None false (ty_of i) /\ declared g i l /\ fn_mut_first l.

(** Pairwise, in three lists of one length. *)
Inductive Forall3 {A B C} (R : A -> B -> C -> Prop) : list A -> list B -> list C -> Prop :=
| F3nil : Forall3 R [] [] []
| F3cons a b c la lb lc :
    R a b c -> Forall3 R la lb lc -> Forall3 R (a :: la) (b :: lb) (c :: lc).
