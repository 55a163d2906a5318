(** * RefuseSpec: what can and what can't be mocked

    Stated on the user's input, without the functions of the model. *)

From Coq Require Import List Bool String NArith.
From Verif Require Import Ast DeriveSpec Sig Item.
Import ListNotations.
Open Scope string_scope.
Open Scope list_scope.

(** ** What can't *)

Definition type_among (t : ty) (l : list garg) : Prop :=
  In (GaType t) l \/ exists i, In (GaAssocType i t) l.
Definition self_start (l : list seg) : bool :=
  match l with Seg i _ :: _ => i =? "Self" | [] => false end.

(** [inside u t]: the type [u] is written in [t].  Not through functions
    ([fn(..)], [Fn(..)]), [impl Trait], paths that begin with [Self] or [<..>],
    and bounds on associated types. *)
Inductive inside (u : ty) : ty -> Prop :=
| in_here : inside u u
| in_array e n : inside u e -> inside u (TArray e n)
| in_group e : inside u e -> inside u (TGroup e)
| in_paren e : inside u e -> inside u (TParen e)
| in_ptr m e : inside u e -> inside u (TPtr m e)
| in_ref l m e : inside u e -> inside u (TRef l m e)
| in_slice e : inside u e -> inside u (TSlice e)
| in_tuple l e : In e l -> inside u e -> inside u (TTuple l)
| in_path b l i a e :
    self_start l = false -> In (Seg i (PaAngle a)) l -> type_among e a -> inside u e ->
    inside u (TPath (Path b l))
| in_object d bs m f b l i a e :
    In (BTrait m f (Path b l)) bs ->
    self_start l = false -> In (Seg i (PaAngle a)) l -> type_among e a -> inside u e ->
    inside u (TDyn d bs).

(** A macro call, or something that [syn] can't parse, in place of a type. *)
Definition macro_free (t : ty) : Prop :=
  forall u, inside u t -> forall s, u <> TMacro s /\ u <> TVerbatim s.

(** A parameter of the last name of a path: [e] in [a::B<e>], [a::B<T = e>], [Fn(e)], [Fn() -> e]. *)
Inductive end_of_path : path -> ty -> Prop :=
| end_angle b l i a e : type_among e a -> end_of_path (Path b (l ++ [Seg i (PaAngle a)])) e
| end_paren b l i a o e : In e a \/ o = Some e -> end_of_path (Path b (l ++ [Seg i (PaParen a o)])) e.

(** The functions of modules: [met u t], the type [u] is written in [t], in paths only in the
    parameters of the last name. *)
Inductive met (u : ty) : ty -> Prop :=
| met_here : met u u
| met_array e n : met u e -> met u (TArray e n)
| met_group e : met u e -> met u (TGroup e)
| met_paren e : met u e -> met u (TParen e)
| met_ptr m e : met u e -> met u (TPtr m e)
| met_ref l m e : met u e -> met u (TRef l m e)
| met_slice e : met u e -> met u (TSlice e)
| met_tuple l e : In e l -> met u e -> met u (TTuple l)
| met_fn_in q fs l o e : In e l -> met u e -> met u (TBareFn q fs l o)
| met_fn_out q fs l e : met u e -> met u (TBareFn q fs l (Some e))
| met_path p e : end_of_path p e -> met u e -> met u (TPath p)
| met_qself q n p : met u q -> met u (TQPath q n p)
| met_qpath q n p e : end_of_path p e -> met u e -> met u (TQPath q n p)
| met_object d bs m f p e : In (BTrait m f p) bs -> end_of_path p e -> met u e -> met u (TDyn d bs).
Definition no_macro_met (t : ty) : Prop :=
  forall u, met u t -> forall s, u <> TMacro s /\ u <> TVerbatim s.

(** A name: not [_], [ref x], [x @ ..], [(a, b)]. *)
Definition named (p : pat) : Prop := exists m i, p = PatIdent false m i false.

Definition without_self (s : signature) : Prop :=
  forall r m c t, ~ In (FaReceiver r m c t) (sg_inputs s).

(** What every mocked method is like. *)
Definition supported (s : signature) : Prop :=
  (forall p t, In (FaTyped p t) (sg_inputs s) ->
     named p /\ macro_free t /\ (forall b, t <> TImplTrait b) /\ t <> TNever /\ t <> TInfer)
  /\ (forall t, sg_output s = Some t ->
        macro_free t
        /\ (without_self s -> forall l m e, t = TRef l m e -> l = Some "static" \/ l = Some "_")).

(** What the parameters of every mocked structure are like: no constants and no
    bounds on lifetimes. *)
Definition supported_params (g : generics) : Prop :=
  forall p, In p (params g) ->
    (exists l, p = GpLifetime l []) \/ (exists i b d, p = GpType i b d).

(** ** What can *)

(** Types of paths, references, pointers, slices, arrays, tuples and trait
    objects.  No functions, [impl Trait], macros, [!], [_] and [<..>]. *)
Fixpoint ordinary (t : ty) : bool :=
  match t with
  | TArray e _ | TPtr _ e | TRef _ _ e | TSlice e | TParen e => ordinary e
  | TTuple l => forallb ordinary l
  | TPath p => ordinary_path p
  | TDyn _ l => forallb ordinary_bound l
  | _ => false
  end
with ordinary_path (p : path) : bool :=
  match p with Path _ l => forallb ordinary_seg l end
with ordinary_seg (s : seg) : bool :=
  match s with
  | Seg i a => match a with PaNone => true | a => negb (i =? "Self") && ordinary_pargs a end
  end
with ordinary_pargs (a : pargs) : bool :=
  match a with
  | PaNone => true
  | PaAngle l => forallb ordinary_garg l
  | PaParen _ _ => false
  end
with ordinary_garg (g : garg) : bool :=
  match g with
  | GaLifetime _ | GaConst _ | GaAssocConst _ _ => true
  | GaType t | GaAssocType _ t => ordinary t
  | GaConstraint _ l => forallb ordinary_bound l
  end
with ordinary_bound (b : bound) : bool :=
  match b with
  | BTrait _ _ p => ordinary_path p && negb (self_start (segs p))
  | BLifetime _ => true
  | BVerbatim _ => false
  end.

(** A trait object is behind a reference or in a path, as in [Box<dyn T>];
    parentheses are only in [&(dyn T)]. *)
Fixpoint placed (t : ty) : bool :=
  match t with
  | TArray e _ | TSlice e => placed e
  | TRef _ _ e =>
      match e with
      | TParen (TDyn _ _) | TDyn _ _ => true
      | e => placed e
      end
  | TTuple l => forallb placed l
  | TPath _ | TPtr _ _ => true
  | _ => false
  end.

(** [T: Fn(A) -> B], or an ordinary bound. *)
Definition ordinary_fn_seg (s : seg) : bool :=
  match s with
  | Seg _ (PaParen i o) => forallb ordinary i && match o with Some t => ordinary t | None => true end
  | s => ordinary_seg s
  end.
Definition ordinary_fn_bound (b : bound) : bool :=
  match b with
  | BTrait _ _ (Path _ l) => forallb ordinary_fn_seg l
  | BLifetime _ => true
  | BVerbatim _ => false
  end.
Definition ordinary_generics (g : generics) : Prop :=
  (forall i b d, In (GpType i b d) (params g) ->
     forallb ordinary_fn_bound b = true
     /\ match d with Some t => ordinary t = true | None => True end)
  /\ (forall w, where_clause g = Some w -> forall f t b, In (WpType f t b) w ->
        ordinary t = true /\ forallb ordinary_fn_bound b = true).

Definition raw_name (i : ident) : bool := prefix "r#" i.

(** A method that can be mocked: its arguments have names, its types are
    ordinary, and it borrows its result only from [self]. *)
Definition ordinary_sig (s : signature) : Prop :=
  (forall p t, In (FaTyped p t) (sg_inputs s) ->
     exists m i, p = PatIdent false m i false /\ i <> "self" /\ raw_name i = false
                 /\ ordinary t = true /\ placed t = true)
  /\ (forall r m t, In (FaReceiver r m true t) (sg_inputs s) -> ordinary t = true)
  /\ (forall t, sg_output s = Some t ->
        (ordinary t = true \/ exists b, t = TImplTrait b /\ forallb ordinary_bound b = true)
        /\ (without_self s -> forall l m e, t = TRef l m e -> l = Some "static"))
  /\ ordinary_generics (sg_generics s).

(** [#[concretize]], or [#[cfg_attr(.., concretize)]]. *)
Definition concretizes (a : attribute) : Prop :=
  DeriveSpec.named a "concretize"
  \/ (apath a = path_of "cfg_attr"
      /\ exists pre post, alist a = Some (pre ++ "concretize" ++ post)%string).

(** No type parameter is a closure twice. *)
Definition single_closures (g : generics) : Prop :=
  forall i l1 b1 l2 b2 l3, all_bounds g i = l1 ++ b1 :: l2 ++ b2 :: l3 ->
    closure_bound b1 -> ~ closure_bound b2.

(** Every bounded type parameter has a trait among its bounds. *)
Definition trait_bounds (g : generics) : Prop :=
  forall i l, declared g i l -> l = [] \/ exists m f p, In (BTrait m f p) l.

(** The bounds of the type parameters of a method with these attributes. *)
Definition fitting (attrs : list attribute) (s : signature) : Prop :=
  ((forall a, In a attrs -> ~ concretizes a) /\ single_closures (sg_generics s))
  \/ ((exists a, In a attrs /\ concretizes a) /\ trait_bounds (sg_generics s)).

(** A type given to an associated type. *)
Definition ordinary_value (u : ty) : Prop :=
  ordinary u = true /\ placed u = true /\ forall l m e, u = TRef l m e -> l = Some "static".
