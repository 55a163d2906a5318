(** * TyEq: syn's [PartialEq] on syntax trees

    [syn] derives equality structurally and ignores spans; mockall_derive uses
    it in [merge_generics], [declosurefy], [dewhereselfify], [destrify] and
    [unique_trait_iter]. *)

From Coq Require Import List Bool String Arith.
From Verif Require Import Ast AstProofs.
Import ListNotations.
Open Scope string_scope.
Open Scope list_scope.

(** Equality of [Punctuated] and [Vec]; mockall_derive/src/lib.rs 1100, 1133. *)
Definition list_eqb {A} (f : A -> A -> bool) : list A -> list A -> bool :=
  fix go l r := match l, r with
                | [], [] => true
                | x :: l, y :: r => f x y && go l r
                | _, _ => false
                end.

(** Equality of [Option]; used for the types of mockall_derive/src/lib.rs 406, 482.
    *)
Definition option_eqb {A} (f : A -> A -> bool) (a b : option A) : bool :=
  match a, b with
  | None, None => true
  | Some x, Some y => f x y
  | _, _ => false
  end.

(** [PartialEq for Type]; mockall_derive/src/lib.rs 333, 406, 482, 1073. *)
Fixpoint ty_eqb (a b : ty) {struct a} : bool :=
  match a, b with
  | TArray e n, TArray e' n' => ty_eqb e e' && (n =? n')
  | TBareFn q f i o, TBareFn q' f' i' o' =>
      (q =? q') && list_eqb String.eqb f f' && list_eqb ty_eqb i i' && option_eqb ty_eqb o o'
  | TGroup e, TGroup e' => ty_eqb e e'
  | TImplTrait l, TImplTrait l' => list_eqb bound_eqb l l'
  | TInfer, TInfer => true
  | TMacro s, TMacro s' => s =? s'
  | TNever, TNever => true
  | TParen e, TParen e' => ty_eqb e e'
  | TPath p, TPath p' => path_eqb p p'
  | TQPath q n p, TQPath q' n' p' => ty_eqb q q' && Nat.eqb n n' && path_eqb p p'
  | TPtr m e, TPtr m' e' => Bool.eqb m m' && ty_eqb e e'
  | TRef l m e, TRef l' m' e' =>
      option_eqb String.eqb l l' && Bool.eqb m m' && ty_eqb e e'
  | TSlice e, TSlice e' => ty_eqb e e'
  | TDyn d l, TDyn d' l' => Bool.eqb d d' && list_eqb bound_eqb l l'
  | TTuple l, TTuple l' => list_eqb ty_eqb l l'
  | TVerbatim s, TVerbatim s' => s =? s'
  | _, _ => false
  end
(** [PartialEq for Path]; mock_item_struct.rs 69-80. *)
with path_eqb (a b : path) {struct a} : bool :=
  match a, b with Path l s, Path l' s' => Bool.eqb l l' && list_eqb seg_eqb s s' end
(** [PartialEq for PathSegment]; mock_item_struct.rs 69-80. *)
with seg_eqb (a b : seg) {struct a} : bool :=
  match a, b with Seg i x, Seg i' x' => (i =? i') && pargs_eqb x x' end
(** [PartialEq for PathArguments]; mock_item_struct.rs 69-80. *)
with pargs_eqb (a b : pargs) {struct a} : bool :=
  match a, b with
  | PaNone, PaNone => true
  | PaAngle l, PaAngle l' => list_eqb garg_eqb l l'
  | PaParen i o, PaParen i' o' => list_eqb ty_eqb i i' && option_eqb ty_eqb o o'
  | _, _ => false
  end
(** [PartialEq for GenericArgument]; mock_item_struct.rs 69-80. *)
with garg_eqb (a b : garg) {struct a} : bool :=
  match a, b with
  | GaLifetime l, GaLifetime l' => l =? l'
  | GaType t, GaType t' => ty_eqb t t'
  | GaConst e, GaConst e' => e =? e'
  | GaAssocType i t, GaAssocType i' t' => (i =? i') && ty_eqb t t'
  | GaAssocConst i e, GaAssocConst i' e' => (i =? i') && (e =? e')
  | GaConstraint i l, GaConstraint i' l' => (i =? i') && list_eqb bound_eqb l l'
  | _, _ => false
  end
(** [PartialEq for TypeParamBound]; mockall_derive/src/lib.rs 1100, 1133. *)
with bound_eqb (a b : bound) {struct a} : bool :=
  match a, b with
  | BTrait m f p, BTrait m' f' p' =>
      Bool.eqb m m' && list_eqb String.eqb f f' && path_eqb p p'
  | BLifetime l, BLifetime l' => l =? l'
  | BVerbatim s, BVerbatim s' => s =? s'
  | _, _ => false
  end.

(** It is equality. *)

Lemma list_eqb_eq : forall A (f : A -> A -> bool) l,
  Forall (fun x => forall y, f x y = true <-> x = y) l ->
  forall r, list_eqb f l r = true <-> l = r.
Proof.
  intros A f l H. induction H as [|x l Hx H IH]; intros [|y r]; cbn;
    try (split; [discriminate|intros E; discriminate]); [split; reflexivity|].
  rewrite andb_true_iff, Hx, IH. split; [intros [-> ->]; reflexivity|].
  intros E. injection E. auto.
Qed.

Lemma list_eqb_all : forall A (f : A -> A -> bool),
  (forall x y, f x y = true <-> x = y) -> forall l r, list_eqb f l r = true <-> l = r.
Proof. intros A f H l. apply list_eqb_eq. apply Forall_forall. intros x _. apply H. Qed.

Lemma option_eqb_eq : forall A (f : A -> A -> bool) a,
  optP (fun x => forall y, f x y = true <-> x = y) a ->
  forall b, option_eqb f a b = true <-> a = b.
Proof.
  intros A f a H [y|]; destruct H as [|x H]; cbn;
    try (split; [discriminate|intros E; discriminate]); [|split; reflexivity].
  rewrite H. split; [intros ->; reflexivity|]. intros E. injection E. auto.
Qed.

Lemma lifetimes_eqb_eq : forall l r, list_eqb String.eqb l r = true <-> l = r.
Proof. apply list_eqb_all. apply String.eqb_eq. Qed.

Lemma option_str_eqb_eq : forall a b, option_eqb String.eqb a b = true <-> a = b.
Proof.
  intros a. apply option_eqb_eq. destruct a; constructor. apply String.eqb_eq.
Qed.

Lemma ast_eqb_eq :
  (forall a b, ty_eqb a b = true <-> a = b) /\
  (forall a b, path_eqb a b = true <-> a = b) /\
  (forall a b, seg_eqb a b = true <-> a = b) /\
  (forall a b, pargs_eqb a b = true <-> a = b) /\
  (forall a b, garg_eqb a b = true <-> a = b) /\
  (forall a b, bound_eqb a b = true <-> a = b).
Proof.
  Ltac fin := split; [intros E; repeat match goal with H : _ /\ _ |- _ => destruct H end;
                      subst; reflexivity
                     |intros E; injection E; intros; subst; repeat split; reflexivity].
  apply ast_ind; intros;
    match goal with
    | |- _ <-> _ = ?y => destruct y
    end;
    cbn [ty_eqb path_eqb seg_eqb pargs_eqb garg_eqb bound_eqb];
    try (split; [discriminate|intros E; discriminate]);
    try (split; reflexivity);
    rewrite ?andb_true_iff, ?String.eqb_eq, ?eqb_true_iff, ?Nat.eqb_eq, ?lifetimes_eqb_eq,
      ?option_str_eqb_eq;
    repeat match goal with
    | H : Forall _ ?l |- context [list_eqb _ ?l _] => rewrite (list_eqb_eq _ _ l H)
    | H : optP _ ?o |- context [option_eqb _ ?o _] => rewrite (option_eqb_eq _ _ o H)
    | H : _ |- context [ty_eqb _ ?y = true] => rewrite (H y)
    | H : _ |- context [path_eqb _ ?y = true] => rewrite (H y)
    | H : _ |- context [pargs_eqb _ ?y = true] => rewrite (H y)
    end;
    fin.
Qed.

Lemma ty_eqb_eq : forall a b, ty_eqb a b = true <-> a = b.
Proof. apply ast_eqb_eq. Qed.
Lemma path_eqb_eq : forall a b, path_eqb a b = true <-> a = b.
Proof. apply ast_eqb_eq. Qed.
Lemma bound_eqb_eq : forall a b, bound_eqb a b = true <-> a = b.
Proof. apply ast_eqb_eq. Qed.
Lemma pargs_eqb_eq : forall a b, pargs_eqb a b = true <-> a = b.
Proof. apply ast_eqb_eq. Qed.
Lemma bounds_eqb_eq : forall l r, list_eqb bound_eqb l r = true <-> l = r.
Proof. apply list_eqb_all. apply bound_eqb_eq. Qed.
