(** * AstProofs: induction over syntax trees *)

From Coq Require Import List Bool String.
From Verif Require Import Ast.
Import ListNotations.

Definition all_of {A} (Q : A -> Prop) (f : forall x, Q x) : forall l, Forall Q l :=
  fix go l := match l with
              | [] => Forall_nil Q
              | x :: r => Forall_cons x (f x) (go r)
              end.

Inductive optP {A} (Q : A -> Prop) : option A -> Prop :=
| optP_none : optP Q None
| optP_some : forall a, Q a -> optP Q (Some a).

Definition opt_of {A} (Q : A -> Prop) (f : forall x, Q x) : forall o, optP Q o :=
  fun o => match o with
           | None => optP_none Q
           | Some x => optP_some Q x (f x)
           end.

Section induction.
  Context (P : ty -> Prop) (Pp : path -> Prop) (Ps : seg -> Prop)
          (Pa : pargs -> Prop) (Pg : garg -> Prop) (Pb : bound -> Prop).
  Context
    (HArray : forall e n, P e -> P (TArray e n))
    (HBareFn : forall q b i o, Forall P i -> optP P o -> P (TBareFn q b i o))
    (HGroup : forall e, P e -> P (TGroup e))
    (HImpl : forall l, Forall Pb l -> P (TImplTrait l))
    (HInfer : P TInfer)
    (HMacro : forall s, P (TMacro s))
    (HNever : P TNever)
    (HParen : forall e, P e -> P (TParen e))
    (HPath : forall p, Pp p -> P (TPath p))
    (HQPath : forall q n p, P q -> Pp p -> P (TQPath q n p))
    (HPtr : forall m e, P e -> P (TPtr m e))
    (HRef : forall l m e, P e -> P (TRef l m e))
    (HSlice : forall e, P e -> P (TSlice e))
    (HDyn : forall d l, Forall Pb l -> P (TDyn d l))
    (HTuple : forall l, Forall P l -> P (TTuple l))
    (HVerbatim : forall s, P (TVerbatim s))
    (Hp : forall b l, Forall Ps l -> Pp (Path b l))
    (Hs : forall i a, Pa a -> Ps (Seg i a))
    (HaNone : Pa PaNone)
    (HaAngle : forall l, Forall Pg l -> Pa (PaAngle l))
    (HaParen : forall i o, Forall P i -> optP P o -> Pa (PaParen i o))
    (HgLt : forall l, Pg (GaLifetime l))
    (HgType : forall t, P t -> Pg (GaType t))
    (HgConst : forall e, Pg (GaConst e))
    (HgAssoc : forall i t, P t -> Pg (GaAssocType i t))
    (HgAssocC : forall i e, Pg (GaAssocConst i e))
    (HgConstr : forall i l, Forall Pb l -> Pg (GaConstraint i l))
    (HbTrait : forall m b p, Pp p -> Pb (BTrait m b p))
    (HbLt : forall l, Pb (BLifetime l))
    (HbVerb : forall s, Pb (BVerbatim s)).

  Fixpoint ty_all (t : ty) : P t :=
    match t with
    | TArray e n => HArray e n (ty_all e)
    | TBareFn q b i o => HBareFn q b i o (all_of P ty_all i) (opt_of P ty_all o)
    | TGroup e => HGroup e (ty_all e)
    | TImplTrait l => HImpl l (all_of Pb bound_all l)
    | TInfer => HInfer
    | TMacro s => HMacro s
    | TNever => HNever
    | TParen e => HParen e (ty_all e)
    | TPath p => HPath p (path_all p)
    | TQPath q n p => HQPath q n p (ty_all q) (path_all p)
    | TPtr m e => HPtr m e (ty_all e)
    | TRef l m e => HRef l m e (ty_all e)
    | TSlice e => HSlice e (ty_all e)
    | TDyn d l => HDyn d l (all_of Pb bound_all l)
    | TTuple l => HTuple l (all_of P ty_all l)
    | TVerbatim s => HVerbatim s
    end
  with path_all (p : path) : Pp p :=
    match p with Path b l => Hp b l (all_of Ps seg_all l) end
  with seg_all (s : seg) : Ps s :=
    match s with Seg i a => Hs i a (pargs_all a) end
  with pargs_all (a : pargs) : Pa a :=
    match a with
    | PaNone => HaNone
    | PaAngle l => HaAngle l (all_of Pg garg_all l)
    | PaParen i o => HaParen i o (all_of P ty_all i) (opt_of P ty_all o)
    end
  with garg_all (g : garg) : Pg g :=
    match g with
    | GaLifetime l => HgLt l
    | GaType t => HgType t (ty_all t)
    | GaConst e => HgConst e
    | GaAssocType i t => HgAssoc i t (ty_all t)
    | GaAssocConst i e => HgAssocC i e
    | GaConstraint i l => HgConstr i l (all_of Pb bound_all l)
    end
  with bound_all (b : bound) : Pb b :=
    match b with
    | BTrait m l p => HbTrait m l p (path_all p)
    | BLifetime l => HbLt l
    | BVerbatim s => HbVerb s
    end.

  Lemma ast_ind :
    (forall t, P t) /\ (forall p, Pp p) /\ (forall s, Ps s) /\
    (forall a, Pa a) /\ (forall g, Pg g) /\ (forall b, Pb b).
  Proof.
    repeat split;
      [exact ty_all|exact path_all|exact seg_all|exact pargs_all|exact garg_all|exact bound_all].
  Qed.
End induction.
