(** * SigSpec: how the signature of a mocked method is adapted

    Stated with the text of types, without the functions of Derive.v and
    Sig.v. *)

From Coq Require Import List Bool String NArith Arith.
From Verif Require Import Ast AstSpec DeriveSpec CallSpec Sig.
Import ListNotations.
Open Scope string_scope.
Open Scope list_scope.

(** The lifetime for the trait objects of an argument. *)
Definition own_lifetime (p : pat) (l : lifetime) : Prop :=
  exists i, pat_name p = Some i /\ l = ("__mockall_" ++ i)%string.

(** The text without the lifetime [l], without plus signs and without
    parentheses: without the difference between [&dyn A] and [&(dyn A + 'l)]. *)
Definition unbounded (l : lifetime) : list token -> list token :=
  filter (fun k => match k with
                   | TkLt x => negb (x =? l)
                   | TkSym s => negb (existsb (String.eqb s) ["+"; "("; ")"])
                   | TkId _ => true
                   end).

(** How often the lifetime [l] is written. *)
Definition occurs (l : lifetime) (ts : list token) : nat :=
  List.length (filter (fun k => match k with TkLt x => x =? l | _ => false end) ts).

(** Every reference to a trait object, except those inside of generic arguments,
    pointers and function types, is [&(dyn A + 'l)] for some lifetime. *)
Fixpoint objects_bounded (t : ty) : bool :=
  match t with
  | TArray e _ | TSlice e => objects_bounded e
  | TTuple l => forallb objects_bounded l
  | TRef _ _ (TDyn _ _) => false
  | TRef _ _ (TParen (TDyn _ b)) =>
      existsb (fun x => match x with BLifetime _ => true | _ => false end) b
  | TRef _ _ e => objects_bounded e
  | _ => true
  end.

(** [adapted name g a a' ls]: the argument [a] of a method of the mock [name]
    became [a'], and the lifetimes [ls] were declared for it.  (The text is only
    stated for types in which [Self] is found.) *)
Definition adapted (name : ident) (g : generics) (a a' : fnarg) (ls : list lifetime) : Prop :=
  match a, a' with
  | FaReceiver r m c t, FaReceiver r' m' c' t' =>
      r' = r /\ c' = c /\ m' = (m && match r with Some _ => true | None => false end)%bool
      /\ ls = []
      /\ (c = false -> t' = t)
      /\ (c = true -> self_reachable t = true -> tokens t' = put_for_self name g (tokens t))
  | FaTyped p t, FaTyped p' t' =>
      p' = without_mut p
      /\ objects_bounded t' = true
      /\ (objects_bounded t = true -> ls = [])
      /\ exists l,
           own_lifetime p l
           /\ Forall (fun x => x = l) ls
           /\ (self_reachable t = true ->
               unbounded l (tokens t') = unbounded l (put_for_self name g (tokens t))
               /\ occurs l (tokens t')
                  = (occurs l (put_for_self name g (tokens t)) + List.length ls)%nat
               /\ (objects_bounded t = true -> tokens t' = put_for_self name g (tokens t)))
  | _, _ => False
  end.

(** A bound by [Future] or [Stream], under any path. *)
Definition future_bound (b : bound) : Prop :=
  exists m f lead pre i a, b = BTrait m f (Path lead (pre ++ [Seg i a])) /\ (i = "Future" \/ i = "Stream").

(** [::std::pin::Pin<t>] *)
Definition pinned (t : ty) : ty :=
  TPath (Path true [seg_of "std"; seg_of "pin"; Seg "Pin" (PaAngle [GaType t])]).

(** The type that a mock returns for a return type: a box for [impl Trait]. *)
Inductive returned : ty -> ty -> Prop :=
| RetPlain t : (forall l, t <> TImplTrait l) -> returned t t
| RetBox l : (forall b, In b l -> ~ future_bound b) -> returned (TImplTrait l) (boxed l)
| RetPin l b : In b l -> future_bound b -> returned (TImplTrait l) (pinned (boxed l)).

(** The signature of a mock method, for the signature of the mocked method:
    - the name and the ABI stay;
    - the arguments are adapted, and their lifetimes declared after the other
      parameters;
    - only the predicates about [Self] leave the where clause;
    - in the return type, [impl Trait] becomes a box, the mock's type is in the
      place of [Self], and ['static] in that of ['_]. *)
Definition adapted_sig (name : ident) (g : generics) (s s' : signature) : Prop :=
  sg_ident s' = sg_ident s /\ sg_abi s' = sg_abi s
  /\ (exists new,
        Forall3 (adapted name g) (sg_inputs s) (sg_inputs s') new
        /\ params (sg_generics s')
           = params (sg_generics s) ++ map (fun l => GpLifetime l []) (List.concat new))
  /\ (forall w, In w (preds (sg_generics s'))
                <-> In w (preds (sg_generics s)) /\ subject_of w <> SjType (ty_of "Self"))
  /\ (sg_output s = None -> sg_output s' = None)
  /\ (forall t, sg_output s = Some t ->
        exists t1 t', sg_output s' = Some t' /\ returned t t1
          /\ (self_reachable t1 = true -> anon_reachable t1 = true ->
              has_anon (self_type_tokens name g) = false ->
              tokens t' = put_static (put_for_self name g (tokens t1)))).
