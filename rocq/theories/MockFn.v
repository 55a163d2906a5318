(** * MockFn: what is known about a mocked function

    mockall_derive/src/mock_function.rs 172-472 and the short methods of
    [MockFunction] (632-822). *)

From Coq Require Import List Bool String NArith Arith.
From Verif Require Import Ast TyEq Rewrite Derive Names Subst Sig.
Import ListNotations.
Open Scope string_scope.
Open Scope list_scope.

(** [Builder]: mock_function.rs 173-186. *)
Record builder : Type := Builder {
  b_attrs : list attribute;
  b_call_levels : option nat;
  b_levels : nat;
  b_parent : option ident;
  b_sig : signature;
  b_struct : option ident;
  b_struct_generics : option generics;
  b_trait : option ident;
  b_vis : visibility
}.

(** An expression that makes the argument of a predicate: [arg] or [&arg].
    mock_function.rs 217-248. *)
Inductive predexpr : Type :=
| PrArg (p : pat)
| PrRef (p : pat).

(** [MockFunction]: mock_function.rs 403-464. *)
Record mock_function : Type := MockFunction {
  mf_alifetimes : list (string * list string);
  mf_argnames : list pat;
  mf_argty : list ty;
  mf_attrs : list attribute;
  mf_call_exprs : list callexpr;
  mf_call_generics : generics;
  mf_call_vis : visibility;
  mf_concretize : bool;
  mf_egenerics : generics;
  mf_cgenerics : generics;
  mf_fn_params : list ident;
  mf_is_static : bool;
  mf_mod_ident : ident;
  mf_output : ty;
  mf_owned_output : ty;
  mf_boxed : bool;
  mf_predexprs : list predexpr;
  mf_predty : list ty;
  mf_refpredty : list ty;
  mf_return_ref : bool;
  mf_return_refmut : bool;
  mf_sig : signature;
  mf_struct : option ident;
  mf_struct_generics : generics;
  mf_trait : option ident;
  mf_type_generics : generics;
  mf_privmod_vis : visibility
}.

(** One argument of the loop at mock_function.rs 217-248: the expression and the
    two types for the predicate. *)
Definition pred_of (p : pat) (t : ty) : predexpr * ty * ty :=
  match t with
  | TRef _ _ e => (PrArg p, e, TRef None false e)
  | t => (PrRef p, t, TRef None false t)
  end.

(** The typed arguments, moved [levels] modules down.  mock_function.rs 217-248:
    [supersuperfy]. *)
Definition moved_args (levels : nat) (l : list fnarg) : list (pat * ty) :=
  flat_map (fun a => match a with
                     | FaTyped p t => [(p, supersuperfy levels t)]
                     | FaReceiver _ _ _ _ => []
                     end) l.

(** mock_function.rs 249-263. *)
Definition output_of (levels : nat) (o : option ty) : ty * bool :=
  match o with
  | None => (TTuple [], false)
  | Some t => dedynify (destrify (supersuperfy levels t))
  end.

(** mock_function.rs 266-278. *)
Definition returns_ref (t : ty) : bool :=
  match t with TRef l m _ => negb (is_static_lt l) && negb m | _ => false end.
(** mock_function.rs 266-278. *)
Definition returns_refmut (t : ty) : bool :=
  match t with TRef l m _ => negb (is_static_lt l) && m | _ => false end.

(** Equality of lifetimes' bounds, for the [HashSet] of mock_function.rs 303-307. *)
Definition lts_eqb : list string -> list string -> bool := list_eqb String.eqb.
(** Equality of [LifetimeParam], for the [HashSet] of mock_function.rs 303-307. *)
Definition ltparam_eqb (x y : string * list string) : bool :=
  (fst x =? fst y) && lts_eqb (snd x) (snd y).

(** [HashSet::union] (mock_function.rs 303-307); the order of the result is
    unspecified. *)
Definition lt_union (x y : list (string * list string)) : list (string * list string) :=
  x ++ filter (fun a => negb (existsb (ltparam_eqb a) x)) y.

(** [type_params()]: mock_function.rs 284-302. *)
Definition type_idents (g : generics) : list ident :=
  flat_map (fun p => match p with GpType i _ _ => [i] | _ => [] end) (params g).

(** [Builder::attrs] sets [concretize]: mock_function.rs 189-198. *)
Definition b_concretize (b : builder) : bool := existsb is_concretize (b_attrs b).

(** The changed generics, arguments, call expressions and signature:
    mock_function.rs 207-215.  [None]: the macro panics. *)
Definition prepared (b : builder)
  : option (generics * list fnarg * list callexpr * signature) :=
  let sig := b_sig b in
  if b_concretize b
  then let '(x, y, z, i) := concretize_args (sg_generics sig) (sg_inputs sig) in
       Some (x, y, z, with_inputs sig i)
  else match declosurefy (sg_generics sig) (sg_inputs sig) with
       | Some (x, y, z) => Some (x, y, z, sig)
       | None => None
       end.

(** [Builder::build]: mock_function.rs 199-343.  [None]: the macro panics. *)
Definition build (b : builder) : option mock_function :=
  match prepared b with
  | None => None
  | Some (dgenerics, dinputs, call_exprs, sig') =>
      let args := moved_args (b_levels b) dinputs in
      if existsb (fun x => pat_is_self (fst x)) args then None  (* the assertion at 220 *)
      else
        let preds := map (fun x => pred_of (fst x) (snd x)) args in
        let is_static := forallb (fun a => match a with
                                           | FaTyped _ _ => true
                                           | FaReceiver _ _ _ _ => false
                                           end) dinputs in
        let '(output, boxed) := output_of (b_levels b) (sg_output (b_sig b)) in
        let dgenerics := supersuperfy_generics (b_levels b) dgenerics in
        let owned := ownify output in
        let sgenerics := match b_struct_generics b with Some g => g | None => no_generics end in
        let '(type_generics, salts, srlts) := split_lifetimes sgenerics dinputs (Some owned) in
        let '(call_generics, malts, mrlts) := split_lifetimes dgenerics dinputs (Some owned) in
        let cgenerics := merge_generics type_generics call_generics in
        let egenerics := merge_generics (merge_generics cgenerics (lifetimes_to_generics srlts))
                                        (lifetimes_to_generics mrlts) in
        Some (MockFunction
          (lt_union salts malts)
          (map fst args)
          (map snd args)
          (b_attrs b)
          call_exprs
          call_generics
          (expectation_visibility (b_vis b)
             match b_call_levels b with Some n => n | None => b_levels b end)
          (b_concretize b)
          egenerics
          cgenerics
          (type_idents egenerics)
          is_static
          match b_parent b with Some i => i | None => "FIXME" end
          output
          owned
          boxed
          (map (fun x => fst (fst x)) preds)
          (map (fun x => snd (fst x)) preds)
          (map snd preds)
          (returns_ref output)
          (returns_refmut output)
          sig'
          (b_struct b)
          sgenerics
          (b_trait b)
          type_generics
          (expectation_visibility (b_vis b) (b_levels b)))
  end.

(** The error at mock_function.rs 279-282. *)
Definition build_error (b : builder) : bool :=
  match build b with
  | Some f => mf_is_static f && (mf_return_ref f || mf_return_refmut f)
  | None => false
  end.

(** [is_expectation_generic], [is_method_generic]: mock_function.rs 787-799. *)
Definition has_type_params (g : generics) : bool :=
  existsb (fun p => match p with GpType _ _ _ => true | _ => false end) (params g).
(** [where_clause.is_some()]: mock_function.rs 787-799. *)
Definition has_where (g : generics) : bool :=
  match where_clause g with Some _ => true | None => false end.

(** [is_expectation_generic]: mock_function.rs 787-791. *)
Definition is_expectation_generic (f : mock_function) : bool :=
  has_type_params (mf_egenerics f) || has_where (mf_egenerics f).
(** [is_method_generic]: mock_function.rs 795-799. *)
Definition is_method_generic (f : mock_function) : bool :=
  has_type_params (mf_call_generics f) || has_where (mf_call_generics f).

(** [name], [funcname], [inner_mod_ident]: mock_function.rs 765-771, 811-821. *)
Definition mf_name (f : mock_function) : ident := sg_ident (mf_sig f).
(** [funcname]: mock_function.rs 765-771. *)
Definition funcname (f : mock_function) : string :=
  match mf_struct f with
  | Some s => s ++ "::" ++ mf_name f
  | None => mf_name f
  end.

(** [desc]: mock_function.rs 632-645; the name in the message of an unmatched
    call. *)
Definition desc_name (f : mock_function) : string :=
  match mf_struct f with
  | Some s => s ++ "::" ++ mf_name f
  | None => mf_mod_ident f ++ "::" ++ mf_name f
  end.

(** Which kind of expectation is generated: mock_function.rs 824-870. *)
Inductive expectation_kind : Type := KStatic | KRef | KRefMut.
(** mock_function.rs 824-870. *)
Definition kind_of (f : mock_function) : expectation_kind :=
  if mf_return_ref f then KRef
  else if mf_return_refmut f then KRefMut
  else KStatic.
