(** * ScopeSpec: parameters in scope

    Which lifetime and type parameters a piece of code names, which it declares,
    and which signatures the generated code can declare all parameters for. *)

From Coq Require Import List Bool String NArith Arith.
From Verif Require Import Ast AstSpec DeriveSpec MockFnSpec Derive Names Sig MockFn Item MockItem Scopes.
From Verif Require Import ItemSpec GenSpec GenRunSpec.
Import ListNotations.
Open Scope string_scope.
Open Scope list_scope.

(** ** Naming a parameter *)

(** The parameter in the text. *)
Definition tok (k : pkey) : token :=
  match k with
  | KLifetime l => TkLt l
  | KType i | KConst i => TkId i
  end.
Definition in_ty (k : pkey) (t : ty) : Prop := In (tok k) (tokens t).
Definition in_bound (k : pkey) (b : bound) : Prop := In (tok k) (bound_tokens b).

(** The bounds of a parameter (a default is not written out again). *)
Definition in_param (k : pkey) (p : gparam) : Prop :=
  match p with
  | GpLifetime _ b => exists l, k = KLifetime l /\ In l b
  | GpType _ b _ => Exists (in_bound k) b
  | GpConst _ t _ => in_ty k t
  end.
Definition in_pred (k : pkey) (w : wpred) : Prop :=
  match w with
  | WpLifetime l b => exists j, k = KLifetime j /\ In j (l :: b)
  | WpType _ t b => in_ty k t \/ Exists (in_bound k) b
  end.
Definition in_generics (k : pkey) (g : generics) : Prop :=
  Exists (in_param k) (params g) \/ Exists (in_pred k) (preds g).

(** ** Scopes *)

(** Wherever [k] is named in the bounds of the parameter lists or in the types
    inside of them, it is declared by the same list or one further out. *)
Fixpoint closed (k : pkey) (outer : list pkey) (l : list generics) (ts : list ty) : Prop :=
  match l with
  | [] => Exists (in_ty k) ts -> In k outer
  | g :: r =>
      (in_generics k g -> In k (outer ++ keys g)) /\ closed k (outer ++ keys g) r ts
  end.

(** ... for every parameter in [names]; and nothing is declared twice. *)
Definition well_scoped (names : list pkey) (u : use) : Prop :=
  (forall k, In k names -> closed k [] (us_scopes u) (us_types u))
  /\ NoDup (flat_map keys (us_scopes u)).

(** ** Which signatures *)

(** The function is mocked by expectations that are kept apart by types. *)
Definition kept_apart (sg : generics) (x : fn_item) : Prop :=
  separated x
  \/ (has_self x = false
      /\ (type_names sg <> [] \/ (lt_token sg = false /\ where_clause sg <> None))).

Definition concretized (x : fn_item) : bool := existsb is_concretize (fi_attrs x).

(** What the expectations of the function store (MockFnSpec.v). *)
Definition held (x : fn_item) : ty := stored (sg_output (fi_sig x)).

Definition in_output (k : pkey) (x : fn_item) : Prop :=
  exists t, sg_output (fi_sig x) = Some t /\ in_ty k t.
Definition in_arg (k : pkey) (x : fn_item) : Prop :=
  exists p t, In (FaTyped p t) (sg_inputs (fi_sig x)) /\ in_ty k t.

(** A lifetime parameter of the struct or of the function can be declared
    everywhere.  No bound names it.  In the return value, or rather in what is
    stored for it, it is only allowed for a method with [self], and then no
    argument may have it behind its outermost reference.  Otherwise an argument
    may have it, unless the function returns [&mut] or its expectations are kept
    apart by types; it may also be the lifetime of the reference that a method with
    [self] returns, if some argument or [self] has it. *)
Record lifetime_fits (sg : generics) (x : fn_item) (l : lifetime) : Prop := LifetimeFits {
  lf_bounds : ~ in_generics (KLifetime l) sg
              /\ ~ in_generics (KLifetime l) (sg_generics (fi_sig x));
  lf_args : forall p t, In (FaTyped p t) (sg_inputs (fi_sig x)) -> in_ty (KLifetime l) t ->
    no_fn_types t = true
    /\ (in_ty (KLifetime l) (held x) -> ~ in_ty (KLifetime l) (referent t))
    /\ (in_ty (KLifetime l) (held x)
        \/ (~ kept_apart sg x
            /\ forall o, sg_output (fi_sig x) = Some o -> ~ borrows true o));
  lf_held : in_ty (KLifetime l) (held x) -> has_self x = true /\ no_fn_types (held x) = true;
  lf_output : in_output (KLifetime l) x ->
    in_ty (KLifetime l) (held x)
    \/ (~ kept_apart sg x /\ has_self x = true
        /\ exists a, In a (sg_inputs (fi_sig x)) /\ arg_mentionsb l a = true);
  lf_concretized : concretized x = true -> ~ In l (lifetime_names sg) ->
    ~ in_arg (KLifetime l) x /\ ~ in_output (KLifetime l) x
}.

(** An argument whose type is replaced: the closure itself, and for a concretized
    function a bounded parameter, a reference to one, or a slice of them. *)
Definition replaced (x : fn_item) (i : ident) (t : ty) : Prop :=
  if concretized x
  then In t [ty_of i; TRef None false (ty_of i); TRef None true (ty_of i);
             TRef None false (TSlice (ty_of i))]
       /\ exists l, DeriveSpec.declared (sg_generics (fi_sig x)) i l /\ l <> []
  else t = ty_of i.

(** Names that the templates write themselves. *)
Definition written : list ident :=
  ["Common"; "Matcher"; "Rfunc"; "Expectation"; "Expectations"; "ExpectationGuard"; "Context";
   "mockall"; "Key"; "Send"; "Sync"; "super"; "Box"; "std"; "string"; "String"; "path"; "PathBuf";
   "ffi"; "OsString"; "CString"; "vec"; "Vec"; "crate"; "self"; "Self"].

(** A type parameter of the function that its expectations do not have is only
    named as an argument whose type is replaced. *)
Record type_fits (x : fn_item) (i : ident) : Prop := TypeFits {
  tf_params : Forall (fun p => ~ in_param (KType i) p) (params (sg_generics (fi_sig x)));
  tf_preds : forall f t b, In (WpType f t b) (preds (sg_generics (fi_sig x))) ->
    ~ Exists (in_bound (KType i)) b /\ (in_ty (KType i) t -> t = ty_of i);
  tf_args : forall p t, In (FaTyped p t) (sg_inputs (fi_sig x)) -> in_ty (KType i) t ->
    replaced x i t;
  tf_output : ~ in_output (KType i) x
}.

Record scopable (sg : generics) (x : fn_item) : Prop := Scopable {
  sc_distinct : NoDup (keys sg ++ keys (sg_generics (fi_sig x)));
  sc_const : forall i, ~ In (KConst i) (keys sg ++ keys (sg_generics (fi_sig x)));
  sc_reserved : forall k, In k (keys sg ++ keys (sg_generics (fi_sig x))) ->
    k <> KLifetime "__mockall_lt" /\ forall i, k = KType i -> ~ In i written;
  sc_lifetimes : forall l, In l (lifetime_names sg ++ lifetime_names (sg_generics (fi_sig x))) ->
    lifetime_fits sg x l;
  sc_own : forall i, In i (type_names (sg_generics (fi_sig x))) -> ~ in_generics (KType i) sg;
  sc_types : forall i, In i (type_names (sg_generics (fi_sig x))) -> ~ chosen x i -> type_fits x i
}.
