(** * GenSpec: the types of generated expectations *)

From Coq Require Import List Bool String NArith Arith.
From Verif Require Import Ast AstSpec DeriveSpec Derive Names Sig MockFn Item MockItem ItemSpec.
Import ListNotations.
Open Scope string_scope.
Open Scope list_scope.

(** ** Parameters and arguments *)

Definition type_names (g : generics) : list ident :=
  flat_map (fun p => match p with GpType i _ _ => [i] | _ => [] end) (params g).
Definition lifetime_names (g : generics) : list lifetime :=
  flat_map (fun p => match p with GpLifetime l _ => [l] | _ => [] end) (params g).

Definition angle_args (a : pargs) : list garg :=
  match a with PaAngle l => l | _ => [] end.

(** The arguments are the parameters themselves, lifetimes first. *)
Definition own_params (g : generics) (a : pargs) : Prop :=
  angle_args a = map GaLifetime (lifetime_names g) ++ map (fun i => GaType (ty_of i)) (type_names g).

(** ... but with ['static] for every lifetime. *)
Definition static_params (g : generics) (a : pargs) : Prop :=
  angle_args a = map (fun _ => GaLifetime "static") (lifetime_names g)
              ++ map (fun i => GaType (ty_of i)) (type_names g).

(** A type with types put for names of parameters. *)
Definition put_type (s : ident -> ty) (t : ty) : ty :=
  match t with
  | TPath (Path false [Seg i PaNone]) => s i
  | t => t
  end.
Definition instance (s : ident -> ty) : ty -> ty := everywhere (put_type s).
Definition arg_instance (s : ident -> ty) (a : garg) : garg :=
  match a with GaType t => GaType (instance s t) | a => a end.

(** The parameters [names] stand for the types among the arguments. *)
Fixpoint binding (names : list ident) (args : list garg) (i : ident) : ty :=
  match names, args with
  | n :: ns, GaType t :: r => if n =? i then t else binding ns r i
  | _, _ => ty_of i
  end.

(** The key that a generic function of the private module computes when it is
    called with the type arguments [a], in code where the names stand for the
    types [s]. *)
Definition key_at (p : gen_privmod) (a : pargs) (s : ident -> ty) : list garg :=
  match gp_generic p with
  | Some k => map (arg_instance (binding (type_names (gp_generics p))
                                         (map (arg_instance s) (angle_args a)))) (gk_key k)
  | None => []
  end.

(** ** The types of a method's expectations *)

(** The type parameters of the method that its caller chooses and the
    expectations see: those that are no closures, unless the method is
    concretized. *)
Definition chosen (x : fn_item) (i : ident) : Prop :=
  In i (type_names (sg_generics (fi_sig x)))
  /\ ~ closure_param (sg_generics (fi_sig x)) i
  /\ existsb is_concretize (fi_attrs x) = false.

(** The documented restrictions (mockall/src/lib.rs 709-719, 740-744): the struct
    has no lifetime parameters, and those of the method are not in its return
    type. *)
Definition documented (m : mockable_struct) (x : fn_item) : Prop :=
  lifetime_names (ms_generics m) = []
  /\ forall l t, In l (lifetime_names (sg_generics (fi_sig x))) ->
       sg_output (fi_sig x) = Some t -> ~ mentions l t.

(** A method with [self] and neither type parameters nor a where clause. *)
Definition plain_method (x : fn_item) : Prop :=
  has_self x = true /\ type_names (sg_generics (fi_sig x)) = []
  /\ where_clause (sg_generics (fi_sig x)) = None.

Definition typed_module (sg : generics) (x : fn_item) (p : gen_privmod) : Prop :=
  forall i, In i (type_names (gp_generics p)) <-> In i (type_names sg) \/ chosen x i.

(** A call of the expectations' [call]. *)
Definition typed_call (p : gen_privmod) (c : gen_call) : Prop :=
  match gp_generic p with
  | Some _ => own_params (gp_generics p) (gc_turbofish c)
  | None => angle_args (gc_turbofish c) = []
  end.

(** The field with the expectations. *)
Definition typed_field (m : ident) (p : gen_privmod) (f : gen_field) : Prop :=
  match gp_generic p with
  | Some _ => gf_ty f = FtExpectations [m; gp_name p] true PaNone
  | None => exists a, gf_ty f = FtExpectations [m; gp_name p] false a
                      /\ static_params (gp_generics p) a
  end.

(** The [expect_] function: its return type, and the call in it. *)
Definition typed_expect (m : ident) (p : gen_privmod) (e : gen_expect) : Prop :=
  ge_mod e = [m; gp_name p]
  /\ match gp_generic p with
     | Some _ => own_params (gp_generics p) (ge_turbofish e)
                 /\ own_params (gp_generics p) (ge_args e)
     | None => angle_args (ge_turbofish e) = [] /\ static_params (gp_generics p) (ge_args e)
     end.

(** ... of a trait implemented for the struct with the arguments of [self]: the
    return type has these for the parameters [sg] of the struct. *)
Definition typed_impl_expect (sg : generics) (self : seg) (m : ident) (p : gen_privmod)
  (e : gen_expect) : Prop :=
  ge_mod e = [m; gp_name p]
  /\ match gp_generic p with
     | Some _ => own_params (gp_generics p) (ge_turbofish e)
                 /\ own_params (gp_generics p) (ge_args e)
     | None => angle_args (ge_turbofish e) = []
               /\ forall a, static_params (gp_generics p) a ->
                    angle_args (ge_args e)
                    = map (arg_instance (binding (type_names sg) (angle_args (seg_args self))))
                          (angle_args a)
     end.

(** The arguments fit the parameters of the struct. *)
Definition fitting_self (m : mockable_struct) (x : item_impl) : Prop :=
  forall s, self_path (im_self x) = Some s ->
    lifetime_names (ms_generics m) = [] /\ NoDup (type_names (ms_generics m))
    /\ exists ts, angle_args (seg_args s) = map GaType ts
         /\ (seg_args s = PaNone \/ List.length ts = List.length (type_names (ms_generics m))).

(** Implementations of one trait have the same functions. *)
Definition same_fns (m : mockable_struct) : Prop :=
  forall x y bx b' p, In x (ms_impls m) -> In y (ms_impls m) ->
    im_trait x = Some (bx, p) -> im_trait y = Some (b', p) -> impl_fns x = impl_fns y.

(** The context: the parameters of its type, and of its [expect]. *)
Definition typed_context (m : ident) (p : gen_privmod) (k : gen_context) : Prop :=
  gx_mod k = [m; gp_name p]
  /\ exists cg eg, gp_context p = Some (cg, eg) /\ own_params cg (gx_args k)
       /\ forall i, In i (type_names (gp_generics p)) <-> In i (type_names cg) \/ In i (type_names eg).

(** Generic parameters are in angle brackets. *)
Definition well_formed (m : mockable_struct) : Prop :=
  parsed m
  /\ (lt_token (ms_generics m) = false -> params (ms_generics m) = []).

(** The where clause that lets an expectation of the type [t] be shared between
    threads. *)
Definition shared (t : ty) : wpred :=
  WpType None t [BTrait false [] (path_of "Send"); BTrait false [] (path_of "Sync")].

Definition listed (w : option (list wpred)) : list wpred := match w with Some l => l | None => [] end.
Definition borrowed (k : expectation_kind) : bool :=
  match k with KRef | KRefMut => true | KStatic => false end.
Definition sharing (p : gen_privmod) : list wpred :=
  if borrowed (gp_kind p) then [shared (gp_owned p)] else [].

(** A where clause of the method that the expectations keep: not one about a
    closure. *)
Definition kept_where (x : fn_item) (w : wpred) : Prop :=
  In w (preds (sg_generics (fi_sig x)))
  /\ match w with
     | WpType _ t _ => forall i, closure_param (sg_generics (fi_sig x)) i -> t <> ty_of i
     | WpLifetime _ _ => True
     end.

(** The same predicate, two modules further in. *)
Definition same_where (w w' : wpred) : Prop :=
  forall m a b own, movable_generics own (Generics false [] (Some [w])) = true ->
    absolute_pred m [a; b] own w' = absolute_pred m [] own w.

(** The bounds of a generic [expect_] function, and of the functions that store
    the expectations.  An expectation for a borrowed value stores the value. *)
Definition bounded (x : fn_item) (p : gen_privmod) (e : gen_expect) : Prop :=
  (forall i, chosen x i <-> In i (type_names (Generics true (ge_params e) None)))
  /\ (forall k, gp_generic p = Some k ->
        listed (gk_any_where k) = preds (gp_generics p) ++ sharing p
        /\ (forall w, In w (sharing p) -> In w (listed (ge_where e))))
  /\ ((exists i, chosen x i) -> forall w, kept_where x w ->
        exists w', In w' (listed (ge_where e)) /\ same_where w w').

(** A call and an [expect_] use the same expectations exactly if every parameter
    stands for the same type. *)
Definition keyed (p : gen_privmod) (c : gen_call) (e : gen_expect) : Prop :=
  gp_generic p <> None ->
  forall s r, key_at p (gc_turbofish c) s = key_at p (ge_turbofish e) r
    <-> (forall i, In i (type_names (gp_generics p)) -> s i = r i).

(** ... for a function without [self]: the key of the guard that [expect] of the
    context returns. *)
Definition guard_key (p : gen_privmod) (s : ident -> ty) : list garg :=
  match gp_generic p with Some k => map (arg_instance s) (gk_key k) | None => [] end.
Definition keyed_static (p : gen_privmod) (c : gen_call) : Prop :=
  gp_generic p <> None ->
  forall s r, key_at p (gc_turbofish c) s = guard_key p r
    <-> (forall i, In i (type_names (gp_generics p)) -> s i = r i).
