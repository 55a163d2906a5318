(** * ItemSpec: notions for the properties of generated mocks *)

From Coq Require Import List Bool String NArith Arith.
From Verif Require Import Ast Derive Names Sig MockFn Item MockItem.
Import ListNotations.
Open Scope string_scope.
Open Scope list_scope.

(** A method with a [self] argument. *)
Definition has_self (x : fn_item) : bool :=
  existsb (fun a => match a with FaReceiver _ _ _ _ => true | FaTyped _ _ => false end)
          (sg_inputs (fi_sig x)).

Definition fn_name (x : fn_item) : ident := sg_ident (fi_sig x).
Definition call_name (c : gen_call) : ident := sg_ident (gc_sig c).

(** Expectations that belong to an object. *)
Definition in_object (s : store) : bool :=
  match s with StaticIn _ => false | _ => true end.

(** The mock functions, with the trait that they implement. *)
Definition calls_of (g : gen_mock) : list (option path * gen_call) :=
  map (fun c => (None, c)) (gm_calls g)
  ++ flat_map (fun t => map (fun c => (Some (gt_path t), c)) (gt_calls t)) (gm_trait_impls g).

(** The conditions for compiling something. *)
Definition cfgs (l : list attribute) : list attribute :=
  filter (fun a => is_ident (apath a) "cfg") l.

(** ** Paths of traits *)

(** A trait as far as a name can tell: its identifiers and the arguments that are
    written out. *)
Definition trait_key (p : path) : list ident * list pargs :=
  (map seg_id (segs p),
   filter (fun a => match a with PaNone | PaAngle [] => false | _ => true end)
          (map seg_args (segs p))).

(** Names that can be joined: no double underscore, none at the end, not raw. *)
Definition simple_name (i : ident) : Prop :=
  i <> "" /\ (forall u v, i <> u ++ "__" ++ v)%string /\ (forall u, i <> u ++ "_")%string
  /\ (forall u, i <> "r#" ++ u)%string.

(** ... and the last one does not end in an underscore with a number. *)
Definition simple_path (p : path) : Prop :=
  segs p <> [] /\ Forall simple_name (map seg_id (segs p))
  /\ (forall u n, last (map seg_id (segs p)) "" <> u ++ "_" ++ show_N n)%string.

(** ** Stores of a generated mock *)

(** A module of a method, in the module [m] with the modules [ps], has the type of
    the field. *)
Definition has_type (m : ident) (ps : list gen_privmod) (t : field_ty) : Prop :=
  exists p generic args,
    In p ps /\ t = FtExpectations [m; gp_name p] generic args
    /\ (generic = true -> gp_generic p <> None).

(** The field, sub-structure or module exists. *)
Inductive declared (g : gen_mock) : store -> Prop :=
| DeclOwn a n t :
    In (GenField a n t) (gm_fields g) -> has_type (gm_modname g) (gm_privmods g) t ->
    declared g (OwnField n)
| DeclSub a f sub args ss a' n t :
    In (GenField a f (FtSub sub args)) (gm_fields g) ->
    In ss (gm_substructs g) -> gs_name ss = sub ->
    In (GenField a' n t) (gs_fields ss) -> has_type (gs_modname ss) (gs_privmods ss) t ->
    declared g (SubField f n)
| DeclStatic p :
    In p (gm_privmods g) -> declared g (StaticIn [gm_modname g; gp_name p])
| DeclSubStatic ss p :
    In ss (gm_substructs g) -> In p (gs_privmods ss) ->
    declared g (StaticIn [gs_modname ss; gp_name p]).

(** [checkpoint()] of the mock validates the store. *)
Inductive validated (g : gen_mock) : store -> Prop :=
| ValOwn a n : In (CheckStore a (OwnField n)) (gm_checkpoint g) -> validated g (OwnField n)
| ValSub a f a' sub args ss a'' n :
    In (CheckSub a f) (gm_checkpoint g) ->
    In (GenField a' f (FtSub sub args)) (gm_fields g) ->
    In ss (gm_substructs g) -> gs_name ss = sub ->
    In (a'', OwnField n) (gs_checkpoint ss) ->
    validated g (SubField f n).

(** Implementations of one trait (for several types) mock the same functions. *)
Definition uniform (m : mockable_struct) : Prop :=
  forall x y bx b' p, In x (ms_impls m) -> In y (ms_impls m) ->
    im_trait x = Some (bx, p) -> im_trait y = Some (b', p) ->
    map (fun f => (fn_name f, has_self f)) (impl_fns x)
    = map (fun f => (fn_name f, has_self f)) (impl_fns y).

(** Every syntax tree that was parsed has this: generic parameters are in angle
    brackets. *)
Definition parsed (m : mockable_struct) : Prop :=
  (forall f, In f (ms_methods m) ->
     lt_token (sg_generics (fi_sig f)) = false -> params (sg_generics (fi_sig f)) = [])
  /\ (forall x f, In x (ms_impls m) -> In f (impl_fns x) ->
     lt_token (sg_generics (fi_sig f)) = false -> params (sg_generics (fi_sig f)) = []).
