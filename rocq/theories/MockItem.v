(** * MockItem: what the macros generate

    mockall_derive/src/mock_trait.rs, mockall_derive/src/mock_item_struct.rs,
    mockall_derive/src/mock_item.rs, and the methods of [MockFunction] that make
    the pieces (mockall_derive/src/mock_function.rs 474-890).

    The generated Rust is a record of the parts that depend on the input:
    names, attributes, visibilities, types, and which set of expectations a
    function uses.  Doc strings, [allow] attributes and the fixed text of the
    bodies are left out. *)

From Coq Require Import List Bool String Ascii NArith Arith.
From Verif Require Import Ast TyEq Rewrite Derive Names Subst Sig MockFn Item.
Import ListNotations.
Open Scope string_scope.
Open Scope list_scope.

(** ** Pieces *)

(** Where generated code finds a set of expectations: [self.name],
    [self.field.name], or [path::get_expectations()].  mock_function.rs 520-525,
    539-576. *)
Inductive store : Type :=
| OwnField (name : ident)
| SubField (field name : ident)
| StaticIn (m : list ident).

(** The [deref] of mock_function.rs 530-537: nothing, [&**], [&mut **]. *)
Inductive deref : Type := DerefNone | DerefRef | DerefMut.

(** The mock function itself.  mock_function.rs 474-578. *)
Record gen_call : Type := GenCall {
  gc_attrs : list attribute;
  gc_dead_code : bool;
  gc_no_mangle : bool;
  gc_vis : visibility;
  gc_sig : signature;
  gc_desc : string;                  (* with the arguments shown in messages *)
  gc_shown : list pat;
  gc_deref : deref;
  gc_store : store;
  gc_mut : bool;                     (* [call_mut] instead of [call] *)
  gc_turbofish : pargs;
  gc_args : list callexpr
}.

(** The function that makes a [Context].  mock_function.rs 609-630. *)
Record gen_context : Type := GenContext {
  gx_attrs : list attribute;
  gx_vis : visibility;
  gx_name : ident;
  gx_mod : list ident;
  gx_args : pargs
}.

(** The [expect_] function; it returns [&mut modname::inner::Expectation args].
    mock_function.rs 655-706. *)
Record gen_expect : Type := GenExpect {
  ge_attrs : list attribute;
  ge_vis : visibility;
  ge_name : ident;
  ge_params : list gparam;
  ge_where : option (list wpred);
  ge_mod : list ident;
  ge_args : pargs;
  ge_store : store;
  ge_turbofish : pargs
}.

(** The type of a field: the expectations of a method in a module, a sub-structure,
    or [PhantomData].  mock_function.rs 746-763, mock_item_struct.rs 30-61, 301. *)
Inductive field_ty : Type :=
| FtExpectations (m : list ident) (generic : bool) (args : pargs)
| FtSub (name : ident) (args : pargs)
| FtPhantomLifetime (l : lifetime)
| FtPhantomType (i : ident).

(** A field definition: mock_function.rs 746-763, mock_item_struct.rs 301. *)
Record gen_field : Type := GenField {
  gf_attrs : list attribute;
  gf_name : ident;
  gf_ty : field_ty
}.

(** The part of a private module for generic functions: [GenericExpectations]
    (mock_function.rs 2443-2545).  [gk_key] is the argument of
    [::mockall::Key::new], with which [call], [expect] and the guard find the
    expectations; [gk_call_where] belongs to [call], [gk_any_where] to [expect]
    and to [impl AnyExpectations for Expectations]. *)
Record gen_generic : Type := GenGeneric {
  gk_key : list garg;
  gk_call_where : option (list wpred);
  gk_any_where : option (list wpred)
}.

(** The private module of a method, as far as it depends on the method: which
    kind of expectation it has; the parameters of [Expectation], [Expectations]
    and [Rfunc] and those of [Common] and [Matcher]; the lifetimes that [call],
    [matches] and the [for<..>] of closure types declare; the arguments of
    [call]; the types that predicates get; its output and what is stored of it;
    the phantom parameters; the name in messages and the one in the description
    of a call; whether there is [with]; the generic part; whether the guard is
    the generic one; and the parameters of [Context] and of its [expect], if there
    is one (mock_function.rs 1549-1652). *)
Record gen_privmod : Type := GenPrivmod {
  gp_attrs : list attribute;
  gp_name : ident;
  gp_vis : visibility;
  gp_kind : expectation_kind;
  gp_generics : generics;
  gp_common_generics : generics;
  gp_lifetimes : list (lifetime * list lifetime);
  gp_args : list (pat * ty);
  gp_predty : list ty;
  gp_output : ty;
  gp_owned : ty;
  gp_phantom : list ident;
  gp_funcname : string;
  gp_desc : string;
  gp_with : bool;
  gp_generic : option gen_generic;
  gp_generic_guard : bool;
  gp_context : option (generics * generics)
}.

(** ** The methods of [MockFunction] *)

(** [AttrFormatter::new(..).doc(false).format()].  mock_function.rs 474-763,
    mock_item_struct.rs 108-110. *)
Definition plain_attrs (l : list attribute) : list attribute :=
  format (AttrFormatter true false false) l.

(** [outer_mod_path]: mock_function.rs 801-809. *)
Definition outer_mod_path (f : mock_function) (modname : option ident) : list ident :=
  match modname with Some m => [m] | None => [] end ++ [inner_mod_ident (mf_name f)].

(** [substruct_obj] with the method's name: mock_function.rs 520-525, 690-695. *)
Definition object_store (f : mock_function) : store :=
  match mf_trait f with
  | Some t => SubField (field_ident t) (mf_name f)
  | None => OwnField (mf_name f)
  end.

(** mock_function.rs 474-488. *)
Definition is_inherited (v : visibility) : bool :=
  match v with VInherited => true | _ => false end.

(** [#[no_mangle]]: mock_function.rs 504-519. *)
Definition no_mangle (abi : option (option string)) : bool :=
  match abi with
  | Some (Some n) => negb (n =? "Rust")
  | Some None => true
  | None => false
  end.

(** [call]: mock_function.rs 474-578. *)
Definition call_fn (f : mock_function) (modname : option ident) : gen_call :=
  GenCall
    (format (AttrFormatter true true true) (mf_attrs f))
    match mf_trait f with Some _ => false | None => is_inherited (mf_call_vis f) end
    (no_mangle (sg_abi (mf_sig f)))
    match mf_trait f with Some _ => VInherited | None => mf_call_vis f end
    (mf_sig f)
    (desc_name f)
    (mf_argnames f)
    (if mf_boxed f
     then if mf_return_ref f then DerefRef
          else if mf_return_refmut f then DerefMut else DerefNone
     else DerefNone)
    (if mf_is_static f then StaticIn (outer_mod_path f modname) else object_store f)
    (mf_return_refmut f)
    (type_args (if is_method_generic f || mf_is_static f
                then mf_egenerics f else mf_call_generics f))
    (mf_call_exprs f).

(** [checkpoint]: mock_function.rs 581-607. *)
Definition checkpoint_of (f : mock_function) : list attribute * store :=
  (plain_attrs (mf_attrs f),
   if mf_is_static f then StaticIn [inner_mod_ident (mf_name f)] else OwnField (mf_name f)).

(** [context_fn]: mock_function.rs 609-630. *)
Definition context_fn (f : mock_function) (modname : option ident) : gen_context :=
  GenContext (plain_attrs (mf_attrs f)) (mf_call_vis f) (context_ident (mf_name f))
             (outer_mod_path f modname) (type_args (mf_type_generics f)).

(** [generics.lifetimes()]: mock_function.rs 709-735. *)
Definition lifetimes_of (g : generics) : list lifetime :=
  flat_map (fun p => match p with GpLifetime l _ => [l] | _ => [] end) (params g).

(** [expectation_obj]: mock_function.rs 709-735; the arguments of
    [Expectation].  The assertion that the method is not generic is ensured by
    the only caller (mock_trait.rs 148-154). *)
Definition expectation_args (f : mock_function) (self_args : option pargs) : pargs :=
  match self_args with
  | Some (PaAngle l) =>
      PaAngle (map (fun _ => GaLifetime "static") (lifetimes_of (mf_egenerics f)) ++ l)
  | _ => type_args (staticize (mf_egenerics f))
  end.

(** [expect]: mock_function.rs 655-706. *)
Definition expect_fn (f : mock_function) (modname : ident) (self_args : option pargs) : gen_expect :=
  GenExpect
    (plain_attrs (mf_attrs f))
    (mf_call_vis f)
    (expect_ident (mf_name f))
    (params (mf_call_generics f))
    (if is_method_generic f && (mf_return_ref f || mf_return_refmut f)
     then send_syncify (where_clause (mf_call_generics f)) (mf_owned_output f)
     else where_clause (mf_call_generics f))
    [modname; inner_mod_ident (mf_name f)]
    (expectation_args f self_args)
    (object_store f)
    (type_args (if is_method_generic f then mf_egenerics f else mf_call_generics f)).

(** [field_definition] with [expectations_obj]: mock_function.rs 736-763. *)
Definition field_definition (f : mock_function) (modname : ident) : gen_field :=
  GenField (plain_attrs (mf_attrs f)) (mf_name f)
    (FtExpectations [modname; inner_mod_ident (mf_name f)] (is_method_generic f)
       (if is_method_generic f then PaNone else type_args (staticize (mf_egenerics f)))).

(** [GenericExpectations] and [StaticGenericExpectations]: mock_function.rs
    2443-2545. *)
Definition generic_part (f : mock_function) : option gen_generic :=
  if is_expectation_generic f && (mf_is_static f || is_method_generic f)
  then Some (GenGeneric (gen_keyid (mf_egenerics f))
               (where_clause (mf_egenerics f))
               (if mf_return_ref f || mf_return_refmut f
                then send_syncify (where_clause (mf_egenerics f)) (mf_owned_output f)
                else where_clause (mf_egenerics f)))
  else None.

(** [priv_module]: mock_function.rs 824-890, with the generators of its parts
    (893-2545). *)
Definition priv_module (f : mock_function) : gen_privmod :=
  GenPrivmod (plain_attrs (mf_attrs f)) (inner_mod_ident (mf_name f)) (mf_privmod_vis f) (kind_of f)
    (mf_egenerics f) (mf_cgenerics f) (mf_alifetimes f)
    (combine (mf_argnames f) (mf_argty f)) (mf_predty f)
    (mf_output f) (mf_owned_output f) (mf_fn_params f)
    (funcname f) (desc_name f) (negb (mf_concretize f))
    (generic_part f) (is_expectation_generic f)
    (if mf_is_static f then Some (mf_type_generics f, mf_call_generics f) else None).

(** ** [MockTrait]: mock_trait.rs *)

(** mock_trait.rs 20-34. *)
Record mock_trait : Type := MockTrait {
  mt_attrs : list attribute;
  mt_consts : list (ident * string);
  mt_generics : generics;
  mt_methods : list mock_function;
  mt_ss_name : ident;
  mt_path : path;
  mt_self : seg;
  mt_types : list (ident * ty);
  mt_unsafe : bool
}.

(** The [Builder] calls at mock_trait.rs 91-98. *)
Definition trait_builder (structname : ident) (g : generics) (vis : visibility) (ss : ident)
  (x : fn_item) : builder :=
  Builder (fi_attrs x) (Some 0) 2 None (fi_sig x) (Some structname) (Some g) (Some ss) vis.

(** All or nothing: the macro stops at the first panic.  A panic in one of the loops
    of mock_trait.rs 86-110, mock_item_struct.rs 214-227, mock_item.rs 62-154. *)
Fixpoint all_some {A B} (f : A -> option B) (l : list A) : option (list B) :=
  match l with
  | [] => Some []
  | x :: r => match f x, all_some f r with
              | Some y, Some t => Some (y :: t)
              | _, _ => None
              end
  end.

(** [MockTrait::new]: mock_trait.rs 60-121.  [None]: one of its errors, or a
    panic of [build]. *)
Definition self_path (t : ty) : option seg :=
  match t with
  | TPath p | TQPath _ _ p => match rev (segs p) with s :: _ => Some s | [] => None end
  | _ => None
  end.

(** [MockTrait::new]: mock_trait.rs 60-121. *)
Definition new_trait (hash : list pargs -> N) (structname : ident) (g : generics) (x : item_impl)
  (vis : visibility) : option mock_trait :=
  match im_trait x, self_path (im_self x) with
  | Some (_, p), Some s =>
      if existsb (fun i => match i with IiOther _ => true | _ => false end) (im_items x) then None
      else
        let ss := ss_name hash p in
        match all_some (fun f => build (trait_builder structname g vis ss f)) (impl_fns x) with
        | Some ms =>
            Some (MockTrait (im_attrs x)
              (flat_map (fun i => match i with IiConst n e => [(n, e)] | _ => [] end) (im_items x))
              (im_generics x) ms ss p s
              (flat_map (fun i => match i with IiType n t => [(n, t)] | _ => [] end) (im_items x))
              (im_unsafe x))
        | None => None
        end
  | _, _ => None
  end.

(** The two blocks of [trait_impl]: mock_trait.rs 122-175. *)
Record gen_trait_impl : Type := GenTraitImpl {
  gt_attrs : list attribute;          (* of the trait implementation *)
  gt_inherent_attrs : list attribute; (* of the block with [expect_] functions *)
  gt_unsafe : bool;
  gt_generics : generics;
  gt_path : path;
  gt_self : seg;
  gt_consts : list (ident * string);
  gt_types : list (ident * ty);
  gt_calls : list gen_call;
  gt_expects : list gen_expect;
  gt_contexts : list gen_context
}.

(** [AttrFormatter::new(..).async_trait(false).doc(false).format()].
    mock_item_struct.rs 71-74, 285-288, 396-408; mock_trait.rs 130-175. *)
Definition bare_attrs (l : list attribute) : list attribute :=
  format (AttrFormatter false false false) l.

(** [!meth.is_static()]: mock_item_struct.rs 97, 105, 117, 263, mock_trait.rs
    148-154. *)
Definition not_static (f : mock_function) : bool := negb (mf_is_static f).

(** [MockTrait::trait_impl]: mock_trait.rs 130-175. *)
Definition trait_impl (t : mock_trait) (modname : ident) : gen_trait_impl :=
  GenTraitImpl
    (format formatter (mt_attrs t))
    (bare_attrs (mt_attrs t))
    (mt_unsafe t) (mt_generics t) (mt_path t) (mt_self t) (mt_consts t) (mt_types t)
    (map (fun f => call_fn f (Some modname)) (mt_methods t))
    (map (fun f => expect_fn f modname
                     (if is_method_generic f then None else Some (seg_args (mt_self t))))
         (filter not_static (mt_methods t)))
    (map (fun f => context_fn f (Some modname)) (filter mf_is_static (mt_methods t))).

(** ** [MockItemStruct]: mock_item_struct.rs *)

(** mock_item_struct.rs 129-145. *)
Record mock_struct : Type := MockStruct {
  mi_attrs : list attribute;
  mi_consts : list (ident * string);
  mi_generics : generics;
  mi_auto_debug : bool;
  mi_has_new : bool;
  mi_methods : list mock_function;
  mi_modname : ident;
  mi_name : ident;
  mi_traits : list mock_trait;
  mi_vis : visibility
}.

(** [derives_debug]: mockable_struct.rs 345-362.  [parse_nested_meta] splits the
    text at commas; spaces do not count.  (Commas inside of nested parentheses
    do not occur in a valid [derive].) *)
Fixpoint without_spaces (s : string) : string :=
  match s with
  | EmptyString => EmptyString
  | String " "%char r => without_spaces r
  | String c r => String c (without_spaces r)
  end.
(** mockable_struct.rs 347-361. *)
Fixpoint split_commas (cur : string) (s : string) : list string :=
  match s with
  | EmptyString => [cur]
  | String ","%char r => cur :: split_commas "" r
  | String c r => split_commas (cur ++ String c "") r
  end.
(** [derives_debug]: mockable_struct.rs 347-361. *)
Definition derives_debug (l : list attribute) : bool :=
  existsb (fun a => is_ident (apath a) "derive"
                    && match alist a with
                       | Some s => existsb (String.eqb "Debug") (split_commas "" (without_spaces s))
                       | None => false
                       end) l.

(** [has_new]: mock_item_struct.rs 202-213. *)
Definition named_new (f : fn_item) : bool := sg_ident (fi_sig f) =? "new".
(** [has_new]: mock_item_struct.rs 202-213. *)
Definition has_new (m : mockable_struct) : bool :=
  existsb named_new (ms_methods m)
  || existsb (fun x => existsb named_new (impl_fns x)) (ms_impls m).

(** The [Builder] calls at mock_item_struct.rs 214-223. *)
Definition method_builder (m : mockable_struct) (x : fn_item) : builder :=
  Builder (fi_attrs x) (Some 0) 2 None (fi_sig x) (Some (ms_name m)) (Some (ms_generics m)) None
          (fi_vis x).

(** [From<MockableStruct>]: mock_item_struct.rs 195-242. *)
Definition from_mockable (hash : list pargs -> N) (m : mockable_struct) : option mock_struct :=
  match all_some (fun f => build (method_builder m f)) (ms_methods m),
        all_some (fun x => new_trait hash (ms_name m) (ms_generics m) x (ms_vis m)) (ms_impls m) with
  | Some ms, Some ts =>
      Some (MockStruct (ms_attrs m) (ms_consts m) (ms_generics m) (derives_debug (ms_attrs m))
              (has_new m) ms (gen_mod_ident (ms_name m) None) (ms_name m) ts (ms_vis m))
  | _, _ => None
  end.

(** [phantom_fields], [phantom_default_inits]: mock_item_struct.rs 20-61. *)
Definition phantom_ident (n : nat) : ident := "_t" ++ show_N (N.of_nat n).

(** The loop with [enumerate]: mock_item_struct.rs 32-60. *)
Fixpoint phantom_fields_from (n : nat) (l : list gparam) : list gen_field :=
  match l with
  | [] => []
  | GpLifetime a _ :: r =>
      GenField [] (phantom_ident n) (FtPhantomLifetime a) :: phantom_fields_from (S n) r
  | GpType i _ _ :: r =>
      GenField [] (phantom_ident n) (FtPhantomType i) :: phantom_fields_from (S n) r
  | GpConst _ _ _ :: r => phantom_fields_from (S n) r
  end.
(** [phantom_fields]: mock_item_struct.rs 31-61. *)
Definition phantom_fields (g : generics) : list gen_field := phantom_fields_from 0 (params g).

(** Its errors: mock_item_struct.rs 39-42, 54-58. *)
Definition phantom_error (g : generics) : bool :=
  existsb (fun p => match p with
                    | GpLifetime _ (_ :: _) => true
                    | GpConst _ _ _ => true
                    | _ => false
                    end) (params g).

(** A field initialised by [default()]: its attributes and name.
    mock_item_struct.rs 20-28. *)
Definition phantom_inits (g : generics) : list (list attribute * ident) :=
  map (fun n => ([], phantom_ident n)) (seq 0 (List.length (params g))).

(** [unique_trait_iter]: mock_item_struct.rs 63-83. *)
Definition attribute_eqb (x y : attribute) : bool :=
  path_eqb (apath x) (apath y)
  && match alist x, alist y with
     | Some a, Some b => a =? b
     | None, None => true
     | _, _ => false
     end
  && (arest x =? arest y).

(** The [HashSet]'s comparison of keys: mock_item_struct.rs 69-80. *)
Definition same_trait (x y : mock_trait) : bool :=
  path_eqb (mt_path x) (mt_path y)
  && list_eqb attribute_eqb (bare_attrs (mt_attrs x)) (bare_attrs (mt_attrs y)).

(** The [filter]: mock_item_struct.rs 70-82; [seen] is the [HashSet]. *)
Fixpoint unique_from (seen : list mock_trait) (l : list mock_trait) : list mock_trait :=
  match l with
  | [] => []
  | t :: r => if existsb (same_trait t) seen then unique_from seen r
              else t :: unique_from (t :: seen) r
  end.
(** [unique_trait_iter]: mock_item_struct.rs 66-83. *)
Definition unique_traits : list mock_trait -> list mock_trait := unique_from [].

(** [Methods]: mock_item_struct.rs 85-127. *)
Definition all_static (l : list mock_function) : bool := forallb mf_is_static l.
(** [Methods::checkpoints]: mock_item_struct.rs 95-100. *)
Definition checkpoints (l : list mock_function) : list (list attribute * store) :=
  map checkpoint_of (filter not_static l).
(** [Methods::default_inits]: mock_item_struct.rs 103-113. *)
Definition default_inits (l : list mock_function) : list (list attribute * ident) :=
  map (fun f => (plain_attrs (mf_attrs f), mf_name f)) (filter not_static l).
(** [Methods::field_definitions]: mock_item_struct.rs 115-120. *)
Definition field_definitions (modname : ident) (l : list mock_function) : list gen_field :=
  map (fun f => field_definition f modname) (filter not_static l).

(** What is generated for one trait: [MockItemTraitImpl], mock_item_struct.rs
    367-452. *)
Record gen_substruct : Type := GenSubstruct {
  gs_mod_attrs : list attribute;
  gs_struct_attrs : list attribute;
  gs_impl_attrs : list attribute;
  gs_modname : ident;
  gs_privmods : list gen_privmod;
  gs_name : ident;
  gs_generics : generics;
  gs_fields : list gen_field;
  gs_inits : list (list attribute * ident);
  gs_checkpoint : list (list attribute * store)
}.

(** mock_item_struct.rs 269-281 and 394-452. *)
Definition substruct (s : mock_struct) (t : mock_trait) : gen_substruct :=
  let modname := submod_ident (mi_modname s) (mt_ss_name t) in
  GenSubstruct
    (bare_attrs (mt_attrs t)) (bare_attrs (mt_attrs t)) (bare_attrs (mt_attrs t))
    modname
    (map priv_module (mt_methods t))
    (substruct_ident (mi_name s) (mt_ss_name t))
    (mi_generics s)
    (field_definitions modname (mt_methods t) ++ phantom_fields (mi_generics s))
    (default_inits (mt_methods t) ++ phantom_inits (mi_generics s))
    (checkpoints (mt_methods t)).

(** A statement of [checkpoint()]: a method's own, or a sub-structure's.
    mock_item_struct.rs 290, 357-358. *)
Inductive check : Type :=
| CheckStore (attrs : list attribute) (s : store)
| CheckSub (attrs : list attribute) (field : ident).

(** What is generated for a struct: mock_item_struct.rs 244-365. *)
Record gen_mock : Type := GenMock {
  gm_attrs : list attribute;          (* of the structure *)
  gm_impl_attrs : list attribute;     (* of the module and the impl blocks: none *)
  gm_vis : visibility;
  gm_name : ident;
  gm_generics : generics;
  gm_modname : ident;
  gm_privmods : list gen_privmod;
  gm_fields : list gen_field;
  gm_inits : list (list attribute * ident);
  gm_debug : bool;
  gm_substructs : list gen_substruct;
  gm_consts : list (ident * string);
  gm_calls : list gen_call;
  gm_contexts : list gen_context;
  gm_expects : list gen_expect;
  gm_checkpoint : list check;
  gm_new : bool;
  gm_trait_impls : list gen_trait_impl
}.

(** [ToTokens for MockItemStruct]: mock_item_struct.rs 244-365. *)
Definition gen_struct (s : mock_struct) : gen_mock :=
  let modname := mi_modname s in
  let subs := unique_traits (mi_traits s) in
  let objects := filter (fun t => negb (all_static (mt_methods t))) subs in
  GenMock
    (format (AttrFormatter false true true) (mi_attrs s))
    []
    (mi_vis s) (mi_name s) (mi_generics s) modname
    (map priv_module (mi_methods s))
    (map (fun t => GenField (bare_attrs (mt_attrs t)) (field_ident (mt_ss_name t))
                     (FtSub (substruct_ident (mi_name s) (mt_ss_name t))
                            (type_args (mi_generics s)))) objects
     ++ field_definitions modname (mi_methods s)
     ++ phantom_fields (mi_generics s))
    (map (fun t => (bare_attrs (mt_attrs t), field_ident (mt_ss_name t))) objects
     ++ default_inits (mi_methods s)
     ++ phantom_inits (mi_generics s))
    (mi_auto_debug s)
    (map (substruct s) subs)
    (mi_consts s)
    (map (fun f => call_fn f (Some modname)) (mi_methods s))
    (map (fun f => context_fn f (Some modname)) (filter mf_is_static (mi_methods s)))
    (map (fun f => expect_fn f modname None) (filter not_static (mi_methods s)))
    (map (fun t => CheckSub (bare_attrs (mt_attrs t)) (field_ident (mt_ss_name t))) objects
     ++ map (fun c => CheckStore (fst c) (snd c)) (checkpoints (mi_methods s)))
    (negb (mi_has_new s))
    (map (fun t => trait_impl t (submod_ident modname (mt_ss_name t))) (mi_traits s)).

(** The errors of generating it.  mock_item_struct.rs 31-61, called at 304 and 416.
    *)
Definition gen_struct_error (s : mock_struct) : bool := phantom_error (mi_generics s).

(** [mock_it] (lib.rs 1295-1304) of a struct.  [None]: an error or a panic. *)
Definition mock_it (hash : list pargs -> N) (m : mockable_struct) : option gen_mock :=
  match from_mockable hash m with
  | Some s => if gen_struct_error s then None else Some (gen_struct s)
  | None => None
  end.

(** ** [MockItemModule]: mock_item.rs *)

(** [MockItemContent]: mock_item.rs 44-47. *)
Inductive content : Type :=
| CoFn (f : mock_function) (unsafe : bool)
| CoTokens (tokens : string).

(** The [Builder] calls at mock_item.rs 80-85 and 117-122. *)
Definition module_builder (mock_ident : ident) (x : fn_item) : builder :=
  Builder (fi_attrs x) (Some 0) 1 (Some mock_ident) (fi_sig x) None None None (fi_vis x).

(** A foreign function: mock_item.rs 88-129. *)
Definition foreign_abi (abi : option string) : option (option string) :=
  match abi with
  | Some n => if n =? "C" then Some (Some "C-unwind") else Some (Some n)
  | None => Some None
  end.
(** mock_item.rs 90-115. *)
Definition foreign_fn (abi : option string) (x : fn_item) : fn_item :=
  let s := fi_sig x in
  FnItem (fi_attrs x) (fi_vis x)
    (Signature (sg_ident s) (sg_generics s) (sg_inputs s) (sg_output s) (foreign_abi abi)).

(** [From<MockableModule>]: mock_item.rs 57-163.  [None]: an error or a panic. *)
Definition foreign_content (m : ident) (abi : option string) (i : foreign_item) : option content :=
  match i with
  | FiFn x _ => option_map (fun f => CoFn f true) (build (module_builder m (foreign_fn abi x)))
  | FiOther _ => None
  end.

(** One iteration of the loop: mock_item.rs 62-154. *)
Definition item_content (m : ident) (i : item) : option (list content) :=
  match i with
  | ItIgnored _ => Some []
  | ItCopied s => Some [CoTokens s]
  | ItFn x u => option_map (fun f => [CoFn f u]) (build (module_builder m x))
  | ItForeign abi l => all_some (foreign_content m abi) l
  | ItNested _ | ItOther _ => None
  end.

(** [From<MockableModule>]: mock_item.rs 57-163. *)
Definition module_content (m : mockable_module) : option (list content) :=
  option_map (@List.concat content) (all_some (item_content (mm_mock_ident m)) (mm_content m)).

(** What is generated for a module: mock_item.rs 165-213. *)
Inductive gen_item : Type :=
| GiTokens (tokens : string)
| GiPrivmod (p : gen_privmod)
| GiCall (c : gen_call) (unsafe : bool)
| GiContext (c : gen_context).

(** mock_item.rs 205-211. *)
Record gen_module : Type := GenModule {
  gd_vis : visibility;
  gd_name : ident;
  gd_body : list gen_item;
  gd_checkpoint : list (list attribute * store)
}.

(** One iteration of the loop: mock_item.rs 173-188. *)
Definition gen_content (c : content) : list gen_item :=
  match c with
  | CoTokens s => [GiTokens s]
  | CoFn f u => [GiPrivmod (priv_module f); GiCall (call_fn f None) u; GiContext (context_fn f None)]
  end.

(** [ToTokens for MockItemModule]: mock_item.rs 165-213. *)
Definition gen_mod (m : mockable_module) : option gen_module :=
  match module_content m with
  | Some l =>
      Some (GenModule (mm_vis m) (mm_mock_ident m)
              (flat_map gen_content l)
              (flat_map (fun c => match c with CoFn f _ => [checkpoint_of f] | _ => [] end) l))
  | None => None
  end.
