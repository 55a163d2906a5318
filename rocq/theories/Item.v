(** * Item: traits, impl blocks and modules

    mockall_derive/src/automock.rs 44-61 and 217-272,
    mockall_derive/src/mockable_struct.rs 114-540,
    mockall_derive/src/mockable_item.rs. *)

From Coq Require Import List Bool String NArith Arith.
From Verif Require Import Ast TyEq Rewrite Derive Names Subst Sig.
Import ListNotations.
Open Scope string_scope.
Open Scope list_scope.

(** [syn::ImplItemFn] without its body, [syn::ForeignItemFn].  Read at
    mockable_struct.rs 158-170, mock_item.rs 90-123. *)
Record fn_item : Type := FnItem {
  fi_attrs : list attribute;
  fi_vis : visibility;
  fi_sig : signature
}.

(** [syn::ImplItem]. A constant is its name and the text of the rest; an associated
    type its name and type (generic parameters and attributes left out).  The cases
    are those of mockable_struct.rs 430-460. *)
Inductive impl_item : Type :=
| IiConst (id : ident) (rest : string)
| IiFn (f : fn_item)
| IiType (id : ident) (t : ty)
| IiOther (tokens : string).

(** [syn::ItemImpl]; [im_trait] is the [!] and the path of the trait.  Read at
    mockable_struct.rs 393-470, mock_trait.rs 60-120. *)
Record item_impl : Type := ItemImpl {
  im_attrs : list attribute;
  im_unsafe : bool;
  im_generics : generics;
  im_trait : option (bool * path);
  im_self : ty;
  im_items : list impl_item
}.

(** [syn::TraitItem]. A constant has a name, the text of its type, and maybe that of
    its value.  The cases are those of mockable_struct.rs 196-211, automock.rs
    220-247. *)
Inductive trait_item : Type :=
| TiConst (id : ident) (t : string) (default : option string)
| TiFn (attrs : list attribute) (s : signature)
| TiType (id : ident) (bounds : list bound) (default : option ty)
| TiOther (tokens : string).

(** [syn::ItemTrait].  Read at mockable_struct.rs 191-240, 364-391. *)
Record item_trait : Type := ItemTrait {
  it_attrs : list attribute;
  it_vis : visibility;
  it_unsafe : bool;
  it_ident : ident;
  it_generics : generics;
  it_items : list trait_item
}.

(** ** Associated types *)

(** [Attrs::parse]: automock.rs 253-272, [#[automock(type A = T; type B = U;)]].
    A declaration without a type is an error. *)
Definition parse_attrs (l : list (ident * option ty)) : list (ident * ty) :=
  fold_left (fun a x => match snd x with
                        | Some t => assoc_insert a (fst x) t
                        | None => a
                        end) l [].
(** Its error: automock.rs 264-265. *)
Definition parse_attrs_error (l : list (ident * option ty)) : bool :=
  existsb (fun x => match snd x with None => true | Some _ => false end) l.

(** [substitute_trait]: automock.rs 217-250. *)
Definition substitute_trait_item (a : list (ident * ty)) (tr : ident) (i : trait_item) : trait_item :=
  match i with
  | TiType n b d =>
      match assoc_get a n with
      | Some t => TiType n [] (Some t)
      | None => i
      end
  | TiFn at_ s => TiFn at_ (substitute_sig a tr s)
  | i => i
  end.

(** Update of [ItemTrait::items]: automock.rs 218-249. *)
Definition with_items (t : item_trait) (l : list trait_item) : item_trait :=
  ItemTrait (it_attrs t) (it_vis t) (it_unsafe t) (it_ident t) (it_generics t) l.

(** [substitute_trait]: automock.rs 217-250. *)
Definition substitute_trait (a : list (ident * ty)) (t : item_trait) : item_trait :=
  with_items t (map (substitute_trait_item a (it_ident t)) (it_items t)).

(** Its errors: automock.rs 229-230, 235-242. *)
Definition substitute_trait_error (a : list (ident * ty)) (t : item_trait) : bool :=
  existsb (fun i => match i with
                    | TiType n _ _ => match assoc_get a n with Some _ => false | None => true end
                    | TiFn _ s => substitute_sig_error a (it_ident t) s
                    | _ => false
                    end) (it_items t).

(** [find_ident_from_path] (lib.rs 670-678), the part used here.  [None] if the
    path has more than one segment, which is an error. *)
Definition path_ident (p : path) : option ident :=
  match p with
  | Path _ [Seg i _] => Some i
  | _ => None
  end.

(** The types of an impl block: mockable_struct.rs 428-438. *)
Definition impl_types (l : list impl_item) : list (ident * ty) :=
  fold_left (fun a i => match i with IiType n t => assoc_insert a n t | _ => a end) l [].

(** [substitute_item_impl]: automock.rs 44-61. *)
Definition on_sig (f : signature -> signature) (i : impl_item) : impl_item :=
  match i with
  | IiFn x => IiFn (FnItem (fi_attrs x) (fi_vis x) (f (fi_sig x)))
  | i => i
  end.

(** Update of [ItemImpl::items]: automock.rs 48-60. *)
Definition with_impl_items (x : item_impl) (l : list impl_item) : item_impl :=
  ItemImpl (im_attrs x) (im_unsafe x) (im_generics x) (im_trait x) (im_self x) l.

(** [substitute_item_impl]: automock.rs 44-61. *)
Definition substitute_item_impl (a : list (ident * ty)) (tr : ident) (x : item_impl) : item_impl :=
  with_impl_items x (map (on_sig (substitute_sig a tr)) (im_items x)).

(** ** [MockableStruct]: mockable_struct.rs 334-343 *)

(** [MockableStruct]: mockable_struct.rs 334-343. *)
Record mockable_struct : Type := MockableStruct {
  ms_attrs : list attribute;
  ms_consts : list (ident * string);
  ms_generics : generics;
  ms_methods : list fn_item;
  ms_name : ident;
  ms_vis : visibility;
  ms_impls : list item_impl
}.

(** [derive_debug]: mockable_struct.rs 114-123. *)
Definition derive_debug : attribute := Attribute (path_of "derive") (Some "Debug") "".

(** What [AttrFormatter::new] starts with: lib.rs 782-789. *)
Definition formatter : attr_formatter := AttrFormatter true true false.

(** The arguments that name the parameters, [split_for_impl().1]: syn prints the
    lifetimes first.  Used for mockable_struct.rs 215-216. *)
Definition is_lifetime_param (p : gparam) : bool :=
  match p with GpLifetime _ _ => true | _ => false end.
(** [split_for_impl().1]: mockable_struct.rs 215-224. *)
Definition type_args (g : generics) : pargs :=
  match params g with
  | [] => PaNone
  | ps => PaAngle (map arg_of_param (filter is_lifetime_param ps
                                     ++ filter (fun p => negb (is_lifetime_param p)) ps))
  end.

(** [mockable_trait]: mockable_struct.rs 191-240, with [tic2iic], [tif2iif] and
    [tit2iit] (258-315). *)
Definition mockable_trait_item (name : ident) (g : generics) (i : trait_item) : impl_item :=
  match i with
  | TiFn at_ s => IiFn (FnItem at_ VInherited (mockable_method name g s))
  | TiConst n t d => IiConst n match d with Some e => t ++ " = " ++ e | None => t end
  | TiType n _ d => IiType n match d with Some t => t | None => TVerbatim "" end
  | TiOther s => IiOther ""
  end.

(** mockable_struct.rs 198, 208, 261, 301. *)
Definition mockable_trait_item_error (name : ident) (g : generics) (i : trait_item) : bool :=
  match i with
  | TiFn _ s => mockable_method_error name g s
  | TiConst _ _ (Some _) | TiType _ _ (Some _) => false
  | _ => true
  end.

(** [mockable_trait]: mockable_struct.rs 191-240. *)
Definition mockable_trait (t : item_trait) (name : ident) (g : generics) : item_impl :=
  ItemImpl (it_attrs t) (it_unsafe t) g
    (Some (false, Path false [Seg (it_ident t) (type_args (it_generics t))]))
    (TPath (Path false [Seg name (type_args g)]))
    (map (mockable_trait_item name g) (it_items t)).

(** [From<(Attrs, ItemTrait)>]: mockable_struct.rs 364-391. *)
Definition from_trait (a : list (ident * ty)) (t : item_trait) : mockable_struct :=
  let tr := substitute_trait a t in
  let name := gen_mock_ident (it_ident tr) in
  MockableStruct
    (format formatter (it_attrs tr) ++ [derive_debug])
    []
    (it_generics tr)
    []
    name
    (it_vis tr)
    [mockable_trait tr name (it_generics tr)].

(** The errors of mockable_struct.rs 364-391. *)
Definition from_trait_error (a : list (ident * ty)) (t : item_trait) : bool :=
  substitute_trait_error a t
  || existsb (mockable_trait_item_error (gen_mock_ident (it_ident t)) (it_generics t))
             (it_items (substitute_trait a t)).

(** [mock_ident_in_type]: mockable_struct.rs 126-142. *)
Definition mock_ident_in_type (t : ty) : ty :=
  match t with
  | TPath (Path b [Seg i a]) => TPath (Path b [Seg (gen_mock_ident i) a])
  | TQPath q n (Path b [Seg i a]) => TQPath q n (Path b [Seg (gen_mock_ident i) a])
  | t => t
  end.

(** Its errors: mockable_struct.rs 129-133, 137-140. *)
Definition mock_ident_in_type_error (t : ty) : bool :=
  match t with
  | TPath (Path _ [_]) | TQPath _ _ (Path _ [_]) => false
  | _ => true
  end.

(** [mockable_item_impl]: mockable_struct.rs 145-155. *)
Definition mockable_item_impl (x : item_impl) (name : ident) (g : generics) : item_impl :=
  ItemImpl (im_attrs x) (im_unsafe x) (im_generics x) (im_trait x)
           (mock_ident_in_type (im_self x))
           (map (on_sig (mockable_method name g)) (im_items x)).

(** The methods among the items: mockable_struct.rs 149-153. *)
Definition impl_fns (x : item_impl) : list fn_item :=
  flat_map (fun i => match i with IiFn f => [f] | _ => [] end) (im_items x).

(** The errors of mockable_struct.rs 145-155. *)
Definition mockable_item_impl_error (x : item_impl) (name : ident) (g : generics) : bool :=
  mock_ident_in_type_error (im_self x)
  || existsb (fun f => mockable_method_error name g (fi_sig f)) (impl_fns x).

(** [From<ItemImpl>]: mockable_struct.rs 393-470; the name (397-419). *)
Definition impl_name (x : item_impl) : option ident :=
  match im_self x with
  | TPath p | TQPath _ _ p => path_ident p
  | _ => None
  end.

(** mockable_struct.rs 397-419. *)
Definition elided_generics (x : item_impl) : bool :=
  match im_self x with
  | TPath (Path _ [Seg _ (PaAngle l)]) | TQPath _ _ (Path _ [Seg _ (PaAngle l)]) =>
      negb (Nat.eqb (List.length (params (im_generics x))) (List.length l))
  | _ => false
  end.

(** [From<ItemImpl>]: mockable_struct.rs 393-470. *)
Definition from_impl (x : item_impl) : mockable_struct :=
  let name := match impl_name x with Some i => gen_mock_ident i | None => "" end in
  let g := im_generics x in
  let attrs := im_attrs x ++ [derive_debug] in
  match im_trait x with
  | Some (_, p) =>
      let a := impl_types (im_items x) in
      let tr := match path_ident p with Some i => i | None => "" end in
      MockableStruct attrs [] g [] name VPublic
        [mockable_item_impl (substitute_item_impl a tr x) name g]
  | None =>
      MockableStruct attrs
        (flat_map (fun i => match i with IiConst n e => [(n, e)] | _ => [] end) (im_items x))
        g
        (map (fun f => FnItem (fi_attrs f) (fi_vis f) (mockable_method name g (fi_sig f)))
             (impl_fns x))
        name VPublic []
  end.

(** What is an error in this: the name (398-419), the block's kind, its items,
    and whatever is an error in its methods. *)
Definition from_impl_error (x : item_impl) : bool :=
  let name := match impl_name x with Some i => gen_mock_ident i | None => "" end in
  let g := im_generics x in
  match impl_name x with None => true | Some _ => false end
  || elided_generics x
  || match im_trait x with
     | Some (bang, p) =>
         let a := impl_types (im_items x) in
         let tr := match path_ident p with Some i => i | None => "" end in
         bang || match path_ident p with None => true | Some _ => false end
         || existsb (fun i => match i with IiOther _ => true | _ => false end) (im_items x)
         || existsb (fun f => substitute_sig_error a tr (fi_sig f)) (impl_fns x)
         || mockable_item_impl_error (substitute_item_impl a tr x) name g
     | None =>
         existsb (fun i => match i with IiOther _ | IiType _ _ => true | _ => false end) (im_items x)
         || existsb (fun f => mockable_method_error name g (fi_sig f)) (impl_fns x)
     end.

(** What is written in [mock!]: attributes, visibility, name, generics, the
    items in braces, and impl blocks.  [Parse for MockableStruct]:
    mockable_struct.rs 473-540. *)
Record mock_decl : Type := MockDecl {
  md_attrs : list attribute;
  md_vis : visibility;
  md_name : ident;
  md_generics : generics;
  md_consts : list (ident * string);
  md_methods : list fn_item;
  md_impls : list item_impl
}.

(** [Parse for MockableStruct]: mockable_struct.rs 473-540. *)
Definition from_mock (d : mock_decl) : mockable_struct :=
  let name := gen_mock_ident (md_name d) in
  let g := md_generics d in
  MockableStruct (md_attrs d) (md_consts d) g
    (map (fun f => FnItem (fi_attrs f) (fi_vis f) (mockable_method name g (fi_sig f))) (md_methods d))
    name (md_vis d)
    (map (fun x => mockable_item_impl x name g) (md_impls d)).

(** Its errors: mockable_struct.rs 473-540. *)
Definition from_mock_error (d : mock_decl) : bool :=
  let name := gen_mock_ident (md_name d) in
  existsb (fun f => mockable_method_error name (md_generics d) (fi_sig f)) (md_methods d)
  || existsb (fun x => mockable_item_impl_error x name (md_generics d)) (md_impls d).

(** ** Modules: mockable_item.rs *)

(** [syn::ForeignItem].  mock_item.rs 90, 124. *)
Inductive foreign_item : Type :=
| FiFn (f : fn_item) (unsafe : bool)
| FiOther (tokens : string).

(** [syn::Item], as far as [MockItemModule] distinguishes items. Of a function the
    signature, with its [unsafe]; of a block of foreign functions the name of its
    ABI, if it has one.  The cases are those of mock_item.rs 64-153. *)
Inductive item : Type :=
| ItFn (f : fn_item) (unsafe : bool)
| ItForeign (abi : option string) (l : list foreign_item)
| ItCopied (tokens : string)      (* static, const, type, trait alias, use *)
| ItIgnored (tokens : string)     (* extern crate, impl *)
| ItNested (tokens : string)      (* mod, struct, enum, union, trait *)
| ItOther (tokens : string).

(** [mockable_fn], [mockable_item]: mockable_item.rs 5-17. *)
Definition mockable_fn (s : signature) : signature :=
  with_output (with_inputs s (demutify (sg_inputs s))) (deimplify (sg_output s)).

(** [mockable_item]: mockable_item.rs 12-17. *)
Definition mockable_item (i : item) : item :=
  match i with
  | ItFn f u => ItFn (FnItem (fi_attrs f) (fi_vis f) (mockable_fn (fi_sig f))) u
  | i => i
  end.

(** [MockableModule]: mockable_item.rs 49-80. *)
Record mockable_module : Type := MockableModule {
  mm_vis : visibility;
  mm_mock_ident : ident;
  mm_orig_ident : ident;
  mm_content : list item
}.

(** [From<ItemMod>]: mockable_item.rs 58-80. *)
Definition from_module (vis : visibility) (i : ident) (content : list item) : mockable_module :=
  MockableModule vis (gen_mock_module_ident i) i (map mockable_item content).
