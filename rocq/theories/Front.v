(** * Front: what the macros read

    [syn] turns the tokens of a macro call into items; this file starts there.  It models what
    mockall_derive does with them before there is a [MockableStruct] or a [MockableModule], and
    what the macros put in the place of the call. *)

From Coq Require Import List Bool String NArith.
From Verif Require Import Ast Sig MockFn Item MockItem Errors.
Import ListNotations.
Open Scope string_scope.
Open Scope list_scope.

(** [syn::ImplItem] as [syn] reads it, where a function without a body is [ImplItem::Verbatim],
    as is anything else that is Rust only for [syn], such as a constant without a value.  The
    cases are those of mockable_struct.rs 486-500 and 508-516.  The body of a function is never
    looked at and not modelled, and neither is [default]. *)
Inductive raw_impl_item : Type :=
| RaFn (f : fn_item)
| RaConst (id : ident) (rest : string)
| RaType (id : ident) (t : ty)
| RaBare (f : fn_item)
| RaVerbatim (tokens : string)
| RaOther (tokens : string).

(** [syn::ItemImpl], as it is read at mockable_struct.rs 506-519. *)
Record raw_impl : Type := RawImpl {
  ri_attrs : list attribute;
  ri_unsafe : bool;
  ri_generics : generics;
  ri_trait : option (bool * path);
  ri_self : ty;
  ri_items : list raw_impl_item
}.

(** [syn::Item].  The cases are those of mockable_item.rs 31-39. *)
Inductive raw_item : Type :=
| RmImpl (x : raw_impl)
| RmTrait (t : item_trait)
| RmMod (vis : visibility) (n : ident) (content : option (list item))
| RmOther (tokens : string).

(** The input of [mock!]: mockable_struct.rs 475-505.  [syn] reads the parameters and the where
    clause separately (478-480). *)
Record raw_mock : Type := RawMock {
  rm_attrs : list attribute;
  rm_vis : visibility;
  rm_name : ident;
  rm_params : generics;
  rm_where : option (list wpred);
  rm_braces : list raw_impl_item;
  rm_items : list raw_item
}.

(** What a parser returns: [Ok], [Err], or it panics.  mockable_struct.rs 474, 512. *)
Inductive read (A : Type) : Type :=
| Read (a : A)
| Err (msg : string)
| Panics.
Arguments Read {A} a.
Arguments Err {A} msg.
Arguments Panics {A}.

(** [?] in mockable_struct.rs 473-540, lib.rs 1353-1369. *)
Definition and_then {A B} (x : read A) (f : A -> read B) : read B :=
  match x with
  | Read a => f a
  | Err m => Err m
  | Panics => Panics
  end.

(** mockable_struct.rs 497, 519. *)
Definition unsupported : string := "Unsupported in this context".

(** The loop over the braces: mockable_struct.rs 484-500.  [TraitItemVFn] (324-332) and [tif2iif]
    (281-295) keep the attributes, the visibility and the signature; the message of its error is
    [syn]'s.  [mockable_method] (492) is in [from_mock]. *)
Fixpoint read_braces (l : list raw_impl_item) (consts : list (ident * string)) (methods : list fn_item)
  : read (list (ident * string) * list fn_item) :=
  match l with
  | [] => Read (consts, methods)
  | RaBare f :: r => read_braces r consts (methods ++ [f])
  | RaVerbatim _ :: _ => Err "expected `fn`"
  | RaConst i e :: r => read_braces r (consts ++ [(i, e)]) methods
  | RaFn _ :: _ | RaType _ _ :: _ | RaOther _ :: _ => Err unsupported
  end.

(** mockable_struct.rs 508-516.  A visibility is not part of a [TraitItemFn], so [unwrap] (512)
    panics. *)
Definition read_impl_item (i : raw_impl_item) : read impl_item :=
  match i with
  | RaBare f =>
      match fi_vis f with
      | VInherited => Read (IiFn (FnItem (fi_attrs f) VInherited (fi_sig f)))
      | _ => Panics
      end
  | RaVerbatim _ => Panics
  | RaFn f => Read (IiFn f)
  | RaConst n e => Read (IiConst n e)
  | RaType n t => Read (IiType n t)
  | RaOther s => Read (IiOther s)
  end.

(** The loop of mockable_struct.rs 508-516. *)
Fixpoint read_impl_items (l : list raw_impl_item) : read (list impl_item) :=
  match l with
  | [] => Read []
  | i :: r => and_then (read_impl_item i) (fun x => and_then (read_impl_items r) (fun k => Read (x :: k)))
  end.

(** mockable_struct.rs 507-518. *)
Definition read_impl (x : raw_impl) : read item_impl :=
  and_then (read_impl_items (ri_items x)) (fun l =>
    Read (ItemImpl (ri_attrs x) (ri_unsafe x) (ri_generics x) (ri_trait x) (ri_self x) l)).

(** The loop over the rest: mockable_struct.rs 503-521. *)
Fixpoint read_impls (l : list raw_item) (impls : list item_impl) : read (list item_impl) :=
  match l with
  | [] => Read impls
  | RmImpl x :: r => and_then (read_impl x) (fun y => read_impls r (impls ++ [y]))
  | _ :: _ => Err unsupported
  end.

(** mockable_struct.rs 480. *)
Definition with_where (g : generics) (w : option (list wpred)) : generics :=
  Generics (lt_token g) (params g) w.

(** [Parse for MockableStruct]: mockable_struct.rs 473-537. *)
Definition read_mock (r : raw_mock) : read mock_decl :=
  and_then (read_braces (rm_braces r) [] []) (fun b =>
  and_then (read_impls (rm_items r) []) (fun impls =>
    Read (MockDecl (rm_attrs r) (rm_vis r) (rm_name r) (with_where (rm_params r) (rm_where r))
            (fst b) (snd b) impls))).

(** One [Attr]: automock.rs 13-22. *)
Inductive raw_attr : Type :=
| RtType (id : ident) (default : option ty)
| RtOther (tokens : string).

(** [Parse for Attrs] up to the [HashMap], which is [parse_attrs]: automock.rs 253-272. *)
Fixpoint read_attrs (l : list raw_attr) : read (list (ident * option ty)) :=
  match l with
  | [] => Read []
  | RtType i t :: r => and_then (read_attrs r) (fun k => Read ((i, t) :: k))
  | RtOther _ :: _ => Err "expected `type`"
  end.

(** An impl block as [From<ItemImpl>] sees it, to which every item that is no function with a
    body, constant or type is alike: mockable_struct.rs 420-470. *)
Definition as_impl_item (i : raw_impl_item) : impl_item :=
  match i with
  | RaFn f => IiFn f
  | RaConst n e => IiConst n e
  | RaType n t => IiType n t
  | RaBare f => IiOther (sg_ident (fi_sig f))
  | RaVerbatim s | RaOther s => IiOther s
  end.

(** mockable_struct.rs 393-470. *)
Definition as_impl (x : raw_impl) : item_impl :=
  ItemImpl (ri_attrs x) (ri_unsafe x) (ri_generics x) (ri_trait x) (ri_self x)
           (map as_impl_item (ri_items x)).

(** What [mock_it] generates: lib.rs 1295-1304. *)
Inductive generated : Type :=
| GMock (g : gen_mock)
| GModule (g : gen_module).

(** What there is in the place of the call: code, with the annotated item in front of it if there
    is one; a [compile_error!] alone; or nothing because the macro panicked.  lib.rs 44-60,
    1306-1315, 1353-1369. *)
Inductive expansion : Type :=
| Expands (kept : option raw_item) (g : generated)
| CompileError (msg : string)
| Refused.

(** lib.rs 1306-1315, 1353-1369. *)
Definition emit (kept : option raw_item) (g : option generated) : expansion :=
  match g with
  | Some x => Expands kept x
  | None => Refused
  end.

(** [do_mock_once]: lib.rs 1306-1315. *)
Definition do_mock (hash : list pargs -> N) (r : raw_mock) : expansion :=
  match read_mock r with
  | Err m => CompileError m
  | Panics => Refused
  | Read d => emit None (option_map GMock (mock_macro hash d))
  end.

(** [From<(Attrs, Item)>] and [mock_it]: mockable_item.rs 29-41, lib.rs 1295-1304. *)
Definition mock_item_of (hash : list pargs -> N) (l : list (ident * option ty)) (i : raw_item)
  : option generated :=
  match i with
  | RmImpl x => option_map GMock (automock_impl hash (as_impl x))
  | RmMod v n c => option_map GModule (automock_module v n c)
  | RmTrait t => option_map GMock (automock_trait hash l t)
  | RmOther _ => None
  end.

(** [do_automock_once]: lib.rs 1353-1369.  A type attribute without a type is an error (automock.rs
    264-265) whatever the item is. *)
Definition do_automock (hash : list pargs -> N) (attrs : list raw_attr) (i : raw_item) : expansion :=
  match read_attrs attrs with
  | Err m => CompileError m
  | Panics => Refused
  | Read l => if parse_attrs_error l then Refused else emit (Some i) (mock_item_of hash l i)
  end.
