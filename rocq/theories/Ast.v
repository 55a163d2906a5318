(** * Ast: the syntax trees that the procedural macros rewrite

    The trees of the [syn] crate (version 2, feature "full") as far as
    mockall_derive and mockall_double look at them.  Spans, comments and the
    punctuation tokens that carry no information are left out; an expression
    (array length, const argument, default value) is kept as the string of its
    tokens.  An identifier is the string that [Ident::to_string] returns, so a
    raw identifier carries its [r#] prefix; a lifetime is written without its
    apostrophe.

    [syn]'s [PartialEq] ignores spans, so Coq's equality on these trees is
    [syn]'s equality. *)

From Coq Require Import List Bool String NArith.
Import ListNotations.
Open Scope string_scope.

(** [syn::Ident]; mockall_derive/src/lib.rs 1039-1051. *)
Notation ident := string (only parsing).
(** [syn::Lifetime]; mockall_derive/src/lib.rs 247-251. *)
Notation lifetime := string (only parsing).

(** [syn::Type], [syn::Path], [syn::PathSegment], [syn::PathArguments],
    [syn::GenericArgument] and [syn::TypeParamBound]. Simplifications: a [TypePath]
    with a qualified self type is the separate constructor [TQPath]; the qualifiers
    of a bare function (unsafe, extern, variadic) are one string and the optional
    names of its arguments are dropped; generic arguments of an associated type
    constraint ([Item<'a> = T]) and precise capturing ([use<..>]) are not modelled.
    The cases are those of mockall_derive/src/lib.rs 271-316, 594-649, 921-986. *)
Inductive ty : Type :=
| TArray (elem : ty) (len : string)                       (* [elem; len] *)
| TBareFn (quals : string) (binder : list lifetime)
          (inputs : list ty) (output : option ty)         (* for<..> fn(..) -> .. *)
| TGroup (elem : ty)                                      (* None-delimited group *)
| TImplTrait (bounds : list bound)                        (* impl A + B *)
| TInfer                                                  (* _ *)
| TMacro (tokens : string)                                (* m!(..) *)
| TNever                                                  (* ! *)
| TParen (elem : ty)                                      (* (elem) *)
| TPath (p : path)                                        (* a::b<C> *)
| TQPath (qty : ty) (pos : nat) (p : path)                (* <qty as a::b>::c *)
| TPtr (mut : bool) (elem : ty)                           (* *const elem, *mut elem *)
| TRef (lt : option lifetime) (mut : bool) (elem : ty)    (* &'lt mut elem *)
| TSlice (elem : ty)                                      (* [elem] *)
| TDyn (dyn : bool) (bounds : list bound)                 (* dyn A + B *)
| TTuple (elems : list ty)                                (* (A, B) *)
| TVerbatim (tokens : string)                             (* anything else *)
(** Read at mockall_derive/src/lib.rs 253-268, 534-589, 870-918. *)
with path : Type :=
| Path (leading : bool) (segs : list seg)                 (* ::a::b *)
(** Read at mockall_derive/src/lib.rs 535-575. *)
with seg : Type :=
| Seg (id : ident) (args : pargs)
(** [syn::PathArguments]; mockall_derive/src/lib.rs 255-266, 872-898. *)
with pargs : Type :=
| PaNone
| PaAngle (args : list garg)                              (* <A, 'b, C = D> *)
| PaParen (inputs : list ty) (output : option ty)         (* (A, B) -> C *)
(** Read at mockall_derive/src/lib.rs 579-585, 876-887. *)
with garg : Type :=
| GaLifetime (lt : lifetime)
| GaType (t : ty)
| GaConst (e : string)
| GaAssocType (id : ident) (t : ty)                       (* Item = T *)
| GaAssocConst (id : ident) (e : string)                  (* N = 3 *)
| GaConstraint (id : ident) (bounds : list bound)         (* Item: A + B *)
(** Read at mockall_derive/src/lib.rs 300-304, 680-692. *)
with bound : Type :=
| BTrait (maybe : bool) (binder : list lifetime) (p : path)  (* ?for<'a> path *)
| BLifetime (lt : lifetime)
| BVerbatim (tokens : string).

(** [Path::leading_colon]; automock.rs 32. *)
Definition leading (p : path) : bool := let '(Path l _) := p in l.
(** [Path::segments]; mockall_derive/src/lib.rs 535. *)
Definition segs (p : path) : list seg := let '(Path _ s) := p in s.
(** [PathSegment::ident]; mockall_derive/src/lib.rs 536. *)
Definition seg_id (s : seg) : ident := let '(Seg i _) := s in i.
(** [PathSegment::arguments]; mockall_derive/src/lib.rs 255. *)
Definition seg_args (s : seg) : pargs := let '(Seg _ a) := s in a.

(** [Path::from(ident)], [PathSegment::from(ident)] (syn).
    mockall_derive/src/lib.rs 904-907, 1255-1257. *)
Definition seg_of (i : ident) : seg := Seg i PaNone.
(** [Path::from(ident)]; mockall_derive/src/lib.rs 549. *)
Definition path_of (i : ident) : path := Path false [seg_of i].
(** [parse2(quote!(#ident))]; mockall_derive/src/lib.rs 332, 546-551. *)
Definition ty_of (i : ident) : ty := TPath (path_of i).

(** [syn::GenericParam]; attributes of parameters are left out.  Read at
    mockall_derive/src/lib.rs 542-560, 1057-1066. *)
Inductive gparam : Type :=
| GpLifetime (lt : lifetime) (bounds : list lifetime)
| GpType (id : ident) (bounds : list bound) (default : option ty)
| GpConst (id : ident) (t : ty) (default : option string).

(** [syn::WherePredicate]; [binder] is the [for<..>] list of a [PredicateType].
    Read at mockall_derive/src/lib.rs 1069-1077. *)
Inductive wpred : Type :=
| WpLifetime (lt : lifetime) (bounds : list lifetime)
| WpType (binder : option (list lifetime)) (bounded : ty) (bounds : list bound).

(** [syn::Generics]; [lt_token] tells whether the angle brackets are there.  Read at
    mockall_derive/src/lib.rs 1055-1145, 1181. *)
Record generics : Type := Generics {
  lt_token : bool;
  params : list gparam;
  where_clause : option (list wpred)
}.

(** [Generics::default()] (syn).  mockall_derive/src/lib.rs 1158, 1224. *)
Definition no_generics : generics := Generics false [] None.

(** [syn::Pat], as far as the macros distinguish patterns.  The cases are those of
    mockall_derive/src/lib.rs 511-532. *)
Inductive pat : Type :=
| PatIdent (by_ref mut : bool) (id : ident) (subpat : bool)
| PatWild
| PatOther (tokens : string).

(** [syn::FnArg]. [FaReceiver reference mut colon t]: the [self] argument; its
    reference and that reference's lifetime, its [mut], whether its type is written
    out ([self: t]).  Read at mockall_derive/src/lib.rs 499-509, 658-667, 1189-1198.
    *)
Inductive fnarg : Type :=
| FaReceiver (reference : option (option lifetime)) (mut colon : bool) (t : ty)
| FaTyped (p : pat) (t : ty).

(** [syn::Visibility].  The cases are those of mockall_derive/src/lib.rs 1252-1284.
    *)
Inductive visibility : Type :=
| VPublic                                         (* pub *)
| VRestricted (in_token : bool) (p : path)        (* pub(in p) or pub(p) *)
| VInherited.

(** [syn::UseTree].  The cases are those of mockall_double/src/lib.rs 197-222. *)
Inductive usetree : Type :=
| UPath (id : ident) (t : usetree)                (* id::t *)
| UName (id : ident)                              (* id *)
| URename (id rename : ident)                     (* id as rename *)
| UGlob                                           (* * *)
| UGroup (items : list usetree).                  (* {a, b} *)

(** [syn::Attribute]: its path, and for [Meta::List] the string of the tokens
    between the parentheses ([ml.tokens.to_string()]). [arest] is anything else ([=
    "..."]).  Read at mockall_derive/src/lib.rs 62-76, 810-857. *)
Record attribute : Type := Attribute {
  apath : path;
  alist : option string;
  arest : string
}.
