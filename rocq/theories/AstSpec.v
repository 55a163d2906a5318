(** * AstSpec: reading syntax trees

    Vocabulary for stating what the rewriting functions of mockall_derive do,
    independent of how they walk over a tree: the tokens of a tree, and what the
    paths in a tree refer to. *)

From Coq Require Import List Bool String NArith Arith.
From Verif Require Import Ast.
Import ListNotations.
Open Scope string_scope.
Open Scope list_scope.

(** ** Tokens

    The source text of a tree.  Only identifiers and lifetimes are told apart;
    every other token (keywords, punctuation, expressions) is [TkSym].  A list
    is printed with a separator after every element. *)
Inductive token : Type :=
| TkId (i : ident)
| TkLt (l : lifetime)
| TkSym (s : string).

Definition each (sep : string) (l : list (list token)) : list token :=
  flat_map (fun x => x ++ [TkSym sep]) l.

Fixpoint between (sep : string) (l : list (list token)) : list token :=
  match l with
  | [] => []
  | [x] => x
  | x :: r => x ++ TkSym sep :: between sep r
  end.

Definition binder_tokens (b : list lifetime) : list token :=
  match b with
  | [] => []
  | b => TkSym "for" :: TkSym "<" :: each "," (map (fun l => [TkLt l]) b) ++ [TkSym ">"]
  end.

Fixpoint tokens (t : ty) : list token :=
  match t with
  | TArray e n => TkSym "[" :: tokens e ++ [TkSym ";"; TkSym n; TkSym "]"]
  | TBareFn q b i o =>
      binder_tokens b ++ TkSym q :: TkSym "fn" :: TkSym "("
        :: each "," (map tokens i) ++ TkSym ")"
        :: match o with None => [] | Some t => TkSym "->" :: tokens t end
  | TGroup e => tokens e
  | TImplTrait l => TkSym "impl" :: each "+" (map bound_tokens l)
  | TInfer => [TkSym "_"]
  | TMacro s => [TkSym s]
  | TNever => [TkSym "!"]
  | TParen e => TkSym "(" :: tokens e ++ [TkSym ")"]
  | TPath p => path_tokens p
  | TQPath q 0 (Path _ l) =>
      TkSym "<" :: tokens q ++ TkSym ">" :: flat_map (fun s => TkSym "::" :: seg_tokens s) l
  | TQPath q n (Path b l) =>
      TkSym "<" :: tokens q ++ TkSym "as" :: (if b then [TkSym "::"] else [])
        ++ between "::" (firstn n (map seg_tokens l)) ++ TkSym ">" :: TkSym "::"
        :: between "::" (skipn n (map seg_tokens l))
  | TPtr m e => TkSym "*" :: TkSym (if m then "mut" else "const") :: tokens e
  | TRef l m e =>
      TkSym "&" :: match l with None => [] | Some l => [TkLt l] end
        ++ (if m then [TkSym "mut"] else []) ++ tokens e
  | TSlice e => TkSym "[" :: tokens e ++ [TkSym "]"]
  | TDyn d l => (if d then [TkSym "dyn"] else []) ++ each "+" (map bound_tokens l)
  | TTuple l => TkSym "(" :: each "," (map tokens l) ++ [TkSym ")"]
  | TVerbatim s => [TkSym s]
  end
with path_tokens (p : path) : list token :=
  match p with
  | Path b l => (if b then [TkSym "::"] else []) ++ between "::" (map seg_tokens l)
  end
with seg_tokens (s : seg) : list token :=
  match s with Seg i a => TkId i :: pargs_tokens a end
with pargs_tokens (a : pargs) : list token :=
  match a with
  | PaNone => []
  | PaAngle l => TkSym "<" :: each "," (map garg_tokens l) ++ [TkSym ">"]
  | PaParen i o =>
      TkSym "(" :: each "," (map tokens i) ++ TkSym ")"
        :: match o with None => [] | Some t => TkSym "->" :: tokens t end
  end
with garg_tokens (g : garg) : list token :=
  match g with
  | GaLifetime l => [TkLt l]
  | GaType t => tokens t
  | GaConst e => [TkSym e]
  | GaAssocType i t => TkId i :: TkSym "=" :: tokens t
  | GaAssocConst i e => [TkId i; TkSym "="; TkSym e]
  | GaConstraint i l => TkId i :: TkSym ":" :: each "+" (map bound_tokens l)
  end
with bound_tokens (b : bound) : list token :=
  match b with
  | BTrait m l p => (if m then [TkSym "?"] else []) ++ binder_tokens l ++ path_tokens p
  | BLifetime l => [TkLt l]
  | BVerbatim s => [TkSym s]
  end.

(** The identifier [Self], the anonymous lifetime. *)
Definition is_self (k : token) : bool :=
  match k with TkId i => i =? "Self" | _ => false end.
Definition is_anon (k : token) : bool :=
  match k with TkLt l => l =? "_" | _ => false end.

(** ** Substitutions of tokens *)

(** The text of the mock's own type, [Actual] or [Actual<A, 'b>]. *)
Definition self_type_tokens (actual : ident) (g : generics) : list token :=
  TkId actual ::
  match params g with
  | [] => []
  | ps => TkSym "<" :: each "," (map (fun p => match p with
                                               | GpLifetime l _ => [TkLt l]
                                               | GpType i _ _ => [TkId i]
                                               | GpConst i _ _ => [TkId i]
                                               end) ps) ++ [TkSym ">"]
  end.

(** Writing the mock's own type for [Self]. *)
Definition put_for_self (actual : ident) (g : generics) (l : list token) : list token :=
  flat_map (fun k => if is_self k then self_type_tokens actual g else [k]) l.

(** Writing ['static] for ['_]. *)
Definition put_static (l : list token) : list token :=
  map (fun k => if is_anon k then TkLt "static" else k) l.

(** ** Where [Self] and ['_] are allowed to occur

    [self_reachable t]: [Self] occurs in [t] only as an element of a path, and
    not inside a bare function, an [impl Trait], a parenthesised argument list
    or a constraint on an associated type. *)
Definition has_self (l : list token) : bool := existsb is_self l.
Definition has_anon (l : list token) : bool := existsb is_anon l.

Fixpoint self_reachable (t : ty) : bool :=
  match t with
  | TArray e _ | TGroup e | TParen e | TPtr _ e | TRef _ _ e | TSlice e => self_reachable e
  | TBareFn _ _ _ _ | TImplTrait _ => negb (has_self (tokens t))
  | TInfer | TMacro _ | TNever | TVerbatim _ => true
  | TPath p => self_reachable_path p
  | TQPath q _ p => self_reachable q && self_reachable_path p
  | TDyn _ l => forallb self_reachable_bound l
  | TTuple l => forallb self_reachable l
  end
with self_reachable_path (p : path) : bool :=
  match p with Path _ l => forallb self_reachable_seg l end
with self_reachable_seg (s : seg) : bool :=
  match s with Seg _ a => self_reachable_pargs a end
with self_reachable_pargs (a : pargs) : bool :=
  match a with
  | PaNone => true
  | PaAngle l => forallb self_reachable_garg l
  | PaParen _ _ => negb (has_self (pargs_tokens a))
  end
with self_reachable_garg (g : garg) : bool :=
  match g with
  | GaLifetime _ | GaConst _ => true
  | GaType t => self_reachable t
  | GaAssocType i t => negb (i =? "Self") && self_reachable t
  | GaAssocConst i _ => negb (i =? "Self")
  | GaConstraint _ _ => negb (has_self (garg_tokens g))
  end
with self_reachable_bound (b : bound) : bool :=
  match b with
  | BTrait _ _ p => self_reachable_path p
  | BLifetime _ | BVerbatim _ => true
  end.

(** [anon_reachable t]: ['_] occurs in [t] only as the lifetime of a reference,
    as a bound of a trait object, or as a direct generic argument of a path:
    not nested in another argument of a path, and not (illegally) in a
    [for<..>]. *)
Definition anon_reachable_garg (g : garg) : bool :=
  match g with
  | GaLifetime _ => true
  | g => negb (has_anon (garg_tokens g))
  end.
Definition anon_reachable_path (p : path) : bool :=
  forallb (fun s => match seg_args s with
                    | PaAngle l => forallb anon_reachable_garg l
                    | a => negb (has_anon (pargs_tokens a))
                    end) (segs p).
Definition anon_reachable_bound (b : bound) : bool :=
  match b with
  | BTrait _ l p => negb (has_anon (binder_tokens l)) && anon_reachable_path p
  | BLifetime _ | BVerbatim _ => true
  end.
Fixpoint anon_reachable (t : ty) : bool :=
  match t with
  | TArray e _ | TGroup e | TParen e | TPtr _ e | TRef _ _ e | TSlice e => anon_reachable e
  | TBareFn _ b i o =>
      negb (has_anon (binder_tokens b)) && forallb anon_reachable i
      && match o with None => true | Some t => anon_reachable t end
  | TInfer | TMacro _ | TNever | TVerbatim _ => true
  | TImplTrait _ => negb (has_anon (tokens t))
  | TPath p => anon_reachable_path p
  | TQPath q _ p => anon_reachable q && anon_reachable_path p
  | TDyn _ l => forallb anon_reachable_bound l
  | TTuple l => forallb anon_reachable l
  end.

(** ** What paths refer to

    A type is read in the module [m] (the list of module names from the crate
    root), or in the module [m ++ ns], where every module of [ns] begins with
    [use super::*] and the innermost one also declares the names [own].

    [resolve l] for the identifiers [l] of a path gives the module in which the
    rest of the path is looked up:
    - [crate::r] looks up [r] in the root;
    - [super::super::r] looks up [r] in the ancestor, if there is one;
    - [self::r] and a plain [r] are looked up in the current module, where, by
      the glob imports, they name what they name in [m], unless the first name
      of [r] is one of [own].
    (Rust 2018 and later: a path without [::] in front that starts with another
    name is looked up in the scope of the current module.) *)
Notation modpath := (list ident) (only parsing).

Inductive target : Type :=
| InModule (m : modpath)   (* an item of this module *)
| InScope (m : modpath)    (* a name in scope in this module: item, import, generic
                              parameter or prelude name *)
| Nowhere.                 (* an error *)

Fixpoint supers (l : list ident) : nat :=
  match l with
  | i :: r => if i =? "super" then S (supers r) else 0
  | [] => 0
  end.

Definition here (m ns : modpath) : modpath := m ++ ns.

Definition up (m ns : modpath) (k : nat) : target :=
  if Nat.leb k (List.length (here m ns))
  then InModule (firstn (Nat.sub (List.length (here m ns)) k) (here m ns))
  else Nowhere.

Definition hidden (ns : modpath) (own : list ident) (l : list ident) : bool :=
  match ns, l with
  | _ :: _, i :: _ => existsb (String.eqb i) own
  | _, _ => false
  end.

(** The target and the number of identifiers used up. *)
Definition resolve (m ns : modpath) (own : list ident) (l : list ident) : target * nat :=
  match l with
  | i :: r =>
      if i =? "crate" then (InModule [], 1)
      else if i =? "super" then (up m ns (supers l), supers l)
      else if i =? "self"
           then match supers r with
                | 0 => (InModule (if hidden ns own r then here m ns else m), 1)
                | k => (up m ns k, S k)
                end
           else (InScope (if hidden ns own l then here m ns else m), 0)
  | [] => (Nowhere, 0)
  end.

(** A path in absolute form: the target, printed as made-up segments, and
    what is left of the path. *)
Definition target_segs (t : target) : list seg :=
  match t with
  | InModule m => seg_of "<module>" :: map seg_of m
  | InScope m => seg_of "<scope>" :: map seg_of m
  | Nowhere => [seg_of "<nowhere>"]
  end.

Definition absolute_segs (m ns : modpath) (own : list ident) (b : bool) (l : list seg) : list seg :=
  if b then l
  else let '(t, k) := resolve m ns own (map seg_id l) in target_segs t ++ skipn k l.

(** [absolute t]: the type with every path, wherever it occurs, in absolute
    form.  In [<T as a::b>::c] only [a::b] is looked up in a module; the
    position of the trait's last segment moves along.  In [<T>::c] nothing
    is. *)
Fixpoint absolute (m ns : modpath) (own : list ident) (t : ty) : ty :=
  match t with
  | TArray e n => TArray (absolute m ns own e) n
  | TBareFn q b i o => TBareFn q b (map (absolute m ns own) i) (option_map (absolute m ns own) o)
  | TGroup e => TGroup (absolute m ns own e)
  | TImplTrait l => TImplTrait (map (absolute_bound m ns own) l)
  | TInfer => TInfer
  | TMacro s => TMacro s
  | TNever => TNever
  | TParen e => TParen (absolute m ns own e)
  | TPath p => TPath (absolute_path m ns own p)
  | TQPath q 0 (Path b l) => TQPath (absolute m ns own q) 0 (Path b (map (absolute_seg m ns own) l))
  | TQPath q n (Path b l) =>
      TQPath (absolute m ns own q)
             (n + List.length (absolute_segs m ns own b (map (absolute_seg m ns own) l)) - List.length l)%nat
             (Path b (absolute_segs m ns own b (map (absolute_seg m ns own) l)))
  | TPtr u e => TPtr u (absolute m ns own e)
  | TRef l u e => TRef l u (absolute m ns own e)
  | TSlice e => TSlice (absolute m ns own e)
  | TDyn d l => TDyn d (map (absolute_bound m ns own) l)
  | TTuple l => TTuple (map (absolute m ns own) l)
  | TVerbatim s => TVerbatim s
  end
with absolute_path (m ns : modpath) (own : list ident) (p : path) : path :=
  match p with Path b l => Path b (absolute_segs m ns own b (map (absolute_seg m ns own) l)) end
with absolute_seg (m ns : modpath) (own : list ident) (s : seg) : seg :=
  match s with Seg i a => Seg i (absolute_pargs m ns own a) end
with absolute_pargs (m ns : modpath) (own : list ident) (a : pargs) : pargs :=
  match a with
  | PaNone => PaNone
  | PaAngle l => PaAngle (map (absolute_garg m ns own) l)
  | PaParen i o => PaParen (map (absolute m ns own) i) (option_map (absolute m ns own) o)
  end
with absolute_garg (m ns : modpath) (own : list ident) (g : garg) : garg :=
  match g with
  | GaType t => GaType (absolute m ns own t)
  | GaAssocType i t => GaAssocType i (absolute m ns own t)
  | GaConstraint i l => GaConstraint i (map (absolute_bound m ns own) l)
  | g => g
  end
with absolute_bound (m ns : modpath) (own : list ident) (b : bound) : bound :=
  match b with
  | BTrait u l p => BTrait u l (absolute_path m ns own p)
  | b => b
  end.

Definition absolute_param (m ns : modpath) (own : list ident) (p : gparam) : gparam :=
  match p with
  | GpType i b d => GpType i (map (absolute_bound m ns own) b) (option_map (absolute m ns own) d)
  | GpConst i t d => GpConst i (absolute m ns own t) d
  | GpLifetime l b => GpLifetime l b
  end.

Definition absolute_pred (m ns : modpath) (own : list ident) (w : wpred) : wpred :=
  match w with
  | WpType f t b => WpType f (absolute m ns own t) (map (absolute_bound m ns own) b)
  | WpLifetime l b => WpLifetime l b
  end.

Definition absolute_generics (m ns : modpath) (own : list ident) (g : generics) : generics :=
  Generics (lt_token g) (map (absolute_param m ns own) (params g))
           (option_map (map (absolute_pred m ns own)) (where_clause g)).

(** ** Types that can be moved into the generated modules

    [movable own true t]:
    - no path of [t] begins with a name that the generated modules declare
      themselves, or with [self::super] or (nonsensically) [::super];
    - no path that begins with [super] is in a generic argument of a path
      segment other than the last, or in an [impl Trait].
    [movable own false t]: the first, and no path begins with [super] at all. *)
Definition free_start (own : list ident) (l : list ident) : bool :=
  match l with
  | i :: r =>
      negb (existsb (String.eqb i) own)
      && (if i =? "self"
          then match r with
               | j :: _ => negb (j =? "super") && negb (existsb (String.eqb j) own)
               | [] => true
               end
          else true)
  | [] => true
  end.

Definition super_start (l : list ident) : bool :=
  match l with i :: _ => i =? "super" | [] => false end.

Fixpoint movable (own : list ident) (top : bool) (t : ty) : bool :=
  match t with
  | TArray e _ | TGroup e | TParen e | TPtr _ e | TRef _ _ e | TSlice e => movable own top e
  | TBareFn _ _ i o =>
      forallb (movable own top) i
      && match o with None => true | Some t => movable own top t end
  | TImplTrait l => forallb (movable_bound own false) l
  | TInfer | TMacro _ | TNever | TVerbatim _ => true
  | TPath p => movable_path own top p
  | TQPath q 0 (Path _ l) =>
      movable own top q && negb (super_start (map seg_id l))
      && (fix go l := match l with
                      | [] => true
                      | [s] => movable_seg own top s
                      | s :: r => movable_seg own false s && go r
                      end) l
  | TQPath q _ p => movable own top q && movable_path own top p
  | TDyn _ l => forallb (movable_bound own top) l
  | TTuple l => forallb (movable own top) l
  end
with movable_path (own : list ident) (top : bool) (p : path) : bool :=
  match p with
  | Path b l =>
      (if b then negb (super_start (map seg_id l)) else free_start own (map seg_id l))
      && (top || negb (super_start (map seg_id l)))
      && (fix go l := match l with
                      | [] => true
                      | [s] => movable_seg own top s
                      | s :: r => movable_seg own false s && go r
                      end) l
  end
with movable_seg (own : list ident) (top : bool) (s : seg) : bool :=
  match s with Seg _ a => movable_pargs own top a end
with movable_pargs (own : list ident) (top : bool) (a : pargs) : bool :=
  match a with
  | PaNone => true
  | PaAngle l => forallb (movable_garg own top) l
  | PaParen i o =>
      forallb (movable own top) i
      && match o with None => true | Some t => movable own top t end
  end
with movable_garg (own : list ident) (top : bool) (g : garg) : bool :=
  match g with
  | GaType t => movable own top t
  | GaAssocType _ t => movable own top t
  | GaConstraint _ l => forallb (movable_bound own top) l
  | GaLifetime _ | GaConst _ | GaAssocConst _ _ => true
  end
with movable_bound (own : list ident) (top : bool) (b : bound) : bool :=
  match b with
  | BTrait _ _ p => movable_path own top p
  | BLifetime _ | BVerbatim _ => true
  end.

Definition movable_generics (own : list ident) (g : generics) : bool :=
  forallb (fun p => match p with
                    | GpType _ b d =>
                        forallb (movable_bound own true) b
                        && match d with None => true | Some t => movable own true t end
                    | GpConst _ t _ => movable own false t
                    | GpLifetime _ _ => true
                    end) (params g)
  && match where_clause g with
     | None => true
     | Some w => forallb (fun w => match w with
                                   | WpType _ t b => movable own true t && forallb (movable_bound own true) b
                                   | WpLifetime _ _ => true
                                   end) w
     end.

(** ** Lifetimes

    [mentions l t]: the lifetime [l] occurs somewhere in the type. *)
Definition mentions (l : lifetime) (t : ty) : Prop := In (TkLt l) (tokens t).

(** [no_fn_types t]: the type contains neither [fn(..)] nor [Fn(..)], and no
    trait bound of it has a [for<..>] of its own. *)
Fixpoint no_fn_types (t : ty) : bool :=
  match t with
  | TArray e _ | TGroup e | TParen e | TPtr _ e | TRef _ _ e | TSlice e => no_fn_types e
  | TBareFn _ _ _ _ => false
  | TInfer | TMacro _ | TNever | TVerbatim _ => true
  | TPath p => no_fn_types_path p
  | TQPath q _ p => no_fn_types q && no_fn_types_path p
  | TDyn _ l | TImplTrait l => forallb no_fn_types_bound l
  | TTuple l => forallb no_fn_types l
  end
with no_fn_types_path (p : path) : bool :=
  match p with Path _ l => forallb no_fn_types_seg l end
with no_fn_types_seg (s : seg) : bool :=
  match s with Seg _ a => no_fn_types_pargs a end
with no_fn_types_pargs (a : pargs) : bool :=
  match a with
  | PaNone => true
  | PaAngle l => forallb no_fn_types_garg l
  | PaParen _ _ => false
  end
with no_fn_types_garg (g : garg) : bool :=
  match g with
  | GaType t | GaAssocType _ t => no_fn_types t
  | GaConstraint _ l => forallb no_fn_types_bound l
  | GaLifetime _ | GaConst _ | GaAssocConst _ _ => true
  end
with no_fn_types_bound (b : bound) : bool :=
  match b with
  | BTrait _ f p => match f with [] => no_fn_types_path p | _ => false end
  | BLifetime _ | BVerbatim _ => true
  end.
