(** * DeriveSpec: vocabulary for the helper functions of the macros

    What visibilities, imports, generics and arguments mean, stated without
    the functions of Derive.v, Names.v and Subst.v. *)

From Coq Require Import List Bool String NArith Arith.
From Verif Require Import Ast AstSpec.
Import ListNotations.
Open Scope string_scope.
Open Scope list_scope.

(** [subseq l m]: [l] is [m] with some elements left out. *)
Inductive subseq {A} : list A -> list A -> Prop :=
| sub_nil : subseq [] []
| sub_keep a l m : subseq l m -> subseq (a :: l) (a :: m)
| sub_drop a l m : subseq l m -> subseq l (a :: m).

(** ** Visibility (The Rust Reference, "Visibility and Privacy", 2018 and
    later) *)

(** The part of the program that can use an item: all of it, or a module with
    everything in it. *)
Inductive region : Type :=
| Everywhere
| Within (m : modpath).

Definition keyword (i : ident) : bool :=
  existsb (String.eqb i) ["crate"; "super"; "self"; "Self"].

(** The module that a path names in the module [m]: [crate], [self] or one or
    more [super], then names of modules. *)
Definition module_named (m : modpath) (l : list ident) : option modpath :=
  let names base r := if existsb keyword r then None else Some (base ++ r) in
  match l with
  | i :: r =>
      if i =? "crate" then names [] r
      else if i =? "super"
           then if Nat.leb (supers l) (List.length m)
                then names (firstn (List.length m - supers l) m) (skipn (supers l) l)
                else None
           else if i =? "self"
                then if Nat.leb (supers r) (List.length m)
                     then names (firstn (List.length m - supers r) m) (skipn (supers r) r)
                     else None
                else None
  | [] => None
  end.

(** [ancestor a m]: the module [m] is [a] or inside of [a]. *)
Fixpoint ancestor (a m : modpath) : bool :=
  match a, m with
  | [], _ => true
  | i :: a, j :: m => (i =? j) && ancestor a m
  | _ :: _, [] => false
  end.

(** Where an item declared in the module [m] with visibility [v] can be used;
    [None] if the visibility is rejected.  Without [in], only [pub(crate)],
    [pub(super)] and [pub(self)] are allowed; the named module must be an
    ancestor. *)
Definition usable_in (m : modpath) (v : visibility) : option region :=
  match v with
  | VPublic => Some Everywhere
  | VInherited => Some (Within m)
  | VRestricted i (Path b l) =>
      if (negb b && (i || match l with [Seg k _] => keyword k | _ => false end))%bool
      then match module_named m (map seg_id l) with
           | Some a => if ancestor a m then Some (Within a) else None
           | None => None
           end
      else None
  end.

Definition starts_with (i : ident) (v : visibility) : Prop :=
  match v with
  | VRestricted _ (Path _ (Seg j _ :: _)) => j = i
  | _ => False
  end.

(** ** Imports *)

(** What a [use] declaration brings into scope: the module path, the item and
    the local name.  [self] stands for the module itself.  A glob brings in no
    particular name. *)
Record import : Type := Import {
  im_path : list ident;
  im_item : ident;
  im_as : ident
}.

Fixpoint imports (prefix : list ident) (t : usetree) : list import :=
  match t with
  | UPath i t => imports (prefix ++ [i]) t
  | UName i =>
      if i =? "self"
      then [Import (removelast prefix) (last prefix "") (last prefix "")]
      else [Import prefix i i]
  | URename i r =>
      if i =? "self"
      then [Import (removelast prefix) (last prefix "") r]
      else [Import prefix i r]
  | UGlob => []
  | UGroup l => flat_map (imports prefix) l
  end.

(** [mentions_self t]: some leaf of the use tree is [self]. *)
Fixpoint mentions_self (t : usetree) : bool :=
  match t with
  | UPath _ t => mentions_self t
  | UName i | URename i _ => i =? "self"
  | UGlob => false
  | UGroup l => existsb mentions_self l
  end.

Fixpoint mentions_glob (t : usetree) : bool :=
  match t with
  | UPath _ t => mentions_glob t
  | UName _ | URename _ _ => false
  | UGlob => true
  | UGroup l => existsb mentions_glob l
  end.

(** ** Generics *)

Definition mentionsb (l : lifetime) (t : ty) : bool :=
  existsb (fun k => match k with TkLt j => l =? j | _ => false end) (tokens t).

(** Lifetimes in an argument; of a receiver, only the lifetime in [&'a self]
    counts. *)
Definition arg_mentionsb (l : lifetime) (a : fnarg) : bool :=
  match a with
  | FaReceiver (Some (Some j)) _ _ _ => l =? j
  | FaReceiver _ _ _ _ => false
  | FaTyped _ t => mentionsb l t
  end.

(** The type of the argument has no function type in it. *)
Definition plain_arg (a : fnarg) : bool :=
  match a with FaTyped _ t => no_fn_types t | FaReceiver _ _ _ _ => true end.

Definition lifetime_params (g : generics) : list (lifetime * list lifetime) :=
  flat_map (fun p => match p with GpLifetime l b => [(l, b)] | _ => [] end) (params g).

Definition is_type_param (p : gparam) : bool :=
  match p with GpType _ _ _ => true | _ => false end.

(** The kind and the name of a parameter. *)
Inductive pkey : Type :=
| KLifetime (l : lifetime)
| KType (i : ident)
| KConst (i : ident).

Definition key_of (p : gparam) : pkey :=
  match p with
  | GpLifetime l _ => KLifetime l
  | GpType i _ _ => KType i
  | GpConst i _ _ => KConst i
  end.

Definition keys (g : generics) : list pkey := map key_of (params g).

(** [has_bound g i b]: the parameter list bounds the type parameter [i] by [b]. *)
Definition has_bound (g : generics) (i : ident) (b : bound) : Prop :=
  exists l d, In (GpType i l d) (params g) /\ In b l.

(** [where_bound g t b]: the where clause bounds the type [t] by [b]. *)
Definition preds (g : generics) : list wpred :=
  match where_clause g with Some w => w | None => [] end.
Definition where_bound (g : generics) (t : ty) (b : bound) : Prop :=
  exists f l, In (WpType f t l) (preds g) /\ In b l.

(** What the where clause says of the lifetime [l]. *)
Definition where_outlives (g : generics) (l m : lifetime) : Prop :=
  exists b, In (WpLifetime l b) (preds g) /\ In m b.

(** No angle brackets and no where clause. *)
Definition blank (g : generics) : Prop := lt_token g = false /\ params g = [] /\ where_clause g = None.

(** Without angle brackets there are no parameters. *)
Definition bracketed (g : generics) : Prop := lt_token g = false -> params g = [].

(** The type or lifetime that a where predicate is about. *)
Inductive subject : Type :=
| SjLifetime (l : lifetime)
| SjType (t : ty).
Definition subject_of (w : wpred) : subject :=
  match w with
  | WpLifetime l _ => SjLifetime l
  | WpType _ t _ => SjType t
  end.

(** ** Closures *)

Definition closure_trait (i : ident) : Prop := i = "Fn" \/ i = "FnMut" \/ i = "FnOnce".

(** A trait bound whose last segment is [Fn], [FnMut] or [FnOnce]. *)
Definition closure_bound (b : bound) : Prop :=
  exists m f lead pre i a, b = BTrait m f (Path lead (pre ++ [Seg i a])) /\ closure_trait i.

(** [declared g i l]: the parameter list or the where clause bounds the type
    parameter [i] by exactly the list [l]. *)
Definition declared (g : generics) (i : ident) (l : list bound) : Prop :=
  (exists d, In (GpType i l d) (params g))
  \/ (exists f, In (WpType f (ty_of i) l) (preds g) /\ keyword i = false).

Definition closure_param (g : generics) (i : ident) : Prop :=
  exists l b, declared g i l /\ In b l /\ closure_bound b.

(** The name bound by a pattern, if it is simple. *)
Definition pat_name (p : pat) : option ident :=
  match p with PatIdent _ _ i _ => Some i | _ => None end.

Definition typed_args (l : list fnarg) : list (pat * ty) :=
  flat_map (fun a => match a with FaTyped p t => [(p, t)] | _ => [] end) l.

(** ** Associated types *)

(** [everywhere f t]: [f] applied to every type inside of [t], innermost first. *)
Fixpoint everywhere (f : ty -> ty) (t : ty) : ty :=
  f match t with
    | TArray e n => TArray (everywhere f e) n
    | TBareFn q b i o => TBareFn q b (map (everywhere f) i) (option_map (everywhere f) o)
    | TGroup e => TGroup (everywhere f e)
    | TImplTrait l => TImplTrait (map (everywhere_bound f) l)
    | TInfer => TInfer
    | TMacro s => TMacro s
    | TNever => TNever
    | TParen e => TParen (everywhere f e)
    | TPath p => TPath (everywhere_path f p)
    | TQPath q n p => TQPath (everywhere f q) n (everywhere_path f p)
    | TPtr m e => TPtr m (everywhere f e)
    | TRef l m e => TRef l m (everywhere f e)
    | TSlice e => TSlice (everywhere f e)
    | TDyn d l => TDyn d (map (everywhere_bound f) l)
    | TTuple l => TTuple (map (everywhere f) l)
    | TVerbatim s => TVerbatim s
    end
with everywhere_path (f : ty -> ty) (p : path) : path :=
  match p with Path b l => Path b (map (everywhere_seg f) l) end
with everywhere_seg (f : ty -> ty) (s : seg) : seg :=
  match s with Seg i a => Seg i (everywhere_pargs f a) end
with everywhere_pargs (f : ty -> ty) (a : pargs) : pargs :=
  match a with
  | PaNone => PaNone
  | PaAngle l => PaAngle (map (everywhere_garg f) l)
  | PaParen i o => PaParen (map (everywhere f) i) (option_map (everywhere f) o)
  end
with everywhere_garg (f : ty -> ty) (g : garg) : garg :=
  match g with
  | GaType t => GaType (everywhere f t)
  | GaAssocType i t => GaAssocType i (everywhere f t)
  | GaConstraint i l => GaConstraint i (map (everywhere_bound f) l)
  | g => g
  end
with everywhere_bound (f : ty -> ty) (b : bound) : bound :=
  match b with
  | BTrait m l p => BTrait m l (everywhere_path f p)
  | b => b
  end.

(** [projection tr t]: [Some A] if [t] is [Self::A] or [<Self as tr>::A]. *)
Definition projection (tr : ident) (t : ty) : option ident :=
  match t with
  | TPath (Path false [Seg s PaNone; Seg i PaNone]) => if s =? "Self" then Some i else None
  | TQPath (TPath (Path _ [Seg s _])) 1 (Path _ [Seg t _; Seg i PaNone]) =>
      if ((s =? "Self") && (t =? tr))%bool then Some i else None
  | _ => None
  end.

(** The type with a projection to a known associated type replaced. *)
Definition project (types : ident -> option ty) (tr : ident) (t : ty) : ty :=
  match projection tr t with
  | Some i => match types i with Some u => u | None => t end
  | None => t
  end.

(** The bounds of the type parameter [i], in order: those in the parameter list,
    then those in the where clause. *)
Definition all_bounds (g : generics) (i : ident) : list bound :=
  flat_map (fun p => match p with
                     | GpType j l _ => if i =? j then l else []
                     | _ => []
                     end) (params g)
  ++ flat_map (fun p => match p with
                        | WpType _ (TPath (Path false [Seg j PaNone])) l =>
                            if ((i =? j) && negb (keyword j))%bool then l else []
                        | _ => []
                        end) (preds g).

(** [Box<dyn l>] *)
Definition boxed (l : list bound) : ty :=
  TPath (Path false [Seg "Box" (PaAngle [GaType (TDyn true l)])]).

(** ** Attributes *)

(** The last segment of the attribute's path. *)
Definition named (a : attribute) (i : ident) : Prop :=
  exists lead pre args, apath a = Path lead (pre ++ [Seg i args]).

(** Attributes that the macros never copy. *)
Definition never_copied (a : attribute) : Prop :=
  (exists i, named a i
             /\ In i ["concretize"; "derive"; "expect"; "inline"; "cold"; "instrument";
                      "link_name"; "auto_enum"])
  \/ (apath a = path_of "cfg_attr"
      /\ exists pre post, alist a = Some (pre ++ "concretize" ++ post)%string).

(** The pattern without [mut]. *)
Definition without_mut (p : pat) : pat :=
  match p with
  | PatIdent r _ i s => PatIdent r false i s
  | p => p
  end.

(** [plain t]: the type has no associated type with arguments
    ([Self::A<'a>]), no bound that is an associated type ([dyn Self::A]) and no
    constraint ([impl Iterator<Item: Foo>]). *)
Definition no_args (s : seg) : bool := match s with Seg _ PaNone => true | _ => false end.

Fixpoint plain (t : ty) : bool :=
  match t with
  | TArray e _ | TGroup e | TParen e | TPtr _ e | TRef _ _ e | TSlice e => plain e
  | TBareFn _ _ i o => forallb plain i && match o with None => true | Some t => plain t end
  | TImplTrait l | TDyn _ l => forallb plain_bound l
  | TInfer | TMacro _ | TNever | TVerbatim _ => true
  | TPath p =>
      plain_path p
      && match p with
         | Path _ [Seg s x; i] => negb (s =? "Self") || (no_args (Seg s x) && no_args i)
         | _ => true
         end
  | TQPath q _ p =>
      plain q && plain_path p
      && match p with Path _ [_; i] => no_args i | _ => true end
  | TTuple l => forallb plain l
  end
with plain_path (p : path) : bool :=
  match p with Path _ l => forallb plain_seg l end
with plain_seg (s : seg) : bool :=
  match s with Seg _ a => plain_pargs a end
with plain_pargs (a : pargs) : bool :=
  match a with
  | PaNone => true
  | PaAngle l => forallb plain_garg l
  | PaParen i o => forallb plain i && match o with None => true | Some t => plain t end
  end
with plain_garg (g : garg) : bool :=
  match g with
  | GaType t | GaAssocType _ t => plain t
  | GaConstraint _ _ => false
  | _ => true
  end
with plain_bound (b : bound) : bool :=
  match b with
  | BTrait _ _ p =>
      plain_path p && match p with Path _ [Seg s _; _] => negb (s =? "Self") | _ => true end
  | _ => true
  end.

(** [projects known tr t]: somewhere in the type is [Self::A] or
    [<Self as tr>::A] with a known [A]. *)
Definition projects_here (types : ident -> option ty) (tr : ident) (t : ty) : bool :=
  match projection tr t with
  | Some i => match types i with Some _ => true | None => false end
  | None => false
  end.

Fixpoint projects (types : ident -> option ty) (tr : ident) (t : ty) : bool :=
  projects_here types tr t
  || match t with
     | TArray e _ | TGroup e | TParen e | TPtr _ e | TRef _ _ e | TSlice e => projects types tr e
     | TBareFn _ _ i o =>
         existsb (projects types tr) i
         || match o with None => false | Some t => projects types tr t end
     | TImplTrait l | TDyn _ l => existsb (projects_bound types tr) l
     | TInfer | TMacro _ | TNever | TVerbatim _ => false
     | TPath p => projects_path types tr p
     | TQPath q _ p => projects types tr q || projects_path types tr p
     | TTuple l => existsb (projects types tr) l
     end
with projects_path (types : ident -> option ty) (tr : ident) (p : path) : bool :=
  match p with Path _ l => existsb (projects_seg types tr) l end
with projects_seg (types : ident -> option ty) (tr : ident) (s : seg) : bool :=
  match s with Seg _ a => projects_pargs types tr a end
with projects_pargs (types : ident -> option ty) (tr : ident) (a : pargs) : bool :=
  match a with
  | PaNone => false
  | PaAngle l => existsb (projects_garg types tr) l
  | PaParen i o =>
      existsb (projects types tr) i
      || match o with None => false | Some t => projects types tr t end
  end
with projects_garg (types : ident -> option ty) (tr : ident) (g : garg) : bool :=
  match g with
  | GaType t | GaAssocType _ t => projects types tr t
  | GaConstraint _ l => existsb (projects_bound types tr) l
  | _ => false
  end
with projects_bound (types : ident -> option ty) (tr : ident) (b : bound) : bool :=
  match b with
  | BTrait _ _ p => projects_path types tr p
  | _ => false
  end.
