(** * Subst: associated types

    mockall_derive/src/automock.rs 24-251. *)

From Coq Require Import List Bool String NArith Arith.
From Verif Require Import Ast TyEq Rewrite.
Import ListNotations.
Open Scope string_scope.
Open Scope list_scope.

(** [Attrs]: automock.rs 24-28; a map from associated type names to types. *)
Notation assoc_types := (list (string * ty)) (only parsing).

(** [HashMap::get]: automock.rs 35, 154, 222. *)
Fixpoint assoc_get (a : assoc_types) (i : ident) : option ty :=
  match a with
  | [] => None
  | (j, t) :: r => if i =? j then Some t else assoc_get r i
  end.

(** [HashMap::insert].  automock.rs 262. *)
Fixpoint assoc_insert (a : assoc_types) (i : ident) (t : ty) : assoc_types :=
  match a with
  | [] => [(i, t)]
  | (j, u) :: r => if i =? j then (j, t) :: r else (j, u) :: assoc_insert r i t
  end.

(** [Attrs::get_path]: automock.rs 31-42. *)
Definition get_path (a : assoc_types) (p : path) : option ty :=
  match p with
  | Path false [Seg s _; Seg i _] => if s =? "Self" then assoc_get a i else None
  | _ => None
  end.

(** The last identifier of a path.  automock.rs 143-145. *)
Definition to_sub (p : path) : option ident :=
  match rev (segs p) with
  | Seg i _ :: _ => Some i
  | [] => None
  end.

(** [substitute_type] (automock.rs 100-193), [substitute_path_segment] (63-97),
    [substitute_type_param_bound] (195-215). *)
Fixpoint substitute_type (a : assoc_types) (tr : ident) (t : ty) : ty :=
  match t with
  | TSlice e => TSlice (substitute_type a tr e)
  | TArray e n => TArray (substitute_type a tr e) n
  | TPtr m e => TPtr m (substitute_type a tr e)
  | TRef l m e => TRef l m (substitute_type a tr e)
  | TBareFn q b i o =>
      TBareFn q b (map (substitute_type a tr) i) (option_map (substitute_type a tr) o)
  | TTuple l => TTuple (map (substitute_type a tr) l)
  | TQPath q n p =>
      match to_sub p with
      | Some i => match assoc_get a i with Some t' => t' | None => TQPath q n p end
      | None => TQPath q n p
      end
  | TPath p =>
      match get_path a p with
      | Some t' => t'
      | None => TPath (substitute_path a tr p)
      end
  | TDyn d l => TDyn d (map (substitute_bound a tr) l)
  | TImplTrait l => TImplTrait (map (substitute_bound a tr) l)
  | TParen e => TParen (substitute_type a tr e)
  | TGroup e => TGroup (substitute_type a tr e)
  | TMacro s => TMacro s
  | TVerbatim s => TVerbatim s
  | TInfer => TInfer
  | TNever => TNever
  end
(** The loop over the segments: automock.rs 163-165. *)
with substitute_path (a : assoc_types) (tr : ident) (p : path) : path :=
  match p with Path b l => Path b (map (substitute_seg a tr) l) end
(** [substitute_path_segment]: automock.rs 63-97. *)
with substitute_seg (a : assoc_types) (tr : ident) (s : seg) : seg :=
  match s with Seg i x => Seg i (substitute_pargs a tr x) end
(** automock.rs 65-96. *)
with substitute_pargs (a : assoc_types) (tr : ident) (x : pargs) : pargs :=
  match x with
  | PaAngle l => PaAngle (map (substitute_garg a tr) l)
  | x => x
  end
(** automock.rs 73-93. *)
with substitute_garg (a : assoc_types) (tr : ident) (g : garg) : garg :=
  match g with
  | GaType t => GaType (substitute_type a tr t)
  | GaAssocType i t => GaAssocType i (substitute_type a tr t)
  | g => g
  end
(** [substitute_type_param_bound]: automock.rs 195-215. *)
with substitute_bound (a : assoc_types) (tr : ident) (b : bound) : bound :=
  match b with
  | BTrait m f p =>
      match get_path a p with
      | None => BTrait m f (substitute_path a tr p)
      | Some (TPath p') => BTrait m f p'
      | Some (TQPath _ _ p') => BTrait m f p'
      | Some _ => b
      end
  | b => b
  end.

(** The errors: parenthesised arguments (automock.rs 67-70), qualified paths
    other than [<Self as Trait>::A] with a known [A] (128-159; a self type that
    is not a path panics), macro types (184-187), a bound that is an associated
    type whose type is not a path (209-212). *)
Definition qself_ok (a : assoc_types) (tr : ident) (q : ty) (n : nat) (p : path) : bool :=
  match q, n, p with
  | TPath (Path _ [Seg s _]), 1, Path _ [Seg t _; Seg i _] =>
      (s =? "Self") && (t =? tr)
      && match assoc_get a i with Some _ => true | None => false end
  | _, _, _ => false
  end.

(** Of [substitute_type]: automock.rs 100-193. *)
Fixpoint substitute_error (a : assoc_types) (tr : ident) (t : ty) : bool :=
  match t with
  | TSlice e | TArray e _ | TPtr _ e | TRef _ _ e | TParen e | TGroup e =>
      substitute_error a tr e
  | TBareFn _ _ i o =>
      existsb (substitute_error a tr) i
      || match o with None => false | Some t => substitute_error a tr t end
  | TTuple l => existsb (substitute_error a tr) l
  | TQPath q n p => negb (qself_ok a tr q n p)
  | TPath p =>
      match get_path a p with
      | Some _ => false
      | None => substitute_path_error a tr p
      end
  | TDyn _ l | TImplTrait l => existsb (substitute_bound_error a tr) l
  | TMacro _ | TVerbatim _ => true
  | TInfer | TNever => false
  end
(** In the loop of automock.rs 163-165. *)
with substitute_path_error (a : assoc_types) (tr : ident) (p : path) : bool :=
  match p with Path _ l => existsb (substitute_seg_error a tr) l end
(** Of [substitute_path_segment]: automock.rs 63-97. *)
with substitute_seg_error (a : assoc_types) (tr : ident) (s : seg) : bool :=
  match s with Seg _ x => substitute_pargs_error a tr x end
(** automock.rs 67-70 and 80-88. *)
with substitute_pargs_error (a : assoc_types) (tr : ident) (x : pargs) : bool :=
  match x with
  | PaNone => false
  | PaParen _ _ => true
  | PaAngle l => existsb (substitute_garg_error a tr) l
  end
(** automock.rs 80-88. *)
with substitute_garg_error (a : assoc_types) (tr : ident) (g : garg) : bool :=
  match g with
  | GaType t | GaAssocType _ t => substitute_error a tr t
  | _ => false
  end
(** Of [substitute_type_param_bound]: automock.rs 195-215. *)
with substitute_bound_error (a : assoc_types) (tr : ident) (b : bound) : bool :=
  match b with
  | BTrait _ _ p =>
      match get_path a p with
      | None => substitute_path_error a tr p
      | Some (TPath _) | Some (TQPath _ _ _) => false
      | Some _ => true
      end
  | _ => false
  end.
