(** * Rewrite: the type rewriting functions of mockall_derive

    mockall_derive/src/lib.rs.  Each function that mutates a tree in place is
    modelled by the function from the old tree to the new one.  A call of
    [compile_error] (lib.rs 44-60) panics on stable and records an error on
    nightly, where the function then carries on; either way the expansion is
    rejected.  Whether a function reaches such a call is the separate boolean
    function with the suffix [_error]. *)

From Coq Require Import List Bool String NArith Arith.
From Verif Require Import Ast.
Import ListNotations.
Open Scope string_scope.
Open Scope list_scope.

(** ** deanonymize: lib.rs 247-316 *)

(** [deanonymize_lifetime]: lib.rs 247-251. *)
Definition deanonymize_lifetime (l : lifetime) : lifetime :=
  if l =? "_" then "static" else l.

(** One argument in the loop of [deanonymize_path]: lib.rs 258-262. *)
Definition deanonymize_garg (g : garg) : garg :=
  match g with
  | GaLifetime l => GaLifetime (deanonymize_lifetime l)
  | g => g
  end.

(** One iteration of the outer loop of [deanonymize_path]: lib.rs 254-267. *)
Definition deanonymize_seg (s : seg) : seg :=
  match s with
  | Seg i (PaAngle l) => Seg i (PaAngle (map deanonymize_garg l))
  | s => s
  end.

(** [deanonymize_path]: lib.rs 253-268. *)
Definition deanonymize_path (p : path) : path :=
  Path (leading p) (map deanonymize_seg (segs p)).

(** The body of the loop over a trait object's bounds: lib.rs 300-304. *)
Definition deanonymize_bound (b : bound) : bound :=
  match b with
  | BTrait m l p => BTrait m l (deanonymize_path p)
  | BLifetime l => BLifetime (deanonymize_lifetime l)
  | BVerbatim s => BVerbatim s
  end.

(** [deanonymize]: lib.rs 271-316. *)
Fixpoint deanonymize (t : ty) : ty :=
  match t with
  | TArray e n => TArray (deanonymize e) n
  | TBareFn q b i o => TBareFn q b (map deanonymize i) (option_map deanonymize o)
  | TGroup e => TGroup (deanonymize e)
  | TInfer => TInfer
  | TNever => TNever
  | TParen e => TParen (deanonymize e)
  | TPath p => TPath (deanonymize_path p)
  | TQPath q n p => TQPath (deanonymize q) n (deanonymize_path p)
  | TPtr m e => TPtr m (deanonymize e)
  | TRef l m e => TRef (option_map deanonymize_lifetime l) m (deanonymize e)
  | TSlice e => TSlice (deanonymize e)
  | TDyn d l => TDyn d (map deanonymize_bound l)
  | TTuple l => TTuple (map deanonymize l)
  | TImplTrait l => TImplTrait l
  | TMacro s => TMacro s
  | TVerbatim s => TVerbatim s
  end.

(** The errors of [deanonymize_path] (lib.rs 264-265) and [deanonymize]
    (lib.rs 314). *)
Definition deanonymize_path_error (p : path) : bool :=
  existsb (fun s => match seg_args s with PaParen _ _ => true | _ => false end) (segs p).

(** The error of an optional part, such as the output at lib.rs 275-277, 938-940. *)
Definition opt_error {A} (f : A -> bool) (o : option A) : bool :=
  match o with None => false | Some a => f a end.

(** Of [deanonymize]: lib.rs 271-316. *)
Fixpoint deanonymize_error (t : ty) : bool :=
  match t with
  | TArray e _ | TGroup e | TParen e | TPtr _ e | TRef _ _ e | TSlice e =>
      deanonymize_error e
  | TBareFn _ _ i o =>
      match o with None => false | Some t => deanonymize_error t end
      || existsb deanonymize_error i
  | TInfer | TNever => false
  | TPath p => deanonymize_path_error p
  | TQPath q _ p => deanonymize_error q || deanonymize_path_error p
  | TDyn _ l =>
      existsb (fun b => match b with BTrait _ _ p => deanonymize_path_error p | _ => false end) l
  | TTuple l => existsb deanonymize_error l
  | TImplTrait _ | TMacro _ | TVerbatim _ => true
  end.

(** ** deselfify: lib.rs 534-668 *)

(** The generic argument made from one parameter of the parent: lib.rs 541-561.
    A const parameter makes the macro panic ([unimplemented!()]); see
    [deselfify_error]. *)
Definition arg_of_param (g : gparam) : garg :=
  match g with
  | GpType i _ _ => GaType (ty_of i)
  | GpLifetime l _ => GaLifetime l
  | GpConst i _ _ => GaConst i
  end.

(** The arguments given to a segment that was [Self]: lib.rs 538-570. *)
Definition self_args (g : generics) : pargs :=
  match params g with
  | [] => PaNone
  | ps => PaAngle (map arg_of_param ps)
  end.

(** [deselfify] (lib.rs 594-649), [deselfify_path] (534-589).  A segment that
    had been [Self] gets fresh arguments, into which the code then descends
    too; they contain no [Self] because no generic parameter can be called
    so, and the descent is left out here.  [Type::BareFn] and
    [Type::ImplTrait] are left alone, and so are parenthesised arguments,
    associated constants and constraints. *)
Fixpoint deselfify (actual : ident) (g : generics) (t : ty) : ty :=
  match t with
  | TSlice e => TSlice (deselfify actual g e)
  | TArray e n => TArray (deselfify actual g e) n
  | TPtr m e => TPtr m (deselfify actual g e)
  | TRef l m e => TRef l m (deselfify actual g e)
  | TTuple l => TTuple (map (deselfify actual g) l)
  | TPath p => TPath (deselfify_path actual g p)
  | TQPath q n p => TQPath (deselfify actual g q) n (deselfify_path actual g p)
  | TParen e => TParen (deselfify actual g e)
  | TGroup e => TGroup (deselfify actual g e)
  | TDyn d l => TDyn d (map (deselfify_bound actual g) l)
  | TMacro s => TMacro s
  | TVerbatim s => TVerbatim s
  | TImplTrait l => TImplTrait l
  | TBareFn q b i o => TBareFn q b i o
  | TInfer => TInfer
  | TNever => TNever
  end
(** [deselfify_path]: lib.rs 534-589. *)
with deselfify_path (actual : ident) (g : generics) (p : path) : path :=
  match p with Path b l => Path b (map (deselfify_seg actual g) l) end
(** One iteration of its loop: lib.rs 535-588. *)
with deselfify_seg (actual : ident) (g : generics) (s : seg) : seg :=
  match s with
  | Seg i a =>
      if i =? "Self"
      then match a with
           | PaNone => Seg actual (self_args g)
           | a => Seg actual (deselfify_pargs actual g a)
           end
      else Seg i (deselfify_pargs actual g a)
  end
(** lib.rs 576-587. *)
with deselfify_pargs (actual : ident) (g : generics) (a : pargs) : pargs :=
  match a with
  | PaAngle l => PaAngle (map (deselfify_garg actual g) l)
  | a => a
  end
(** lib.rs 579-585. *)
with deselfify_garg (actual : ident) (g : generics) (a : garg) : garg :=
  match a with
  | GaType t => GaType (deselfify actual g t)
  | GaAssocType i t => GaAssocType i (deselfify actual g t)
  | a => a
  end
(** lib.rs 631-635. *)
with deselfify_bound (actual : ident) (g : generics) (b : bound) : bound :=
  match b with
  | BTrait m l p => BTrait m l (deselfify_path actual g p)
  | b => b
  end.

(** The errors of [deselfify]: type arguments after [Self] (lib.rs 571-574),
    a const parameter of the parent (559), macro types (625-628). *)
Fixpoint deselfify_error (g : generics) (t : ty) : bool :=
  match t with
  | TSlice e | TArray e _ | TPtr _ e | TRef _ _ e | TParen e | TGroup e =>
      deselfify_error g e
  | TTuple l => existsb (deselfify_error g) l
  | TPath p => deselfify_path_error g p
  | TQPath q _ p => deselfify_error g q || deselfify_path_error g p
  | TDyn _ l => existsb (deselfify_bound_error g) l
  | TMacro _ | TVerbatim _ => true
  | TImplTrait _ | TBareFn _ _ _ _ | TInfer | TNever => false
  end
(** Of [deselfify_path]: lib.rs 534-589. *)
with deselfify_path_error (g : generics) (p : path) : bool :=
  match p with Path _ l => existsb (deselfify_seg_error g) l end
(** lib.rs 559, 571-574. *)
with deselfify_seg_error (g : generics) (s : seg) : bool :=
  match s with
  | Seg i a =>
      (if i =? "Self"
       then match a with
            | PaNone => existsb (fun p => match p with GpConst _ _ _ => true | _ => false end)
                                (params g)
            | _ => true
            end
       else false)
      || deselfify_pargs_error g a
  end
(** lib.rs 576-587. *)
with deselfify_pargs_error (g : generics) (a : pargs) : bool :=
  match a with PaAngle l => existsb (deselfify_garg_error g) l | _ => false end
(** lib.rs 579-585. *)
with deselfify_garg_error (g : generics) (a : garg) : bool :=
  match a with
  | GaType t | GaAssocType _ t => deselfify_error g t
  | _ => false
  end
(** lib.rs 631-635. *)
with deselfify_bound_error (g : generics) (b : bound) : bool :=
  match b with BTrait _ _ p => deselfify_path_error g p | _ => false end.

(** [deselfify_args]: lib.rs 653-668. *)
Definition deselfify_arg (actual : ident) (g : generics) (a : fnarg) : fnarg :=
  match a with
  | FaReceiver r m true t => FaReceiver r m true (deselfify actual g t)
  | FaReceiver r m false t => FaReceiver r m false t
  | FaTyped p t => FaTyped p (deselfify actual g t)
  end.

(** ** supersuperfy: lib.rs 870-1016 *)

(** The last part of [supersuperfy_path]: lib.rs 900-918.  [super_added] is the
    returned number of segments. *)
Definition starts_with_super (l : list seg) : bool :=
  match l with
  | Seg i _ :: _ => i =? "super"
  | [] => false
  end.

(** The result of [supersuperfy_path]: lib.rs 911-917. *)
Definition super_added (levels : nat) (p : path) : nat :=
  if starts_with_super (segs p) then levels else 0.

(** lib.rs 900-910. *)
Definition add_supers (levels : nat) (l : list seg) : list seg :=
  if starts_with_super l then repeat (seg_of "super") levels ++ l else l.

(** The first part of [supersuperfy_path] changes the arguments of the last
    segment only: lib.rs 871-899. *)
Definition on_last (f : seg -> seg) : list seg -> list seg :=
  fix go l := match l with
              | [] => []
              | [s] => [f s]
              | s :: r => s :: go r
              end.

(** [supersuperfy] (lib.rs 921-986), [supersuperfy_path] (870-918),
    [supersuperfy_bounds] (1007-1016). *)
Fixpoint supersuperfy (levels : nat) (t : ty) : ty :=
  match t with
  | TSlice e => TSlice (supersuperfy levels e)
  | TArray e n => TArray (supersuperfy levels e) n
  | TPtr m e => TPtr m (supersuperfy levels e)
  | TRef l m e => TRef l m (supersuperfy levels e)
  | TBareFn q b i o => TBareFn q b (map (supersuperfy levels) i) (option_map (supersuperfy levels) o)
  | TTuple l => TTuple (map (supersuperfy levels) l)
  | TPath p => TPath (supersuperfy_path levels p)
  | TQPath q n p => TQPath (supersuperfy levels q) (n + super_added levels p) (supersuperfy_path levels p)
  | TParen e => TParen (supersuperfy levels e)
  | TGroup e => TGroup (supersuperfy levels e)
  | TDyn d l => TDyn d (map (supersuperfy_bound levels) l)
  | TMacro s => TMacro s
  | TVerbatim s => TVerbatim s
  | TImplTrait l => TImplTrait l
  | TInfer => TInfer
  | TNever => TNever
  end
(** [supersuperfy_path]: lib.rs 870-918. *)
with supersuperfy_path (levels : nat) (p : path) : path :=
  match p with Path b l => Path b (add_supers levels (on_last (supersuperfy_seg levels) l)) end
(** The last segment: lib.rs 871-899. *)
with supersuperfy_seg (levels : nat) (s : seg) : seg :=
  match s with Seg i a => Seg i (supersuperfy_pargs levels a) end
(** lib.rs 872-898. *)
with supersuperfy_pargs (levels : nat) (a : pargs) : pargs :=
  match a with
  | PaNone => PaNone
  | PaAngle l => PaAngle (map (supersuperfy_garg levels) l)
  | PaParen i o => PaParen (map (supersuperfy levels) i) (option_map (supersuperfy levels) o)
  end
(** lib.rs 876-887. *)
with supersuperfy_garg (levels : nat) (a : garg) : garg :=
  match a with
  | GaType t => GaType (supersuperfy levels t)
  | GaAssocType i t => GaAssocType i (supersuperfy levels t)
  | GaConstraint i l => GaConstraint i (map (supersuperfy_bound levels) l)
  | a => a
  end
(** lib.rs 967-973, 1011-1015. *)
with supersuperfy_bound (levels : nat) (b : bound) : bound :=
  match b with
  | BTrait m l p => BTrait m l (supersuperfy_path levels p)
  | b => b
  end.

(** [supersuperfy_generics]: lib.rs 988-1005. *)
Definition supersuperfy_param (levels : nat) (p : gparam) : gparam :=
  match p with
  | GpType i b d => GpType i (map (supersuperfy_bound levels) b) (option_map (supersuperfy levels) d)
  | p => p
  end.

(** A predicate of the where clause: lib.rs 997-1004. *)
Definition supersuperfy_pred (levels : nat) (w : wpred) : wpred :=
  match w with
  | WpType f t b => WpType f (supersuperfy levels t) (map (supersuperfy_bound levels) b)
  | w => w
  end.

(** [supersuperfy_generics]: lib.rs 988-1005. *)
Definition supersuperfy_generics (levels : nat) (g : generics) : generics :=
  Generics (lt_token g) (map (supersuperfy_param levels) (params g))
           (option_map (map (supersuperfy_pred levels)) (where_clause g)).

(** The errors of [supersuperfy]: lib.rs 963-966. *)
Fixpoint supersuperfy_error (t : ty) : bool :=
  match t with
  | TSlice e | TArray e _ | TPtr _ e | TRef _ _ e | TParen e | TGroup e =>
      supersuperfy_error e
  | TBareFn _ _ i o =>
      match o with None => false | Some t => supersuperfy_error t end
      || existsb supersuperfy_error i
  | TTuple l => existsb supersuperfy_error l
  | TPath p => supersuperfy_path_error p
  | TQPath q _ p => supersuperfy_error q || supersuperfy_path_error p
  | TDyn _ l => existsb supersuperfy_bound_error l
  | TMacro _ | TVerbatim _ => true
  | TImplTrait _ | TInfer | TNever => false
  end
(** Of [supersuperfy_path]: lib.rs 870-918. *)
with supersuperfy_path_error (p : path) : bool :=
  match p with
  | Path _ l => (fix go l := match l with
                             | [] => false
                             | [s] => supersuperfy_seg_error s
                             | _ :: r => go r
                             end) l
  end
(** lib.rs 871-899. *)
with supersuperfy_seg_error (s : seg) : bool :=
  match s with Seg _ a => supersuperfy_pargs_error a end
(** lib.rs 872-898. *)
with supersuperfy_pargs_error (a : pargs) : bool :=
  match a with
  | PaNone => false
  | PaAngle l => existsb supersuperfy_garg_error l
  | PaParen i o =>
      existsb supersuperfy_error i
      || match o with None => false | Some t => supersuperfy_error t end
  end
(** lib.rs 876-887. *)
with supersuperfy_garg_error (a : garg) : bool :=
  match a with
  | GaType t | GaAssocType _ t => supersuperfy_error t
  | GaConstraint _ l => existsb supersuperfy_bound_error l
  | _ => false
  end
(** lib.rs 967-973, 1011-1015. *)
with supersuperfy_bound_error (b : bound) : bool :=
  match b with BTrait _ _ p => supersuperfy_path_error p | _ => false end.

(** ** find_lifetimes: lib.rs 680-772

    The sets are lists: only membership is used. *)
Fixpoint find_lifetimes (t : ty) : list lifetime :=
  match t with
  | TArray e _ | TGroup e | TParen e | TPtr _ e | TSlice e => find_lifetimes e
  | TInfer | TNever => []
  | TPath p => find_lifetimes_in_path p
  | TQPath q _ p => find_lifetimes_in_path p ++ find_lifetimes q
  | TRef l _ e => find_lifetimes e ++ match l with None => [] | Some l => [l] end
  | TDyn _ l => flat_map find_lifetimes_in_tpb l
  | TTuple l => flat_map find_lifetimes l
  | TImplTrait l => flat_map find_lifetimes_in_tpb l
  | TBareFn _ _ _ _ | TMacro _ | TVerbatim _ => []
  end
(** [find_lifetimes_in_path]: lib.rs 694-721. *)
with find_lifetimes_in_path (p : path) : list lifetime :=
  match p with Path _ l => flat_map find_lifetimes_in_seg l end
(** lib.rs 696-719. *)
with find_lifetimes_in_seg (s : seg) : list lifetime :=
  match s with Seg _ a => find_lifetimes_in_pargs a end
(** lib.rs 697-718. *)
with find_lifetimes_in_pargs (a : pargs) : list lifetime :=
  match a with
  | PaAngle l => flat_map find_lifetimes_in_garg l
  | PaNone | PaParen _ _ => []
  end
(** lib.rs 699-716. *)
with find_lifetimes_in_garg (a : garg) : list lifetime :=
  match a with
  | GaLifetime l => [l]
  | GaType t | GaAssocType _ t => find_lifetimes t
  | GaConstraint _ l => flat_map find_lifetimes_in_tpb l
  | GaConst _ | GaAssocConst _ _ => []
  end
(** [find_lifetimes_in_tpb]: lib.rs 680-692. *)
with find_lifetimes_in_tpb (b : bound) : list lifetime :=
  match b with
  | BLifetime l => [l]
  | BTrait _ _ p => find_lifetimes_in_path p
  | BVerbatim _ => []
  end.

(** The errors of [find_lifetimes]: lib.rs 767-770. *)
Fixpoint find_lifetimes_error (t : ty) : bool :=
  match t with
  | TArray e _ | TGroup e | TParen e | TPtr _ e | TSlice e | TRef _ _ e =>
      find_lifetimes_error e
  | TInfer | TNever => false
  | TPath p => find_lifetimes_in_path_error p
  | TQPath q _ p => find_lifetimes_in_path_error p || find_lifetimes_error q
  | TDyn _ l | TImplTrait l => existsb find_lifetimes_in_tpb_error l
  | TTuple l => existsb find_lifetimes_error l
  | TBareFn _ _ _ _ | TMacro _ | TVerbatim _ => true
  end
(** Of [find_lifetimes_in_path]: lib.rs 694-721. *)
with find_lifetimes_in_path_error (p : path) : bool :=
  match p with Path _ l => existsb find_lifetimes_in_seg_error l end
(** lib.rs 696-719. *)
with find_lifetimes_in_seg_error (s : seg) : bool :=
  match s with Seg _ a => find_lifetimes_in_pargs_error a end
(** lib.rs 697-718. *)
with find_lifetimes_in_pargs_error (a : pargs) : bool :=
  match a with
  | PaAngle l => existsb find_lifetimes_in_garg_error l
  | PaNone | PaParen _ _ => false
  end
(** lib.rs 699-716. *)
with find_lifetimes_in_garg_error (a : garg) : bool :=
  match a with
  | GaType t | GaAssocType _ t => find_lifetimes_error t
  | GaConstraint _ l => existsb find_lifetimes_in_tpb_error l
  | GaLifetime _ | GaConst _ | GaAssocConst _ _ => false
  end
(** Of [find_lifetimes_in_tpb]: lib.rs 680-692. *)
with find_lifetimes_in_tpb_error (b : bound) : bool :=
  match b with
  | BTrait _ _ p => find_lifetimes_in_path_error p
  | BLifetime _ | BVerbatim _ => false
  end.
