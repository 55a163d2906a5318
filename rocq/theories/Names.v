(** * Names: the identifiers that the macros make up

    mockall_derive/src/lib.rs 1038-1051, mockall_derive/src/mock_trait.rs 36-47
    and 178-208, mockall_derive/src/mockable_item.rs 62, and the renaming of
    imports in mockall_double/src/lib.rs. *)

From Coq Require Import List Bool String Ascii NArith Arith DecimalString.
From Verif Require Import Ast TyEq.
Import ListNotations.
Open Scope string_scope.
Open Scope list_scope.

(** What [format_ident!] makes of an identifier argument: the name without [r#]
    (quote's [IdentFragment for Ident]).  Used by lib.rs 1040, 1048,
    mock_function.rs 617, 662, 812, mock_item_struct.rs 274-279. *)
Definition unraw (i : ident) : string :=
  match i with
  | String "r" (String "#" r) => r
  | i => i
  end.

(** [gen_mock_ident]: lib.rs 1039-1041. *)
Definition gen_mock_ident (i : ident) : ident := "Mock" ++ unraw i.

(** [gen_mod_ident]: lib.rs 1045-1051. *)
Definition gen_mod_ident (struct_ : ident) (trait_ : option ident) : ident :=
  match trait_ with
  | Some t => "__mock_" ++ unraw struct_ ++ "_" ++ unraw t
  | None => "__mock_" ++ unraw struct_
  end.

(** The mock of a module: mockable_item.rs 62. *)
Definition gen_mock_module_ident (i : ident) : ident := "mock_" ++ unraw i.

(** [expect_]method and method[_context]: mock_function.rs 662 and 617; the
    private module of a method: 812. *)
Definition expect_ident (i : ident) : ident := "expect_" ++ unraw i.
(** [format_ident!("{}_context")]: mock_function.rs 617. *)
Definition context_ident (i : ident) : ident := unraw i ++ "_context".
(** [inner_mod_ident]: mock_function.rs 811-813. *)
Definition inner_mod_ident (i : ident) : ident := "__" ++ unraw i.

(** The structure, field and module of a trait's expectations:
    mock_item_struct.rs 274-279, mock_function.rs 521. *)
Definition field_ident (ss : ident) : ident := unraw ss ++ "_expectations".
(** mock_item_struct.rs 279. *)
Definition substruct_ident (name ss : ident) : ident := unraw name ++ "_" ++ unraw ss.
(** mock_item_struct.rs 277-278, 319-320. *)
Definition submod_ident (modname ss : ident) : ident := unraw modname ++ "_" ++ unraw ss.

(** ** Traits: mock_trait.rs *)

(** [join_path_segments]: mock_trait.rs 178-193.  [write!] to a [String] never
    fails. *)
Definition join_step (sep output i : string) : string :=
  output ++ (if output =? "" then "" else sep) ++ i.
(** [join_path_segments]: mock_trait.rs 178-193. *)
Definition join_path_segments (p : path) (sep : string) : string :=
  fold_left (join_step sep) (map seg_id (segs p)) "".

(** [PathArguments::is_empty] (syn).  Used at mock_trait.rs 195-208. *)
Definition pargs_is_empty (a : pargs) : bool :=
  match a with
  | PaNone => true
  | PaAngle l => match l with [] => true | _ => false end
  | PaParen _ _ => false
  end.

(** [hash_path_arguments]: mock_trait.rs 195-208.  [hash] is
    [DefaultHasher::finish] after hashing the given arguments in turn. *)
Definition hash_path_arguments (hash : list pargs -> N) (p : path) : option N :=
  match filter (fun a => negb (pargs_is_empty a)) (map seg_args (segs p)) with
  | [] => None
  | l => Some (hash l)
  end.

(** Decimal digits ([Display] of an integer).  Used at mock_trait.rs 37-47. *)
Definition show_N (n : N) : string := NilZero.string_of_uint (N.to_uint n).

(** [MockTrait::ss_name_priv]: mock_trait.rs 37-47.  The joined name is a
    [String], so no [r#] is removed from its inside. *)
Definition ss_name (hash : list pargs -> N) (p : path) : ident :=
  let id := join_path_segments p "__" in
  match hash_path_arguments hash p with
  | Some h => id ++ "_" ++ show_N h
  | None => id
  end.

(** ** mockall_double *)

(** [char::is_uppercase] of the first character of [format!("{i}")]. For a name that
    does not start with an ASCII character the answer is left to [wide].
    mockall_double/src/lib.rs 182-195. *)
Definition starts_uppercase (wide : string -> bool) (i : ident) : bool :=
  match i with
  | EmptyString => false
  | String c _ =>
      let n := nat_of_ascii c in
      if Nat.leb 128 n then wide i
      else (Nat.leb 65 n && Nat.leb n 90)%bool
  end.

(** [mock_ident]: mockall_double/src/lib.rs 182-195. *)
Definition mock_ident (wide : string -> bool) (i : ident) : ident :=
  if starts_uppercase wide i then "Mock" ++ unraw i else "mock_" ++ unraw i.

(** [mock_usetree]: mockall_double/src/lib.rs 197-222. *)
Fixpoint mock_usetree (wide : string -> bool) (t : usetree) : usetree :=
  match t with
  | UGlob => UGlob
  | UGroup l => UGroup (map (mock_usetree wide) l)
  | UName i => URename (mock_ident wide i) i
  | UPath i t => UPath i (mock_usetree wide t)
  | URename i r => URename (mock_ident wide i) r
  end.

(** Its error: mockall_double/src/lib.rs 199-202. *)
Fixpoint mock_usetree_error (t : usetree) : bool :=
  match t with
  | UGlob => true
  | UGroup l => existsb mock_usetree_error l
  | UPath _ t => mock_usetree_error t
  | UName _ | URename _ _ => false
  end.

(** The items that [do_double] distinguishes; a type alias is its name, generics and
    aliased type.  mockall_double/src/lib.rs 44-52. *)
Inductive ditem : Type :=
| DUse (t : usetree)
| DType (id : ident) (g : generics) (t : ty)
| DOther (tokens : string).

(** [segments.last_mut()]: mockall_double/src/lib.rs 166. *)
Definition on_last_seg (f : seg -> seg) : list seg -> list seg :=
  fix go l := match l with
              | [] => []
              | [s] => [f s]
              | s :: r => s :: go r
              end.

(** Renaming the last segment: mockall_double/src/lib.rs 166-167. *)
Definition mock_last (wide : string -> bool) (p : path) : path :=
  match p with
  | Path b l => Path b (on_last_seg (fun s => Seg (mock_ident wide (seg_id s)) (seg_args s)) l)
  end.

(** [mock_itemtype] and [mock_itemuse]: mockall_double/src/lib.rs 163-180. *)
Definition mock_item (wide : string -> bool) (d : ditem) : ditem :=
  match d with
  | DUse (UName i) => DUse (UName i)
  | DUse t => DUse (mock_usetree wide t)
  | DType i g (TPath p) => DType i g (TPath (mock_last wide p))
  | DType i g (TQPath q n p) => DType i g (TQPath q n (mock_last wide p))
  | d => d
  end.

(** mockall_double/src/lib.rs 47-50, 169, 174-178. *)
Definition mock_item_error (d : ditem) : bool :=
  match d with
  | DUse (UName _) => true
  | DUse t => mock_usetree_error t
  | DType _ _ (TPath _) | DType _ _ (TQPath _ _ _) => false
  | DType _ _ _ => true
  | DOther _ => true
  end.

(** [do_double]: mockall_double/src/lib.rs 39-58: the item compiled without and
    the item compiled with [cfg(test)]. *)
Definition do_double (wide : string -> bool) (d : ditem) : ditem * ditem :=
  (d, mock_item wide d).
