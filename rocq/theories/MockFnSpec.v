(** * MockFnSpec: vocabulary for mocked functions

    What an expectation is expected to store, compare and distinguish, stated
    without the functions of MockFn.v. *)

From Coq Require Import List Bool String NArith Arith.
From Verif Require Import Ast AstSpec DeriveSpec.
Import ListNotations.
Open Scope string_scope.
Open Scope list_scope.

(** [::std::m::i] *)
Definition in_std (m i : ident) (a : pargs) : ty :=
  TPath (Path true [seg_of "std"; seg_of m; Seg i a]).

(** The owned type whose borrowed form is the type: the table in the
    documentation, "Reference return values". *)
Definition owned_names : list (ident * ty) :=
  [("str", in_std "string" "String" PaNone);
   ("Path", in_std "path" "PathBuf" PaNone);
   ("OsStr", in_std "ffi" "OsString" PaNone);
   ("CStr", in_std "ffi" "CString" PaNone)].

Fixpoint find_name {A} (i : ident) (l : list (ident * A)) : option A :=
  match l with
  | [] => None
  | (j, a) :: r => if j =? i then Some a else find_name i r
  end.

Definition owned (t : ty) : ty :=
  match t with
  | TPath (Path false [Seg i PaNone]) =>
      match find_name i owned_names with Some u => u | None => t end
  | TSlice e => in_std "vec" "Vec" (PaAngle [GaType e])
  | TDyn d l => TPath (Path false [Seg "Box" (PaAngle [GaType (TDyn d l)])])
  | t => t
  end.

(** The type without an outer reference. *)
Definition referent (t : ty) : ty :=
  match t with
  | TRef _ _ e => e
  | t => t
  end.

Definition is_ref (t : ty) : bool := match t with TRef _ _ _ => true | _ => false end.

(** [&T] or [&mut T] with a lifetime other than ['static]. *)
Definition borrows (mut : bool) (t : ty) : Prop :=
  exists l e, t = TRef l mut e /\ l <> Some "static".

Definition has_receiver (l : list fnarg) : Prop :=
  exists r m c t, In (FaReceiver r m c t) l.

(** What an expectation for a function with this return type stores: the owned
    value for a reference, a ['static] reference itself (with parentheses, if it
    is one to a trait object), and otherwise the value. *)
Definition stored (o : option ty) : ty :=
  match o with
  | None => TTuple []
  | Some (TRef l m e) =>
      match l, e with
      | Some "static", TDyn _ _ => TRef l m (TParen e)
      | Some "static", _ => TRef l m e
      | _, _ => owned e
      end
  | Some t => t
  end.
