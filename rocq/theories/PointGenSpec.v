(** * PointGenSpec: which line of a test of generated code a failure is about *)

From Coq Require Import List Bool String NArith Arith.
From Verif Require Import Base Times Expect Mock.
From Verif Require Import Ast AstSpec TyEq Rewrite Derive DeriveSpec Names CallSpec Sig SigSpec MockFn MockFnSpec
  Item MockItem ItemSpec GenSpec GenRun GenRunSpec ModRun PipeSpec ModSpec ModRunSpec PointSpec MessageSpec.
Import ListNotations.
Open Scope string_scope.
Open Scope list_scope.

Section PointGenSpec.
Context {V U : Type}.

(** ** Mock structs *)

(** A method of a mock object (by the order of creation), or a static method: the trait and
    the name as in the line that sets the expectation. *)
Inductive usite : Type :=
| USiteObj (i : nat) (tr : option path) (f : ident)
| USiteStat (tr : option path) (f : ident).

Definition same_fn (m : mockable_struct) (tr : option path) (f : ident) (who : option nat) (h : ident) : bool :=
  same_trait_path tr (trait_at m who) && same_name f h.

Inductive usets (m : mockable_struct) : usite -> uop V U -> list (setter V U) -> Prop :=
| USetsObj i who f k l : usets m (USiteObj i (trait_at m who) f) (UExpect i who f k l) l
| USetsStat who f k l : usets m (USiteStat (trait_at m who) f) (UCtxExpect who f k l) l.

Definition ucalls (m : mockable_struct) (st : usite) (o : uop V U) : bool :=
  match st, o with
  | USiteObj i tr f, UCall a who h _ _ _ => Nat.eqb a i && same_fn m tr f who h
  | USiteStat tr f, UStaticCall who h _ _ => same_fn m tr f who h
  | _, _ => false
  end.

Inductive uvalidates (m : mockable_struct) : usite -> uop V U -> Prop :=
| UValidCheckpoint i tr f : uvalidates m (USiteObj i tr f) (UCheckpoint i)
| UValidDrop i tr f : uvalidates m (USiteObj i tr f) (UDrop i)
| UValidCtxCheckpoint tr f who h :
    same_fn m tr f who h = true -> uvalidates m (USiteStat tr f) (UCtxCheckpoint who h)
| UValidCtxDrop tr f who h :
    same_fn m tr f who h = true -> uvalidates m (USiteStat tr f) (UCtxDrop who h).

(** The name of the structure and that of the function, as the input declares it. *)
Definition uname (m : mockable_struct) (st : usite) (name : string) : Prop :=
  let (tr, f) := match st with USiteObj _ tr f | USiteStat tr f => (tr, f) end in
  exists who x, In x (fns_at m who) /\ same_fn m tr f who (fn_name x) = true
    /\ has_self x = match st with USiteObj _ _ _ => true | USiteStat _ _ => false end
    /\ name = (ms_name m ++ "::" ++ fn_name x)%string.

Definition uexplained (m : mockable_struct) (l : list (uop V U)) (rs : list (res (option V))) (i : nat) :=
  explains (usets m) (ucalls m) (uvalidates m) (uname m) l rs i.
Definition sound_uop (m : mockable_struct) (top : N) (o : uop V U) : Prop :=
  forall st l, usets m st o l -> Forall polite_setter l /\ sound_setters top l.

(** ** Modules *)

Inductive msets : ident -> mop V U -> list (setter V U) -> Prop :=
| MSets f k l : msets f (MExpect f k l) l.
Definition mcalls (f : ident) (o : mop V U) : bool :=
  match o with MCall h _ _ => same_name f h | _ => false end.
Inductive mvalidates : ident -> mop V U -> Prop :=
| MValidCtxCheckpoint f h : same_name f h = true -> mvalidates f (MCtxCheckpoint h)
| MValidCtxDrop f h : same_name f h = true -> mvalidates f (MCtxDrop h)
| MValidModule f : mvalidates f MCheckpoint.
Definition mname (items : list item) (f : ident) (name : string) : Prop :=
  exists x, In x (module_fns items) /\ same_name f (fn_name x) = true /\ name = fn_name x.

Definition mexplained (items : list item) (l : list (mop V U)) (rs : list (res (option V))) (i : nat) :=
  explains msets mcalls mvalidates (mname items) l rs i.
Definition sound_mop (top : N) (o : mop V U) : Prop :=
  forall st l, msets st o l -> Forall polite_setter l /\ sound_setters top l.

End PointGenSpec.
