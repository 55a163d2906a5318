(** * DelegSpec: what the theorems about mocks that call other mocks speak about

    The state that the user's closures see and change, [U] of Expect.v, may be anything; in the
    second half it is a system of other mocks together with a record of what was done with them.
    Nothing here refers to how [Mock.v] runs closures. *)

From Coq Require Import NArith List Bool String.
From Verif Require Import Base Times Expect Mock.
Import ListNotations.
Open Scope N_scope.

Section Along.
Context {V U : Type} (R : U -> U -> Prop).

(** Whatever its arguments are, the code moves the user's state along [R]. *)
Definition along {A B} (f : ucode U A B) : Prop := forall a u, R u (fst (f a u)).

(** So does all code that the operation hands to the mock, and the test's own code. *)
Definition setter_along (st : setter V U) : Prop :=
  match st with
  | StWith ps => forall p, In p ps -> along (snd p)
  | StWithf f | StWithfSt f => along f
  | StReturning f | StReturningSt f | StReturnOnce f | StReturnOnceSt f => along f
  | StTimes _ | StOnce | StNever | StInSequence _ | StReturnConst _ | StReturnConstSt _ | StReturnVar _ => True
  end.
Definition op_along (o : op V U) : Prop :=
  match o with
  | OExpect _ _ _ l | OCtxExpect _ _ l => forall st, In st l -> setter_along st
  | OUser f => forall u, R u (f u)
  | _ => True
  end.

(** The operations in which user code may run. *)
Definition runs_user_code (o : op V U) : bool :=
  match o with
  | OCall _ _ _ _ _ | OStaticCall _ _ _ | OUser _ => true
  | _ => false
  end.
End Along.

(** ** Code that uses other mocks

    [W], [T]: the values and the user's state of the other mocks.  The code does operations with
    them one after the other; what it does next may depend on the results.  In the end it returns or
    panics; it may catch the panics of the operations. *)
Section Deleg.
Context {V W T : Type}.

Inductive uses (B : Type) : Type :=
| UEnd (r : res B)
| UOp (o : op W T) (k : res (option W) -> uses B).

(** The other mocks, and what was done with them with which results. *)
Definition others : Type := (sys W T * list (op W T * res (option W)))%type.

Fixpoint perform (c : cfg) (sh : shuffle W T) {B} (p : uses B) (s : others) : others * res B :=
  match p with
  | UEnd _ r => (s, r)
  | UOp _ o k =>
      let (y, r) := step c sh (fst s) o in
      perform c sh (k r) (y, snd s ++ [(o, r)])
  end.

Definition uses_others (c : cfg) (sh : shuffle W T) {A B} (f : ucode others A B) : Prop :=
  exists p : A -> uses B, forall a s, f a s = perform c sh (p a) s.

Definition setter_uses (c : cfg) (sh : shuffle W T) (st : setter V others) : Prop :=
  match st with
  | StWith ps => forall p, In p ps -> uses_others c sh (snd p)
  | StWithf f | StWithfSt f => uses_others c sh f
  | StReturning f | StReturningSt f | StReturnOnce f | StReturnOnceSt f => uses_others c sh f
  | StTimes _ | StOnce | StNever | StInSequence _ | StReturnConst _ | StReturnConstSt _ | StReturnVar _ => True
  end.
Definition op_uses (c : cfg) (sh : shuffle W T) (o : op V others) : Prop :=
  match o with
  | OExpect _ _ _ l | OCtxExpect _ _ l => forall st, In st l -> setter_uses c sh st
  | OUser f => exists p : uses unit, forall s, f s = fst (perform c sh p s)
  | _ => True
  end.
End Deleg.
Arguments uses : clear implicits.
Arguments others : clear implicits.

(** ** A method that passes its calls on

    [target]: the operation that a call with these arguments makes, such as a call of another
    mock's method. *)
Section Forward.
Context {V T : Type} (c : cfg) (sh : shuffle V T) (target : list V -> op V T).

(** The outcome of the operation, to someone who expects a value; other operations than calls
    return none. *)
Definition outcome (r : res (option V)) : res V :=
  match r with
  | Ret (Some v) => Ret v
  | Ret None => Panic (MUser 0)
  | Panic m => Panic m
  | Abort => Abort
  end.

(** The closure does the operation and has its outcome. *)
Definition passes_on : ucode (others V T) (list V) V :=
  fun args s =>
    let (y, r) := step c sh (fst s) (target args) in
    ((y, snd s ++ [(target args, r)]), outcome r).

(** The operations one after the other, and what the callers are told.  If [kd] says that the
    method returns an owned value, a panic disables it. *)
Fixpoint passed_on (kd : kind) (y : sys V T) (calls : list (list V)) : sys V T * list (res (option V)) :=
  match calls with
  | [] => (y, [])
  | args :: calls' =>
      let (y1, r) := step c sh y (target args) in
      match kd, outcome r with
      | KStatic, Panic m => (y1, Panic m :: map (fun _ => Panic MPoison) calls')
      | _, r' =>
          let (y2, rs) := passed_on kd y1 calls' in
          (y2, match r' with Ret v => Ret (Some v) | Panic m => Panic m | Abort => Abort end :: rs)
      end
  end.
End Forward.
