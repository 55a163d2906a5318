(** * OwnsSpec: what a test has handed over, and what the mocks still hold *)

From Coq Require Import NArith List Bool.
From Verif Require Import Base Times Expect Mock Owns.
Import ListNotations.

Section OwnsSpec.
Context {V U : Type}.
Notation thing := (thing V U).

(** ** Handed over *)

(** The closures and predicates that one setter takes, for a method of kind [kd].  [return_const] of
    a method that returns a ['static] value is a closure that clones the constant. *)
Definition handed (kd : kind) (st : setter V U) : list thing :=
  match st, kd with
  | StWith ps, _ => map ThPred ps
  | StWithf f, _ | StWithfSt f, _ => [ThMatch f]
  | StReturning f, KStatic | StReturning f, KMut
  | StReturningSt f, KStatic | StReturningSt f, KMut
  | StReturnOnce f, KStatic | StReturnOnceSt f, KStatic => [ThRet f]
  | StReturnConst v, KStatic | StReturnConstSt v, KStatic => [ThRet (const_fn v)]
  | _, _ => []
  end.

(** A chain hands over what its setters take. *)
Definition handed_chain (kd : kind) (l : list (setter V U)) : list thing := flat_map (handed kd) l.

(** One operation of a test, of whose setters [n] were called. *)
Definition handed_by (y : sys V U) (o : op V U) (n : nat) : list thing :=
  match o with
  | OExpect i m _ l =>
      match nth_error (y_objs y) i with
      | None => []
      | Some ob =>
          match nth_error ob m with
          | Some f => handed_chain (md_kind (f_decl f)) (firstn n l)
          | None => []
          end
      end
  | OCtxExpect s _ l =>
      match nth_error (y_stats y) s with
      | Some (md, _) => handed_chain (md_kind md) (firstn n l)
      | None => []
      end
  | _ => []
  end.

(** A whole test, given the effects of its operations. *)
Fixpoint handed_over (c : cfg) (sh : shuffle V U) (y : sys V U) (l : list (op V U))
    (es : list (effect V U)) : list thing :=
  match l, es with
  | o :: l', e :: es' =>
      handed_by y o (ef_setters e) ++ handed_over c sh (fst (step c sh y o)) l' es'
  | _, _ => []
  end.

(** What a test destroyed. *)
Definition dropped (es : list (effect V U)) : list thing := flat_map ef_dropped es.

(** ** Still held *)

(** What an expectation holds: what it matches by, and what it returns by. *)
Definition held_when (e : expectation V U) : list thing :=
  match c_matcher (e_common e) with
  | MtAlways => []
  | MtFunc f => [ThMatch f]
  | MtFuncSt _ f => [ThMatch f]
  | MtPred ps => map ThPred ps
  end.
Definition held_what (e : expectation V U) : list thing :=
  match e_action e with
  | AStatic (SMut f) _ | AStatic (SMutSt _ f) _
  | AStatic (SOnce f) _ | AStatic (SOnceSt _ f) _
  | AMut (XMut f _) | AMut (XMutSt _ f _) => [ThRet f]
  | _ => []
  end.
Definition held_by (e : expectation V U) : list thing := held_when e ++ held_what e.

(** The expectations of a method, for all its type parameters. *)
Definition all_of (s : slot V U) : list (expectation V U) :=
  match s with
  | SPlain es => es
  | SGeneric st => flat_map snd st
  end.

(** What an object holds, the static methods hold, and the whole state holds. *)
Definition object_held (ob : object V U) : list thing :=
  flat_map (fun f => flat_map held_by (all_of (f_slot f))) ob.
Definition static_held (x : mdecl V * smutex V U) : list thing :=
  flat_map held_by (all_of (sm_slot (snd x))).
Definition held (y : sys V U) : list thing :=
  flat_map object_held (y_objs y) ++ flat_map static_held (y_stats y).

(** ** Chains *)

(** The setters that say which calls an expectation is for. *)
Definition says_when (st : setter V U) : bool :=
  match st with StWith _ | StWithf _ | StWithfSt _ => true | _ => false end.

(** The setters that say what a call returns, for the methods of each kind. *)
Definition says_what (kd : kind) (st : setter V U) : bool :=
  match st, kd with
  | StReturning _, KStatic | StReturning _, KMut | StReturningSt _, KStatic | StReturningSt _, KMut
  | StReturnOnce _, KStatic | StReturnOnceSt _, KStatic
  | StReturnConst _, KStatic | StReturnConst _, KRef | StReturnConstSt _, KStatic
  | StReturnVar _, KMut => true
  | _, _ => false
  end.

(** What the last setter of a sort hands over. *)
Definition last_handed (kd : kind) (p : setter V U -> bool) (l : list (setter V U)) : list thing :=
  match find p (rev l) with
  | Some st => handed kd st
  | None => []
  end.

(** ** Calls *)

(** The expectation was given a closure by [return_once], and has it still. *)
Definition has_once (e : expectation V U) (f : ucode U (list V) V) : Prop :=
  match e_action e with
  | AStatic (SOnce g) _ | AStatic (SOnceSt _ g) _ => g = f
  | _ => False
  end.

(** It is gone. *)
Definition spent (e : expectation V U) : Prop :=
  match e_action e with AStatic SExpired _ => True | _ => False end.

(** The expectations that a call chooses from. *)
Definition candidates (y : sys V U) (o : op V U) : list (expectation V U) :=
  match o with
  | OCall i m k _ _ =>
      match nth_error (y_objs y) i with
      | None => []
      | Some ob => match nth_error ob m with Some f => slot_get (f_slot f) k | None => [] end
      end
  | OStaticCall s k _ =>
      match nth_error (y_stats y) s with Some (_, sm) => slot_get (sm_slot sm) k | None => [] end
  | _ => []
  end.

(** A call of a mock method. *)
Definition is_call (o : op V U) : bool :=
  match o with OCall _ _ _ _ _ | OStaticCall _ _ _ => true | _ => false end.

End OwnsSpec.
