(** * SysSpec: specifications over whole tests *)

From Coq Require Import NArith List Bool String Permutation.
From Verif Require Import Base Times TimesSpec Expect Mock Spec.
Import ListNotations.
Open Scope N_scope.

Section Spec.
Context {V U : Type}.

(** Where an expectation lives: method [m] of object [o], or static method [s]; type
    parameters [k] (irrelevant for a method that is not generic); number [n]. *)
Inductive place : Type :=
| PObj (o m : nat) (k : key) (n : nat)
| PStat (s : nat) (k : key) (n : nat).

Definition at_place (y : sys V U) (p : place) : option (expectation V U) :=
  match p with
  | PObj o m k n =>
      match nth_error (y_objs y) o with
      | Some ob =>
          match nth_error ob m with
          | Some f => nth_error (slot_get (f_slot f) k) n
          | None => None
          end
      | None => None
      end
  | PStat s k n =>
      match nth_error (y_stats y) s with
      | Some p => nth_error (slot_get (sm_slot (snd p)) k) n
      | None => None
      end
  end.

(** The builder chain that an operation runs. *)
Definition op_chain (o : op V U) : list (setter V U) :=
  match o with
  | OExpect _ _ _ l | OCtxExpect _ _ l => l
  | _ => []
  end.

(** How many positions of sequence [s] a test hands out at most. *)
Definition seq_uses (s : nat) (l : list (op V U)) : N :=
  sum (map (fun o => positions s (op_chain o)) l).

Definition sets_count (st : setter V U) : Prop :=
  match st with StTimes _ | StOnce | StNever => True | _ => False end.

(** No call count is set after [in_sequence]. *)
Fixpoint orderly (l : list (setter V U)) : Prop :=
  match l with
  | [] => True
  | StInSequence _ :: l' => Forall (fun st => ~ sets_count st) l' /\ orderly l'
  | _ :: l' => orderly l'
  end.

(** Called exactly as often as its (exact) count says. *)
Definition full (e : expectation V U) : Prop :=
  let t := c_times (e_common e) in
  tcount t = rstart (trange_of t) /\ rend (trange_of t) = rstart (trange_of t) + 1.

Definition handle_of (e : expectation V U) : option seqhandle := c_seq (e_common e).
Definition count_of (e : expectation V U) : N := tcount (c_times (e_common e)).

(** The state of a test after the operations [l]. *)
Definition after (c : cfg) (sh : shuffle V U) (y : sys V U) (l : list (op V U)) : sys V U :=
  fst (run c sh y l).

(** ** Members of one sequence, each alone on its method

    [.times(sx_count).in_sequence(s).returning(sx_fun)] on method [sx_meth] of object
    [sx_obj]. *)
Record sx : Type := SX {
  sx_obj : nat;
  sx_meth : nat;
  sx_count : N;
  sx_fun : ucode U (list V) V
}.

Definition sx_expect (s : nat) (x : sx) : op V U :=
  OExpect (sx_obj x) (sx_meth x) 0%nat
    [StTimes (ANum (sx_count x)); StInSequence s; StReturning (sx_fun x)].

Definition sx_call (x : sx) (args : list V) : op V U :=
  OCall (sx_obj x) (sx_meth x) 0%nat args (fun v => v).

(** The order in which the members want to be called: each as often as its count. *)
Fixpoint wanted (i : nat) (xs : list sx) : list nat :=
  match xs with
  | [] => []
  | x :: xs' => repeat i (N.to_nat (sx_count x)) ++ wanted (S i) xs'
  end.

(** Calls of members, given by their numbers. *)
Definition sx_calls (xs : list sx) (calls : list (nat * list V)) : list (op V U) :=
  flat_map (fun ia => match nth_error xs (fst ia) with
                      | Some x => [sx_call x (snd ia)]
                      | None => []
                      end) calls.

(** Method [m] of object [o] of the test is not generic, returns a ['static] value
    and has no expectations. *)
Definition idle (y : sys V U) (o m : nat) : Prop :=
  exists ob md, nth_error (y_objs y) o = Some ob /\ nth_error ob m = Some (Field md (SPlain [])) /\ md_kind md = KStatic.

(** A [Sequence] nobody has used. *)
Definition new_sequence (y : sys V U) (s : nat) : Prop :=
  sq_inner (y_seqs y s) = s /\ sq_next (y_seqs y s) = 0 /\ w_levels (y_world y) s = 0.

(** [a] is an initial part of [b]. *)
Definition prefix {A} (a b : list A) : Prop := exists rest, b = a ++ rest.

Definition answered (r : res (option V)) : Prop := exists v, r = Ret (Some v).

(** ** Validation *)

(** The expectation passes validation: its matcher never panicked and its number of
    calls is in its range. *)
Definition sound (e : expectation V U) : Prop :=
  c_mpoison (e_common e) = false /\ in_range e.

(** How an expectation that is not sound complains. *)
Definition complaint (c : cfg) (me : method V) (e : expectation V U) : pmsg :=
  let lo := rstart (trange_of (c_times (e_common e))) in
  let hi := rend (trange_of (c_times (e_common e))) in
  let shown := matcher_show (c_matcher (e_common e)) in
  if c_mpoison (e_common e) then MPoison
  else if count_of e <? lo then MTooFew (me_name me) shown (count_of e) lo
  else if hi =? 0 then
    (* only after [times(..0)] *)
    if checks c then MOverflow else MTooMany (me_name me) shown (count_of e) (umax c)
  else MTooMany (me_name me) shown (count_of e) (hi - 1).

(** The first expectation of a list that is not sound. *)
Definition first_unsound (es : list (expectation V U)) (e : expectation V U) : Prop :=
  exists es1 es2, es = es1 ++ e :: es2 /\ Forall sound es1 /\ ~ sound e.

(** The expectations of a store, for all type parameters. *)
Definition in_slot (s : slot V U) (e : expectation V U) : Prop :=
  exists k, In e (slot_get s k).

(** A [HashMap] yields each of its entries once, in some order. *)
Definition fair (sh : shuffle V U) : Prop := forall st, Permutation (sh st) st.

(** The declarations of the mock structs that a test creates, in order. *)
Fixpoint news (l : list (op V U)) : list (sdecl V) :=
  match l with
  | [] => []
  | ONew sd :: l' => sd :: news l'
  | _ :: l' => news l'
  end.

(** ** Generic methods: a family of ordinary methods, one per type parameters *)
Inductive gop : Type :=
| GExpect (k : key) (th : nat) (l : list (setter V U))
| GCall (k : key) (args : list V) (wr : V -> V).

Definition gstep (c : cfg) (f : field V U) (t : seqtab) (w : world U) (o : gop)
  : field V U * seqtab * world U * res (option V) :=
  match o with
  | GExpect k th l =>
      let '(s', t', r) := slot_expect c (f_decl f) (f_slot f) k th l t in
      (Field (f_decl f) s', t', w, let? x := r in Ret None)
  | GCall k args wr =>
      let '(f', w', r) := field_call c f k args wr w in
      (f', t, w', let? v := r in Ret (Some v))
  end.

Fixpoint grun (c : cfg) (f : field V U) (t : seqtab) (w : world U) (l : list gop)
  : field V U * seqtab * world U * list (res (option V)) :=
  match l with
  | [] => (f, t, w, [])
  | o :: l' =>
      let '(f1, t1, w1, r) := gstep c f t w o in
      let '(f2, t2, w2, rs) := grun c f1 t1 w1 l' in
      (f2, t2, w2, r :: rs)
  end.

Definition gop_key (o : gop) : key :=
  match o with GExpect k _ _ => k | GCall k _ _ => k end.

(** The same operations on a family of ordinary methods [fam k], each operation going
    to the member for its type parameters. *)
Fixpoint famrun (c : cfg) (fam : key -> field V U) (t : seqtab) (w : world U) (l : list gop)
  : (key -> field V U) * seqtab * world U * list (res (option V)) :=
  match l with
  | [] => (fam, t, w, [])
  | o :: l' =>
      let '(f1, t1, w1, r) := gstep c (fam (gop_key o)) t w o in
      let '(fam2, t2, w2, rs) :=
        famrun c (fun k => if Nat.eqb k (gop_key o) then f1 else fam k) t1 w1 l' in
      (fam2, t2, w2, r :: rs)
  end.

(** ** Operations on one object *)
Inductive oop : Type :=
| XExpect (m : nat) (k : key) (l : list (setter V U))
| XCall (m : nat) (k : key) (args : list V) (wr : V -> V)
| XCheckpoint
| XDrop
| XThread (t : nat)
| XUnwinding (b : bool)
| XUser (f : U -> U).

(** The operation on the object with number [i]. *)
Definition on (i : nat) (o : oop) : op V U :=
  match o with
  | XExpect m k l => OExpect i m k l
  | XCall m k args wr => OCall i m k args wr
  | XCheckpoint => OCheckpoint i
  | XDrop => ODrop i
  | XThread t => OThread t
  | XUnwinding b => OUnwinding b
  | XUser f => OUser f
  end.

(** ** Operations on one static method *)

(** The operation uses static method [s]. *)
Definition touches (o : op V U) (s : nat) : bool :=
  match o with
  | OCtxExpect s' _ _ | OStaticCall s' _ _ | OCtxCheckpoint s' | OCtxDrop s' => Nat.eqb s' s
  | OModCheckpoint => true
  | _ => false
  end.

Inductive sop : Type :=
| TExpect (k : key) (l : list (setter V U))
| TCall (k : key) (args : list V).

(** On the static method with number [s]... *)
Definition static_op (s : nat) (o : sop) : op V U :=
  match o with
  | TExpect k l => OCtxExpect s k l
  | TCall k args => OStaticCall s k args
  end.

(** ... and on an ordinary method, by thread [th]. *)
Definition static_gop (th : nat) (o : sop) : gop :=
  match o with
  | TExpect k l => GExpect k th l
  | TCall k args => GCall k args (fun v => v)
  end.

(** A history of calls on a list of expectations. *)
Fixpoint exp_list_calls (c : cfg) (me : method V) (es : list (expectation V U)) (w : world U)
    (l : list (list V * (V -> V))) : list (expectation V U) * world U * list (res (option V)) :=
  match l with
  | [] => (es, w, [])
  | (a, wr) :: l' =>
      let '(es1, w1, r) := expectations_call c me es a wr w in
      let '(es2, w2, rs) := exp_list_calls c me es1 w1 l' in
      (es2, w2, r :: rs)
  end.

End Spec.

Arguments sx : clear implicits.
Arguments gop : clear implicits.
Arguments oop : clear implicits.
Arguments sop : clear implicits.
Arguments place : clear implicits.
