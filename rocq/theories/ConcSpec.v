(** * ConcSpec: what the theorems about threads speak about

    Everything here is about lists of observable events and about the sequential
    model; nothing refers to the steps of [Conc.v]. *)

From Coq Require Import NArith List Bool String.
From Verif Require Import Base Times Expect Mock Conc.
Import ListNotations.
Open Scope N_scope.

Section ConcSpec.
Context {V U : Type}.
Implicit Types (tr : list (event V)).

Definition at_exp (m i : nat) (x : ccall V) (j : nat) : bool :=
  (Nat.eqb (cc_m x) m && Nat.eqb j i)%bool.

(** How many calls expectation [i] of method [m] has counted, has answered with
    a value, has run its return closure for. *)
Definition reached m i tr : nat :=
  List.length (filter (fun ev => match ev with EvReach _ x j => at_exp m i x j | _ => false end) tr).
Definition answered m i tr : nat :=
  List.length (filter (fun ev => match ev with EvAnswer _ x j _ => at_exp m i x j | _ => false end) tr).
Definition closure_runs m i tr : nat :=
  List.length (filter (fun ev => match ev with EvRun _ x j => at_exp m i x j | _ => false end) tr).

(** The threads that began and ended a run of the closure of one expectation, in
    order: [true] for a beginning. *)
Fixpoint closure_events m i tr : list (bool * nat) :=
  match tr with
  | [] => []
  | EvRun t x j :: tr' =>
      if at_exp m i x j then (true, t) :: closure_events m i tr' else closure_events m i tr'
  | EvRan t x j :: tr' =>
      if at_exp m i x j then (false, t) :: closure_events m i tr' else closure_events m i tr'
  | _ :: tr' => closure_events m i tr'
  end.

(** Beginnings and ends alternate, and each end belongs to the beginning just
    before it: two runs never overlap. *)
Fixpoint one_at_a_time (l : list (bool * nat)) : Prop :=
  match l with
  | [] => True
  | (true, _) :: [] => True
  | (true, t) :: (b, t') :: l' => b = false /\ t' = t /\ one_at_a_time l'
  | (false, _) :: _ => False
  end.

(** The calls that a thread has begun; that got the lock; that have returned. *)
Fixpoint started (t : nat) tr : list (ccall V) :=
  match tr with
  | [] => []
  | EvStart t' x :: tr' => if Nat.eqb t' t then x :: started t tr' else started t tr'
  | _ :: tr' => started t tr'
  end.
Fixpoint locked tr : list (nat * ccall V) :=
  match tr with
  | [] => []
  | EvLocked t x :: tr' => (t, x) :: locked tr'
  | _ :: tr' => locked tr'
  end.
Fixpoint returned tr : list (nat * ccall V * res V) :=
  match tr with
  | [] => []
  | EvReturn t x r :: tr' => (t, x, r) :: returned tr'
  | _ :: tr' => returned tr'
  end.
Definition by_thread {A} (t : nat) (l : list (nat * A)) : list A :=
  map snd (filter (fun p => Nat.eqb (fst p) t) l).

(** [l1] is an initial part of [l2]. *)
Definition prefix {A} (l1 l2 : list A) : Prop := exists l, l2 = l1 ++ l.

(** One call, executed without interruption: the sequential model.  The state is
    the methods, the poison flag of the store, the user state and the levels. *)
Definition astate : Type := (list (cmeth V U) * bool * U * levels)%type.

Definition atomic_call (c : cfg) (st : astate) (tx : nat * ccall V) : astate * res V :=
  let '(ms, poison, u, l) := st in
  let (t, x) := tx in
  match nth_error ms (cc_m x) with
  | None => (st, Abort)                          (* no such method *)
  | Some cm =>
      if poison then (st, Panic MPoison)
      else
        let '(es, w, r) :=
          expectations_call c (cm_me cm) (cm_exps cm) (cc_args x) (fun v => v) (World u l t false) in
        ((set_nth ms (cc_m x) (CMeth (cm_me cm) (cm_mutex cm) es),
          match r with Panic _ => true | _ => false end, w_user w, w_levels w),
         let? o := r in
         match o with
         | Some v => Ret v
         | None => Panic (MNoMatch (call_desc (cm_me cm) (cc_args x)))
         end)
  end.

(** Calls executed one after the other, with their results. *)
Fixpoint atomic_run (c : cfg) (st : astate) (l : list (nat * ccall V))
  : astate * list (nat * ccall V * res V) :=
  match l with
  | [] => (st, [])
  | tx :: l' =>
      let (st1, r) := atomic_call c st tx in
      let (st2, rs) := atomic_run c st1 l' in
      (st2, (fst tx, snd tx, r) :: rs)
  end.

(** [atomic_call] is the [static_call] of [Mock.v]: a single static method. *)
Lemma atomic_is_static_call (c : cfg) (md : mdecl V) g (es : list (expectation V U)) poison u l t args :
  let '((ms', poison', u', l'), r) :=
    atomic_call c ([CMeth (md_me md) (Some g) es], poison, u, l) (t, CCall 0 args) in
  let '(sm', w', r') :=
    static_call c md (SMutex poison (SPlain es)) 0%nat args (World u l t false) in
  r' = r /\ w_user w' = u' /\ w_levels w' = l' /\ sm_poison sm' = poison' /\
  exists es', ms' = [CMeth (md_me md) (Some g) es'] /\ sm_slot sm' = SPlain es'.
Proof.
  simpl. unfold static_call. simpl. destruct poison; simpl.
  { repeat split; eauto. }
  destruct (expectations_call c (md_me md) es args (fun v => v) (World u l t false)) as [[es' w'] r].
  destruct r as [[v|]|m|]; simpl; repeat split; eauto.
Qed.

(** The calls in the order in which they began. *)
Fixpoint begun tr : list (nat * ccall V) :=
  match tr with
  | [] => []
  | EvStart t x :: tr' => (t, x) :: begun tr'
  | _ :: tr' => begun tr'
  end.

(** No call begins before the one before it has returned; [busy] tells whether a
    call is going on. *)
Fixpoint apart_from (busy : bool) tr : bool :=
  match tr with
  | [] => true
  | EvStart _ _ :: tr' => negb busy && apart_from true tr'
  | EvReturn _ _ _ :: tr' => apart_from false tr'
  | _ :: tr' => apart_from busy tr'
  end.
Definition apart tr : bool := apart_from false tr.

(** As [atomic_call], for methods of objects and several static stores: the
    poison flag of each store. *)
Definition sstate : Type := (list (cmeth V U) * (nat -> bool) * U * levels)%type.

Definition single_call (c : cfg) (st : sstate) (tx : nat * ccall V) : sstate * res V :=
  let '(ms, sp, u, l) := st in
  let (t, x) := tx in
  match nth_error ms (cc_m x) with
  | None => (st, Abort)                          (* no such method *)
  | Some cm =>
      if match cm_mutex cm with Some g => sp g | None => false end then (st, Panic MPoison)
      else
        let '(es, w, r) :=
          expectations_call c (cm_me cm) (cm_exps cm) (cc_args x) (fun v => v) (World u l t false) in
        let sp' := match cm_mutex cm, r with
                   | Some g, Panic _ => fun g' => (Nat.eqb g' g || sp g')%bool
                   | _, _ => sp
                   end in
        ((set_nth ms (cc_m x) (CMeth (cm_me cm) (cm_mutex cm) es), sp', w_user w, w_levels w),
         let? o := r in
         match o with
         | Some v => Ret v
         | None => Panic (MNoMatch (call_desc (cm_me cm) (cc_args x)))
         end)
  end.

Fixpoint single_run (c : cfg) (st : sstate) (l : list (nat * ccall V))
  : sstate * list (nat * ccall V * res V) :=
  match l with
  | [] => (st, [])
  | tx :: l' =>
      let (st1, r) := single_call c st tx in
      let (st2, rs) := single_run c st1 l' in
      (st2, (fst tx, snd tx, r) :: rs)
  end.

(** [single_call] is the [field_call] of [Mock.v]: a method of an object. *)
Lemma single_is_field_call (c : cfg) (md : mdecl V) (es : list (expectation V U)) sp u l t args :
  let '((ms', sp', u', l'), r) :=
    single_call c ([CMeth (md_me md) None es], sp, u, l) (t, CCall 0 args) in
  let '(f', w', r') :=
    field_call c (Field md (SPlain es)) 0%nat args (fun v => v) (World u l t false) in
  r' = r /\ w_user w' = u' /\ w_levels w' = l' /\ sp' = sp /\
  exists es', ms' = [CMeth (md_me md) None es'] /\ f' = Field md (SPlain es').
Proof.
  simpl. unfold field_call. simpl.
  destruct (expectations_call c (md_me md) es args (fun v => v) (World u l t false)) as [[es' w'] r].
  destruct r as [[v|]|m|]; simpl; repeat split; eauto.
Qed.

(** Every thread has made all its calls. *)
Definition finished (s : csys V U) : Prop :=
  forall t th, nth_error (cs_threads s) t = Some th -> th_pc th = PIdle /\ th_todo th = [].

End ConcSpec.
