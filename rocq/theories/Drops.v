(** * Drops: the destructors of the user's closures and predicates as code

    A closure may own things whose destructors do something: count, unlock, panic - or another mock,
    which checks its expectations.  [Owns.v] says when the closures are destroyed; here their
    destructors run, with the user state [U] (where also the mocks are that closures own), and with
    the locks held that the generated code holds at that point.

    The destructor of a [return_once] closure that a call runs belongs to the closure's body (calling it
    consumes what it captured), so calls are those of [Mock.v]: mock_function.rs 1965-1985.

    Simplified: plain values ([return_const] of [&T] methods, [return_var]) have no destructors; the
    arguments of [with] are destroyed in order when a poisoned matcher refuses them. *)

From Coq Require Import NArith List Bool String.
From Verif Require Import Base Times Expect Mock Owns.
Import ListNotations.
Open Scope N_scope.

Section Drops.
Context {V U : Type}.

(** The destructor of what a setter was given; it knows whether the thread is panicking.
    [Box<dyn FnMut>] and the like: mock_function.rs 1703-1714, 1844-1859, 1924-1944. *)
Definition dtors : Type := thing V U -> bool -> U -> U * res unit.
Context (dt : dtors).

(** Drop glue: one after the other; after a panic the rest while unwinding; another panic aborts.
    For the boxes, tuples, vectors, maps and structs of mock_function.rs 1205, 1703-1714, 2464-2467 and
    mock_item_struct.rs 335-338. *)
Fixpoint glue_d {A : Type} (d : A -> bool -> U -> U * res unit) (l : list A) (panicking : bool) (u : U)
  : U * res unit :=
  match l with
  | [] => (u, Ret tt)
  | x :: l' =>
      match d x panicking u with
      | (u1, Ret _) => glue_d d l' panicking u1
      | (u1, Abort) => (u1, Abort)
      | (u1, Panic m) =>
          match glue_d d l' true u1 with
          | (u2, Ret _) => (u2, Panic m)
          | (u2, _) => (u2, Abort)
          end
      end
  end.

(** Destroying a matcher, or an [Rfunc]: mock_function.rs 1703-1714, 1844-1859, 1924-1944. *)
Definition destroy (l : list (thing V U)) : bool -> U -> U * res unit := glue_d dt l.

(** A panic, and then the arguments of the function are destroyed while it unwinds.
    mock_function.rs 927-932, 1010-1028, 2243-2310: the [unwrap] of a poisoned lock. *)
Definition refuse (m : pmsg) (l : list (thing V U)) (u : U) : U * res unit :=
  match destroy l true u with
  | (u', Ret _) => (u', Panic m)
  | (u', _) => (u', Abort)
  end.

(** ** Setters *)

(** mock_function.rs 927-932, 1010-1028.  The assignment destroys the old matcher with the lock held;
    the new one is stored also if this panics, and then the lock is poisoned. *)
Definition set_matcher_d (p : bool) (m : matcher V U) (k : common V U) (u : U) : common V U * U * res unit :=
  if c_mpoison k then
    let (u', r) := refuse MPoison (matcher_things m) u in (k, u', r)
  else
    let (u', r) := destroy (matcher_things (c_matcher k)) p u in
    (Common m (match r with Panic _ => negb p | _ => false end) (c_seq k) (c_times k), u', r).

(** mock_function.rs 2243-2310.  The same. *)
Definition set_srfunc_d (p : bool) (rf : srfunc V U) (e : expectation V U) (u : U)
  : expectation V U * U * res unit :=
  match e_action e with
  | AStatic _ true => let (u', r) := refuse MPoison (srfunc_things rf) u in (e, u', r)
  | AStatic old false =>
      let (u', r) := destroy (srfunc_things old) p u in
      (set_action e (AStatic rf (match r with Panic _ => negb p | _ => false end)), u', r)
  | _ => (e, u, Ret tt)
  end.

(** mock_function.rs 2109-2135: without a lock. *)
Definition set_mrfunc_d (p : bool) (rf : mrfunc V U) (e : expectation V U) (u : U)
  : expectation V U * U * res unit :=
  match e_action e with
  | AMut old => let (u', r) := destroy (mrfunc_things old) p u in (set_action e (AMut rf), u', r)
  | _ => (e, u, Ret tt)
  end.

(** One builder call: mock_function.rs 1108-1187, 2041-2046, 2109-2135, 2207-2310. *)
Definition apply_setter_d (c : cfg) (th : nat) (p : bool) (st : setter V U) (e : expectation V U) (t : seqtab) (u : U)
  : expectation V U * seqtab * U * res unit :=
  let pure (x : expectation V U * U * res unit) := (fst (fst x), t, snd (fst x), snd x) in
  let lift (x : common V U * U * res unit) := pure (set_common e (fst (fst x)), snd (fst x), snd x) in
  let other := let '(e', t', r) := apply_setter c th st e t in (e', t', u, r) in
  match st with
  | StWith ps => lift (set_matcher_d p (MtPred ps) (e_common e) u)
  | StWithf f => lift (set_matcher_d p (MtFunc f) (e_common e) u)
  | StWithfSt f => lift (set_matcher_d p (MtFuncSt th f) (e_common e) u)
  | StReturning f =>
      match e_action e with
      | AMut _ => pure (set_mrfunc_d p (XMut f None) e u)
      | _ => pure (set_srfunc_d p (SMut f) e u)
      end
  | StReturningSt f =>
      match e_action e with
      | AMut _ => pure (set_mrfunc_d p (XMutSt th f None) e u)
      | _ => pure (set_srfunc_d p (SMutSt th f) e u)
      end
  | StReturnOnce f => pure (set_srfunc_d p (SOnce f) e u)
  | StReturnOnceSt f => pure (set_srfunc_d p (SOnceSt th f) e u)
  | StReturnConst v =>
      match e_action e with
      | ARef _ => other
      | _ => pure (set_srfunc_d p (SMut (const_fn v)) e u)
      end
  | StReturnConstSt v => pure (set_srfunc_d p (SMutSt th (const_fn v)) e u)
  | StReturnVar v => pure (set_mrfunc_d p (XVar v) e u)
  | _ => other
  end.

(** A builder chain: mock_function.rs 1108-1187, 2041-2310. *)
Fixpoint apply_setters_d (c : cfg) (th : nat) (p : bool) (l : list (setter V U)) (e : expectation V U) (t : seqtab) (u : U)
  : expectation V U * seqtab * U * res unit :=
  match l with
  | [] => (e, t, u, Ret tt)
  | st :: l' =>
      let '(e1, t1, u1, r) := apply_setter_d c th p st e t u in
      match r with
      | Ret _ => apply_setters_d c th p l' e1 t1 u1
      | _ => (e1, t1, u1, r)
      end
  end.

(** mock_function.rs 1216-1221, 2535-2542, 1525-1539. *)
Definition slot_expect_d (c : cfg) (md : mdecl V) (s : slot V U) (k : key) (th : nat) (p : bool)
    (l : list (setter V U)) (t : seqtab) (u : U) : slot V U * seqtab * U * res unit :=
  let es := slot_get s k in
  let e0 := expectation_default c (md_me md) (md_kind md) in
  let '(e, t', u', r) := apply_setters_d c th p l e0 t u in
  (slot_put s k (es ++ [e]), t', u', r).

(** mock_function.rs 1621-1625, 1464-1470, 1525-1539. *)
Definition context_expect_d (c : cfg) (md : mdecl V) (sm : smutex V U) (k : key)
    (l : list (setter V U)) (t : seqtab) (w : world U) : smutex V U * seqtab * U * res unit :=
  if sm_poison sm then (sm, t, w_user w, Panic MPoison)
  else
    let '(s', t', u', r) := slot_expect_d c md (sm_slot sm) k (w_thread w) (w_panicking w) l t (w_user w) in
    match r with
    | Panic m => (SMutex (negb (w_panicking w)) s', t', u', Panic m)
    | _ => (SMutex false s', t', u', r)
    end.

(** ** Destructors *)

(** What happens when an expectation is destroyed: its count is checked, then its matcher and its
    [Rfunc] are destroyed.  mock_function.rs 1037-1061, 2020-2023, 2085-2088, 2175-2178. *)
Inductive act : Type :=
| ActCheck (k : common V U)
| ActDestroy (x : thing V U).

(** mock_function.rs 1037-1061, 1703-1714. *)
Definition act_d (c : cfg) (me : method V) (a : act) (p : bool) (u : U) : U * res unit :=
  match a with
  | ActCheck k => (u, common_drop c me k p)
  | ActDestroy x => dt x p u
  end.

(** Drop glue of an [Expectation]: [Drop for Common] first, then the fields, also if it panics.  The
    glue of its parts is that of the list of them.  mock_function.rs 1037-1061, 2020-2023,
    2085-2088, 2175-2178. *)
Definition drop_exp_d (c : cfg) (me : method V) (e : expectation V U) : bool -> U -> U * res unit :=
  glue_d (act_d c me) (ActCheck (e_common e) :: map ActDestroy (expectation_things e)).

(** [Expectations]: mock_function.rs 1205; [GenericExpectations]: 2464-2467. *)
Definition slot_drop_d (c : cfg) (md : mdecl V) (sh : shuffle V U) (s : slot V U) : bool -> U -> U * res unit :=
  match s with
  | SPlain es => glue_d (drop_exp_d c (md_me md)) es
  | SGeneric st => glue_d (glue_d (drop_exp_d c (md_me md))) (map snd (sh st))
  end.

(** mock_item_struct.rs 356-359: [checkpoint]. *)
Fixpoint object_checkpoint_d (c : cfg) (sh : shuffle V U) (o : object V U) (panicking : bool) (u : U)
  : object V U * U * res unit :=
  match o with
  | [] => ([], u, Ret tt)
  | f :: o' =>
      let f' := Field (f_decl f) (slot_clear (f_slot f)) in
      match slot_drop_d c (f_decl f) sh (f_slot f) panicking u with
      | (u1, Ret _) =>
          let '(o2, u2, r2) := object_checkpoint_d c sh o' panicking u1 in
          (f' :: o2, u2, r2)
      | (u1, Panic m) => (f' :: o', u1, Panic m)
      | (u1, Abort) => (f' :: o', u1, Abort)
      end
  end.

(** The struct of mock_item_struct.rs 335-338. *)
Definition object_drop_d (c : cfg) (sh : shuffle V U) : object V U -> bool -> U -> U * res unit :=
  glue_d (fun f => slot_drop_d c (f_decl f) sh (f_slot f)).

(** mock_function.rs 586-595, 1611-1617: the lock is released before the expectations are destroyed. *)
Definition static_checkpoint_d (c : cfg) (md : mdecl V) (sh : shuffle V U) (sm : smutex V U)
    (panicking : bool) (u : U) : smutex V U * U * res unit :=
  if sm_poison sm then (sm, u, Panic MPoison)
  else
    let (u', r) := slot_drop_d c md sh (sm_slot sm) panicking u in
    (SMutex false (slot_clear (sm_slot sm)), u', r).

(** mock_function.rs 1632-1648: [Drop for Context]. *)
Definition context_drop_d (c : cfg) (md : mdecl V) (sh : shuffle V U) (sm : smutex V U)
    (panicking : bool) (u : U) : smutex V U * U * res unit :=
  if panicking then
    let (u', r) := slot_drop_d c md sh (sm_slot sm) true u in
    (SMutex false (slot_clear (sm_slot sm)), u', r)
  else static_checkpoint_d c md sh sm false u.

(** mock_item.rs 190-194. *)
Fixpoint module_checkpoint_d (c : cfg) (sh : shuffle V U) (ss : statics V U) (panicking : bool) (u : U)
  : statics V U * U * res unit :=
  match ss with
  | [] => ([], u, Ret tt)
  | (md, sm) :: ss' =>
      let '(sm', u1, r) := static_checkpoint_d c md sh sm panicking u in
      match r with
      | Ret _ =>
          let '(ss2, u2, r2) := module_checkpoint_d c sh ss' panicking u1 in
          ((md, sm') :: ss2, u2, r2)
      | _ => ((md, sm') :: ss', u1, r)
      end
  end.

(** One operation of a test, as [step]: mock_function.rs 474-706, 1604-1648, mock_item_struct.rs
    340-361, mock_item.rs 190-194. *)
Definition step_d (c : cfg) (sh : shuffle V U) (y : sys V U) (o : op V U) : sys V U * res (option V) :=
  let w := y_world y in
  match o with
  | OExpect i m k l =>
      match nth_error (y_objs y) i with
      | None => (y, Ret None)
      | Some ob =>
          match nth_error ob m with
          | None => (y, Ret None)
          | Some f =>
              let '(s', t', u', r) :=
                slot_expect_d c (f_decl f) (f_slot f) k (w_thread w) (w_panicking w) l (y_seqs y) (w_user w) in
              (Sys (set_user w u') t' (set_nth (y_objs y) i (set_nth ob m (Field (f_decl f) s'))) (y_stats y),
               unit_res r)
          end
      end
  | OCheckpoint i =>
      match nth_error (y_objs y) i with
      | None => (y, Ret None)
      | Some ob =>
          let '(ob', u', r) := object_checkpoint_d c sh ob (w_panicking w) (w_user w) in
          (Sys (set_user w u') (y_seqs y) (set_nth (y_objs y) i ob') (y_stats y), unit_res r)
      end
  | ODrop i =>
      match nth_error (y_objs y) i with
      | None => (y, Ret None)
      | Some ob =>
          let (u', r) := object_drop_d c sh ob (w_panicking w) (w_user w) in
          (Sys (set_user w u') (y_seqs y) (set_nth (y_objs y) i []) (y_stats y), unit_res r)
      end
  | OCtxExpect s k l =>
      match nth_error (y_stats y) s with
      | None => (y, Ret None)
      | Some (md, sm) =>
          let '(sm', t', u', r) := context_expect_d c md sm k l (y_seqs y) w in
          (Sys (set_user w u') t' (y_objs y) (set_nth (y_stats y) s (md, sm')), unit_res r)
      end
  | OCtxCheckpoint s =>
      match nth_error (y_stats y) s with
      | None => (y, Ret None)
      | Some (md, sm) =>
          let '(sm', u', r) := static_checkpoint_d c md sh sm (w_panicking w) (w_user w) in
          (Sys (set_user w u') (y_seqs y) (y_objs y) (set_nth (y_stats y) s (md, sm')), unit_res r)
      end
  | OCtxDrop s =>
      match nth_error (y_stats y) s with
      | None => (y, Ret None)
      | Some (md, sm) =>
          let '(sm', u', r) := context_drop_d c md sh sm (w_panicking w) (w_user w) in
          (Sys (set_user w u') (y_seqs y) (y_objs y) (set_nth (y_stats y) s (md, sm')), unit_res r)
      end
  | OModCheckpoint =>
      let '(ss, u', r) := module_checkpoint_d c sh (y_stats y) (w_panicking w) (w_user w) in
      (Sys (set_user w u') (y_seqs y) (y_objs y) ss, unit_res r)
  | _ => step c sh y o
  end.

(** A test that catches every panic, as [run]: mock_function.rs 474-706, 1604-1648. *)
Fixpoint run_d (c : cfg) (sh : shuffle V U) (y : sys V U) (l : list (op V U))
  : sys V U * list (res (option V)) :=
  match l with
  | [] => (y, [])
  | o :: l' =>
      let (y1, r) := step_d c sh y o in
      let (y2, rs) := run_d c sh y1 l' in
      (y2, r :: rs)
  end.

End Drops.
Arguments dtors : clear implicits.
Arguments act : clear implicits.
