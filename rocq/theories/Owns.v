(** * Owns: what becomes of the closures that a test gives to a mock

    The setters move closures and predicates into the mock.  In [Expect.v] and [Mock.v] they are there
    until they are not; here every operation also says which of them are destroyed, and when.  Rust
    destroys the old value at an assignment, the arguments of a function that panics, a closure that is
    called by [FnOnce], and the fields of a value that is destroyed.

    Simplified: values ([return_const] of methods returning [&T], [return_var], results) are not
    followed; [return_once_st] on another thread destroys its closure although it really aborts (C81);
    destructors have no effects. *)

From Coq Require Import NArith List Bool String.
From Verif Require Import Base Times Expect Mock.
Import ListNotations.
Open Scope N_scope.

Section Owns.
Context {V U : Type}.

(** What is moved into a mock: a closure for [returning] and its like (mock_function.rs 2207-2310,
    2118-2135), a closure for [withf] (1170-1186), a predicate (1101-1105). *)
Inductive thing : Type :=
| ThRet (f : ucode U (list V) V)
| ThMatch (f : ucode U (list V) bool)
| ThPred (q : pred V U).

(** The destructor of [Matcher]: mock_function.rs 1703-1714. *)
Definition matcher_things (m : matcher V U) : list thing :=
  match m with
  | MtAlways => []
  | MtFunc f | MtFuncSt _ f => [ThMatch f]
  | MtPred ps => map ThPred ps
  end.
(** The destructor of [Rfunc]: mock_function.rs 1924-1944. *)
Definition srfunc_things (rf : srfunc V U) : list thing :=
  match rf with
  | SDefault | SExpired => []
  | SMut f | SMutSt _ f | SOnce f | SOnceSt _ f => [ThRet f]
  end.
(** The destructor of [Rfunc]: mock_function.rs 1844-1859. *)
Definition mrfunc_things (rf : mrfunc V U) : list thing :=
  match rf with
  | XMut f _ | XMutSt _ f _ => [ThRet f]
  | _ => []
  end.
(** The destructor of an [Rfunc] of any kind: mock_function.rs 1779-1786, 1844-1859, 1924-1944. *)
Definition action_things (a : action V U) : list thing :=
  match a with
  | AStatic rf _ => srfunc_things rf
  | ARef _ => []
  | AMut rf => mrfunc_things rf
  end.
(** The fields of an [Expectation]: mock_function.rs 2020-2023, 2085-2088, 2175-2178. *)
Definition expectation_things (e : expectation V U) : list thing :=
  matcher_things (c_matcher (e_common e)) ++ action_things (e_action e).

(** ** Setters *)

(** mock_function.rs 927-932, 1010-1028: [Common::with], [withf], [withf_st].  If the mutex is poisoned
    the arguments are destroyed, otherwise the matcher that is replaced. *)
Definition set_matcher_o (m : matcher V U) (k : common V U) : common V U * res unit * list thing :=
  (common_set_matcher m k, if c_mpoison k then matcher_things m else matcher_things (c_matcher k)).

(** mock_function.rs 2243-2310: the setters of methods that return a ['static] value.  As above; a
    setter that the generated type does not have is not callable. *)
Definition set_srfunc_o (rf : srfunc V U) (e : expectation V U) : expectation V U * res unit * list thing :=
  (set_srfunc rf e,
   match e_action e with
   | AStatic _ true => srfunc_things rf
   | AStatic old false => srfunc_things old
   | _ => []
   end).

(** mock_function.rs 2109-2135: the setters of methods that return [&mut T]. *)
Definition set_mrfunc_o (rf : mrfunc V U) (e : expectation V U) : expectation V U * res unit * list thing :=
  (set_mrfunc rf e, match e_action e with AMut old => mrfunc_things old | _ => [] end).

(** One builder call: mock_function.rs 1108-1187, 2041-2046, 2109-2135, 2207-2310. *)
Definition apply_setter_o (c : cfg) (th : nat) (st : setter V U) (e : expectation V U) (t : seqtab)
  : expectation V U * seqtab * res unit * list thing :=
  let pure (x : expectation V U * res unit * list thing) := (fst (fst x), t, snd (fst x), snd x) in
  let lift (x : common V U * res unit * list thing) := pure (lift_common e (fst x), snd x) in
  match st with
  | StWith ps => lift (set_matcher_o (MtPred ps) (e_common e))
  | StWithf f => lift (set_matcher_o (MtFunc f) (e_common e))
  | StWithfSt f => lift (set_matcher_o (MtFuncSt th f) (e_common e))
  | StReturning f =>
      match e_action e with
      | AMut _ => pure (set_mrfunc_o (XMut f None) e)
      | _ => pure (set_srfunc_o (SMut f) e)
      end
  | StReturningSt f =>
      match e_action e with
      | AMut _ => pure (set_mrfunc_o (XMutSt th f None) e)
      | _ => pure (set_srfunc_o (SMutSt th f) e)
      end
  | StReturnOnce f => pure (set_srfunc_o (SOnce f) e)
  | StReturnOnceSt f => pure (set_srfunc_o (SOnceSt th f) e)
  | StReturnConst v =>
      match e_action e with
      | ARef _ => (apply_setter c th st e t, [])
      | _ => pure (set_srfunc_o (SMut (const_fn v)) e)
      end
  | StReturnConstSt v => pure (set_srfunc_o (SMutSt th (const_fn v)) e)
  | StReturnVar v => pure (set_mrfunc_o (XVar v) e)
  | _ => (apply_setter c th st e t, [])
  end.

(** A builder chain: the arguments of a setter are made when the setters before it have returned.
    The last result is the number of setters that were called.  mock_function.rs 1108-1187,
    2041-2310. *)
Fixpoint apply_setters_o (c : cfg) (th : nat) (l : list (setter V U)) (e : expectation V U) (t : seqtab)
  : expectation V U * seqtab * res unit * list thing * nat :=
  match l with
  | [] => (e, t, Ret tt, [], O)
  | st :: l' =>
      let '(e1, t1, r, d) := apply_setter_o c th st e t in
      match r with
      | Ret _ => let '(e2, t2, r2, d2, n) := apply_setters_o c th l' e1 t1 in (e2, t2, r2, d ++ d2, S n)
      | Panic m => (e1, t1, Panic m, d, 1%nat)
      | Abort => (e1, t1, Abort, d, 1%nat)
      end
  end.

(** [expect] and the chain: mock_function.rs 1216-1221, 2535-2542, 1525-1539. *)
Definition slot_expect_o (c : cfg) (md : mdecl V) (s : slot V U) (k : key) (th : nat)
    (l : list (setter V U)) (t : seqtab) : slot V U * seqtab * res unit * list thing * nat :=
  let es := slot_get s k in
  let e0 := expectation_default c (md_me md) (md_kind md) in
  let '(e, t', r, d, n) := apply_setters_o c th l e0 t in
  (slot_put s k (es ++ [e]), t', r, d, n).

(** mock_function.rs 1621-1625, 1464-1470, 1525-1539: [Context::expect] and the chain. *)
Definition context_expect_o (c : cfg) (md : mdecl V) (sm : smutex V U) (k : key)
    (l : list (setter V U)) (t : seqtab) (w : world U) : smutex V U * seqtab * res unit * list thing * nat :=
  if sm_poison sm then (sm, t, Panic MPoison, [], O)
  else
    let '(s', t', r, d, n) := slot_expect_o c md (sm_slot sm) k (w_thread w) l t in
    match r with
    | Panic m => (SMutex (negb (w_panicking w)) s', t', Panic m, d, n)
    | _ => (SMutex false s', t', r, d, n)
    end.

(** ** Calls *)

(** mock_function.rs 1947-1985: [Rfunc::call_mut].  [mem::replace] takes the closure of [return_once]
    out; calling it consumes it, also if it panics. *)
Definition srfunc_call_o (c : cfg) (me : method V) (rf : srfunc V U) (args : list V) (w : world U)
  : srfunc V U * world U * res (result V rferr) * list thing :=
  (srfunc_call c me rf args w,
   match rf with
   | SOnce f | SOnceSt _ f => [ThRet f]
   | _ => []
   end).

(** mock_function.rs 2184-2195. *)
Definition static_ret_o (c : cfg) (me : method V) (k : common V U) (rf : srfunc V U) (poison : bool)
    (args : list V) (w : world U) : action V U * world U * res V * list thing :=
  if poison then (AStatic rf poison, w, Panic MPoison, [])
  else
    let '(rf', w', r, d) := srfunc_call_o c me rf args w in
    let r' := (let? x := r in unwrap_rf me k x) in
    match r' with
    | Panic m => (AStatic rf' (negb (w_panicking w)), w', Panic m, d)
    | _ => (AStatic rf' false, w', r', d)
    end.

(** mock_function.rs 2028, 2093, 2184: [Expectation::call] / [call_mut]. *)
Definition expectation_call_o (c : cfg) (me : method V) (e : expectation V U)
    (args : list V) (wr : V -> V) (w : world U) : expectation V U * world U * res V * list thing :=
  let '(k, w1, r) := common_call c me (e_common e) (call_desc me args) w in
  match r with
  | Panic m => (set_common e k, w1, Panic m, [])
  | Abort => (set_common e k, w1, Abort, [])
  | Ret _ =>
      match e_action e with
      | AStatic rf poison =>
          let '(a, w2, r2, d) := static_ret_o c me k rf poison args w1 in
          (Expectation k a, w2, r2, d)
      | ARef rf => (set_common e k, w1, ref_ret c me k rf, [])
      | AMut rf =>
          let '(rf', w2, r2) := mut_ret c me k rf args wr w1 in
          (Expectation k (AMut rf'), w2, r2, [])
      end
  end.

(** mock_function.rs 2349-2359, 2387-2398, 2426-2436: [Expectations::call] / [call_mut]. *)
Definition expectations_call_o (c : cfg) (me : method V) (es : list (expectation V U))
    (args : list V) (wr : V -> V) (w : world U)
  : list (expectation V U) * world U * res (option V) * list thing :=
  let one := Nat.eqb (List.length es) 1 in
  let '(es1, w1, r) := find_exp c one es args w in
  match r with
  | Abort => (es1, w1, Abort, [])
  | Panic m => (es1, w1, Panic m, [])
  | Ret None => (es1, w1, Ret None, [])
  | Ret (Some i) =>
      match nth_error es1 i with
      | None => (es1, w1, Ret None, [])      (* not reached: [i] was found in [es1] *)
      | Some e =>
          let '(e', w2, r2, d) := expectation_call_o c me e args wr w1 in
          (set_nth es1 i e', w2, let? v := r2 in Ret (Some v), d)
      end
  end.

(** mock_function.rs 2523-2532. *)
Definition slot_call_o (c : cfg) (md : mdecl V) (s : slot V U) (k : key) (args : list V)
    (wr : V -> V) (w : world U) : slot V U * world U * res (option V) * list thing :=
  match s with
  | SPlain es =>
      let '(es', w', r, d) := expectations_call_o c (md_me md) es args wr w in
      (SPlain es', w', r, d)
  | SGeneric st =>
      match gget st k with
      | None => (s, w, Ret None, [])
      | Some es =>
          let '(es', w', r, d) := expectations_call_o c (md_me md) es args wr w in
          (SGeneric (gput st k es'), w', r, d)
      end
  end.

(** mock_function.rs 564-576. *)
Definition field_call_o (c : cfg) (f : field V U) (k : key) (args : list V) (wr : V -> V) (w : world U)
  : field V U * world U * res V * list thing :=
  let '(s', w', r, d) := slot_call_o c (f_decl f) (f_slot f) k args wr w in
  (Field (f_decl f) s', w',
   let? o := r in
   match o with
   | Some v => Ret v
   | None => Panic (MNoMatch (call_desc (md_me (f_decl f)) args))
   end, d).

(** mock_function.rs 549-560. *)
Definition static_call_o (c : cfg) (md : mdecl V) (sm : smutex V U) (k : key) (args : list V)
    (w : world U) : smutex V U * world U * res V * list thing :=
  if sm_poison sm then (sm, w, Panic MPoison, [])
  else
    let '(s', w', r, d) := slot_call_o c md (sm_slot sm) k args (fun v => v) w in
    match r with
    | Panic m => (SMutex (negb (w_panicking w)) s', w', Panic m, d)
    | Abort => (SMutex false s', w', Abort, d)
    | Ret (Some v) => (SMutex false s', w', Ret v, d)
    | Ret None => (SMutex false s', w', Panic (MNoMatch (call_desc (md_me md) args)), d)
    end.

(** ** Destructors *)

(** Drop glue: one after the other; after a panic the rest while unwinding; another panic aborts and
    the rest stays.  For the vectors, maps and structs of mock_function.rs 1205, 2464-2467 and
    mock_item_struct.rs 335-338. *)
Fixpoint glue_o {A : Type} (d : A -> bool -> res unit * list thing) (l : list A) (panicking : bool)
  : res unit * list thing :=
  match l with
  | [] => (Ret tt, [])
  | x :: l' =>
      match d x panicking with
      | (Ret _, t) => let (r, t') := glue_o d l' panicking in (r, t ++ t')
      | (Abort, t) => (Abort, t)
      | (Panic m, t) =>
          match glue_o d l' true with
          | (Ret _, t') => (Panic m, t ++ t')
          | (_, t') => (Abort, t ++ t')
          end
      end
  end.

(** mock_function.rs 1037-1061, 2020-2023, 2085-2088, 2175-2178: [Drop for Common], and then the
    fields, also if it panics. *)
Definition drop_exp_o (c : cfg) (me : method V) (e : expectation V U) (panicking : bool) : res unit * list thing :=
  (common_drop c me (e_common e) panicking, expectation_things e).

(** [Expectations]: mock_function.rs 1205; [GenericExpectations]: 2464-2467. *)
Definition slot_drop_o (c : cfg) (md : mdecl V) (sh : shuffle V U) (s : slot V U) (panicking : bool)
  : res unit * list thing :=
  match s with
  | SPlain es => glue_o (drop_exp_o c (md_me md)) es panicking
  | SGeneric st => glue_o (glue_o (drop_exp_o c (md_me md))) (map snd (sh st)) panicking
  end.

(** mock_item_struct.rs 356-359: [checkpoint]. *)
Fixpoint object_checkpoint_o (c : cfg) (sh : shuffle V U) (o : object V U) (panicking : bool)
  : object V U * res unit * list thing :=
  match o with
  | [] => ([], Ret tt, [])
  | f :: o' =>
      let f' := Field (f_decl f) (slot_clear (f_slot f)) in
      match slot_drop_o c (f_decl f) sh (f_slot f) panicking with
      | (Ret _, t) =>
          let '(o2, r2, t2) := object_checkpoint_o c sh o' panicking in
          (f' :: o2, r2, t ++ t2)
      | (Panic m, t) => (f' :: o', Panic m, t)
      | (Abort, t) => (f' :: o', Abort, t)
      end
  end.

(** The struct of mock_item_struct.rs 335-338. *)
Definition object_drop_o (c : cfg) (sh : shuffle V U) : object V U -> bool -> res unit * list thing :=
  glue_o (fun f => slot_drop_o c (f_decl f) sh (f_slot f)).

(** mock_function.rs 586-595, 1611-1617. *)
Definition static_checkpoint_o (c : cfg) (md : mdecl V) (sh : shuffle V U) (sm : smutex V U)
    (panicking : bool) : smutex V U * res unit * list thing :=
  if sm_poison sm then (sm, Panic MPoison, [])
  else
    let (r, t) := slot_drop_o c md sh (sm_slot sm) panicking in
    (SMutex false (slot_clear (sm_slot sm)), r, t).

(** mock_function.rs 1632-1648: [Drop for Context]. *)
Definition context_drop_o (c : cfg) (md : mdecl V) (sh : shuffle V U) (sm : smutex V U)
    (panicking : bool) : smutex V U * res unit * list thing :=
  if panicking then
    let (r, t) := slot_drop_o c md sh (sm_slot sm) true in
    (SMutex false (slot_clear (sm_slot sm)), r, t)
  else static_checkpoint_o c md sh sm false.

(** mock_item.rs 190-194. *)
Fixpoint module_checkpoint_o (c : cfg) (sh : shuffle V U) (ss : statics V U) (panicking : bool)
  : statics V U * res unit * list thing :=
  match ss with
  | [] => ([], Ret tt, [])
  | (md, sm) :: ss' =>
      let '(sm', r, t) := static_checkpoint_o c md sh sm panicking in
      match r with
      | Ret _ =>
          let '(ss2, r2, t2) := module_checkpoint_o c sh ss' panicking in
          ((md, sm') :: ss2, r2, t ++ t2)
      | Panic m => ((md, sm') :: ss', Panic m, t)
      | Abort => ((md, sm') :: ss', Abort, t)
      end
  end.

(** ** Tests *)

(** What an operation does besides its result: how many setters of its chain were called, and what
    was destroyed.  The operations are those of [op]: mock_function.rs 474-706, 1604-1648. *)
Record effect : Type := Effect { ef_setters : nat; ef_dropped : list thing }.

(** One operation of a test, as [step]: mock_function.rs 474-706, 1604-1648, mock_item_struct.rs
    340-361, mock_item.rs 190-194. *)
Definition step_o (c : cfg) (sh : shuffle V U) (y : sys V U) (o : op V U)
  : sys V U * res (option V) * effect :=
  let w := y_world y in
  match o with
  | OExpect i m k l =>
      match nth_error (y_objs y) i with
      | None => (y, Ret None, Effect 0 [])
      | Some ob =>
          match nth_error ob m with
          | None => (y, Ret None, Effect 0 [])
          | Some f =>
              let '(s', t', r, d, n) :=
                slot_expect_o c (f_decl f) (f_slot f) k (w_thread w) l (y_seqs y) in
              (Sys w t' (set_nth (y_objs y) i (set_nth ob m (Field (f_decl f) s'))) (y_stats y),
               unit_res r, Effect n d)
          end
      end
  | OCall i m k args wr =>
      match nth_error (y_objs y) i with
      | None => (y, Ret None, Effect 0 [])
      | Some ob =>
          match nth_error ob m with
          | None => (y, Ret None, Effect 0 [])
          | Some f =>
              let '(f', w', r, d) := field_call_o c f k args wr w in
              (Sys w' (y_seqs y) (set_nth (y_objs y) i (set_nth ob m f')) (y_stats y),
               let? v := r in Ret (Some v), Effect 0 d)
          end
      end
  | OCheckpoint i =>
      match nth_error (y_objs y) i with
      | None => (y, Ret None, Effect 0 [])
      | Some ob =>
          let '(ob', r, d) := object_checkpoint_o c sh ob (w_panicking w) in
          (set_objs y (set_nth (y_objs y) i ob'), unit_res r, Effect 0 d)
      end
  | ODrop i =>
      match nth_error (y_objs y) i with
      | None => (y, Ret None, Effect 0 [])
      | Some ob =>
          let (r, d) := object_drop_o c sh ob (w_panicking w) in
          (set_objs y (set_nth (y_objs y) i []), unit_res r, Effect 0 d)
      end
  | OCtxExpect s k l =>
      match nth_error (y_stats y) s with
      | None => (y, Ret None, Effect 0 [])
      | Some (md, sm) =>
          let '(sm', t', r, d, n) := context_expect_o c md sm k l (y_seqs y) w in
          (Sys w t' (y_objs y) (set_nth (y_stats y) s (md, sm')), unit_res r, Effect n d)
      end
  | OStaticCall s k args =>
      match nth_error (y_stats y) s with
      | None => (y, Ret None, Effect 0 [])
      | Some (md, sm) =>
          let '(sm', w', r, d) := static_call_o c md sm k args w in
          (Sys w' (y_seqs y) (y_objs y) (set_nth (y_stats y) s (md, sm')),
           let? v := r in Ret (Some v), Effect 0 d)
      end
  | OCtxCheckpoint s =>
      match nth_error (y_stats y) s with
      | None => (y, Ret None, Effect 0 [])
      | Some (md, sm) =>
          let '(sm', r, d) := static_checkpoint_o c md sh sm (w_panicking w) in
          (set_stats y (set_nth (y_stats y) s (md, sm')), unit_res r, Effect 0 d)
      end
  | OCtxDrop s =>
      match nth_error (y_stats y) s with
      | None => (y, Ret None, Effect 0 [])
      | Some (md, sm) =>
          let '(sm', r, d) := context_drop_o c md sh sm (w_panicking w) in
          (set_stats y (set_nth (y_stats y) s (md, sm')), unit_res r, Effect 0 d)
      end
  | OModCheckpoint =>
      let '(ss, r, d) := module_checkpoint_o c sh (y_stats y) (w_panicking w) in
      (set_stats y ss, unit_res r, Effect 0 d)
  | _ => (step c sh y o, Effect 0 [])
  end.

(** A test that catches every panic, as [run]: mock_function.rs 474-706, 1604-1648. *)
Fixpoint run_o (c : cfg) (sh : shuffle V U) (y : sys V U) (l : list (op V U))
  : sys V U * list (res (option V)) * list effect :=
  match l with
  | [] => (y, [], [])
  | o :: l' =>
      let '(y1, r, e) := step_o c sh y o in
      let '(y2, rs, es) := run_o c sh y1 l' in
      (y2, r :: rs, e :: es)
  end.

End Owns.
Arguments thing : clear implicits.
Arguments effect : clear implicits.
