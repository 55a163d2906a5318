(** * Mock: mock objects, static methods, contexts, modules, tests

    - generic methods: mock_function.rs 2447-2546
    - mock structs: mock_item_struct.rs 85-452
    - static methods and [Context]: mock_function.rs 539-562, 581-600, 1414-1652
    - mock modules: mock_item.rs 165-213 *)

From Coq Require Import NArith List Bool String.
From Verif Require Import Base Times Expect.
Import ListNotations.
Open Scope N_scope.

Section Mock.
Context {V U : Type}.

(** ** Generic methods (mock_function.rs 2464-2546)

    A [Key] (lib.rs 1669-1679) is the [TypeId] of the tuple of the method's type
    parameters; type ids are numbers.  The [HashMap] is an association list
    without duplicate keys; where its iteration order matters it is an explicit
    argument. *)
Definition key := nat.
(** [GenericExpectations::store]: mock_function.rs 2464-2467. *)
Definition gstore := list (key * list (expectation V U)).

(** [HashMap::get]: mock_function.rs 2525-2528. *)
Fixpoint gget (s : gstore) (k : key) : option (list (expectation V U)) :=
  match s with
  | [] => None
  | (k', es) :: s' => if Nat.eqb k' k then Some es else gget s' k
  end.

(** Insert or replace the value of a key.  [HashMap::entry] and [get_mut]:
    mock_function.rs 2525-2542. *)
Fixpoint gput (s : gstore) (k : key) (es : list (expectation V U)) : gstore :=
  match s with
  | [] => [(k, es)]
  | (k', es') :: s' =>
      if Nat.eqb k' k then (k', es) :: s' else (k', es') :: gput s' k es
  end.

(** ** The store of one method: [Expectations], or [GenericExpectations] for a
    generic method (mock_function.rs 737-744). *)
Inductive slot : Type :=
| SPlain (es : list (expectation V U))
| SGeneric (s : gstore).

(** What the code generator knows about one method.  [MockFunction]:
    mock_function.rs 403-464, as far as running needs it. *)
Record mdecl : Type := MDecl {
  md_me : method V;
  md_kind : kind;
  md_generic : bool;   (** [is_method_generic] (mock_function.rs 795-799) *)
  md_static : bool     (** [is_static]: no receiver (mock_function.rs 202-247) *)
}.

(** [Expectations::new] / [GenericExpectations::new] (1223-1225, 2478-2480). *)
Definition slot_new (md : mdecl) : slot :=
  if md_generic md then SGeneric [] else SPlain [].

(** [Expectations::call], or [GenericExpectations::call]: look the key up, no
    entry means no match (mock_function.rs 2523-2532). *)
Definition slot_call (c : cfg) (md : mdecl) (s : slot) (k : key) (args : list V)
    (wr : V -> V) (w : world U) : slot * world U * res (option V) :=
  match s with
  | SPlain es =>
      let '(es', w', r) := expectations_call c (md_me md) es args wr w in
      (SPlain es', w', r)
  | SGeneric st =>
      match gget st k with
      | None => (s, w, Ret None)
      | Some es =>
          let '(es', w', r) := expectations_call c (md_me md) es args wr w in
          (SGeneric (gput st k es'), w', r)
      end
  end.

(** The expectations that a key selects; an absent entry is empty.  mock_function.rs
    2525-2528, 2535-2542. *)
Definition slot_get (s : slot) (k : key) : list (expectation V U) :=
  match s with
  | SPlain es => es
  | SGeneric st => match gget st k with Some es => es | None => [] end
  end.

(** What was changed through the reference that mock_function.rs 1216-1221,
    2535-2542 return. *)
Definition slot_put (s : slot) (k : key) (es : list (expectation V U)) : slot :=
  match s with
  | SPlain _ => SPlain es
  | SGeneric st => SGeneric (gput st k es)
  end.

(** [expect] (mock_function.rs 1216-1221, 2535-2542, 1525-1539) followed by the
    builder chain on the reference it returns, which points at the last
    element. *)
Definition slot_expect (c : cfg) (md : mdecl) (s : slot) (k : key) (th : nat)
    (l : list (setter V U)) (t : seqtab) : slot * seqtab * res unit :=
  let es := slot_get s k in
  let e0 := expectation_default c (md_me md) (md_kind md) in
  let '(e, t', r) := apply_setters c th l e0 t in
  (slot_put s k (es ++ [e]), t', r).

(** Dropping several vectors of expectations one after the other, with the glue of
    [drop_exps].  The values of the map of mock_function.rs 2464-2467. *)
Fixpoint drop_many (c : cfg) (me : method V) (l : list (list (expectation V U)))
    (panicking : bool) : res unit :=
  match l with
  | [] => Ret tt
  | es :: l' =>
      match drop_exps c me es panicking with
      | Ret _ => drop_many c me l' panicking
      | Abort => Abort
      | Panic m =>
          match drop_many c me l' true with
          | Ret _ => Panic m
          | _ => Abort
          end
      end
  end.

(** The order in which a [HashMap] yields its entries.  [HashMap::drain] at
    mock_function.rs 2471-2476, and the map's destructor. *)
Definition shuffle := gstore -> gstore.

(** All expectations of a slot, in the order in which they are dropped.
    [Expectations]: mock_function.rs 1205; [GenericExpectations]: 2464-2467. *)
Definition slot_drop (c : cfg) (md : mdecl) (sh : shuffle) (s : slot) (panicking : bool)
  : res unit :=
  match s with
  | SPlain es => drop_exps c (md_me md) es panicking
  | SGeneric st => drop_many c (md_me md) (map snd (sh st)) panicking
  end.

(** [checkpoint] empties the store before the drained expectations are dropped
    ([Vec::drain] 1210-1213, [HashMap::drain] 2471-2476). *)
Definition slot_clear (s : slot) : slot :=
  match s with
  | SPlain es => SPlain (fst (expectations_checkpoint es))
  | SGeneric _ => SGeneric []
  end.

(** mock_function.rs 596-599: the contribution of a non-static method to
    [checkpoint]: drain, and drop the [Drain] at the end of the statement. *)
Definition slot_checkpoint (c : cfg) (md : mdecl) (sh : shuffle) (s : slot) (panicking : bool)
  : slot * res unit :=
  (slot_clear s, slot_drop c md sh s panicking).

(** ** Mock structs (mock_item_struct.rs)

    [sd_traits]: the methods of each implemented trait (after
    [unique_trait_iter]); [sd_methods]: inherent methods. *)

(** mock_item_struct.rs 129-145. *)
Record sdecl : Type := SDecl { sd_traits : list (list mdecl); sd_methods : list mdecl }.

(** [!meth.is_static()]: mock_item_struct.rs 97, 105, 117, 263; [is_static]:
    mock_function.rs 815-817. *)
Definition nonstatic (md : mdecl) : bool := negb (md_static md).

(** mock_item_struct.rs 90-93: [Methods::all_static]. *)
Definition all_static (ms : list mdecl) : bool := forallb md_static ms.

(** mock_item_struct.rs 292-304 (fields of the struct, in drop order), 282-291 and
    95-100 (order of the statements of [checkpoint]), 415 (fields of the
    sub-structs): sub-structs of traits that have a non-static method, then
    inherent methods; within each, only the non-static ones.  The nesting of
    sub-structs is flattened. *)
Definition struct_fields (sd : sdecl) : list mdecl :=
  List.concat (map (filter nonstatic) (filter (fun ms => negb (all_static ms)) (sd_traits sd)))
  ++ filter nonstatic (sd_methods sd).

(** A field of the mock struct: mock_function.rs 746-763. *)
Record field : Type := Field { f_decl : mdecl; f_slot : slot }.

(** A mock struct: mock_item_struct.rs 335-338. *)
Definition object := list field.

(** mock_item_struct.rs 305-316, 340-347: [Default for Mock...]; [new] is the same
    (167-184). *)
Definition object_new (sd : sdecl) : object :=
  map (fun md => Field md (slot_new md)) (struct_fields sd).

(** mock_item_struct.rs 356-359: [checkpoint]: statement by statement; a panic
    leaves the later fields as they are. *)
Fixpoint object_checkpoint (c : cfg) (sh : shuffle) (o : object) (panicking : bool)
  : object * res unit :=
  match o with
  | [] => ([], Ret tt)
  | f :: o' =>
      let (s', r) := slot_checkpoint c (f_decl f) sh (f_slot f) panicking in
      match r with
      | Ret _ =>
          let (o2, r2) := object_checkpoint c sh o' panicking in
          (Field (f_decl f) s' :: o2, r2)
      | Panic m => (Field (f_decl f) s' :: o', Panic m)
      | Abort => (Field (f_decl f) s' :: o', Abort)
      end
  end.

(** Dropping the struct (drop glue): the fields in order of declaration; after a
    panic the remaining fields are dropped while unwinding.  The struct is that of
    mock_item_struct.rs 335-338; it has no [Drop] of its own. *)
Fixpoint object_drop (c : cfg) (sh : shuffle) (o : object) (panicking : bool) : res unit :=
  match o with
  | [] => Ret tt
  | f :: o' =>
      match slot_drop c (f_decl f) sh (f_slot f) panicking with
      | Ret _ => object_drop c sh o' panicking
      | Abort => Abort
      | Panic m =>
          match object_drop c sh o' true with
          | Ret _ => Panic m
          | _ => Abort
          end
      end
  end.

(** mock_function.rs 564-576: a call of a non-static method: [None] becomes the
    "No matching expectation found" panic. *)
Definition field_call (c : cfg) (f : field) (k : key) (args : list V) (wr : V -> V) (w : world U)
  : field * world U * res V :=
  let '(s', w', r) := slot_call c (f_decl f) (f_slot f) k args wr w in
  (Field (f_decl f) s', w',
   let? o := r in
   match o with
   | Some v => Ret v
   | None => Panic (MNoMatch (call_desc (md_me (f_decl f)) args))
   end).

(** ** Static methods (mock_function.rs 539-562, 1432-1439, 1503-1508)

    A process-global mutex around the store. *)
Record smutex : Type := SMutex { sm_poison : bool; sm_slot : slot }.

(** The initial value of the static: mock_function.rs 1434-1439, 1505-1508. *)
Definition smutex_new (md : mdecl) : smutex := SMutex false (slot_new md).

(** mock_function.rs 549-560: call of a static method or free function: lock
    (panics if poisoned), dispatch with the lock held, unlock, and only then
    turn [None] into a panic. *)
Definition static_call (c : cfg) (md : mdecl) (sm : smutex) (k : key) (args : list V)
    (w : world U) : smutex * world U * res V :=
  if sm_poison sm then (sm, w, Panic MPoison)
  else
    let '(s', w', r) := slot_call c md (sm_slot sm) k args (fun v => v) w in
    match r with
    | Panic m => (SMutex (negb (w_panicking w)) s', w', Panic m)
    | Abort => (SMutex false s', w', Abort)
    | Ret (Some v) => (SMutex false s', w', Ret v)
    | Ret None => (SMutex false s', w', Panic (MNoMatch (call_desc (md_me md) args)))
    end.

(** mock_function.rs 1621-1625 and 1464-1470, 1525-1539: [Context::expect] followed
    by the builder chain on the [ExpectationGuard], which holds the lock; a
    panic in the chain poisons. *)
Definition context_expect (c : cfg) (md : mdecl) (sm : smutex) (k : key)
    (l : list (setter V U)) (t : seqtab) (w : world U) : smutex * seqtab * res unit :=
  if sm_poison sm then (sm, t, Panic MPoison)
  else
    let '(s', t', r) := slot_expect c md (sm_slot sm) k (w_thread w) l t in
    match r with
    | Panic m => (SMutex (negb (w_panicking w)) s', t', Panic m)
    | _ => (SMutex false s', t', r)
    end.

(** mock_function.rs 1611-1617 ([do_checkpoint]) and 586-595: lock (panics if
    poisoned), drain into a [Vec], unlock, drop the [Vec]. *)
Definition static_checkpoint (c : cfg) (md : mdecl) (sh : shuffle) (sm : smutex)
    (panicking : bool) : smutex * res unit :=
  if sm_poison sm then (sm, Panic MPoison)
  else (SMutex false (slot_clear (sm_slot sm)),
        slot_drop c md sh (sm_slot sm) panicking).

(** mock_function.rs 1632-1648: [Drop for Context]. *)
Definition context_drop (c : cfg) (md : mdecl) (sh : shuffle) (sm : smutex)
    (panicking : bool) : smutex * res unit :=
  if panicking then
    (* clear the poison, lock, drain, drop the drained expectations *)
    (SMutex false (slot_clear (sm_slot sm)),
     slot_drop c md sh (sm_slot sm) true)
  else static_checkpoint c md sh sm false.

(** ** Mock modules (mock_item.rs 185, 190-194): one statement per function. *)
Definition statics := list (mdecl * smutex).

(** [pub fn checkpoint()] of a module: mock_item.rs 190-194. *)
Fixpoint module_checkpoint (c : cfg) (sh : shuffle) (ss : statics) (panicking : bool)
  : statics * res unit :=
  match ss with
  | [] => ([], Ret tt)
  | (md, sm) :: ss' =>
      let (sm', r) := static_checkpoint c md sh sm panicking in
      match r with
      | Ret _ =>
          let (ss2, r2) := module_checkpoint c sh ss' panicking in
          ((md, sm') :: ss2, r2)
      | Panic m => ((md, sm') :: ss', Panic m)
      | Abort => ((md, sm') :: ss', Abort)
      end
  end.

(** ** Tests

    A test works on mock objects, static methods, sequences and the user state
    by the operations below.  Indices select the object, the method (position
    in the object's fields) or the static method; an index that does not
    exist is a program that does not compile, and does nothing. *)

(** The state has no lines of its own; its parts are mock_item_struct.rs 335-338,
    mock_function.rs 1434-1439, 1505-1508 and lib.rs 1699-1702, 1766-1769. *)
Record sys : Type := Sys {
  y_world : world U;
  y_seqs : seqtab;
  y_objs : list object;
  y_stats : statics
}.

(** The public functions of generated code: mock_function.rs 474-706, 1604-1648,
    mock_item_struct.rs 340-361, mock_item.rs 190-194; lib.rs 1773-1775. *)
Inductive op : Type :=
| ONew (sd : sdecl)                                            (* MockX::new() *)
| OExpect (o m : nat) (k : key) (l : list (setter V U))        (* mock.expect_m()... *)
| OCall (o m : nat) (k : key) (args : list V) (wr : V -> V)    (* mock.m(args) *)
| OCheckpoint (o : nat)                                        (* mock.checkpoint() *)
| ODrop (o : nat)                                              (* drop(mock) *)
| OCtxExpect (s : nat) (k : key) (l : list (setter V U))       (* ctx.expect()... *)
| OStaticCall (s : nat) (k : key) (args : list V)              (* MockX::m(args) *)
| OCtxCheckpoint (s : nat)                                     (* ctx.checkpoint() *)
| OCtxDrop (s : nat)                                           (* drop(ctx) *)
| OModCheckpoint                                               (* mock_mod::checkpoint() *)
| OThread (t : nat)                                            (* continue on thread t *)
| OUnwinding (b : bool)                                        (* enter / leave unwinding *)
| OUser (f : U -> U).                                          (* the test's own code *)

(** Update of a component (see [step]); mock_function.rs 474-578 changes the world
    through calls. *)
Definition set_world (y : sys) (w : world U) : sys :=
  Sys w (y_seqs y) (y_objs y) (y_stats y).
(** Update of a component (see [step]); the objects of mock_item_struct.rs 335-338.
    *)
Definition set_objs (y : sys) (l : list object) : sys :=
  Sys (y_world y) (y_seqs y) l (y_stats y).
(** Update of a component (see [step]); the statics of mock_function.rs 1434-1439,
    1505-1508. *)
Definition set_stats (y : sys) (l : statics) : sys :=
  Sys (y_world y) (y_seqs y) (y_objs y) l.

(** An operation that returns [()], such as mock_item_struct.rs 356-359. *)
Definition unit_res (r : res unit) : res (option V) := let? x := r in Ret None.

(** One operation of a test: what the functions listed at [op] (mock_function.rs
    474-706, 1604-1648, mock_item_struct.rs 340-361, mock_item.rs 190-194) do to the
    state. *)
Definition step (c : cfg) (sh : shuffle) (y : sys) (o : op) : sys * res (option V) :=
  let w := y_world y in
  match o with
  | ONew sd => (set_objs y (y_objs y ++ [object_new sd]), Ret None)
  | OExpect i m k l =>
      match nth_error (y_objs y) i with
      | None => (y, Ret None)
      | Some ob =>
          match nth_error ob m with
          | None => (y, Ret None)
          | Some f =>
              let '(s', t', r) :=
                slot_expect c (f_decl f) (f_slot f) k (w_thread w) l (y_seqs y) in
              (Sys w t' (set_nth (y_objs y) i (set_nth ob m (Field (f_decl f) s'))) (y_stats y),
               unit_res r)
          end
      end
  | OCall i m k args wr =>
      match nth_error (y_objs y) i with
      | None => (y, Ret None)
      | Some ob =>
          match nth_error ob m with
          | None => (y, Ret None)
          | Some f =>
              let '(f', w', r) := field_call c f k args wr w in
              (Sys w' (y_seqs y) (set_nth (y_objs y) i (set_nth ob m f')) (y_stats y),
               let? v := r in Ret (Some v))
          end
      end
  | OCheckpoint i =>
      match nth_error (y_objs y) i with
      | None => (y, Ret None)
      | Some ob =>
          let (ob', r) := object_checkpoint c sh ob (w_panicking w) in
          (set_objs y (set_nth (y_objs y) i ob'), unit_res r)
      end
  | ODrop i =>
      match nth_error (y_objs y) i with
      | None => (y, Ret None)
      | Some ob =>
          (set_objs y (set_nth (y_objs y) i []),
           unit_res (object_drop c sh ob (w_panicking w)))
      end
  | OCtxExpect s k l =>
      match nth_error (y_stats y) s with
      | None => (y, Ret None)
      | Some (md, sm) =>
          let '(sm', t', r) := context_expect c md sm k l (y_seqs y) w in
          (Sys w t' (y_objs y) (set_nth (y_stats y) s (md, sm')), unit_res r)
      end
  | OStaticCall s k args =>
      match nth_error (y_stats y) s with
      | None => (y, Ret None)
      | Some (md, sm) =>
          let '(sm', w', r) := static_call c md sm k args w in
          (Sys w' (y_seqs y) (y_objs y) (set_nth (y_stats y) s (md, sm')),
           let? v := r in Ret (Some v))
      end
  | OCtxCheckpoint s =>
      match nth_error (y_stats y) s with
      | None => (y, Ret None)
      | Some (md, sm) =>
          let (sm', r) := static_checkpoint c md sh sm (w_panicking w) in
          (set_stats y (set_nth (y_stats y) s (md, sm')), unit_res r)
      end
  | OCtxDrop s =>
      match nth_error (y_stats y) s with
      | None => (y, Ret None)
      | Some (md, sm) =>
          let (sm', r) := context_drop c md sh sm (w_panicking w) in
          (set_stats y (set_nth (y_stats y) s (md, sm')), unit_res r)
      end
  | OModCheckpoint =>
      let (ss, r) := module_checkpoint c sh (y_stats y) (w_panicking w) in
      (set_stats y ss, unit_res r)
  | OThread t =>
      (set_world y (World (w_user w) (w_levels w) t (w_panicking w)), Ret None)
  | OUnwinding b =>
      (set_world y (World (w_user w) (w_levels w) (w_thread w) b), Ret None)
  | OUser f => (set_world y (set_user w (f (w_user w))), Ret None)
  end.

(** A test that catches every panic: the results of all its operations.  Consecutive
    calls of the functions of [op]; the test itself is not in
    /repo/mockall_derive/src. [step] cites mock_function.rs 474-706. *)
Fixpoint run (c : cfg) (sh : shuffle) (y : sys) (l : list op) : sys * list (res (option V)) :=
  match l with
  | [] => (y, [])
  | o :: l' =>
      let (y1, r) := step c sh y o in
      let (y2, rs) := run c sh y1 l' in
      (y2, r :: rs)
  end.

(** The state before the test: no objects, no expectations, all sequences new.  The
    statics are those of mock_function.rs 1434-1439, 1505-1508. *)
Definition init (u : U) (decls : list mdecl) : sys :=
  Sys (World u (fun _ => 0) 0%nat false) sequence_new []
      (map (fun md => (md, smutex_new md)) decls).

End Mock.

Arguments gstore : clear implicits.
Arguments slot : clear implicits.
Arguments mdecl : clear implicits.
Arguments sdecl : clear implicits.
Arguments field : clear implicits.
Arguments object : clear implicits.
Arguments smutex : clear implicits.
Arguments statics : clear implicits.
Arguments sys : clear implicits.
Arguments op : clear implicits.
Arguments shuffle : clear implicits.
