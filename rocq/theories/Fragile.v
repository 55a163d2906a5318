(** * Fragile: single-threaded closures that die elsewhere

    [returning_st], [return_once_st], [return_const_st] and [withf_st] keep their closures in
    the fragile crate's [Fragile<Box<dyn ..>>] (mock_function.rs 1026, 1712, 1847-1849,
    1932-1939, 2133, 2272, 2307).  In [Mock.v] such a closure is dropped like any other.  Here
    it has the destructor that the crate (2.0) documents, which panics on any other thread.
    Closures in boxes always need to be dropped.  The destructors that user closures may have
    themselves are not modelled. *)

From Coq Require Import NArith List Bool String.
From Verif Require Import Base Times Expect Mock.
Import ListNotations.

Section Fragile.
Context {V U : Type}.

(** [Drop for Fragile] (fragile crate) on the thread [th] of a value of the thread
    [owner]. It does not look whether the thread is panicking.  The values are those
    of mock_function.rs 1712, 1847-1849, 1932-1939. *)
Definition fragile_drop (th owner : nat) (panicking : bool) : res unit :=
  if Nat.eqb owner th then Ret tt else Panic MDropThread.

(** The drop glue of the compiler: destructors in order; after a panic the remaining
    ones run while unwinding, and a second panic aborts.  The compiler's drop glue,
    for the structures of mock_function.rs 938-942, 1205, 2020-2023, 2085-2088,
    2175-2178. *)
Fixpoint drop_all (l : list (bool -> res unit)) (panicking : bool) : res unit :=
  match l with
  | [] => Ret tt
  | d :: l' =>
      match d panicking with
      | Ret _ => drop_all l' panicking
      | Abort => Abort
      | Panic m =>
          match drop_all l' true with
          | Ret _ => Panic m
          | _ => Abort
          end
      end
  end.

(** The [Fragile] in a [Matcher] (mock_function.rs 1712), and in an [Rfunc] (1847-1849,
    1932-1939). *)
Definition matcher_fragile (m : matcher V U) : list nat :=
  match m with MtFuncSt t _ => [t] | _ => [] end.
(** [Rfunc]: mock_function.rs 1847-1849, 1932-1939. *)
Definition action_fragile (a : action V U) : list nat :=
  match a with
  | AStatic (SMutSt t _) _ | AStatic (SOnceSt t _) _ | AMut (XMutSt t _ _) => [t]
  | _ => []
  end.

(** The destructors of an [Expectation]: [Drop for Common] (1037-1061), then the fields of
    [common] (938-942), then [rfunc] (2020-2023, 2085-2088, 2175-2178). *)
Definition exp_drops (c : cfg) (th : nat) (me : method V) (e : expectation V U)
  : list (bool -> res unit) :=
  common_drop c me (e_common e)
  :: map (fragile_drop th) (matcher_fragile (c_matcher (e_common e)) ++ action_fragile (e_action e)).

(** A store is a vector of expectations or a map of such vectors ([slot_drop]).
    mock_function.rs 1205, 2464-2467. *)
Definition slot_exps (sh : shuffle V U) (s : slot V U) : list (expectation V U) :=
  match s with
  | SPlain es => es
  | SGeneric st => List.concat (map snd (sh st))
  end.
(** The destructors of all of them: mock_function.rs 1037-1061, 1205, 2464-2467. *)
Definition slot_drops (c : cfg) (th : nat) (sh : shuffle V U) (md : mdecl V) (s : slot V U)
  : list (bool -> res unit) :=
  flat_map (exp_drops c th (md_me md)) (slot_exps sh s).
(** [slot_drop] with these destructors: mock_function.rs 1205, 2464-2467. *)
Definition fslot_drop (c : cfg) (th : nat) (sh : shuffle V U) (md : mdecl V) (s : slot V U)
    (panicking : bool) : res unit :=
  drop_all (slot_drops c th sh md s) panicking.

(** [object_drop].  The struct is that of mock_item_struct.rs 335-338. *)
Definition fobject_drop (c : cfg) (th : nat) (sh : shuffle V U) (o : object V U) (panicking : bool)
  : res unit :=
  drop_all (flat_map (fun f => slot_drops c th sh (f_decl f) (f_slot f)) o) panicking.

(** [object_checkpoint]: mock_item_struct.rs 356-359, mock_function.rs 596-599. *)
Fixpoint fobject_checkpoint (c : cfg) (th : nat) (sh : shuffle V U) (o : object V U)
    (panicking : bool) : object V U * res unit :=
  match o with
  | [] => ([], Ret tt)
  | f :: o' =>
      let s' := slot_clear (f_slot f) in
      match fslot_drop c th sh (f_decl f) (f_slot f) panicking with
      | Ret _ =>
          let (o2, r2) := fobject_checkpoint c th sh o' panicking in
          (Field (f_decl f) s' :: o2, r2)
      | Panic m => (Field (f_decl f) s' :: o', Panic m)
      | Abort => (Field (f_decl f) s' :: o', Abort)
      end
  end.

(** [static_checkpoint]: mock_function.rs 586-595, 1611-1617. *)
Definition fstatic_checkpoint (c : cfg) (th : nat) (sh : shuffle V U) (md : mdecl V)
    (sm : smutex V U) (panicking : bool) : smutex V U * res unit :=
  if sm_poison sm then (sm, Panic MPoison)
  else (SMutex false (slot_clear (sm_slot sm)), fslot_drop c th sh md (sm_slot sm) panicking).

(** [context_drop]: mock_function.rs 1632-1648. *)
Definition fcontext_drop (c : cfg) (th : nat) (sh : shuffle V U) (md : mdecl V)
    (sm : smutex V U) (panicking : bool) : smutex V U * res unit :=
  if panicking then
    (SMutex false (slot_clear (sm_slot sm)), fslot_drop c th sh md (sm_slot sm) true)
  else fstatic_checkpoint c th sh md sm false.

(** [module_checkpoint]: mock_item.rs 185, 190-194. *)
Fixpoint fmodule_checkpoint (c : cfg) (th : nat) (sh : shuffle V U) (ss : statics V U)
    (panicking : bool) : statics V U * res unit :=
  match ss with
  | [] => ([], Ret tt)
  | (md, sm) :: ss' =>
      let (sm', r) := fstatic_checkpoint c th sh md sm panicking in
      match r with
      | Ret _ =>
          let (ss2, r2) := fmodule_checkpoint c th sh ss' panicking in
          ((md, sm') :: ss2, r2)
      | Panic m => ((md, sm') :: ss', Panic m)
      | Abort => ((md, sm') :: ss', Abort)
      end
  end.

(** A call of a [return_once_st] closure takes the [Fragile] out of the [Rfunc]
    (mock_function.rs 1972-1979) and hands it over to [Fragile::into_inner], which panics on
    another thread.  Its argument is dropped while that panic unwinds.  So in [Mock.v] an
    expectation whose closure was used up by a call from another thread is one whose
    [Fragile] died there. *)
Definition used_elsewhere (th : nat) (ee : expectation V U * expectation V U) : bool :=
  match e_action (fst ee), e_action (snd ee) with
  | AStatic (SOnceSt t _) _, AStatic SExpired _ => negb (Nat.eqb t th)
  | _, _ => false
  end.

(** The expectations that a call looks at.  mock_function.rs 2349-2359, 2387-2398,
    2426-2436. *)
Definition looked_at (y : sys V U) (o : op V U) : list (expectation V U) :=
  match o with
  | OCall i m k _ _ =>
      match nth_error (y_objs y) i with
      | None => []
      | Some ob => match nth_error ob m with None => [] | Some f => slot_get (f_slot f) k end
      end
  | OStaticCall s k _ =>
      match nth_error (y_stats y) s with None => [] | Some (_, sm) => slot_get (sm_slot sm) k end
  | _ => []
  end.

(** [step] of Mock.v with these destructors; the lines are those cited there
    (mock_function.rs 474-706, 1604-1648). *)
Definition fstep (c : cfg) (sh : shuffle V U) (y : sys V U) (o : op V U) : sys V U * res (option V) :=
  let th := w_thread (y_world y) in
  let p := w_panicking (y_world y) in
  match o with
  | OCall _ _ _ _ _ | OStaticCall _ _ _ =>
      let (y', r) := step c sh y o in
      (y', if existsb (used_elsewhere th) (combine (looked_at y o) (looked_at y' o))
           then Abort else r)
  | OCheckpoint i =>
      match nth_error (y_objs y) i with
      | None => (y, Ret None)
      | Some ob =>
          let (ob', r) := fobject_checkpoint c th sh ob p in
          (set_objs y (set_nth (y_objs y) i ob'), unit_res r)
      end
  | ODrop i =>
      match nth_error (y_objs y) i with
      | None => (y, Ret None)
      | Some ob =>
          (set_objs y (set_nth (y_objs y) i []), unit_res (fobject_drop c th sh ob p))
      end
  | OCtxCheckpoint s =>
      match nth_error (y_stats y) s with
      | None => (y, Ret None)
      | Some (md, sm) =>
          let (sm', r) := fstatic_checkpoint c th sh md sm p in
          (set_stats y (set_nth (y_stats y) s (md, sm')), unit_res r)
      end
  | OCtxDrop s =>
      match nth_error (y_stats y) s with
      | None => (y, Ret None)
      | Some (md, sm) =>
          let (sm', r) := fcontext_drop c th sh md sm p in
          (set_stats y (set_nth (y_stats y) s (md, sm')), unit_res r)
      end
  | OModCheckpoint =>
      let (ss, r) := fmodule_checkpoint c th sh (y_stats y) p in (set_stats y ss, unit_res r)
  | _ => step c sh y o
  end.

(** [run].  See [step] of Mock.v (mock_function.rs 474-706, 1604-1648). *)
Fixpoint frun (c : cfg) (sh : shuffle V U) (y : sys V U) (l : list (op V U))
  : sys V U * list (res (option V)) :=
  match l with
  | [] => (y, [])
  | o :: l' =>
      let (y1, r) := fstep c sh y o in
      let (y2, rs) := frun c sh y1 l' in
      (y2, r :: rs)
  end.

End Fragile.
