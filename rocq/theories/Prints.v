(** * Prints: the user's [Debug] and [Display] implementations

    Messages contain the arguments of a call, printed by their [Debug] implementations, and the
    predicates of an expectation, printed by their [Display] implementations.  These are code of the
    user, which may have effects and may panic (a formatter that returns an error makes [format!]
    panic).  In [Expect.v] and [Mock.v] they are texts; here they are run where the generated code
    runs them.  Everything else is as there. *)

From Coq Require Import NArith List Bool String.
From Verif Require Import Base Times Expect Mock.
Import ListNotations.
Open Scope N_scope.

Section Prints.
Context {V U : Type}.

(** [p_arg]: how an argument of a method is printed (lib.rs 1477-1510).  [p_pred]: how the predicate
    of this name is printed (mock_function.rs 1750-1753; [Predicate] requires [Display]). *)
Record printers : Type := Printers {
  p_arg : method V -> V -> U -> U * res string;
  p_pred : string -> U -> U * res string
}.

Section Code.
Context (p : printers).

(** The arguments of [format!] are printed one after the other: mock_function.rs 643, 1750-1753. *)
Fixpoint print_all (l : list (U -> U * res string)) (u : U) : U * res (list string) :=
  match l with
  | [] => (u, Ret [])
  | f :: l' =>
      match f u with
      | (u1, Ret s) => let (u2, r) := print_all l' u1 in (u2, let? ss := r in Ret (s :: ss))
      | (u1, Panic m) => (u1, Panic m)
      | (u1, Abort) => (u1, Abort)
      end
  end.

(** mock_function.rs 632-644: [desc]. *)
Definition print_args (me : method V) (args : list V) (u : U) : U * res (list string) :=
  print_all (map (p_arg p me) args) u.
(** mock_function.rs 632-644: [desc]. *)
Definition desc_of (me : method V) (texts : list string) : string :=
  (me_desc me ++ "(" ++ join_comma texts ++ ")")%string.

(** mock_function.rs 1742-1754: [Display for Matcher]. *)
Definition print_matcher (m : matcher V U) (u : U) : U * res string :=
  match m with
  | MtPred ps => let (u', r) := print_all (map (fun q => p_pred p (fst q)) ps) u in (u', let? l := r in Ret (join_comma l))
  | _ => (u, Ret (matcher_show m))
  end.

(** Printing with the matcher's mutex held: mock_function.rs 960, 1041, 2034, 2099, 2191.  A panic
    poisons the mutex, unless the thread was panicking when it locked. *)
Definition print_locked (k : common V U) (w : world U) : common V U * world U * res string :=
  if c_mpoison k then (k, w, Panic MPoison)
  else
    let (u, r) := print_matcher (c_matcher k) (w_user w) in
    (match r with
     | Panic _ => Common (c_matcher k) (negb (w_panicking w)) (c_seq k) (c_times k)
     | _ => k
     end, set_user w u, r).

(** mock_function.rs 956-968: [Common::call]. *)
Definition common_call_p (c : cfg) (me : method V) (k : common V U) (desc : string) (w : world U)
  : common V U * world U * res unit :=
  let (t', r) := times_call c (c_times k) in
  let k1 := set_times k t' in
  match r with
  | Abort => (k1, w, Abort)
  | Panic m => (k1, w, Panic m)
  | Ret (Err e) =>
      let '(k2, w2, s) := print_locked k1 w in
      (k2, w2, let? s := s in Panic (MCall (me_name me) s e))
  | Ret (Ok _) =>
      match verify_sequence k1 desc w with
      | Abort => (k1, w, Abort)
      | Panic m => (k1, w, Panic m)
      | Ret _ =>
          match times_is_satisfied t' with
          | TooFew => (k1, w, Ret tt)
          | _ => let (w', r') := satisfy_sequence c k1 w in (k1, w', r')
          end
      end
  end.

(** [unwrap_or_else] of what an [Rfunc] returns: mock_function.rs 2032-2037, 2189-2194. *)
Definition unwrap_p (me : method V) (k : common V U) (r : result V rferr) (w : world U)
  : common V U * world U * res V :=
  match r with
  | Ok v => (k, w, Ret v)
  | Err e => let '(k', w', s) := print_locked k w in (k', w', let? s := s in Panic (MRet (me_name me) s e))
  end.

(** mock_function.rs 2188-2194: [StaticExpectation::call] after [common.call].  The [Rfunc] is locked
    until the end. *)
Definition static_ret_p (c : cfg) (me : method V) (k : common V U) (rf : srfunc V U) (poison : bool)
    (args : list V) (w : world U) : common V U * action V U * world U * res V :=
  if poison then (k, AStatic rf poison, w, Panic MPoison)
  else
    let '(rf', w', r) := srfunc_call c me rf args w in
    let '(k', w2, r') :=
      match r with
      | Ret x => unwrap_p me k x w'
      | Panic m => (k, w', Panic m)
      | Abort => (k, w', Abort)
      end in
    match r' with
    | Panic m => (k', AStatic rf' (negb (w_panicking w)), w2, Panic m)
    | _ => (k', AStatic rf' false, w2, r')
    end.

(** mock_function.rs 2097-2103: [RefMutExpectation::call_mut] after [common.call]: the matcher is
    printed in any case. *)
Definition mut_ret_p (c : cfg) (me : method V) (k : common V U) (rf : mrfunc V U)
    (args : list V) (wr : V -> V) (w : world U) : common V U * mrfunc V U * world U * res V :=
  let '(k', w1, s) := print_locked k w in
  match s with
  | Panic m => (k', rf, w1, Panic m)
  | Abort => (k', rf, w1, Abort)
  | Ret s =>
      let '(rf', w2, r) := mrfunc_call c rf args wr w1 in
      (k', rf', w2, let? x := r in
                    match x with
                    | Ok v => Ret v
                    | Err e => Panic (MRet (me_name me) s e)
                    end)
  end.

(** mock_function.rs 2028-2038, 2093-2104, 2184-2195: [Expectation::call] / [call_mut].  The arguments
    are printed for [common.call], whether it needs the text or not. *)
Definition expectation_call_p (c : cfg) (me : method V) (e : expectation V U)
    (args : list V) (wr : V -> V) (w : world U) : expectation V U * world U * res V :=
  let (u, d) := print_args me args (w_user w) in
  let w0 := set_user w u in
  match d with
  | Panic m => (e, w0, Panic m)
  | Abort => (e, w0, Abort)
  | Ret texts =>
      let '(k, w1, r) := common_call_p c me (e_common e) (desc_of me texts) w0 in
      match r with
      | Panic m => (set_common e k, w1, Panic m)
      | Abort => (set_common e k, w1, Abort)
      | Ret _ =>
          match e_action e with
          | AStatic rf poison =>
              let '(k2, a, w2, r2) := static_ret_p c me k rf poison args w1 in
              (Expectation k2 a, w2, r2)
          | ARef rf =>
              let '(k2, w2, r2) := unwrap_p me k (rrfunc_call c rf) w1 in
              (set_common e k2, w2, r2)
          | AMut rf =>
              let '(k2, rf', w2, r2) := mut_ret_p c me k rf args wr w1 in
              (Expectation k2 (AMut rf'), w2, r2)
          end
      end
  end.

(** mock_function.rs 2349-2359, 2387-2398, 2426-2436: [Expectations::call] / [call_mut]. *)
Definition expectations_call_p (c : cfg) (me : method V) (es : list (expectation V U))
    (args : list V) (wr : V -> V) (w : world U)
  : list (expectation V U) * world U * res (option V) :=
  let one := Nat.eqb (List.length es) 1 in
  let '(es1, w1, r) := find_exp c one es args w in
  match r with
  | Abort => (es1, w1, Abort)
  | Panic m => (es1, w1, Panic m)
  | Ret None => (es1, w1, Ret None)
  | Ret (Some i) =>
      match nth_error es1 i with
      | None => (es1, w1, Ret None)      (* not reached: [i] was found in [es1] *)
      | Some e =>
          let '(e', w2, r2) := expectation_call_p c me e args wr w1 in
          (set_nth es1 i e', w2, let? v := r2 in Ret (Some v))
      end
  end.

(** mock_function.rs 2523-2532. *)
Definition slot_call_p (c : cfg) (md : mdecl V) (s : slot V U) (k : key) (args : list V)
    (wr : V -> V) (w : world U) : slot V U * world U * res (option V) :=
  match s with
  | SPlain es =>
      let '(es', w', r) := expectations_call_p c (md_me md) es args wr w in
      (SPlain es', w', r)
  | SGeneric st =>
      match gget st k with
      | None => (s, w, Ret None)
      | Some es =>
          let '(es', w', r) := expectations_call_p c (md_me md) es args wr w in
          (SGeneric (gput st k es'), w', r)
      end
  end.

(** mock_function.rs 564-576: the message is made before the call, whether it is needed or not. *)
Definition field_call_p (c : cfg) (f : field V U) (k : key) (args : list V) (wr : V -> V) (w : world U)
  : field V U * world U * res V :=
  let me := md_me (f_decl f) in
  let (u, d) := print_args me args (w_user w) in
  let w0 := set_user w u in
  match d with
  | Panic m => (f, w0, Panic m)
  | Abort => (f, w0, Abort)
  | Ret texts =>
      let '(s', w', r) := slot_call_p c (f_decl f) (f_slot f) k args wr w0 in
      (Field (f_decl f) s', w',
       let? o := r in
       match o with
       | Some v => Ret v
       | None => Panic (MNoMatch (desc_of me texts))
       end)
  end.

(** mock_function.rs 549-560: the message is made before the store is locked. *)
Definition static_call_p (c : cfg) (md : mdecl V) (sm : smutex V U) (k : key) (args : list V)
    (w : world U) : smutex V U * world U * res V :=
  let me := md_me md in
  let (u, d) := print_args me args (w_user w) in
  let w0 := set_user w u in
  match d with
  | Panic m => (sm, w0, Panic m)
  | Abort => (sm, w0, Abort)
  | Ret texts =>
      if sm_poison sm then (sm, w0, Panic MPoison)
      else
        let '(s', w', r) := slot_call_p c md (sm_slot sm) k args (fun v => v) w0 in
        match r with
        | Panic m => (SMutex (negb (w_panicking w)) s', w', Panic m)
        | Abort => (SMutex false s', w', Abort)
        | Ret (Some v) => (SMutex false s', w', Ret v)
        | Ret None => (SMutex false s', w', Panic (MNoMatch (desc_of me texts)))
        end
  end.

(** mock_function.rs 1037-1061: [Drop for Common]: the matcher is printed whether the text is needed
    or not, unless the thread is panicking. *)
Definition common_drop_p (c : cfg) (me : method V) (k : common V U) (panicking : bool) (u : U) : U * res unit :=
  if panicking then (u, Ret tt)
  else if c_mpoison k then (u, Panic MPoison)
  else
    let (u', r) := print_matcher (c_matcher k) u in
    (u', let? s := r in
         match times_is_satisfied (c_times k) with
         | TooFew =>
             Panic (MTooFew (me_name me) s (times_count (c_times k)) (times_minimum (c_times k)))
         | TooMany =>
             let? mx := times_maximum c (c_times k) in
             Panic (MTooMany (me_name me) s (times_count (c_times k)) mx)
         | Satisfied => Ret tt
         end).

(** Drop glue: one after the other; after a panic the rest while unwinding, when another panic aborts.
    For the vectors, maps and structs of mock_function.rs 1205, 2464-2467 and mock_item_struct.rs
    335-338. *)
Fixpoint glue {A : Type} (d : A -> bool -> U -> U * res unit) (l : list A) (panicking : bool) (u : U)
  : U * res unit :=
  match l with
  | [] => (u, Ret tt)
  | x :: l' =>
      match d x panicking u with
      | (u1, Ret _) => glue d l' panicking u1
      | (u1, Abort) => (u1, Abort)
      | (u1, Panic m) =>
          match glue d l' true u1 with
          | (u2, Ret _) => (u2, Panic m)
          | (u2, _) => (u2, Abort)
          end
      end
  end.

(** The vector of mock_function.rs 1205. *)
Definition drop_exps_p (c : cfg) (me : method V) : list (expectation V U) -> bool -> U -> U * res unit :=
  glue (fun e => common_drop_p c me (e_common e)).

(** [Expectations]: mock_function.rs 1205; [GenericExpectations]: 2464-2467. *)
Definition slot_drop_p (c : cfg) (md : mdecl V) (sh : shuffle V U) (s : slot V U) (panicking : bool) (u : U)
  : U * res unit :=
  match s with
  | SPlain es => drop_exps_p c (md_me md) es panicking u
  | SGeneric st => glue (drop_exps_p c (md_me md)) (map snd (sh st)) panicking u
  end.

(** mock_item_struct.rs 356-359: [checkpoint]. *)
Fixpoint object_checkpoint_p (c : cfg) (sh : shuffle V U) (o : object V U) (panicking : bool) (u : U)
  : object V U * U * res unit :=
  match o with
  | [] => ([], u, Ret tt)
  | f :: o' =>
      let f' := Field (f_decl f) (slot_clear (f_slot f)) in
      match slot_drop_p c (f_decl f) sh (f_slot f) panicking u with
      | (u1, Ret _) =>
          let '(o2, u2, r2) := object_checkpoint_p c sh o' panicking u1 in
          (f' :: o2, u2, r2)
      | (u1, Panic m) => (f' :: o', u1, Panic m)
      | (u1, Abort) => (f' :: o', u1, Abort)
      end
  end.

(** The struct of mock_item_struct.rs 335-338. *)
Definition object_drop_p (c : cfg) (sh : shuffle V U) : object V U -> bool -> U -> U * res unit :=
  glue (fun f => slot_drop_p c (f_decl f) sh (f_slot f)).

(** mock_function.rs 586-595, 1611-1617: the store is unlocked before the expectations are dropped. *)
Definition static_checkpoint_p (c : cfg) (md : mdecl V) (sh : shuffle V U) (sm : smutex V U)
    (panicking : bool) (u : U) : smutex V U * U * res unit :=
  if sm_poison sm then (sm, u, Panic MPoison)
  else
    let (u', r) := slot_drop_p c md sh (sm_slot sm) panicking u in
    (SMutex false (slot_clear (sm_slot sm)), u', r).

(** mock_function.rs 1632-1648: [Drop for Context]. *)
Definition context_drop_p (c : cfg) (md : mdecl V) (sh : shuffle V U) (sm : smutex V U)
    (panicking : bool) (u : U) : smutex V U * U * res unit :=
  if panicking then
    let (u', r) := slot_drop_p c md sh (sm_slot sm) true u in
    (SMutex false (slot_clear (sm_slot sm)), u', r)
  else static_checkpoint_p c md sh sm false u.

(** mock_item.rs 190-194. *)
Fixpoint module_checkpoint_p (c : cfg) (sh : shuffle V U) (ss : statics V U) (panicking : bool) (u : U)
  : statics V U * U * res unit :=
  match ss with
  | [] => ([], u, Ret tt)
  | (md, sm) :: ss' =>
      let '(sm', u1, r) := static_checkpoint_p c md sh sm panicking u in
      match r with
      | Ret _ =>
          let '(ss2, u2, r2) := module_checkpoint_p c sh ss' panicking u1 in
          ((md, sm') :: ss2, u2, r2)
      | Panic m => ((md, sm') :: ss', u1, Panic m)
      | Abort => ((md, sm') :: ss', u1, Abort)
      end
  end.

(** One operation of a test, as [step]: mock_function.rs 474-706, 1604-1648, mock_item_struct.rs
    340-361, mock_item.rs 190-194.  The operations that print nothing are those of [Mock.v]. *)
Definition step_p (c : cfg) (sh : shuffle V U) (y : sys V U) (o : op V U) : sys V U * res (option V) :=
  let w := y_world y in
  match o with
  | OCall i m k args wr =>
      match nth_error (y_objs y) i with
      | None => (y, Ret None)
      | Some ob =>
          match nth_error ob m with
          | None => (y, Ret None)
          | Some f =>
              let '(f', w', r) := field_call_p c f k args wr w in
              (Sys w' (y_seqs y) (set_nth (y_objs y) i (set_nth ob m f')) (y_stats y),
               let? v := r in Ret (Some v))
          end
      end
  | OCheckpoint i =>
      match nth_error (y_objs y) i with
      | None => (y, Ret None)
      | Some ob =>
          let '(ob', u, r) := object_checkpoint_p c sh ob (w_panicking w) (w_user w) in
          (set_world (set_objs y (set_nth (y_objs y) i ob')) (set_user w u), unit_res r)
      end
  | ODrop i =>
      match nth_error (y_objs y) i with
      | None => (y, Ret None)
      | Some ob =>
          let (u, r) := object_drop_p c sh ob (w_panicking w) (w_user w) in
          (set_world (set_objs y (set_nth (y_objs y) i [])) (set_user w u), unit_res r)
      end
  | OStaticCall s k args =>
      match nth_error (y_stats y) s with
      | None => (y, Ret None)
      | Some (md, sm) =>
          let '(sm', w', r) := static_call_p c md sm k args w in
          (Sys w' (y_seqs y) (y_objs y) (set_nth (y_stats y) s (md, sm')),
           let? v := r in Ret (Some v))
      end
  | OCtxCheckpoint s =>
      match nth_error (y_stats y) s with
      | None => (y, Ret None)
      | Some (md, sm) =>
          let '(sm', u, r) := static_checkpoint_p c md sh sm (w_panicking w) (w_user w) in
          (set_world (set_stats y (set_nth (y_stats y) s (md, sm'))) (set_user w u), unit_res r)
      end
  | OCtxDrop s =>
      match nth_error (y_stats y) s with
      | None => (y, Ret None)
      | Some (md, sm) =>
          let '(sm', u, r) := context_drop_p c md sh sm (w_panicking w) (w_user w) in
          (set_world (set_stats y (set_nth (y_stats y) s (md, sm'))) (set_user w u), unit_res r)
      end
  | OModCheckpoint =>
      let '(ss, u, r) := module_checkpoint_p c sh (y_stats y) (w_panicking w) (w_user w) in
      (set_world (set_stats y ss) (set_user w u), unit_res r)
  | _ => step c sh y o
  end.

(** A test that catches every panic, as [run]: mock_function.rs 474-706, 1604-1648. *)
Fixpoint run_p (c : cfg) (sh : shuffle V U) (y : sys V U) (l : list (op V U)) : sys V U * list (res (option V)) :=
  match l with
  | [] => (y, [])
  | o :: l' =>
      let (y1, r) := step_p c sh y o in
      let (y2, rs) := run_p c sh y1 l' in
      (y2, r :: rs)
  end.
End Code.
End Prints.

Arguments printers : clear implicits.
