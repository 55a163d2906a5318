(** * NestSpec: what calls made by closures mean

    Calls that closures make are ordinary calls, made at the moment when the closure
    makes them.  The only thing that is remembered of the calls that are going on is which mutexes
    they hold: those of the [Rfunc]s of expectations whose closure runs and
    those of the stores of static functions. *)

From Coq Require Import NArith List Bool String.
From Verif Require Import Base Times Expect Conc ConcSpec Nest.
Import ListNotations.

Section NestSpec.
Context {V U : Type}.
Notation rval := (rval V U).
Notation ncall := (ncall V).
Notation sstate := (sstate (V := rval) (U := U)).

(** How a call comes out: it ends, or it waits for ever for a mutex that its own
    thread holds. *)
Inductive outcome : Type :=
| Ends (st : sstate) (r : res V)
| Hangs.

(** The expectation that accepts the call: the one that is found, if its count and
    its sequence permit the call. *)
Definition answering (c : cfg) (me : method rval) (es : list (expectation rval U))
    (args : list rval) (w : world U) : option nat :=
  match find_exp c (Nat.eqb (List.length es) 1) es args w with
  | (es1, w1, Ret (Some i)) =>
      match nth_error es1 i with
      | Some e =>
          match common_call c me (e_common e) (call_desc me args) w1 with
          | (_, _, Ret _) => Some i
          | _ => None
          end
      | None => None
      end
  | _ => None
  end.

Definition user_of (st : sstate) : U := let '(_, _, u, _) := st in u.
Definition with_user (st : sstate) (u : U) : sstate := let '(ms, sp, _, l) := st in (ms, sp, u, l).
Definition meths_of (st : sstate) : list (cmeth rval U) := let '(ms, _, _, _) := st in ms.

(** The rest of a closure, [call] being how a call comes out. *)
Fixpoint drive (call : sstate -> ncall -> option outcome) (st : sstate) (v : rval)
  : option outcome :=
  match v with
  | RVal v => Some (Ends st (Ret v))
  | RReq y k =>
      match call st y with
      | Some (Ends st1 r1) =>
          match k r1 (user_of st1) with
          | (u, Ret v') => drive call (with_user st1 u) v'
          | (u, Panic m) => Some (Ends (with_user st1 u) (Panic m))
          | (u, Abort) => Some (Ends (with_user st1 u) Abort)
          end
      | o => o
      end
  end.

(** The closure of expectation [i] of method [m] has ended: its [Rfunc] is poisoned iff
    it panicked. *)
Definition close_rfunc (st : sstate) (m i : nat) (r : res V) : sstate :=
  let '(ms, sp, u, l) := st in
  match nth_error ms m with
  | Some cm =>
      match nth_error (cm_exps cm) i with
      | Some e =>
          match e_action e with
          | AStatic rf _ =>
              let panicked := match r with Panic _ => true | _ => false end in
              (set_nth ms m (CMeth (cm_me cm) (cm_mutex cm)
                 (set_nth (cm_exps cm) i (Expectation (e_common e) (AStatic rf panicked)))), sp, u, l)
          | _ => st
          end
      | None => st
      end
  | None => st
  end.

(** The call has ended: a panic poisons the store of a static function. *)
Definition close_store (st : sstate) (cm : cmeth rval U) (r : res V) : sstate :=
  let '(ms, sp, u, l) := st in
  match cm_mutex cm, r with
  | Some g, Panic _ => (ms, fun g' => (Nat.eqb g' g || sp g')%bool, u, l)
  | _, _ => st
  end.

Definition is_owned (a : action rval U) : bool := match a with AStatic _ _ => true | _ => false end.

(** A call by thread [t] while the mutexes [hr] and [hs] are held.  [n] bounds the depth
    of nesting; [None]: it was too small. *)
Fixpoint neval (n : nat) (c : cfg) (t : nat) (hr : list (nat * nat)) (hs : list nat)
    (st : sstate) (y : ncall) : option outcome :=
  match n with
  | O => None
  | S n' =>
      let '(ms, sp, u, l) := st in
      match nth_error ms (nc_m y) with
      | None => Some Hangs                       (* no such method *)
      | Some cm =>
          let me := cm_me cm in
          if match cm_mutex cm with Some g => existsb (Nat.eqb g) hs | None => false end then Some Hangs
          else if match cm_mutex cm with Some g => sp g | None => false end
          then Some (Ends st (Panic MPoison))
          else
            let args := map RVal (nc_args y) in
            let w := World u l t false in
            let '(es, w1, r) := expectations_call c me (cm_exps cm) args (fun v => v) w in
            let st1 := (set_nth ms (nc_m y) (CMeth me (cm_mutex cm) es), sp, w_user w1, w_levels w1) in
            match answering c me (cm_exps cm) args w with
            | None =>
                Some (match r with
                      | Ret None => Ends st1 (Panic (MNoMatch (call_desc me args)))
                      | Ret (Some v) => Ends st1 (to_val (Ret v))
                      | Panic m => Ends (close_store st1 cm (Panic m)) (Panic m)
                      | Abort => Ends st1 Abort
                      end)
            | Some i =>
                let owned := match nth_error (cm_exps cm) i with
                             | Some e => is_owned (e_action e)
                             | None => false
                             end in
                if (owned && existsb (fun k => Nat.eqb (fst k) (nc_m y) && Nat.eqb (snd k) i) hr)%bool
                then Some Hangs
                else
                  match r with
                  | Ret (Some v) =>
                      if owned then
                        let hs' := match cm_mutex cm with Some g => g :: hs | None => hs end in
                        match drive (neval n' c t ((nc_m y, i) :: hr) hs') st1 v with
                        | Some (Ends st2 r2) =>
                            Some (Ends (close_store (close_rfunc st2 (nc_m y) i r2) cm r2) r2)
                        | o => o
                        end
                      else Some (Ends st1 (to_val (Ret v)))
                  | Ret None => Some (Ends st1 (Panic (MNoMatch (call_desc me args))))   (* not reached *)
                  | Panic m => Some (Ends (close_store st1 cm (Panic m)) (Panic m))
                  | Abort => Some (Ends st1 Abort)
                  end
            end
      end
  end.

(** The calls of a test, one after the other. *)
Fixpoint nevals (n : nat) (c : cfg) (t : nat) (st : sstate) (l : list ncall)
  : option (sstate * list (res V) * bool) :=
  match l with
  | [] => Some (st, [], true)
  | y :: l' =>
      match neval n c t [] [] st y with
      | Some (Ends st1 r) =>
          match nevals n c t st1 l' with
          | Some (st2, rs, b) => Some (st2, r :: rs, b)
          | None => None
          end
      | Some Hangs => Some (st, [], false)
      | None => None
      end
  end.

(** The machine is in state [st] and nobody holds a mutex. *)
Definition at_rest (b : csys rval U) (st : sstate) : Prop :=
  let '(ms, sp, u, l) := st in
  cs_meths b = ms /\ cs_user b = u /\ cs_levels b = l /\ (forall g, cs_sp b g = sp g) /\
  (forall m i, cs_ml b m i = None) /\ (forall m i, cs_rl b m i = None) /\ (forall g, cs_sl b g = None).

(** The number of expectations. *)
Definition size_of (ms : list (cmeth rval U)) : nat :=
  list_sum (map (fun cm => List.length (cm_exps cm)) ms).

(** The default value of a return type is a value. *)
Definition value_defaults (ms : list (cmeth rval U)) : Prop :=
  forall cm y k, In cm ms -> me_default (cm_me cm) <> Some (RReq y k).

(** All the calls that a closure may still make satisfy [P]. *)
Inductive only (P : ncall -> Prop) : rval -> Prop :=
| only_val v : only P (RVal v)
| only_req y k :
    P y -> (forall r u u' v, k r u = (u', Ret v) -> only P v) -> only P (RReq y k).

(** *** Several threads *)

(** Every thread has made all its calls. *)
Definition nfinished (s : nsys V U) : Prop :=
  forall t th, nth_error (ns_threads s) t = Some th -> nt_stack th = [] /\ nt_todo th = [].

(** The return closure that an expectation keeps. *)
Definition closure_of (e : expectation rval U) : option (ucode U (list rval) rval) :=
  match e_action e with
  | AStatic (SMut f) _ | AStatic (SMutSt _ f) _ | AStatic (SOnce f) _ | AStatic (SOnceSt _ f) _ => Some f
  | _ => None
  end.

(** Closures call only methods that are lower in some order, and functions
    that share a store are equal in it. *)
Definition ordered (rank : nat -> nat) (ms : list (cmeth rval U)) : Prop :=
  (forall m cm e f args u u' v,
     nth_error ms m = Some cm -> In e (cm_exps cm) -> closure_of e = Some f -> f args u = (u', Ret v) ->
     only (fun y => (rank (nc_m y) < rank m)%nat /\ (nc_m y < List.length ms)%nat) v) /\
  (forall m m' cm cm' g,
     nth_error ms m = Some cm -> nth_error ms m' = Some cm' ->
     cm_mutex cm = Some g -> cm_mutex cm' = Some g -> rank m = rank m').

(** The closure of expectation [i] of method [m] runs in call [p]. *)
Definition runs_closure (m i : nat) (p : pc rval U) : bool :=
  match p with
  | PExec x j _ | PExit x j _ => (Nat.eqb (cc_m x) m && Nat.eqb j i)%bool
  | _ => false
  end.

(** The call number [d] (0 is the innermost) of thread [t]. *)
Definition call_at (s : nsys V U) (t d : nat) : option (pc rval U) :=
  match nth_error (ns_threads s) t with Some th => nth_error (nt_stack th) d | None => None end.

End NestSpec.
