(** * Spec: specifications for expectations, calls and histories

    Plain definitions in terms of which the theorems of [Properties.v] are
    stated.  They do not use the model's dispatch functions. *)

From Coq Require Import NArith List Bool String.
From Verif Require Import Base Times TimesSpec Expect Mock.
Import ListNotations.
Open Scope N_scope.

Section Spec.
Context {V U : Type}.

(** ** User code *)

(** A closure that always returns. *)
Definition total_fn {A B} (f : ucode U A B) : Prop :=
  forall a u, exists u' b, f a u = (u', Ret b).

(** A matching function that only looks at the arguments. *)
Definition pure_fn (p : list V -> bool) : ucode U (list V) bool :=
  fun args u => (u, Ret (p args)).

(** ** Histories of calls on one method: the results of calling it with each
    argument list in turn, every panic being caught. *)
Fixpoint field_calls (c : cfg) (f : field V U) (k : key) (w : world U) (l : list (list V))
  : field V U * world U * list (res V) :=
  match l with
  | [] => (f, w, [])
  | a :: l' =>
      let '(f1, w1, r) := field_call c f k a (fun v => v) w in
      let '(f2, w2, rs) := field_calls c f1 k w1 l' in
      (f2, w2, r :: rs)
  end.

(** Set up several expectations on a method, one builder chain after the other. *)
Fixpoint field_setup (c : cfg) (f : field V U) (k : key) (th : nat) (t : seqtab)
    (ls : list (list (setter V U))) : field V U * seqtab :=
  match ls with
  | [] => (f, t)
  | l :: ls' =>
      let '(s, t', _) := slot_expect c (f_decl f) (f_slot f) k th l t in
      field_setup c (Field (f_decl f) s) k th t' ls'
  end.

(** ** A single expectation *)

(** Largest count named by the argument of [times], if there is one. *)
Definition arg_max (x : times_arg) : option N :=
  match x with
  | ANum n => Some n
  | ARange _ b => Some (b - 1)
  | AFrom _ => None
  | AFull => None
  | AIncl _ b => Some b
  | ATo b => Some (b - 1)
  | AToIncl b => Some b
  end.

(** Smallest count named by the argument of [times]. *)
Definition arg_min (x : times_arg) : N :=
  match x with
  | ANum n => n
  | ARange a _ => a
  | AFrom a => a
  | AFull => 0
  | AIncl a _ => a
  | ATo _ => 0
  | AToIncl _ => 0
  end.

(** The results of calling a method with one expectation
    [.times(x).returning(f)]: the first [arg_max x] calls run [f], the
    others are refused.  [j] calls were made before. *)
Fixpoint sole_answers (me : method V) (hi : option N) (f : ucode U (list V) V)
    (j : N) (l : list (list V)) (u : U) : U * list (res V) :=
  match l with
  | [] => (u, [])
  | a :: l' =>
      let refuse m :=
        let (u2, rs) := sole_answers me hi f (j + 1) l' u in
        (u2, Panic (MCall (me_name me) "<anything>"
                      (if m =? 0 then TeNever else TeTooMany (j + 1) m)) :: rs) in
      let answer :=
        let (u1, r) := f a u in
        let (u2, rs) := sole_answers me hi f (j + 1) l' u1 in
        (u2, r :: rs) in
      match hi with
      | Some m => if j <? m then answer else refuse m
      | None => answer
      end
  end.

(** What dropping such an expectation does after [n] calls. *)
Definition sole_drop (me : method V) (x : times_arg) (n : N) : res unit :=
  if n <? arg_min x then Panic (MTooFew (me_name me) "<anything>" n (arg_min x))
  else match arg_max x with
       | Some m =>
           if m <? n then Panic (MTooMany (me_name me) "<anything>" n m) else Ret tt
       | None => Ret tt
       end.

(** ** Several expectations: greedy assignment *)

(** [.withf(x_match).times(x_lo..=x_hi).returning(x_fun)] *)
Record xspec : Type := XSpec {
  x_match : list V -> bool;
  x_lo : N;
  x_hi : N;
  x_fun : ucode U (list V) V
}.

Definition x_setters (x : xspec) : list (setter V U) :=
  [StWithf (pure_fn (x_match x)); StTimes (AIncl (x_lo x) (x_hi x)); StReturning (x_fun x)].

(** The number of earlier calls that were given to expectation [i]. *)
Definition onat_dec (a b : option nat) : {a = b} + {a <> b}.
Proof. decide equality. apply PeanoNat.Nat.eq_dec. Defined.

Definition given (i : nat) (hist : list (option nat)) : N :=
  N.of_nat (count_occ onat_dec hist (Some i)).

(** The oldest expectation (numbered from [i]) that accepts the arguments and was
    given fewer than its maximum of the earlier calls. *)
Fixpoint pick (xs : list xspec) (i : nat) (hist : list (option nat)) (a : list V) : option nat :=
  match xs with
  | [] => None
  | x :: xs' =>
      if x_match x a && (given i hist <? x_hi x) then Some i
      else pick xs' (S i) hist a
  end.

(** Which expectation each call of a history goes to. *)
Fixpoint assign (xs : list xspec) (hist : list (option nat)) (calls : list (list V))
  : list (option nat) :=
  match calls with
  | [] => []
  | a :: calls' =>
      let o := pick xs 0 hist a in
      o :: assign xs (hist ++ [o]) calls'
  end.

(** The results, given the assignment: the closure's answer, or the panic for an
    unmatched call, which shows the call. *)
Fixpoint answers (me : method V) (xs : list xspec) (os : list (option nat))
    (calls : list (list V)) (u : U) : U * list (res V) :=
  match os, calls with
  | o :: os', a :: calls' =>
      let unmatched :=
        let (u2, rs) := answers me xs os' calls' u in
        (u2, Panic (MNoMatch (call_desc me a)) :: rs) in
      match o with
      | None => unmatched
      | Some i =>
          match nth_error xs i with
          | None => unmatched
          | Some x =>
              let (u1, r) := x_fun x a u in
              let (u2, rs) := answers me xs os' calls' u1 in
              (u2, r :: rs)
          end
      end
  | _, _ => (u, [])
  end.

(** The owner of call number [j] (from 0) when expectations with maxima [ms] all
    accept every call. *)
Fixpoint owner (ms : list N) (j : N) : option nat :=
  match ms with
  | [] => None
  | m :: ms' => if j <? m then Some O else option_map S (owner ms' (j - m))
  end.

(** The sum of a list, and [n] numbers counting up from [j]. *)
Fixpoint sum (ms : list N) : N := match ms with [] => 0 | m :: ms' => m + sum ms' end.

Fixpoint upto (j : N) (n : nat) : list N :=
  match n with O => [] | S n' => j :: upto (j + 1) n' end.

(** ** Return values *)

(** Histories of calls of a method returning [&mut T]: with each call, what the
    caller does to the referent. *)
Fixpoint field_calls_wr (c : cfg) (f : field V U) (k : key) (w : world U)
    (l : list (list V * (V -> V))) : field V U * world U * list (res V) :=
  match l with
  | [] => (f, w, [])
  | (a, wr) :: l' =>
      let '(f1, w1, r) := field_call c f k a wr w in
      let '(f2, w2, rs) := field_calls_wr c f1 k w1 l' in
      (f2, w2, r :: rs)
  end.

(** The values seen through a variable that starts as [v] and is changed by each
    function in turn. *)
Fixpoint var_values (v : V) (wrs : list (V -> V)) : list (res V) :=
  match wrs with
  | [] => []
  | wr :: wrs' => Ret v :: var_values (wr v) wrs'
  end.

(** The values of a closure run on each argument list in turn. *)
Fixpoint fresh_values (f : ucode U (list V) V) (l : list (list V)) (u : U) : U * list (res V) :=
  match l with
  | [] => (u, [])
  | a :: l' => let (u1, r) := f a u in let (u2, rs) := fresh_values f l' u1 in (u2, r :: rs)
  end.

(** ** return_once: the first call runs [f]; later calls find it gone.  [r0]: the
    result of the first call.  [j] calls were made before. *)
Definition once_later (me : method V) (hi : option N) (r0 : res V) (j : N) : res V :=
  let gone :=
    match r0 with
    | Ret _ => if j =? 1 then Panic (MRet (me_name me) "<anything>" ReTwice) else Panic MPoison
    | _ => Panic MPoison
    end in
  match hi with
  | Some m =>
      if j <? m then gone
      else Panic (MCall (me_name me) "<anything>" (if m =? 0 then TeNever else TeTooMany (j + 1) m))
  | None => gone
  end.

Definition once_answers (me : method V) (hi : option N) (f : ucode U (list V) V)
    (l : list (list V)) (u : U) : U * list (res V) :=
  match l with
  | [] => (u, [])
  | a :: l' =>
      let (u1, r0) := f a u in
      (u1, r0 :: map (once_later me hi r0) (upto 1 (List.length l')))
  end.

(** ** Which matchers a call consults *)

(** The matcher of [e], called in world [w], returns [b] and leaves world [w']. *)
Definition verdict (e : expectation V U) (args : list V) (w w' : world U) (b : bool) : Prop :=
  c_mpoison (e_common e) = false /\
  matcher_matches (c_matcher (e_common e)) args w = (w', Ret b).

(** Consulting the matchers of [es] one after the other, each once, from world [w]
    to world [w'], gives the verdicts [bs]. *)
Fixpoint consulted (es : list (expectation V U)) (args : list V) (w : world U)
    (bs : list bool) (w' : world U) : Prop :=
  match es, bs with
  | [], [] => w' = w
  | e :: es', b :: bs' => exists w1, verdict e args w w1 b /\ consulted es' args w1 bs' w'
  | _, _ => False
  end.

(** The expectation was called at least as often as its maximum, [end - 1]. *)
Definition saturated (e : expectation V U) : Prop :=
  rend (trange_of (c_times (e_common e))) <= tcount (c_times (e_common e)) + 1.

(** Matchers that return on every world. *)
Definition live (e : expectation V U) : Prop :=
  forall args w, exists w' b, verdict e args w w' b.

(** A range with at least one element. *)
Definition proper (e : expectation V U) : Prop :=
  1 <= rend (trange_of (c_times (e_common e))).

(** The call count of an expectation is in its range. *)
Definition in_range (e : expectation V U) : Prop :=
  let t := c_times (e_common e) in
  rstart (trange_of t) <= tcount t < rend (trange_of t).

(** [e], with its matcher's verdict [b], does not take a call that reaches it:
    either it refuses the arguments, or it is used up and not alone. *)
Definition passes (alone : Prop) (e : expectation V U) (b : bool) : Prop :=
  b = false \/ (saturated e /\ ~ alone).

(** [e], whose matcher accepted, takes the call. *)
Definition takes (alone : Prop) (e : expectation V U) : Prop :=
  ~ saturated e \/ alone.

(** ** Predicates *)

(** A predicate that only looks at its argument. *)
Definition pure_pred (q : string * (V -> bool)) : pred V U :=
  (fst q, fun a u => (u, Ret (snd q a))).

(** Evaluating predicates left to right, each once, each on its argument. *)
Inductive evals : list (pred V U) -> list V -> U -> list bool -> U -> Prop :=
| evals_nil u : evals [] [] u [] u
| evals_cons p ps a args u b u1 bs u2 :
    snd p a u = (u1, Ret b) -> evals ps args u1 bs u2 ->
    evals (p :: ps) (a :: args) u (b :: bs) u2.

(** Setters that replace the matcher. *)
Definition sets_matcher (st : setter V U) : Prop :=
  match st with StWith _ | StWithf _ | StWithfSt _ => True | _ => False end.

(** ** Return closures *)

(** The user closure that an expectation would run to compute its return value. *)
Definition closure (e : expectation V U) : option (ucode U (list V) V) :=
  match e_action e with
  | AStatic (SMut f) _ | AStatic (SMutSt _ f) _
  | AStatic (SOnce f) _ | AStatic (SOnceSt _ f) _ => Some f
  | AMut (XMut f _) | AMut (XMutSt _ f _) => Some f
  | _ => None
  end.

(** ** User code that leaves an observation of the user state alone *)
Definition quiet {A B O : Type} (obs : U -> O) (f : ucode U A B) : Prop :=
  forall a u, obs (fst (f a u)) = obs u.

Definition quiet_matcher {O : Type} (obs : U -> O) (m : matcher V U) : Prop :=
  match m with
  | MtAlways => True
  | MtFunc f | MtFuncSt _ f => quiet obs f
  | MtPred ps => forall p, In p ps -> quiet obs (snd p)
  end.

Definition quiet_closure {O : Type} (obs : U -> O) (e : expectation V U) : Prop :=
  forall f, closure e = Some f -> quiet obs f.

(** The number of calls recorded by expectation [i] of a list. *)
Definition count_at (es : list (expectation V U)) (i : nat) : option N :=
  option_map (fun e => tcount (c_times (e_common e))) (nth_error es i).

(** ** What a chain of setters amounts to *)

(** The last matcher set. *)
Fixpoint final_matcher (th : nat) (l : list (setter V U)) (m : matcher V U) : matcher V U :=
  match l with
  | [] => m
  | StWith ps :: l' => final_matcher th l' (MtPred ps)
  | StWithf f :: l' => final_matcher th l' (MtFunc f)
  | StWithfSt f :: l' => final_matcher th l' (MtFuncSt th f)
  | _ :: l' => final_matcher th l' m
  end.

(** The last call-count argument set. *)
Fixpoint final_count (l : list (setter V U)) (x : times_arg) : times_arg :=
  match l with
  | [] => x
  | StTimes y :: l' => final_count l' y
  | StOnce :: l' => final_count l' (ANum 1)
  | StNever :: l' => final_count l' (ANum 0)
  | _ :: l' => final_count l' x
  end.

(** The last return action set, for a method of each kind. *)
Fixpoint final_action (kd : kind) (th : nat) (l : list (setter V U)) (a : action V U) : action V U :=
  match l with
  | [] => a
  | st :: l' =>
      final_action kd th l'
        (match kd, st with
         | KStatic, StReturning f => AStatic (SMut f) false
         | KStatic, StReturningSt f => AStatic (SMutSt th f) false
         | KStatic, StReturnOnce f => AStatic (SOnce f) false
         | KStatic, StReturnOnceSt f => AStatic (SOnceSt th f) false
         | KStatic, StReturnConst v => AStatic (SMut (fun _ u => (u, Ret v))) false
         | KStatic, StReturnConstSt v => AStatic (SMutSt th (fun _ u => (u, Ret v))) false
         | KRef, StReturnConst v => ARef (RConst v)
         | KMut, StReturning f => AMut (XMut f None)
         | KMut, StReturningSt f => AMut (XMutSt th f None)
         | KMut, StReturnVar v => AMut (XVar v)
         | _, _ => a
         end)
  end.

(** How many setters of the chain take a position in sequence [i]. *)
Fixpoint positions (i : nat) (l : list (setter V U)) : N :=
  match l with
  | [] => 0
  | StInSequence j :: l' => (if Nat.eqb j i then 1 else 0) + positions i l'
  | _ :: l' => positions i l'
  end.

(** The position taken by the last [in_sequence] of the chain, if any: the number of
    positions taken before it. *)
Fixpoint final_seq (l : list (setter V U)) (t : seqtab) (h : option seqhandle) : option seqhandle :=
  match l with
  | [] => h
  | StInSequence j :: l' =>
      final_seq l' (fun i => if Nat.eqb i j then Sequence (sq_inner (t i)) (sq_next (t i) + 1) else t i)
        (Some (SeqHandle (sq_inner (t j)) (sq_next (t j))))
  | _ :: l' => final_seq l' t h
  end.

(** ** No return action: the results of any calls. *)
Definition no_action_err (c : cfg) : rferr := if nightly c then ReNoDefault else ReNeedsNightly.

Definition no_action_answers (c : cfg) (me : method V) (kd : kind) (l : list (list V)) : list (res V) :=
  match (if nightly c then me_default me else None), l with
  | Some d, _ => map (fun _ => Ret d) l
  | None, [] => []
  | None, _ :: l' =>
      let refused := Panic (MRet (me_name me) "<anything>" (no_action_err c)) in
      refused :: map (fun _ => match kd with KStatic => Panic MPoison | _ => refused end) l'
  end.

(** ** Single-threaded variants *)

(** The same expectation with the ordinary variants. *)
Definition unst_matcher (m : matcher V U) : matcher V U :=
  match m with MtFuncSt _ f => MtFunc f | _ => m end.
Definition unst_action (a : action V U) : action V U :=
  match a with
  | AStatic (SMutSt _ f) p => AStatic (SMut f) p
  | AStatic (SOnceSt _ f) p => AStatic (SOnce f) p
  | AMut (XMutSt _ f o) => AMut (XMut f o)
  | _ => a
  end.
Definition unst (e : expectation V U) : expectation V U :=
  Expectation (Common (unst_matcher (c_matcher (e_common e))) (c_mpoison (e_common e))
                 (c_seq (e_common e)) (c_times (e_common e)))
              (unst_action (e_action e)).

(** The thread that a single-threaded matcher or action belongs to. *)
Definition matcher_owner (m : matcher V U) : option nat :=
  match m with MtFuncSt o _ => Some o | _ => None end.
Definition action_owner (a : action V U) : option nat :=
  match a with
  | AStatic (SMutSt o _) _ | AStatic (SOnceSt o _) _ => Some o
  | AMut (XMutSt o _ _) => Some o
  | _ => None
  end.

(** Two results that agree except perhaps for the text of a panic. *)
Definition same_outcome {A} (r r' : res A) : Prop :=
  match r, r' with
  | Ret a, Ret a' => a = a'
  | Panic _, Panic _ => True
  | Abort, Abort => True
  | _, _ => False
  end.

End Spec.
