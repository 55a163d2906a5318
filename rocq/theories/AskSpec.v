(** * AskSpec: what predicates that call mocks mean *)

From Coq Require Import NArith List Bool String.
From Verif Require Import Base Times Expect Conc ConcSpec Nest NestSpec Ask.
Import ListNotations.

Section AskSpec.
Context {V U : Type}.
Notation rval := (rval V U).
Notation ncall := (ncall V).
Notation aval := (aval V U).
Notation asker := (asker V U).
Notation asks := (asks V U).
Notation frame := (frame V U).
Notation athread := (athread V U).
Notation asys := (asys V U).
Notation csys := (csys rval U).

(** An ordinary predicate, which calls nothing. *)
Definition no_calls (f : ucode U (list rval) bool) : ucode U (list rval) aval :=
  fun args u => let (u', r) := f args u in (u', let? b := r in Ret (ABool b)).

(** The same predicate as the matcher. *)
Definition of_matcher (m : matcher rval U) : asker :=
  match m with
  | MtAlways => Asker None (no_calls (fun _ u => (u, Ret true)))
  | MtFunc f => Asker None (no_calls f)
  | MtFuncSt o f => Asker (Some o) (no_calls f)
  | MtPred ps => Asker None (no_calls (fun args u =>
      let (u', r) := eval_preds ps args u in (u', let? bs := r in Ret (forallb (fun b => b) bs))))
  end.

(** The machine of [Nest.v] among those of [Ask.v]. *)
Definition nested (s : nsys V U) : asys :=
  ASys (ns_base s) (map (fun th => AThread (nt_todo th) (map FCall (nt_stack th)) (nt_out th)) (ns_threads s)).

(** The predicate of expectation [i] of method [m] runs in [q]. *)
Definition runs_predicate (m i : nat) (q : frame) : bool :=
  match q with
  | FCall (PEval x j) | FAsk x j _ => (Nat.eqb (cc_m x) m && Nat.eqb j i)%bool
  | _ => false
  end.

(** Frame number [d] (0 is the innermost) of thread [t]. *)
Definition frame_at (s : asys) (t d : nat) : option frame :=
  match nth_error (as_threads s) t with Some th => nth_error (at_stack th) d | None => None end.

(** The frame belongs to a call that holds the mutex [g] of a static store. *)
Definition in_store (b : csys) (g : nat) (q : frame) : Prop :=
  exists x cm,
    match q with
    | FCall (PLockS _) => False
    | FCall p => pc_call p = Some x
    | FAsk x' _ _ => x' = x
    end /\
    nth_error (cs_meths b) (cc_m x) = Some cm /\ cm_mutex cm = Some g.

(** Steps of thread [t] alone. *)
Fixpoint alone (c : cfg) (ps : asks) (t k : nat) (s : csys * athread) : csys * athread :=
  match k with
  | O => s
  | S k' => alone c ps t k' (atstep c ps (fst s) t (snd s))
  end.

(** Thread [t] makes the call [y] in the state [b], and it ends with [r] in the state
    [b']. *)
Definition call_ends (c : cfg) (ps : asks) (t : nat) (b : csys) (y : ncall) (b' : csys) (r : res V) : Prop :=
  exists k, alone c ps t k (b, AThread [y] [] []) = (b', AThread [] [] [r]).

(** What is left of a predicate: it says [v], and its calls have changed [b] to [b']. *)
Inductive says (c : cfg) (ps : asks) (t : nat) : csys -> res aval -> csys -> res bool -> Prop :=
| says_verdict b v : says c ps t b (Ret (ABool v)) b (Ret v)
| says_panic b m : says c ps t b (Panic m) b (Panic m)
| says_abort b : says c ps t b Abort b Abort
| says_call b y k b1 r u r' b2 v :
    call_ends c ps t b y b1 r -> k r (cs_user b1) = (u, r') ->
    says c ps t (put_user b1 u) r' b2 v ->
    says c ps t b (Ret (AReq y k)) b2 v.

(** A predicate that calls nothing and says [v]. *)
Definition saying (v : res bool) : asker := Asker None (no_calls (fun _ u => (u, v))).

(** Another predicate at one place. *)
Definition instead (ps : asks) (m i : nat) (a : asker) : asks :=
  fun m' i' => if (Nat.eqb m' m && Nat.eqb i' i)%bool then Some a else ps m' i'.

(** Every thread has made all its calls. *)
Definition afinished (s : asys) : Prop :=
  forall t th, nth_error (as_threads s) t = Some th -> at_stack th = [] /\ at_todo th = [].

(** All the calls that a predicate may still make satisfy [P]. *)
Inductive aonly (P : ncall -> Prop) : aval -> Prop :=
| aonly_bool b : aonly P (ABool b)
| aonly_req y k :
    P y -> (forall r u u' v, k r u = (u', Ret v) -> aonly P v) -> aonly P (AReq y k).

(** Closures and predicates call only methods that are lower in some order, and functions
    that share a store are equal in it. *)
Definition aordered (rank : nat -> nat) (ms : list (cmeth rval U)) (ps : asks) : Prop :=
  ordered rank ms /\
  (forall m i a args u u' v,
     ps m i = Some a -> ak_run a args u = (u', Ret v) ->
     aonly (fun y => (rank (nc_m y) < rank m)%nat /\ (nc_m y < List.length ms)%nat) v).

End AskSpec.
