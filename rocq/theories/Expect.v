(** * Expect: sequences, matchers, return actions, expectations

    The code that mockall_derive generates for one mocked function
    (mockall_derive/src/mock_function.rs 892-2546), together with the run-time
    types it uses (mockall/src/lib.rs 1434-1785). *)

From Coq Require Import NArith List Bool String.
From Verif Require Import Base Times.
Import ListNotations.
Open Scope N_scope.

(** ** Sequences (lib.rs 1681-1785)

    The [SeqInner]s are shared through [Arc]s; the identity of an [Arc] is a
    number and its contents are looked up in the world.  A [SeqInner] that was
    never touched is at level 0 (lib.rs 1699: derived [Default]). *)
Definition seqid := nat.

(** lib.rs 1681-1685: [struct SeqHandle]. *)
Record seqhandle : Type := SeqHandle { sh_inner : seqid; sh_seq : N }.

(** lib.rs 1765-1769: [struct Sequence]. *)
Record sequence : Type := Sequence { sq_inner : seqid; sq_next : N }.

(** lib.rs 1773-1775: [Sequence::new]; [id] is the freshly allocated [Arc]. *)
Definition sequence_new (id : seqid) : sequence := Sequence id 0.

(** lib.rs 1780-1784: [Sequence::next_handle]. *)
Definition next_handle (c : cfg) (s : sequence) : sequence * res seqhandle :=
  match uadd1 c (sq_next s) with
  | Ret n => (Sequence (sq_inner s) n, Ret (SeqHandle (sq_inner s) (sq_next s)))
  | Panic m => (s, Panic m)
  | Abort => (s, Abort)
  end.

(** The contents of all [SeqInner]s: lib.rs 1699-1702, [satisfaction_level]. *)
Definition levels := seqid -> N.

(** A write to [satisfaction_level]: lib.rs 1707. *)
Definition set_level (l : levels) (i : seqid) (n : N) : levels :=
  fun j => if Nat.eqb j i then n else l j.

(** lib.rs 1706-1709: [SeqInner::satisfy].  The level moves before the
    assertion. *)
Definition inner_satisfy (c : cfg) (i : seqid) (seq : N) (l : levels) : levels * res unit :=
  let old := l i in
  (set_level l i (uwrap1 c old),
   if old =? seq then Ret tt else Panic (MSeqSatisfy old seq)).

(** lib.rs 1712-1715: [SeqInner::verify]. *)
Definition inner_verify (i : seqid) (seq : N) (desc : string) (l : levels) : res unit :=
  if seq =? l i then Ret tt else Panic (MSeqVerify desc seq (l i)).

(** lib.rs 1689-1691, 1694-1696: [SeqHandle::satisfy], [SeqHandle::verify]. *)
Definition handle_satisfy (c : cfg) (h : seqhandle) (l : levels) : levels * res unit :=
  inner_satisfy c (sh_inner h) (sh_seq h) l.
(** [SeqHandle::verify]: lib.rs 1694-1696. *)
Definition handle_verify (h : seqhandle) (desc : string) (l : levels) : res unit :=
  inner_verify (sh_inner h) (sh_seq h) desc l.

Section Expect.

(** [V]: argument and return values; [U]: the state that user closures can read
    and change (including the environments they captured). *)
Context {V U : Type}.

(** ** The world seen by generated code

    [w_user]: user state.  [w_levels]: all sequences.  [w_thread]: the current
    thread.  [w_panicking]: [std::thread::panicking()]. *)

(** [std::thread::panicking] is read at mock_function.rs 1039 and 1635; the rest has
    no lines of its own. *)
Record world : Type := World {
  w_user : U;
  w_levels : levels;
  w_thread : nat;
  w_panicking : bool
}.

(** User code has run; the closures called at mock_function.rs 1695-1732, 1788-1983.
    *)
Definition set_user (w : world) (u : U) : world :=
  World u (w_levels w) (w_thread w) (w_panicking w).
(** A sequence has moved on: lib.rs 1706-1709. *)
Definition set_levels (w : world) (l : levels) : world :=
  World (w_user w) l (w_thread w) (w_panicking w).

(** User code. A matching function or predicate returns a [bool], a return closure a
    [V]; all may change the user state and may panic.  The closure types of
    mock_function.rs 1708-1715, 1842-1856, 1925-1944. *)
Definition ucode (A B : Type) := A -> U -> U * res B.

(** What a user closure may do: it never "aborts" by itself. Closures that call back
    into the mock are not modelled.  The predicates of mock_function.rs 1684-1695
    and 1750-1753. *)
Definition pred : Type := (string * ucode V bool)%type.   (* name shown by Display, eval *)

(** ** Method description

    The constants that the code generator bakes into the generated code of one
    method.  [me_name]: [funcname] (mock_function.rs 765-771).  [me_desc]: the name
    used by [desc] (632-643).  [me_default]: the value of [Output::default()],
    if the (owned) output type implements [Default]. [me_debug]: how an argument is
    printed (lib.rs 1477-1510: [Debug] or "?"). *)
Record method : Type := Method {
  me_name : string;
  me_desc : string;
  me_default : option V;
  me_debug : V -> string
}.

(** The separators of [concat!]: mock_function.rs 632-643; of the predicates:
    1750-1753. *)
Definition join_comma (l : list string) : string := String.concat ", " l.

(** mock_function.rs 632-643: [desc], "Struct::name(arg, arg)". *)
Definition call_desc (me : method) (args : list V) : string :=
  (me_desc me ++ "(" ++ join_comma (map (me_debug me) args) ++ ")")%string.

(** ** Matchers (mock_function.rs 1658-1757)

    [FuncSt] wraps the function in a [Fragile], which remembers the thread that
    created it.  The phantom variant is never constructed. *)
Inductive matcher : Type :=
| MtAlways
| MtFunc (f : ucode (list V) bool)
| MtFuncSt (owner : nat) (f : ucode (list V) bool)
| MtPred (ps : list pred).

(** mock_function.rs 1678-1682 and 1695: [[p.0.eval(a0), p.1.eval(a1), ..]] builds
    the whole array, so every predicate is evaluated, left to right. *)
Fixpoint eval_preds (ps : list pred) (args : list V) (u : U) : U * res (list bool) :=
  match ps, args with
  | p :: ps', a :: args' =>
      match snd p a u with
      | (u1, Ret b) =>
          match eval_preds ps' args' u1 with
          | (u2, Ret bs) => (u2, Ret (b :: bs))
          | (u2, Panic m) => (u2, Panic m)
          | (u2, Abort) => (u2, Abort)
          end
      | (u1, Panic m) => (u1, Panic m)
      | (u1, Abort) => (u1, Abort)
      end
  | _, _ => (u, Ret nil)
  end.

(** mock_function.rs 1722-1732: [Matcher::matches]. *)
Definition matcher_matches (m : matcher) (args : list V) (w : world) : world * res bool :=
  match m with
  | MtAlways => (w, Ret true)
  | MtFunc f => let (u, r) := f args (w_user w) in (set_user w u, r)
  | MtFuncSt owner f =>
      if Nat.eqb owner (w_thread w) then
        let (u, r) := f args (w_user w) in (set_user w u, r)
      else (w, Panic MWrongThread)
  | MtPred ps =>
      let (u, r) := eval_preds ps args (w_user w) in
      (set_user w u, let? bs := r in Ret (forallb (fun b => b) bs))
  end.

(** mock_function.rs 1742-1754: [Display for Matcher]; predicates print
    themselves. *)
Definition matcher_show (m : matcher) : string :=
  match m with
  | MtAlways => "<anything>"
  | MtFunc _ => "<function>"
  | MtFuncSt _ _ => "<single threaded function>"
  | MtPred ps => join_comma (map fst ps)
  end.

(** ** Return actions

    *** Methods returning ['static] values (mock_function.rs 1914-1995) *)
Inductive srfunc : Type :=
| SDefault
| SExpired
| SMut (f : ucode (list V) V)
| SMutSt (owner : nat) (f : ucode (list V) V)
| SOnce (f : ucode (list V) V)
| SOnceSt (owner : nat) (f : ucode (list V) V).

(** lib.rs 1443-1475: [DefaultReturner::return_default]. *)
Definition return_default (c : cfg) (d : option V) : result V rferr :=
  if nightly c then
    match d with Some v => Ok v | None => Err ReNoDefault end
  else Err ReNeedsNightly.

(** lib.rs 1443-1475: [DefaultReturner::maybe_return_default]. *)
Definition maybe_return_default (c : cfg) (d : option V) : option V :=
  if nightly c then d else None.

(** A call of a return closure: mock_function.rs 1955-1981. *)
Definition run_user (f : ucode (list V) V) (args : list V) (w : world)
  : world * res (result V rferr) :=
  let (u, r) := f args (w_user w) in
  (set_user w u, let? v := r in Ret (Ok v)).

(** mock_function.rs 1947-1983: [StaticRfunc::call_mut].  The [Once] closures are
    taken out of the [Rfunc] before they run. *)
Definition srfunc_call (c : cfg) (me : method) (rf : srfunc) (args : list V) (w : world)
  : srfunc * world * res (result V rferr) :=
  match rf with
  | SDefault => (rf, w, Ret (return_default c (me_default me)))
  | SExpired => (rf, w, Ret (Err ReTwice))
  | SMut f => let (w', r) := run_user f args w in (rf, w', r)
  | SMutSt owner f =>
      if Nat.eqb owner (w_thread w) then
        let (w', r) := run_user f args w in (rf, w', r)
      else (rf, w, Panic MWrongThread)
  | SOnce f => let (w', r) := run_user f args w in (SExpired, w', r)
  | SOnceSt owner f =>
      if Nat.eqb owner (w_thread w) then
        let (w', r) := run_user f args w in (SExpired, w', r)
      else (SExpired, w, Panic MWrongThread)
  end.

(** *** Methods returning [&T] (mock_function.rs 1763-1817) *)
Inductive rrfunc : Type :=
| RDefault (o : option V)
| RConst (v : V).

(** mock_function.rs 1771-1775, 1834-1838: [default_err_msg]. *)
Definition default_err (c : cfg) : rferr :=
  if nightly c then ReNoDefault else ReNeedsNightly.

(** mock_function.rs 1788-1803: [RefRfunc::call].  A reference is represented by
    the value it points to. *)
Definition rrfunc_call (c : cfg) (rf : rrfunc) : result V rferr :=
  match rf with
  | RDefault (Some v) => Ok v
  | RDefault None => Err (default_err c)
  | RConst v => Ok v
  end.

(** *** Methods returning [&mut T] (mock_function.rs 1823-1908) *)
Inductive mrfunc : Type :=
| XDefault (o : option V)
| XMut (f : ucode (list V) V) (o : option V)
| XMutSt (owner : nat) (f : ucode (list V) V) (o : option V)
| XVar (v : V).

(** mock_function.rs 1859-1894: [RefMutRfunc::call_mut].  The caller gets a mutable
    reference into the [Rfunc]; what it does with it before it uses the mock again
    is the function [wr] applied to the value referred to.  The result is the
    value before the write. *)
Definition mrfunc_call (c : cfg) (rf : mrfunc) (args : list V) (wr : V -> V) (w : world)
  : mrfunc * world * res (result V rferr) :=
  match rf with
  | XDefault (Some v) => (XDefault (Some (wr v)), w, Ret (Ok v))
  | XDefault None => (rf, w, Ret (Err (default_err c)))
  | XMut f o =>
      match f args (w_user w) with
      | (u, Ret v) => (XMut f (Some (wr v)), set_user w u, Ret (Ok v))
      | (u, Panic m) => (XMut f o, set_user w u, Panic m)
      | (u, Abort) => (XMut f o, set_user w u, Abort)
      end
  | XMutSt owner f o =>
      if Nat.eqb owner (w_thread w) then
        match f args (w_user w) with
        | (u, Ret v) => (XMutSt owner f (Some (wr v)), set_user w u, Ret (Ok v))
        | (u, Panic m) => (XMutSt owner f o, set_user w u, Panic m)
        | (u, Abort) => (XMutSt owner f o, set_user w u, Abort)
        end
      else (rf, w, Panic MWrongThread)
  | XVar v => (XVar (wr v), w, Ret (Ok v))
  end.

(** ** Common (mock_function.rs 936-1061)

    [c_mpoison]: the poison flag of the matcher's mutex. *)
Record common : Type := Common {
  c_matcher : matcher;
  c_mpoison : bool;
  c_seq : option seqhandle;
  c_times : times
}.

(** mock_function.rs 944-953: [Common::default]. *)
Definition common_default (c : cfg) : common :=
  Common MtAlways false None (times_default c).

(** An update of [Common::times]: mock_function.rs 990-992, 1002-1006. *)
Definition set_times (k : common) (t : times) : common :=
  Common (c_matcher k) (c_mpoison k) (c_seq k) t.

(** mock_function.rs 1030-1034: [Common::verify_sequence]. *)
Definition verify_sequence (k : common) (desc : string) (w : world) : res unit :=
  match c_seq k with
  | Some h => handle_verify h desc (w_levels w)
  | None => Ret tt
  end.

(** mock_function.rs 994-998: [Common::satisfy_sequence]. *)
Definition satisfy_sequence (c : cfg) (k : common) (w : world) : world * res unit :=
  match c_seq k with
  | Some h => let (l, r) := handle_satisfy c h (w_levels w) in (set_levels w l, r)
  | None => (w, Ret tt)
  end.

(** Locking the matcher's mutex for printing: panics if poisoned.  mock_function.rs
    961, 1044, 1051. *)
Definition show_locked (k : common) : res string :=
  if c_mpoison k then Panic MPoison else Ret (matcher_show (c_matcher k)).

(** mock_function.rs 956-968: [Common::call]. *)
Definition common_call (c : cfg) (me : method) (k : common) (desc : string) (w : world)
  : common * world * res unit :=
  let (t', r) := times_call c (c_times k) in
  let k1 := set_times k t' in
  match r with
  | Abort => (k1, w, Abort)
  | Panic m => (k1, w, Panic m)
  | Ret (Err e) =>
      (k1, w, let? s := show_locked k in Panic (MCall (me_name me) s e))
  | Ret (Ok _) =>
      match verify_sequence k1 desc w with
      | Abort => (k1, w, Abort)
      | Panic m => (k1, w, Panic m)
      | Ret _ =>
          match times_is_satisfied t' with
          | TooFew => (k1, w, Ret tt)
          | _ => let (w', r') := satisfy_sequence c k1 w in (k1, w', r')
          end
      end
  end.

(** mock_function.rs 970-977: [Common::in_sequence].  It takes the next handle of
    the sequence [s]. *)
Definition common_in_sequence (c : cfg) (k : common) (s : sequence)
  : common * sequence * res unit :=
  match times_is_exact c (c_times k) with
  | Abort => (k, s, Abort)
  | Panic m => (k, s, Panic m)
  | Ret false => (k, s, Panic MNotExact)
  | Ret true =>
      match next_handle c s with
      | (s', Ret h) =>
          (Common (c_matcher k) (c_mpoison k) (Some h) (c_times k), s', Ret tt)
      | (s', Panic m) => (k, s', Panic m)
      | (s', Abort) => (k, s', Abort)
      end
  end.

(** mock_function.rs 979-981: [Common::is_done]. *)
Definition common_is_done (c : cfg) (k : common) : res bool :=
  times_is_done c (c_times k).

(** mock_function.rs 985-987: [Common::matches].  The matcher runs with its mutex
    held; if it panics the mutex is poisoned (unless the thread was already
    panicking when it locked). *)
Definition common_matches (k : common) (args : list V) (w : world)
  : common * world * res bool :=
  if c_mpoison k then (k, w, Panic MPoison)
  else
    let (w', r) := matcher_matches (c_matcher k) args w in
    match r with
    | Panic m =>
        (Common (c_matcher k) (negb (w_panicking w)) (c_seq k) (c_times k), w', Panic m)
    | _ => (k, w', r)
    end.

(** mock_function.rs 990-992: [Common::never]. *)
Definition common_never (k : common) : common := set_times k (times_never (c_times k)).

(** mock_function.rs 1002-1006: [Common::times]. *)
Definition common_times (c : cfg) (x : times_arg) (k : common) : common * res unit :=
  let (t, r) := times_times c x (c_times k) in (set_times k t, r).

(** mock_function.rs 927-932, 1010-1028: [Common::with], [withf], [withf_st]: lock
    the mutex and replace the matcher. *)
Definition common_set_matcher (m : matcher) (k : common) : common * res unit :=
  if c_mpoison k then (k, Panic MPoison)
  else (Common m false (c_seq k) (c_times k), Ret tt).

(** mock_function.rs 1037-1061: [Drop for Common]. *)
Definition common_drop (c : cfg) (me : method) (k : common) (panicking : bool) : res unit :=
  if panicking then Ret tt
  else
    let? s := show_locked k in
    match times_is_satisfied (c_times k) with
    | TooFew =>
        Panic (MTooFew (me_name me) s (times_count (c_times k)) (times_minimum (c_times k)))
    | TooMany =>
        let? mx := times_maximum c (c_times k) in
        Panic (MTooMany (me_name me) s (times_count (c_times k)) mx)
    | Satisfied => Ret tt
    end.

(** ** Expectations of one method

    The three kinds of generated [Expectation] structs (mock_function.rs 2020-2023,
    2085-2088, 2175-2178) in one type; which kind a method uses is fixed by its
    return type.  [EStatic] keeps its [Rfunc] in a mutex with poison flag. *)
Inductive action : Type :=
| AStatic (rf : srfunc) (poison : bool)
| ARef (rf : rrfunc)
| AMut (rf : mrfunc).

(** mock_function.rs 2020-2023, 2085-2088, 2175-2178. *)
Record expectation : Type := Expectation { e_common : common; e_action : action }.

(** Which of the three kinds a method uses (mock_function.rs 830-843). *)
Inductive kind : Type := KStatic | KRef | KMut.

(** mock_function.rs 1989-1991, 1809-1813, 1900-1904: [Rfunc::default]. *)
Definition action_default (c : cfg) (me : method) (kd : kind) : action :=
  match kd with
  | KStatic => AStatic SDefault false
  | KRef => ARef (RDefault (maybe_return_default c (me_default me)))
  | KMut => AMut (XDefault (maybe_return_default c (me_default me)))
  end.

(** mock_function.rs 2053-2058, 2142-2147, 2317-2322: [Expectation::default]. *)
Definition expectation_default (c : cfg) (me : method) (kd : kind) : expectation :=
  Expectation (common_default c) (action_default c me kd).

(** [self.common] changes: mock_function.rs 1108-1187. *)
Definition set_common (e : expectation) (k : common) : expectation :=
  Expectation k (e_action e).
(** [self.rfunc] changes: mock_function.rs 2041-2046, 2109-2135, 2207-2310. *)
Definition set_action (e : expectation) (a : action) : expectation :=
  Expectation (e_common e) a.

(** Turn the [Err] of an [Rfunc] into the panic of [unwrap_or_else].
    mock_function.rs 2032-2037, 2098-2103, 2189-2194. *)
Definition unwrap_rf (me : method) (k : common) (r : result V rferr) : res V :=
  match r with
  | Ok v => Ret v
  | Err e => let? s := show_locked k in Panic (MRet (me_name me) s e)
  end.

(** mock_function.rs 2184-2195: [StaticExpectation::call], after
    [common.call] succeeded.  The guard of the [Rfunc]'s mutex is a temporary of the
    tail expression, so it is still held in [unwrap_or_else]: both a panic of
    the closure and the panic for an [Err] poison the mutex. *)
Definition static_ret (c : cfg) (me : method) (k : common) (rf : srfunc) (poison : bool)
    (args : list V) (w : world) : action * world * res V :=
  if poison then (AStatic rf poison, w, Panic MPoison)
  else
    let '(rf', w', r) := srfunc_call c me rf args w in
    let r' := (let? x := r in unwrap_rf me k x) in
    match r' with
    | Panic m => (AStatic rf' (negb (w_panicking w)), w', Panic m)
    | _ => (AStatic rf' false, w', r')
    end.

(** mock_function.rs 2028-2038: [RefExpectation::call], after [common.call]. *)
Definition ref_ret (c : cfg) (me : method) (k : common) (rf : rrfunc) : res V :=
  unwrap_rf me k (rrfunc_call c rf).

(** mock_function.rs 2093-2104: [RefMutExpectation::call_mut], after
    [common.call].  The matcher is printed before the [Rfunc] is called. *)
Definition mut_ret (c : cfg) (me : method) (k : common) (rf : mrfunc)
    (args : list V) (wr : V -> V) (w : world) : mrfunc * world * res V :=
  match show_locked k with
  | Panic m => (rf, w, Panic m)
  | Abort => (rf, w, Abort)
  | Ret s =>
      let '(rf', w', r) := mrfunc_call c rf args wr w in
      (rf', w', let? x := r in
                match x with
                | Ok v => Ret v
                | Err e => Panic (MRet (me_name me) s e)
                end)
  end.

(** mock_function.rs 2028, 2093, 2184: [Expectation::call] / [call_mut]. *)
Definition expectation_call (c : cfg) (me : method) (e : expectation)
    (args : list V) (wr : V -> V) (w : world) : expectation * world * res V :=
  let '(k, w1, r) := common_call c me (e_common e) (call_desc me args) w in
  match r with
  | Panic m => (set_common e k, w1, Panic m)
  | Abort => (set_common e k, w1, Abort)
  | Ret _ =>
      match e_action e with
      | AStatic rf poison =>
          let '(a, w2, r2) := static_ret c me k rf poison args w1 in
          (Expectation k a, w2, r2)
      | ARef rf => (set_common e k, w1, ref_ret c me k rf)
      | AMut rf =>
          let '(rf', w2, r2) := mut_ret c me k rf args wr w1 in
          (Expectation k (AMut rf'), w2, r2)
      end
  end.

(** *** Builder methods (mock_function.rs 1108-1187, 2041-2046, 2109-2135,
    2207-2310, and the proxies of [ExpectationGuard] 1243-1407)

    Setters for return actions carry the thread that calls them where a
    [Fragile] is created. *)
Inductive setter : Type :=
| StTimes (x : times_arg)                       (* 1157-1162 *)
| StOnce                                        (* 1142-1144 *)
| StNever                                       (* 1130-1133 *)
| StWith (ps : list pred)                       (* 1101-1105 *)
| StWithf (f : ucode (list V) bool)             (* 1170-1176 *)
| StWithfSt (f : ucode (list V) bool)           (* 1180-1186 *)
| StInSequence (s : nat)                        (* 1111-1116; index of the Sequence *)
| StReturning (f : ucode (list V) V)            (* 2280-2291, 2118-2124 *)
| StReturningSt (f : ucode (list V) V)          (* 2299-2310, 2128-2135 *)
| StReturnOnce (f : ucode (list V) V)           (* 2243-2254 *)
| StReturnOnceSt (f : ucode (list V) V)         (* 2264-2275 *)
| StReturnConst (v : V)                         (* 2207-2213, 2041-2046 *)
| StReturnConstSt (v : V)                       (* 2231-2237 *)
| StReturnVar (v : V).                          (* 2109-2113 *)

(** The closure [move |args| c.clone().into()] of [return_const] (2212, 2236). *)
Definition const_fn (v : V) : ucode (list V) V := fun _ u => (u, Ret v).

(** Assign a new [Rfunc] to an expectation returning a ['static] value: lock the
    mutex (panics if poisoned), then overwrite (2248-2253, 2269-2274, 2285-2290,
    2304-2309).  A setter that the generated type does not have is not
    callable; it leaves the expectation alone. *)
Definition set_srfunc (rf : srfunc) (e : expectation) : expectation * res unit :=
  match e_action e with
  | AStatic _ true => (e, Panic MPoison)
  | AStatic _ false => (set_action e (AStatic rf false), Ret tt)
  | _ => (e, Ret tt)
  end.

(** The same for a method that returns [&mut T]: mock_function.rs 2109-2135. *)
Definition set_mrfunc (rf : mrfunc) (e : expectation) : expectation * res unit :=
  match e_action e with
  | AMut _ => (set_action e (AMut rf), Ret tt)
  | _ => (e, Ret tt)
  end.

(** The proxies of [Common]'s methods in [Expectation]: mock_function.rs 1108-1187.
    *)
Definition lift_common (e : expectation) (p : common * res unit) : expectation * res unit :=
  (set_common e (fst p), snd p).

(** Sequences owned by the test: index -> [Sequence].  [Sequence]: lib.rs 1766-1769.
    *)
Definition seqtab := nat -> sequence.
(** [next_handle] changes the [Sequence]: lib.rs 1780-1784. *)
Definition set_seq (t : seqtab) (i : nat) (s : sequence) : seqtab :=
  fun j => if Nat.eqb j i then s else t j.

(** One builder call. [th] is the calling thread.  mock_function.rs 1108-1187,
    2041-2046, 2109-2135, 2207-2310. *)
Definition apply_setter (c : cfg) (th : nat) (st : setter) (e : expectation) (t : seqtab)
  : expectation * seqtab * res unit :=
  let pure (p : expectation * res unit) := (fst p, t, snd p) in
  match st with
  | StTimes x => pure (lift_common e (common_times c x (e_common e)))
  | StOnce => pure (lift_common e (common_times c (ANum 1) (e_common e)))
  | StNever => pure (set_common e (common_never (e_common e)), Ret tt)
  | StWith ps => pure (lift_common e (common_set_matcher (MtPred ps) (e_common e)))
  | StWithf f => pure (lift_common e (common_set_matcher (MtFunc f) (e_common e)))
  | StWithfSt f => pure (lift_common e (common_set_matcher (MtFuncSt th f) (e_common e)))
  | StInSequence i =>
      let '(k, s, r) := common_in_sequence c (e_common e) (t i) in
      (set_common e k, set_seq t i s, r)
  | StReturning f =>
      match e_action e with
      | AMut _ => pure (set_mrfunc (XMut f None) e)
      | _ => pure (set_srfunc (SMut f) e)
      end
  | StReturningSt f =>
      match e_action e with
      | AMut _ => pure (set_mrfunc (XMutSt th f None) e)
      | _ => pure (set_srfunc (SMutSt th f) e)
      end
  | StReturnOnce f => pure (set_srfunc (SOnce f) e)
  | StReturnOnceSt f => pure (set_srfunc (SOnceSt th f) e)
  | StReturnConst v =>
      match e_action e with
      | ARef _ => pure (set_action e (ARef (RConst v)), Ret tt)
      | _ => pure (set_srfunc (SMut (const_fn v)) e)
      end
  | StReturnConstSt v => pure (set_srfunc (SMutSt th (const_fn v)) e)
  | StReturnVar v => pure (set_mrfunc (XVar v) e)
  end.

(** A builder chain [.a().b().c()]: stops at the first panic.  The methods of
    mock_function.rs 1108-1187 and 2041-2310 return [&mut Self]. *)
Fixpoint apply_setters (c : cfg) (th : nat) (l : list setter) (e : expectation) (t : seqtab)
  : expectation * seqtab * res unit :=
  match l with
  | [] => (e, t, Ret tt)
  | st :: l' =>
      let '(e1, t1, r) := apply_setter c th st e t in
      match r with
      | Ret _ => apply_setters c th l' e1 t1
      | Panic m => (e1, t1, Panic m)
      | Abort => (e1, t1, Abort)
      end
  end.

(** ** The list of expectations (mock_function.rs 1197-1236, 2333-2441) *)

(** mock_function.rs 2352-2355, 2391-2394, 2429-2432: the [find] of
    [Expectations::call].  [one] is [self.0.len() == 1].  The result is the
    position of the chosen expectation. *)
Fixpoint find_exp (c : cfg) (one : bool) (es : list expectation) (args : list V) (w : world)
  : list expectation * world * res (option nat) :=
  match es with
  | [] => ([], w, Ret None)
  | e :: es' =>
      let '(k, w1, r) := common_matches (e_common e) args w in
      let e1 := set_common e k in
      let next :=
        let '(es2, w2, r2) := find_exp c one es' args w1 in
        (e1 :: es2, w2, let? o := r2 in Ret (option_map S o)) in
      match r with
      | Abort => (e1 :: es', w1, Abort)
      | Panic m => (e1 :: es', w1, Panic m)
      | Ret false => next
      | Ret true =>
          match common_is_done c k with
          | Abort => (e1 :: es', w1, Abort)
          | Panic m => (e1 :: es', w1, Panic m)
          | Ret d => if negb d || one then (e1 :: es', w1, Ret (Some O)) else next
          end
      end
  end.

(** Replace the element at a position of a [Vec].  [&mut self.0[i]] at
    mock_function.rs 2391-2394; interior mutability at 2352-2355, 2429-2432. *)
Fixpoint set_nth {A : Type} (l : list A) (i : nat) (x : A) : list A :=
  match l, i with
  | [], _ => []
  | _ :: l', O => x :: l'
  | y :: l', S i' => y :: set_nth l' i' x
  end.

(** mock_function.rs 2349-2359, 2387-2398, 2426-2436: [Expectations::call] /
    [call_mut]. *)
Definition expectations_call (c : cfg) (me : method) (es : list expectation)
    (args : list V) (wr : V -> V) (w : world)
  : list expectation * world * res (option V) :=
  let one := Nat.eqb (List.length es) 1 in
  let '(es1, w1, r) := find_exp c one es args w in
  match r with
  | Abort => (es1, w1, Abort)
  | Panic m => (es1, w1, Panic m)
  | Ret None => (es1, w1, Ret None)
  | Ret (Some i) =>
      match nth_error es1 i with
      | None => (es1, w1, Ret None)      (* not reached: [i] was found in [es1] *)
      | Some e =>
          let '(e', w2, r2) := expectation_call c me e args wr w1 in
          (set_nth es1 i e', w2, let? v := r2 in Ret (Some v))
      end
  end.

(** Dropping a [Vec<Expectation>] (std drop glue for slices): the elements are
    dropped in order; when one panics, the rest are dropped while unwinding, and a
    second panic aborts.  The vector of mock_function.rs 1205. *)
Fixpoint drop_exps (c : cfg) (me : method) (es : list expectation) (panicking : bool) : res unit :=
  match es with
  | [] => Ret tt
  | e :: es' =>
      match common_drop c me (e_common e) panicking with
      | Ret _ => drop_exps c me es' panicking
      | Abort => Abort
      | Panic m =>
          match drop_exps c me es' true with
          | Ret _ => Panic m
          | _ => Abort
          end
      end
  end.

(** mock_function.rs 1210-1213: [Expectations::checkpoint] drains the vector; the
    drained expectations are dropped by the caller. *)
Definition expectations_checkpoint (es : list expectation) : list expectation * list expectation :=
  ([], es).

End Expect.

Arguments world : clear implicits.
Arguments ucode : clear implicits.
Arguments pred : clear implicits.
Arguments method : clear implicits.
Arguments matcher : clear implicits.
Arguments srfunc : clear implicits.
Arguments rrfunc : clear implicits.
Arguments mrfunc : clear implicits.
Arguments common : clear implicits.
Arguments action : clear implicits.
Arguments expectation : clear implicits.
Arguments setter : clear implicits.
