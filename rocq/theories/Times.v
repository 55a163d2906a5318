(** * Times: call-count ranges and counters (mockall/src/lib.rs 1512-1667) *)

From Coq Require Import NArith Bool.
From Verif Require Import Base.
Open Scope N_scope.

(** lib.rs 1514-1516: [struct TimesRange(Range<usize>)]; the range is
    start (inclusive) .. end (exclusive). *)
Record trange : Type := TRange { rstart : N; rend : N }.

(** The types accepted by [times]: the [From] implementations of lib.rs
    1525-1567.  A [RangeInclusive] is its two bounds (its private "exhausted" flag
    is not modelled: it is only set by iterating over the range). *)
Inductive times_arg : Type :=
| ANum (n : N)               (* 1525  n *)
| ARange (a b : N)           (* 1531  a..b *)
| AFrom (a : N)              (* 1538  a.. *)
| AFull                      (* 1544  .. *)
| AIncl (a b : N)            (* 1550  a..=b *)
| ATo (b : N)                (* 1557  ..b *)
| AToIncl (b : N).           (* 1563  ..=b *)

(** lib.rs 1518-1523: [TimesRange::default]. *)
Definition trange_default (c : cfg) : trange := TRange 0 (umax c).

(** lib.rs 1525-1567: the [From] implementations. *)
Definition trange_from (c : cfg) (x : times_arg) : res trange :=
  match x with
  | ANum n =>                                   (* 1525-1529 *)
      let? e := uadd1 c n in Ret (TRange n e)
  | ARange a b =>                               (* 1531-1536 *)
      if a <? b then Ret (TRange a b) else Panic MBackwards
  | AFrom a => Ret (TRange a (umax c))          (* 1538-1542 *)
  | AFull => Ret (TRange 0 (umax c))            (* 1544-1548 *)
  | AIncl a b =>                                (* 1550-1555 *)
      if a <=? b then let? e := uadd1 c b in Ret (TRange a e)
      else Panic MBackwards
  | ATo b => Ret (TRange 0 b)                   (* 1557-1561 *)
  | AToIncl b =>                                (* 1563-1567 *)
      let? e := uadd1 c b in Ret (TRange 0 e)
  end.

(** lib.rs 1569-1575. *)
Inductive expected_calls : Type := Satisfied | TooMany | TooFew.

(** lib.rs 1577-1583.  [count] is an [AtomicUsize]; here it is its value. *)
Record times : Type := Times { tcount : N; trange_of : trange }.

(** lib.rs 1577: derived [Default]. *)
Definition times_default (c : cfg) : times := Times 0 (trange_default c).

(** lib.rs 1587-1602: [Times::call].  The counter is incremented (with wrapping)
    first, whatever happens next. *)
Definition times_call (c : cfg) (t : times) : times * res (result unit timeserr) :=
  let e := rend (trange_of t) in
  (Times (uwrap1 c (tcount t)) (trange_of t),
   let? count := uadd1 c (tcount t) in
   if e <=? count then
     if e =? 1 then Ret (Err TeNever)
     else let? mx := usub c e 1 in Ret (Err (TeTooMany count mx))
   else Ret (Ok tt)).

(** lib.rs 1604-1606: [Times::any]. *)
Definition times_any (c : cfg) (t : times) : times :=
  Times (tcount t) (TRange 0 (umax c)).

(** lib.rs 1609-1611: [Times::count]. *)
Definition times_count (t : times) : N := tcount t.

(** lib.rs 1615-1617: [Times::is_done]. *)
Definition times_is_done (c : cfg) (t : times) : res bool :=
  let? mx := usub c (rend (trange_of t)) 1 in Ret (mx <=? tcount t).

(** lib.rs 1621-1623: [Times::is_exact]. *)
Definition times_is_exact (c : cfg) (t : times) : res bool :=
  let? d := usub c (rend (trange_of t)) (rstart (trange_of t)) in Ret (d =? 1).

(** lib.rs 1627-1637: [Times::is_satisfied] (the two loads see the same value
    here; [Conc.v] separates them). *)
Definition times_is_satisfied (t : times) : expected_calls :=
  let lower := rstart (trange_of t) <=? tcount t in
  let upper := tcount t <? rend (trange_of t) in
  if lower && upper then Satisfied
  else if lower then TooMany
  else TooFew.

(** lib.rs 1640-1642: [Times::maximum]. *)
Definition times_maximum (c : cfg) (t : times) : res N :=
  usub c (rend (trange_of t)) 1.

(** lib.rs 1645-1647: [Times::minimum]. *)
Definition times_minimum (t : times) : N := rstart (trange_of t).

(** lib.rs 1651-1653: [Times::n]. *)
Definition times_n (c : cfg) (n : N) (t : times) : times * res unit :=
  match uadd1 c n with
  | Ret e => (Times (tcount t) (TRange n e), Ret tt)
  | Panic m => (t, Panic m)
  | Abort => (t, Abort)
  end.

(** lib.rs 1655-1657: [Times::never]. *)
Definition times_never (t : times) : times := Times (tcount t) (TRange 0 1).

(** lib.rs 1659-1662: [Times::range]. *)
Definition times_range (a b : N) (t : times) : times * res unit :=
  if a <? b then (Times (tcount t) (TRange a b), Ret tt)
  else (t, Panic MBackwards).

(** lib.rs 1664-1666: [Times::times].  The conversion happens before the
    assignment, so a refused argument leaves the old range. *)
Definition times_times (c : cfg) (x : times_arg) (t : times) : times * res unit :=
  match trange_from c x with
  | Ret r => (Times (tcount t) r, Ret tt)
  | Panic m => (t, Panic m)
  | Abort => (t, Abort)
  end.
