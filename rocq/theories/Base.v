(** * Base: panics and machine integers

    Results of Rust functions that may panic, and [usize] arithmetic.
    Nothing in this file models a particular mockall function; it fixes the
    meaning of the Rust constructs that the other files use. *)

From Coq Require Import NArith List Bool String.
Import ListNotations.
Open Scope N_scope.

(** ** Panic messages

    One constructor per panic that mockall (or the Rust run time on its behalf)
    raises.  The text is given beside each constructor. *)

(** Errors returned by [Rfunc::call] / [Rfunc::call_mut]:
    mock_function.rs 1771-1775, 1834-1838, 1957; lib.rs 1451, 1471. *)
Inductive rferr : Type :=
| ReNeedsNightly  (* Returning default values requires the "nightly" feature *)
| ReNoDefault     (* Can only return default values for types that impl std::Default *)
| ReTwice.        (* called twice, but it returns by move *)

(** Errors returned by [Times::call]: lib.rs 1587-1602. *)
Inductive timeserr : Type :=
| TeNever                          (* should not have been called *)
| TeTooMany (count maximum : N).   (* called {} times which is more than the expected {} *)

(** The texts are at mockall/src/lib.rs 1512-1784 and mock_function.rs 474-2195, as
    listed in Messages.v; some are those of std and fragile. *)
Inductive pmsg : Type :=
| MBackwards                       (* Backwards range (lib.rs 1533, 1552, 1660) *)
| MOverflow                        (* attempt to add / subtract with overflow (Rust run time) *)
| MPoison                          (* called `Result::unwrap()` on an `Err` value: PoisonError (std) *)
| MWrongThread                     (* access to a Fragile from another thread (fragile crate) *)
| MDropThread                      (* drop of a Fragile on another thread (fragile crate); only in Fragile.v *)
| MUser (payload : N)              (* panic raised by a user closure *)
| MCall (fn matcher : string) (e : timeserr)
    (* {fn}: Expectation({matcher}) {e} (mock_function.rs 961) *)
| MRet (fn matcher : string) (e : rferr)
    (* {fn}: Expectation({matcher}) {e} (mock_function.rs 2035, 2101, 2192) *)
| MTooFew (fn matcher : string) (count minimum : N)
    (* {fn}: Expectation({matcher}) called {} time(s) which is fewer than expected {} (1044) *)
| MTooMany (fn matcher : string) (count maximum : N)
    (* {fn}: Expectation({matcher}) called {} time(s) which is more than expected {} (1051) *)
| MSeqVerify (desc : string) (seq level : N)
    (* {desc}: Method sequence violation (lib.rs 1713) *)
| MSeqSatisfy (old seq : N)
    (* Method sequence violation.  Was an already-satisfied method called another time? (lib.rs 1708) *)
| MNotExact                        (* Only Expectations with an exact call count have sequences (974) *)
| MNoMatch (desc : string).        (* {desc}: No matching expectation found (mock_function.rs 488) *)

(** ** Results

    [Ret a]: the function returned [a].  [Panic m]: it unwound with [m].
    [Abort]: a destructor panicked while the thread was already unwinding, and
    the process was aborted. *)

(** Rust's unwinding; the panics are those of lib.rs 1512-1784 and mock_function.rs 474-2195. *)
Inductive res (A : Type) : Type :=
| Ret (a : A)
| Panic (m : pmsg)
| Abort.
Arguments Ret {A} a.
Arguments Panic {A} m.
Arguments Abort {A}.

(** Going on after a function that may panic; Rust's unwinding, for the panics of lib.rs 1512-1784 and mock_function.rs 474-2195.
    *)
Definition rbind {A B} (r : res A) (f : A -> res B) : res B :=
  match r with
  | Ret a => f a
  | Panic m => Panic m
  | Abort => Abort
  end.

Notation "'let?' x := r 'in' k" := (rbind r (fun x => k))
  (at level 200, x name, r at level 100, k at level 200).

(** The ordinary [Result<A, E>] of Rust.  Used by lib.rs 1587 and mock_function.rs
    1788, 1859, 1947. *)
Inductive result (A E : Type) : Type := Ok (a : A) | Err (e : E).
Arguments Ok {A E} a.
Arguments Err {A E} e.

(** ** Build configuration *)

(** [usize::MAX] and [debug_assertions] of the build, and the "nightly" feature of
    mockall (lib.rs 1443-1475). *)
Record cfg : Type := Cfg {
  umax : N;          (** [usize::MAX] of the target *)
  checks : bool;     (** overflow checks on (debug profile) or off (release) *)
  nightly : bool     (** the [nightly] feature of mockall / mockall_derive *)
}.

(** 64-bit, 32-bit and 16-bit targets; the theorems hold for every maximum that
    is at least 1. *)
Definition debug64 : cfg := Cfg 18446744073709551615 true false.
(** Two such builds, for examples (lib.rs 1443-1475 with and without overflow
    checks). *)
Definition release64 : cfg := Cfg 18446744073709551615 false false.
(** As [release64], for examples: 16-bit [usize] (lib.rs 1512-1667) with checks. *)
Definition debug16 : cfg := Cfg 65535 true false.

(** [a + 1] on [usize]: panics or wraps at the maximum (Rust reference, arithmetic
    overflow).  Used at lib.rs 1527, 1553, 1565. *)
Definition uadd1 (c : cfg) (a : N) : res N :=
  if a <? umax c then Ret (a + 1)
  else if checks c then Panic MOverflow else Ret 0.

(** [a - b] on [usize]: panics or wraps below zero.  Used at lib.rs 1591-1597,
    1628-1637, 1645-1648. *)
Definition usub (c : cfg) (a b : N) : res N :=
  if b <=? a then Ret (a - b)
  else if checks c then Panic MOverflow else Ret (umax c + 1 + a - b).

(** [AtomicUsize::fetch_add(1)]: always wraps; this is the stored new value.  Used
    at lib.rs 1588, 1707. *)
Definition uwrap1 (c : cfg) (a : N) : N :=
  if a <? umax c then a + 1 else 0.
