(** * Messages: the texts of panics

    What a user reads when a test fails.  [%] places are filled in by [format!]. *)

From Coq Require Import NArith List Bool String Ascii.
From Verif Require Import Base Names.
Open Scope string_scope.

(** The errors of [Rfunc]: mock_function.rs 1771-1775, 1834-1838, 1957; lib.rs 1451, 1471. *)
Definition rferr_text (e : rferr) : string :=
  match e with
  | ReNeedsNightly => "Returning default values requires the ""nightly"" feature"
  | ReNoDefault => "Can only return default values for types that impl std::Default"
  | ReTwice => "called twice, but it returns by move"
  end.

(** The errors of [Times::call]: lib.rs 1591-1597. *)
Definition timeserr_text (e : timeserr) : string :=
  match e with
  | TeNever => "should not have been called"
  | TeTooMany n mx =>
      "called " ++ show_N n ++ " times which is more than the expected " ++ show_N mx
  end.

(** [{funcname}: Expectation({matcher}) ...]: mock_function.rs 961, 1044, 1051, 2035,
    2101, 2192. *)
Definition about (fn matcher rest : string) : string :=
  fn ++ ": Expectation(" ++ matcher ++ ") " ++ rest.

(** The line ends in std's texts; used for the messages of lib.rs 1708 and 1714. *)
Definition newline : string := String "010" EmptyString.

(** The panic of [assert_eq!(left, right, text)] (std).  Used at lib.rs 1708,
    1714-1715. *)
Definition assert_eq (text : string) (left right : N) : string :=
  "assertion `left == right` failed: " ++ text
  ++ newline ++ "  left: " ++ show_N left ++ newline ++ " right: " ++ show_N right.

(** [user] are the texts of the user's own panics. Those of std and of the fragile
    crate are cut short; an overflow names the operation, which the model does not
    keep.  lib.rs 1451, 1471, 1512-1784; mock_function.rs 487-488, 560, 573, 957-966,
    1041-1058, 1771-1775, 1834-1838, 1957, 2035, 2101, 2192. *)
Definition message (user : N -> string) (m : pmsg) : string :=
  match m with
  | MBackwards => "Backwards range"                                        (* lib.rs 1533, 1552 *)
  | MOverflow => "attempt to compute with overflow"
  | MPoison => "called `Result::unwrap()` on an `Err` value: PoisonError { .. }"
  | MWrongThread => "trying to access wrapped value in fragile container from incorrect thread."
  | MDropThread => "destructor of fragile object ran on wrong thread"
  | MUser n => user n
  | MCall fn s e => about fn s (timeserr_text e)                           (* mock_function.rs 961 *)
  | MRet fn s e => about fn s (rferr_text e)                               (* 2035, 2101, 2192 *)
  | MTooFew fn s n k =>                                                    (* 1044 *)
      about fn s ("called " ++ show_N n ++ " time(s) which is fewer than expected " ++ show_N k)
  | MTooMany fn s n k =>                                                   (* 1051 *)
      about fn s ("called " ++ show_N n ++ " time(s) which is more than expected " ++ show_N k)
  | MSeqVerify d seq level => assert_eq (d ++ ": Method sequence violation") seq level  (* lib.rs 1713 *)
  | MSeqSatisfy old seq =>                                                 (* lib.rs 1708 *)
      assert_eq ("Method sequence violation.  Was an already-satisfied method called another"
                 ++ " time?") old seq
  | MNotExact => "Only Expectations with an exact call count have sequences"            (* 974 *)
  | MNoMatch d => d ++ ": No matching expectation found"                   (* 487-488, 560, 573 *)
  end.
