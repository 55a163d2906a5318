(** * RepoRuns: mockall's own tests of behaviour

    The generated code of the declarations in RepoDecls.v is run (GenRun.v, ModRun.v) as in the
    tests of the same files; each test passes, or panics with a text that contains the one that
    [should_panic] asks for.  Like RepoTests.v, these are tests of the model; no claim rests on
    them.  Values are numbers; those that stand for strings and slices are printed as such. *)

From Coq Require Import List Bool String NArith Arith.
From Verif Require Import Base Times Expect Mock Names Messages.
From Verif Require Import Ast Derive Sig MockFn Item MockItem GenRun ModRun RepoChecks RepoDecls.
Import ListNotations.
Open Scope string_scope.
Open Scope list_scope.

(** ** Tests *)

(** A statement; one in [catch_unwind]; [assert_eq!(v, ..)]. *)
Inductive stmt (O : Type) : Type :=
| Do (o : O)
| Catch (o : O)
| Same (v : N) (o : O).
Arguments Do {O} o.
Arguments Catch {O} o.
Arguments Same {O} v o.

Inductive outcome : Type :=
| Passes
| Fails (text : string)
| Wrong.          (* no such names, wrong values, or an abort *)

Section Driver.
Context {Y O : Type} (do : Y -> O -> option (Y * res (option N))) (unwind : O).

Definition text (m : pmsg) : string := message (fun _ => "") m.

(** The drops at the end while unwinding. *)
Fixpoint unwinding (y : Y) (ends : list O) : bool :=
  match ends with
  | [] => true
  | o :: r => match do y o with Some (y', Ret _) => unwinding y' r | _ => false end
  end.
Definition failed (y : Y) (m : pmsg) (ends : list O) : outcome :=
  match do y unwind with
  | Some (y', _) => if unwinding y' ends then Fails (text m) else Wrong
  | None => Wrong
  end.
Fixpoint ending (y : Y) (ends : list O) : outcome :=
  match ends with
  | [] => Passes
  | o :: r =>
      match do y o with
      | Some (y', Ret _) => ending y' r
      | Some (y', Panic m) => failed y' m r
      | _ => Wrong
      end
  end.
Fixpoint perform (y : Y) (l : list (stmt O)) (ends : list O) : outcome :=
  match l with
  | [] => ending y ends
  | Do o :: r =>
      match do y o with
      | Some (y', Ret _) => perform y' r ends
      | Some (y', Panic m) => failed y' m ends
      | _ => Wrong
      end
  | Catch o :: r =>
      match do y o with
      | Some (y', Panic _) => perform y' r ends
      | _ => Wrong
      end
  | Same v o :: r =>
      match do y o with
      | Some (y', Ret (Some x)) => if N.eqb x v then perform y' r ends else Wrong
      | Some (y', Panic m) => failed y' m ends
      | _ => Wrong
      end
  end.
End Driver.

(** ** Files *)

Definition decl_of (file : string) (i : nat) : option decl :=
  nth_error (flat_map en_decls
    (filter (fun e => String.eqb (en_file e) ("mockall/tests/" ++ file ++ ".rs")%string) repo_decls)) i.

(** Numbers, and what is printed for them. *)
Definition shown (n : N) : string :=
  match n with
  | 1000%N => """xxx"""
  | 1234%N => "[1, 2, 3, 4]"
  | 9999%N => "?"
  | _ => show_N n
  end.
Definition asis (s : gstore N unit) := s.

Definition test_mock (file : string) (i : nat) (c : cfg) (dflt : option N)
  (l : list (stmt (uop N unit))) (ends : list (uop N unit)) : outcome :=
  match decl_of file i with
  | Some d =>
      match generated sample_hash d with
      | Some (inl g) =>
          match ginit g tt with
          | Some y => perform (gstep g (fun _ => (dflt, shown)) c asis) (UUnwinding true) y l ends
          | None => Wrong
          end
      | _ => Wrong
      end
  | None => Wrong
  end.
Definition test_module (file : string) (i : nat) (c : cfg)
  (l : list (stmt (mop N unit))) (ends : list (mop N unit)) : outcome :=
  match decl_of file i with
  | Some d =>
      match generated sample_hash d with
      | Some (inr g) =>
          match minit g tt with
          | Some y => perform (mstep g (fun _ => (None, shown)) c asis) (MUnwinding true) y l ends
          | None => Wrong
          end
      | _ => Wrong
      end
  | None => Wrong
  end.

Definition nightly64 : cfg := Cfg 18446744073709551615 true true.

Definition fails_with (o : outcome) (expected : string) : bool :=
  match o with
  | Fails t => match String.index 0 expected t with Some _ => true | None => false end
  | _ => false
  end.

(** ** What the tests say *)

Definition returns (f : list N -> N) : setter N unit := StReturning (fun l u => (u, Ret (f l))).
Definition unit_ret : setter N unit := returns (fun _ => 0%N).
Definition const (n : N) : setter N unit := StReturnConst n.
Definition arg (l : list N) : N := hd 0%N l.
Definition eq (n : N) : pred N unit := (("var == " ++ shown n)%string, fun a u => (u, Ret (N.eqb a n))).
Definition always : pred N unit := ("true", fun _ u => (u, Ret true)).
Definition never : pred N unit := ("false", fun _ u => (u, Ret false)).
Definition withf (f : list N -> bool) : setter N unit := StWithf (fun l u => (u, Ret (f l))).
Definition is (n : N) : setter N unit := withf (fun l => N.eqb (arg l) n).
Definition same (v : N) := v.

Notation new := (Do UNew).
Notation expect f l := (Do (UExpect 0%nat None f 0%nat l)).
Notation call f l := (UCall 0%nat None f 0%nat l same).
Notation checkpoint := (Do (UCheckpoint 0%nat)).
Notation drop := (UDrop 0%nat).
Notation ctx_expect f k l := (Do (UCtxExpect None f k l)).
Notation static f k l := (UStaticCall None f k l).
Open Scope N_scope.


(** *** mock_struct.rs *)

Example mock_struct_expect_again :
  test_mock "mock_struct" 0%nat debug64 (Some 0)
    [new; expect "foo" [returns (fun _ => 5); StTimes (ARange 1 3)]; Do (call "foo" [0]); checkpoint; expect "foo" [returns (fun _ => 25)]; Same 25 (call "foo" [0])]
    [drop]
  = Passes.
Proof. vm_compute. reflexivity. Qed.

Example mock_struct_not_yet_satisfied :
  fails_with (test_mock "mock_struct" 0%nat debug64 (Some 0)
    [new; expect "foo" [returns (fun _ => 42); StTimes (ANum 1)]; checkpoint]
    [drop])
    "MockFoo::foo: Expectation(<anything>) called 0 time(s) which is fewer than expected 1" = true.
Proof. vm_compute. reflexivity. Qed.

Example mock_struct_too_many_calls :
  fails_with (test_mock "mock_struct" 0%nat debug64 (Some 0)
    [new; expect "foo" [returns (fun _ => 42); StTimes (ANum 0)]; Catch (call "foo" [0]); checkpoint]
    [drop])
    "MockFoo::foo: Expectation(<anything>) called 1 time(s) which is more than expected 0" = true.
Proof. vm_compute. reflexivity. Qed.

Example mock_struct_checkpoint_ok :
  test_mock "mock_struct" 0%nat debug64 (Some 0)
    [new; expect "foo" [returns (fun _ => 5); StTimes (ARange 1 3)]; Do (call "foo" [0]); checkpoint]
    [drop]
  = Passes.
Proof. vm_compute. reflexivity. Qed.

Example mock_struct_removes_old_expectations :
  fails_with (test_mock "mock_struct" 0%nat debug64 (Some 0)
    [new; expect "foo" [returns (fun _ => 42); StTimes (ARange 1 3)]; Do (call "foo" [0]); checkpoint; Do (call "foo" [0])]
    [drop])
    "MockFoo::foo(0): No matching expectation found" = true.
Proof. vm_compute. reflexivity. Qed.

Example mock_struct_fifo_order :
  test_mock "mock_struct" 0%nat debug64 (Some 0)
    [new; expect "foo" [StWith [eq 5]; returns (fun _ => 99)]; expect "foo" [StWith [always]; returns (fun _ => 42)]; Same 99 (call "foo" [5])]
    [drop]
  = Passes.
Proof. vm_compute. reflexivity. Qed.

Example mock_struct_one_match :
  test_mock "mock_struct" 0%nat debug64 (Some 0)
    [new; expect "foo" [StWith [eq 5]; returns (fun _ => 99)]; expect "foo" [StWith [eq 6]; returns (fun _ => 42)]; Same 42 (call "foo" [6]); Same 99 (call "foo" [5])]
    [drop]
  = Passes.
Proof. vm_compute. reflexivity. Qed.

Example mock_struct_with_no_matches :
  fails_with (test_mock "mock_struct" 0%nat debug64 (Some 0)
    [new; expect "bar" [StWith [eq 4]; const 0]; Do (call "bar" [5])]
    [drop])
    "MockFoo::bar(5): No matching expectation found" = true.
Proof. vm_compute. reflexivity. Qed.

Example mock_struct_with_ok :
  test_mock "mock_struct" 0%nat debug64 (Some 0)
    [new; expect "bar" [StWith [eq 5]; const 0]; Do (call "bar" [5])]
    [drop]
  = Passes.
Proof. vm_compute. reflexivity. Qed.

Example mock_struct_withf_ok :
  test_mock "mock_struct" 0%nat debug64 (Some 0)
    [new; expect "bar" [is 5; const 0]; Do (call "bar" [5])]
    [drop]
  = Passes.
Proof. vm_compute. reflexivity. Qed.

Example mock_struct_withf_no_matches :
  fails_with (test_mock "mock_struct" 0%nat debug64 (Some 0)
    [new; expect "bar" [is 6; const 0]; Do (call "bar" [5])]
    [drop])
    "MockFoo::bar(5): No matching expectation found" = true.
Proof. vm_compute. reflexivity. Qed.

Example mock_struct_never_fail :
  fails_with (test_mock "mock_struct" 0%nat debug64 (Some 0)
    [new; expect "bar" [unit_ret; StNever]; Do (call "bar" [0])]
    [drop])
    "MockFoo::bar: Expectation(<anything>) should not have been called" = true.
Proof. vm_compute. reflexivity. Qed.

Example mock_struct_never_ok :
  test_mock "mock_struct" 0%nat debug64 (Some 0)
    [new; expect "foo" [StNever]]
    [drop]
  = Passes.
Proof. vm_compute. reflexivity. Qed.

Example mock_struct_return_const :
  test_mock "mock_struct" 0%nat debug64 (Some 0)
    [new; expect "foo" [const 42]; Same 42 (call "foo" [5])]
    [drop]
  = Passes.
Proof. vm_compute. reflexivity. Qed.

Example mock_struct_return_default :
  fails_with (test_mock "mock_struct" 0%nat debug64 (Some 0)
    [new; expect "foo" []; Same 0 (call "foo" [5])]
    [drop])
    "MockFoo::foo: Expectation(<anything>) Returning default values requires" = true.
Proof. vm_compute. reflexivity. Qed.

Example mock_struct_return_default_nightly :
  test_mock "mock_struct" 0%nat nightly64 (Some 0)
    [new; expect "foo" []; Same 0 (call "foo" [5])]
    [drop]
  = Passes.
Proof. vm_compute. reflexivity. Qed.

Example mock_struct_returning :
  test_mock "mock_struct" 0%nat debug64 (Some 0)
    [new; expect "foo" [returns (fun l => arg l + 1)]; Same 6 (call "foo" [5])]
    [drop]
  = Passes.
Proof. vm_compute. reflexivity. Qed.

Example mock_struct_sequence_ambiguous :
  fails_with (test_mock "mock_struct" 0%nat debug64 (Some 0)
    [new; expect "baz" [StTimes (ARange 1 3); StInSequence 0%nat]; Do (call "baz" [])]
    [drop])
    "exact call count" = true.
Proof. vm_compute. reflexivity. Qed.

Example mock_struct_sequence_fail :
  fails_with (test_mock "mock_struct" 0%nat debug64 (Some 0)
    [new; expect "bar" [StTimes (ANum 1); unit_ret; StInSequence 0%nat]; expect "baz" [StTimes (ANum 1); unit_ret; StInSequence 0%nat]; Do (call "baz" []); Do (call "bar" [0])]
    [drop])
    "MockFoo::baz(): Method sequence violation" = true.
Proof. vm_compute. reflexivity. Qed.

Example mock_struct_sequence_ok :
  test_mock "mock_struct" 0%nat debug64 (Some 0)
    [new; expect "baz" [StTimes (ANum 1); unit_ret; StInSequence 0%nat]; expect "bar" [StTimes (ANum 1); unit_ret; StInSequence 0%nat]; Do (call "baz" []); Do (call "bar" [0])]
    [drop]
  = Passes.
Proof. vm_compute. reflexivity. Qed.

Example mock_struct_sequence_single_method :
  test_mock "mock_struct" 0%nat debug64 (Some 0)
    [new; expect "foo" [StTimes (ANum 1); StInSequence 0%nat; returns (fun _ => 1)]; expect "foo" [StTimes (ANum 1); StInSequence 0%nat; returns (fun _ => 2)]; expect "foo" [StTimes (ANum 1); StInSequence 0%nat; returns (fun _ => 3)]; Same 1 (call "foo" [0]); Same 2 (call "foo" [0]); Same 3 (call "foo" [0])]
    [drop]
  = Passes.
Proof. vm_compute. reflexivity. Qed.

Example mock_struct_times_ok :
  test_mock "mock_struct" 0%nat debug64 (Some 0)
    [new; expect "baz" [unit_ret; StTimes (ANum 2)]; Do (call "baz" []); Do (call "baz" [])]
    [drop]
  = Passes.
Proof. vm_compute. reflexivity. Qed.

Example mock_struct_times_too_few :
  fails_with (test_mock "mock_struct" 0%nat debug64 (Some 0)
    [new; expect "bar" [StWith [eq 5]; unit_ret; StTimes (ANum 2)]; Do (call "bar" [5])]
    [drop])
    "MockFoo::bar: Expectation(var == 5) called 1 time(s) which is fewer than expected 2" = true.
Proof. vm_compute. reflexivity. Qed.

Example mock_struct_times_too_many :
  fails_with (test_mock "mock_struct" 0%nat debug64 (Some 0)
    [new; expect "baz" [unit_ret; StTimes (ANum 2)]; Do (call "baz" []); Do (call "baz" []); Do (call "baz" [])]
    [drop])
    "MockFoo::baz: Expectation(<anything>) called 3 times which is more than the expected 2" = true.
Proof. vm_compute. reflexivity. Qed.

Example mock_struct_range_ok :
  test_mock "mock_struct" 0%nat debug64 (Some 0)
    [new; expect "baz" [unit_ret; StTimes (ARange 2 4)]; Do (call "baz" []); Do (call "baz" []); expect "bar" [unit_ret; StTimes (ARange 2 4)]; Do (call "bar" [0]); Do (call "bar" [0]); Do (call "bar" [0])]
    [drop]
  = Passes.
Proof. vm_compute. reflexivity. Qed.

Example mock_struct_range_too_few :
  fails_with (test_mock "mock_struct" 0%nat debug64 (Some 0)
    [new; expect "baz" [unit_ret; StTimes (ARange 2 4)]; Do (call "baz" [])]
    [drop])
    "MockFoo::baz: Expectation(<anything>) called 1 time(s) which is fewer than expected 2" = true.
Proof. vm_compute. reflexivity. Qed.

Example mock_struct_range_too_many :
  fails_with (test_mock "mock_struct" 0%nat debug64 (Some 0)
    [new; expect "baz" [unit_ret; StTimes (ARange 2 4)]; Do (call "baz" []); Do (call "baz" []); Do (call "baz" []); Do (call "baz" [])]
    [drop])
    "MockFoo::baz: Expectation(<anything>) called 4 times which is more than the expected 3" = true.
Proof. vm_compute. reflexivity. Qed.

Example mock_struct_rangeto_ok :
  test_mock "mock_struct" 0%nat debug64 (Some 0)
    [new; expect "bar" [unit_ret; StTimes (ATo 4)]; Do (call "bar" [0]); Do (call "bar" [0]); Do (call "bar" [0])]
    [drop]
  = Passes.
Proof. vm_compute. reflexivity. Qed.

Example mock_struct_rangeto_too_many :
  fails_with (test_mock "mock_struct" 0%nat debug64 (Some 0)
    [new; expect "baz" [unit_ret; StTimes (ATo 4)]; Do (call "baz" []); Do (call "baz" []); Do (call "baz" []); Do (call "baz" [])]
    [drop])
    "MockFoo::baz: Expectation(<anything>) called 4 times which is more than the expected 3" = true.
Proof. vm_compute. reflexivity. Qed.

Example mock_struct_rangeinclusive_ok :
  test_mock "mock_struct" 0%nat debug64 (Some 0)
    [new; expect "bar" [unit_ret; StTimes (AIncl 2 4)]; Do (call "bar" [0]); Do (call "bar" [0]); Do (call "bar" [0]); Do (call "bar" [0])]
    [drop]
  = Passes.
Proof. vm_compute. reflexivity. Qed.

Example mock_struct_rangefrom_ok :
  test_mock "mock_struct" 0%nat debug64 (Some 0)
    [new; expect "baz" [unit_ret; StTimes (AFrom 2)]; Do (call "baz" []); Do (call "baz" []); expect "bar" [unit_ret; StTimes (AFrom 2)]; Do (call "bar" [0]); Do (call "bar" [0]); Do (call "bar" [0])]
    [drop]
  = Passes.
Proof. vm_compute. reflexivity. Qed.

Example mock_struct_rangefrom_too_few :
  fails_with (test_mock "mock_struct" 0%nat debug64 (Some 0)
    [new; expect "baz" [unit_ret; StTimes (AFrom 2)]; Do (call "baz" [])]
    [drop])
    "MockFoo::baz: Expectation(<anything>) called 1 time(s) which is fewer than expected 2" = true.
Proof. vm_compute. reflexivity. Qed.

Example mock_struct_times_full :
  test_mock "mock_struct" 0%nat debug64 (Some 0)
    [new; expect "baz" [unit_ret; StTimes (ANum 1); StTimes AFull]; Do (call "baz" []); Do (call "baz" [])]
    [drop]
  = Passes.
Proof. vm_compute. reflexivity. Qed.

(** *** mock_struct_with_static_method.rs *)

Example mock_struct_with_static_method_checkpoint :
  test_mock "mock_struct_with_static_method" 0%nat debug64 (Some 0)
    [new; ctx_expect "bar" 0%nat [returns (fun _ => 32); StTimes (ARange 1 3)]; checkpoint; Do (static "bar" 0%nat [0])]
    [UCtxDrop None "bar"; drop]
  = Passes.
Proof. vm_compute. reflexivity. Qed.

Example mock_struct_with_static_method_ctx_checkpoint :
  fails_with (test_mock "mock_struct_with_static_method" 0%nat debug64 (Some 0)
    [ctx_expect "bar" 0%nat [returns (fun _ => 32); StTimes (ARange 1 3)]; Do (UCtxCheckpoint None "bar")]
    [UCtxDrop None "bar"])
    "MockFoo::bar: Expectation(<anything>) called 0 time(s) which is fewer than expected 1" = true.
Proof. vm_compute. reflexivity. Qed.

Example mock_struct_with_static_method_ctx_hygiene :
  fails_with (test_mock "mock_struct_with_static_method" 0%nat debug64 (Some 0)
    [ctx_expect "bar" 0%nat [returns (fun l => arg l + 1)]; Do (UCtxDrop None "bar"); Do (static "bar" 0%nat [42])]
    [])
    "MockFoo::bar(42): No matching expectation found" = true.
Proof. vm_compute. reflexivity. Qed.

Example mock_struct_with_static_method_return_const :
  test_mock "mock_struct_with_static_method" 0%nat debug64 (Some 0)
    [ctx_expect "bar" 0%nat [const 42]; Same 42 (static "bar" 0%nat [41])]
    [UCtxDrop None "bar"]
  = Passes.
Proof. vm_compute. reflexivity. Qed.

Example mock_struct_with_static_method_return_default :
  test_mock "mock_struct_with_static_method" 0%nat nightly64 (Some 0)
    [ctx_expect "bar" 0%nat []; Same 0 (static "bar" 0%nat [5])]
    [UCtxDrop None "bar"]
  = Passes.
Proof. vm_compute. reflexivity. Qed.

Example mock_struct_with_static_method_returning :
  test_mock "mock_struct_with_static_method" 0%nat debug64 (Some 0)
    [ctx_expect "bar" 0%nat [returns (fun l => arg l + 1)]; Same 42 (static "bar" 0%nat [41])]
    [UCtxDrop None "bar"]
  = Passes.
Proof. vm_compute. reflexivity. Qed.

Example mock_struct_with_static_method_two_matches :
  test_mock "mock_struct_with_static_method" 0%nat debug64 (Some 0)
    [ctx_expect "bar" 0%nat [StWith [eq 42]; const 99]; ctx_expect "bar" 0%nat [StWith [eq 69]; const 101]; Same 101 (static "bar" 0%nat [69]); Same 99 (static "bar" 0%nat [42])]
    [UCtxDrop None "bar"]
  = Passes.
Proof. vm_compute. reflexivity. Qed.

(** *** automock_nondebug.rs *)

Example automock_nondebug_with_no_matches :
  fails_with (test_mock "automock_nondebug" 0%nat debug64 (Some 0)
    [new; Do (UCall 0%nat (Some 0%nat) "foo" 0%nat [9999] same)]
    [drop])
    "MockFoo::foo(?): No matching expectation found" = true.
Proof. vm_compute. reflexivity. Qed.

(** *** automock_many_args.rs *)

Example automock_many_args_not_yet_satisfied :
  fails_with (test_mock "automock_many_args" 0%nat debug64 (Some 0)
    [new; Do (UExpect 0%nat (Some 0%nat) "foo" 0%nat [StWith (repeat always 16%nat); StTimes (ANum 1); unit_ret])]
    [drop])
    "MockManyArgs::foo: Expectation(true, true, true, true, true, true, true, true, true, true, true, true, true, true, true, true) called 0 time(s) which is fewer than expected 1" = true.
Proof. vm_compute. reflexivity. Qed.

Example automock_many_args_returning :
  test_mock "automock_many_args" 0%nat debug64 (Some 0)
    [new; Do (UExpect 0%nat (Some 0%nat) "foo" 0%nat [unit_ret]); Do (UCall 0%nat (Some 0%nat) "foo" 0%nat (repeat 0 16%nat) same)]
    [drop]
  = Passes.
Proof. vm_compute. reflexivity. Qed.

Example automock_many_args_return_const :
  test_mock "automock_many_args" 0%nat debug64 (Some 0)
    [new; Do (UExpect 0%nat (Some 0%nat) "bar" 0%nat [const 42]); Same 42 (UCall 0%nat (Some 0%nat) "bar" 0%nat (repeat 0 16%nat) same)]
    [drop]
  = Passes.
Proof. vm_compute. reflexivity. Qed.

Example automock_many_args_return_var :
  test_mock "automock_many_args" 0%nat debug64 (Some 0)
    [new; Do (UExpect 0%nat (Some 0%nat) "baz" 0%nat [StReturnVar 42]); Same 42 (UCall 0%nat (Some 0%nat) "baz" 0%nat (repeat 0 16%nat) same)]
    [drop]
  = Passes.
Proof. vm_compute. reflexivity. Qed.

Example automock_many_args_static_method_returning :
  test_mock "automock_many_args" 0%nat debug64 (Some 0)
    [Do (UCtxExpect (Some 0%nat) "bean" 0%nat [unit_ret]); Do (UStaticCall (Some 0%nat) "bean" 0%nat (repeat 0 16%nat))]
    [UCtxDrop (Some 0%nat) "bean"]
  = Passes.
Proof. vm_compute. reflexivity. Qed.

Example automock_many_args_too_many :
  fails_with (test_mock "automock_many_args" 0%nat debug64 (Some 0)
    [new; Do (UExpect 0%nat (Some 0%nat) "foo" 0%nat [StWith (repeat always 16%nat); StTimes (ANum 1); unit_ret]); Do (UCall 0%nat (Some 0%nat) "foo" 0%nat (repeat 0 16%nat) same); Do (UCall 0%nat (Some 0%nat) "foo" 0%nat (repeat 0 16%nat) same)]
    [drop])
    "MockManyArgs::foo: Expectation(true, true, true, true, true, true, true, true, true, true, true, true, true, true, true, true) called 2 times which is more than the expected 1" = true.
Proof. vm_compute. reflexivity. Qed.

(** *** mock_return_reference.rs *)

Example mock_return_reference_never_fail :
  fails_with (test_mock "mock_return_reference" 0%nat debug64 (Some 0)
    [new; expect "bar" [const 0; StNever]; Do (call "bar" [])]
    [drop])
    "MockFoo::bar: Expectation(<anything>) should not have been called" = true.
Proof. vm_compute. reflexivity. Qed.

Example mock_return_reference_never_ok :
  test_mock "mock_return_reference" 0%nat debug64 (Some 0)
    [new; expect "foo" [StNever]]
    [drop]
  = Passes.
Proof. vm_compute. reflexivity. Qed.

Example mock_return_reference_return_const :
  test_mock "mock_return_reference" 0%nat debug64 (Some 0)
    [new; expect "foo" [const 5]; Same 5 (call "foo" [4])]
    [drop]
  = Passes.
Proof. vm_compute. reflexivity. Qed.

Example mock_return_reference_return_default :
  fails_with (test_mock "mock_return_reference" 0%nat debug64 (Some 0)
    [new; expect "foo" []; Same 0 (call "foo" [4])]
    [drop])
    "MockFoo::foo: Expectation(<anything>) Returning default values requires" = true.
Proof. vm_compute. reflexivity. Qed.

Example mock_return_reference_return_default_nightly :
  test_mock "mock_return_reference" 0%nat nightly64 (Some 0)
    [new; expect "foo" []; Same 0 (call "foo" [4])]
    [drop]
  = Passes.
Proof. vm_compute. reflexivity. Qed.

Example mock_return_reference_sequence_ambiguous :
  fails_with (test_mock "mock_return_reference" 0%nat debug64 (Some 0)
    [new; expect "foo" [StTimes (ARange 1 3); StInSequence 0%nat]; Do (call "foo" [4])]
    [drop])
    "exact call count" = true.
Proof. vm_compute. reflexivity. Qed.

Example mock_return_reference_sequence_fail :
  fails_with (test_mock "mock_return_reference" 0%nat debug64 (Some 0)
    [new; expect "bar" [StTimes (ANum 1); const 0; StInSequence 0%nat]; expect "foo" [StTimes (ANum 1); const 0; StInSequence 0%nat]; Do (call "foo" [4]); Do (call "bar" [])]
    [drop])
    "MockFoo::foo(4): Method sequence violation" = true.
Proof. vm_compute. reflexivity. Qed.

Example mock_return_reference_sequence_ok :
  test_mock "mock_return_reference" 0%nat debug64 (Some 0)
    [new; expect "foo" [StTimes (ANum 1); const 0; StInSequence 0%nat]; expect "bar" [StTimes (ANum 1); const 0; StInSequence 0%nat]; Do (call "foo" [4]); Do (call "bar" [])]
    [drop]
  = Passes.
Proof. vm_compute. reflexivity. Qed.

(** *** mock_generic_arguments.rs (type 0 is i16, type 1 is i32) *)

Example mock_generic_arguments_return_const :
  test_mock "mock_generic_arguments" 0%nat debug64 (Some 0)
    [new; expect "foo" [const 0]; Same 0 (call "foo" [0])]
    [drop]
  = Passes.
Proof. vm_compute. reflexivity. Qed.

Example mock_generic_arguments_multiple_methods :
  test_mock "mock_generic_arguments" 0%nat debug64 (Some 0)
    [new; expect "foo" [StWith [eq 4]; const 0]; expect "bar" [StWith [eq 5]; const 0]; Do (call "bar" [5]); Do (call "foo" [4])]
    [drop]
  = Passes.
Proof. vm_compute. reflexivity. Qed.

Example mock_generic_arguments_with_ok :
  test_mock "mock_generic_arguments" 0%nat debug64 (Some 0)
    [new; expect "foo" [StWith [eq 4]; const 0]; Do (call "foo" [4])]
    [drop]
  = Passes.
Proof. vm_compute. reflexivity. Qed.

Example mock_generic_arguments_wrong_generic_type :
  fails_with (test_mock "mock_generic_arguments" 0%nat debug64 (Some 0)
    [new; expect "foo" [StWith [eq 4]; const 0]; Do (UCall 0%nat None "foo" 1%nat [4] same)]
    [drop])
    "MockFoo::foo(4): No matching expectation found" = true.
Proof. vm_compute. reflexivity. Qed.

Example mock_generic_arguments_no_debug_trait_bound :
  fails_with (test_mock "mock_generic_arguments" 0%nat debug64 (Some 0)
    [new; expect "bar" [StWith [eq 4]; const 0]; Do (UCall 0%nat None "bar" 1%nat [9999] same)]
    [drop])
    "MockFoo::bar(?): No matching expectation found" = true.
Proof. vm_compute. reflexivity. Qed.

(** *** automock_return_owned.rs *)

Example automock_return_owned_return_once :
  test_mock "automock_return_owned" 0%nat debug64 (Some 0)
    [new; Do (UExpect 0%nat (Some 0%nat) "foo" 0%nat [StReturnOnce (fun _ u => (u, Ret 7))]); Do (UCall 0%nat (Some 0%nat) "foo" 0%nat [] same)]
    [drop]
  = Passes.
Proof. vm_compute. reflexivity. Qed.

Example automock_return_owned_return_once_too_many_times :
  fails_with (test_mock "automock_return_owned" 0%nat debug64 (Some 0)
    [new; Do (UExpect 0%nat (Some 0%nat) "foo" 0%nat [StReturnOnce (fun _ u => (u, Ret 7))]); Do (UCall 0%nat (Some 0%nat) "foo" 0%nat [] same); Do (UCall 0%nat (Some 0%nat) "foo" 0%nat [] same)]
    [drop])
    "MockT::foo: Expectation(<anything>) called twice, but it returns by move" = true.
Proof. vm_compute. reflexivity. Qed.

(** *** mock_unsized.rs *)

Example mock_unsized_with_always :
  test_mock "mock_unsized" 0%nat debug64 (Some 0)
    [new; expect "foo" [StWith [always]; const 0]; Do (call "foo" [1000])]
    [drop]
  = Passes.
Proof. vm_compute. reflexivity. Qed.

Example mock_unsized_with_eq :
  test_mock "mock_unsized" 0%nat debug64 (Some 0)
    [new; expect "foo" [StWith [eq 1000]; const 0]; Do (call "foo" [1000])]
    [drop]
  = Passes.
Proof. vm_compute. reflexivity. Qed.

Example mock_unsized_with_never :
  fails_with (test_mock "mock_unsized" 0%nat debug64 (Some 0)
    [new; expect "foo" [StWith [never]; const 0]; Do (call "foo" [1000])]
    [drop])
    "MockFoo::foo(""xxx""): No matching expectation found" = true.
Proof. vm_compute. reflexivity. Qed.

Example mock_unsized_withf :
  test_mock "mock_unsized" 0%nat debug64 (Some 0)
    [new; expect "foo" [is 1000; const 0]; Do (call "foo" [1000])]
    [drop]
  = Passes.
Proof. vm_compute. reflexivity. Qed.

(** *** mock_generic_struct_with_nondefault_parameter.rs *)

Example mock_generic_struct_with_nondefault_parameter_return_default :
  fails_with (test_mock "mock_generic_struct_with_nondefault_parameter" 0%nat nightly64 None
    [new; Do (UExpect 0%nat (Some 0%nat) "foo" 0%nat []); Do (UCall 0%nat (Some 0%nat) "foo" 0%nat [] same)]
    [drop])
    "MockExternalStruct::foo: Expectation(<anything>) Can only return default values for types that impl std::Default" = true.
Proof. vm_compute. reflexivity. Qed.

Example mock_generic_struct_with_nondefault_parameter_returning :
  test_mock "mock_generic_struct_with_nondefault_parameter" 0%nat debug64 None
    [new; Do (UExpect 0%nat (Some 0%nat) "foo" 0%nat [unit_ret]); Do (UCall 0%nat (Some 0%nat) "foo" 0%nat [] same)]
    [drop]
  = Passes.
Proof. vm_compute. reflexivity. Qed.

(** *** mock_generic_struct_with_generic_static_method.rs (types 0: u32 and i16, types 1: u32 and i32) *)

Example mock_generic_struct_with_generic_static_method_checkpoint :
  test_mock "mock_generic_struct_with_generic_static_method" 0%nat debug64 (Some 0)
    [new; ctx_expect "foo" 0%nat [unit_ret; StTimes (ARange 1 3)]; checkpoint; Do (static "foo" 0%nat [42; 69])]
    [UCtxDrop None "foo"; drop]
  = Passes.
Proof. vm_compute. reflexivity. Qed.

Example mock_generic_struct_with_generic_static_method_ctx_checkpoint :
  fails_with (test_mock "mock_generic_struct_with_generic_static_method" 0%nat debug64 (Some 0)
    [ctx_expect "foo" 0%nat [unit_ret; StTimes (ARange 1 3)]; Do (UCtxCheckpoint None "foo")]
    [UCtxDrop None "foo"])
    "MockFoo::foo: Expectation(<anything>) called 0 time(s) which is fewer than expected 1" = true.
Proof. vm_compute. reflexivity. Qed.

Example mock_generic_struct_with_generic_static_method_ctx_hygiene :
  fails_with (test_mock "mock_generic_struct_with_generic_static_method" 0%nat debug64 (Some 0)
    [ctx_expect "foo" 0%nat [unit_ret]; Do (UCtxDrop None "foo"); Do (static "foo" 1%nat [42; 69])]
    [])
    "MockFoo::foo(42, 69): No matching expectation found" = true.
Proof. vm_compute. reflexivity. Qed.

Example mock_generic_struct_with_generic_static_method_return_default :
  test_mock "mock_generic_struct_with_generic_static_method" 0%nat nightly64 (Some 0)
    [ctx_expect "foo" 0%nat []; Do (static "foo" 0%nat [5; 6])]
    [UCtxDrop None "foo"]
  = Passes.
Proof. vm_compute. reflexivity. Qed.

Example mock_generic_struct_with_generic_static_method_returning :
  test_mock "mock_generic_struct_with_generic_static_method" 0%nat debug64 (Some 0)
    [ctx_expect "foo" 0%nat [unit_ret]; Do (static "foo" 0%nat [41; 42])]
    [UCtxDrop None "foo"]
  = Passes.
Proof. vm_compute. reflexivity. Qed.

Example mock_generic_struct_with_generic_static_method_two_matches :
  test_mock "mock_generic_struct_with_generic_static_method" 0%nat debug64 (Some 0)
    [ctx_expect "foo" 0%nat [StWith [eq 42; eq 0]; const 99]; ctx_expect "foo" 0%nat [StWith [eq 69; eq 0]; const 101]; Same 101 (static "foo" 0%nat [69; 0]); Same 99 (static "foo" 0%nat [42; 0])]
    [UCtxDrop None "foo"]
  = Passes.
Proof. vm_compute. reflexivity. Qed.

Example mock_generic_struct_with_generic_static_method_with :
  test_mock "mock_generic_struct_with_generic_static_method" 0%nat debug64 (Some 0)
    [ctx_expect "foo" 0%nat [StWith [eq 42; eq 99]; unit_ret]; Do (static "foo" 0%nat [42; 99])]
    [UCtxDrop None "foo"]
  = Passes.
Proof. vm_compute. reflexivity. Qed.

(** *** automock_slice_arguments.rs *)

Example automock_slice_arguments_withf_fail :
  fails_with (test_mock "automock_slice_arguments" 0%nat debug64 (Some 0)
    [new; Do (UExpect 0%nat (Some 0%nat) "foo" 0%nat [is 123; unit_ret]); Do (UCall 0%nat (Some 0%nat) "foo" 0%nat [1234] same)]
    [drop])
    "MockFoo::foo([1, 2, 3, 4]): No matching expectation found" = true.
Proof. vm_compute. reflexivity. Qed.

Example automock_slice_arguments_withf_ok :
  test_mock "automock_slice_arguments" 0%nat debug64 (Some 0)
    [new; Do (UExpect 0%nat (Some 0%nat) "foo" 0%nat [is 123; unit_ret]); Do (UCall 0%nat (Some 0%nat) "foo" 0%nat [123] same)]
    [drop]
  = Passes.
Proof. vm_compute. reflexivity. Qed.

(** *** automock_module.rs *)

Example automock_module_with_no_matches :
  fails_with (test_module "automock_module" 0%nat debug64
    [Do (MExpect "bar" 0%nat [StWith [eq 4]; const 0]); Do (MCall "bar" 0%nat [5])]
    [MCtxDrop "bar"])
    "mock_foo::bar(5): No matching expectation found" = true.
Proof. vm_compute. reflexivity. Qed.

Example automock_module_returning :
  test_module "automock_module" 0%nat debug64
    [Do (MExpect "bar" 0%nat [returns (fun l => arg l + 1)]); Same 5 (MCall "bar" 0%nat [4])]
    [MCtxDrop "bar"]
  = Passes.
Proof. vm_compute. reflexivity. Qed.

Example automock_module_impl_trait :
  test_module "automock_module" 0%nat debug64
    [Do (MExpect "baz" 0%nat [returns (fun _ => 4)]); Same 4 (MCall "baz" 0%nat [])]
    [MCtxDrop "baz"]
  = Passes.
Proof. vm_compute. reflexivity. Qed.

(** *** mock_reference_arguments.rs *)

Example mock_reference_arguments_with :
  test_mock "mock_reference_arguments" 0%nat debug64 (Some 0)
    [new; expect "foo" [StWith [eq 5]; returns arg]; expect "bar" [StWith [eq 99]; unit_ret]; Same 5 (call "foo" [5]); Do (call "bar" [99])]
    [drop]
  = Passes.
Proof. vm_compute. reflexivity. Qed.

Example mock_reference_arguments_withf :
  test_mock "mock_reference_arguments" 0%nat debug64 (Some 0)
    [new; expect "foo" [is 5; returns arg]; expect "bar" [is 99; unit_ret]; Same 5 (call "foo" [5]); Do (call "bar" [99])]
    [drop]
  = Passes.
Proof. vm_compute. reflexivity. Qed.

Example mock_reference_arguments_times_ok :
  test_mock "mock_reference_arguments" 0%nat debug64 (Some 0)
    [new; expect "foo" [unit_ret; StTimes (ANum 2)]; Do (call "foo" [42]); Do (call "foo" [42])]
    [drop]
  = Passes.
Proof. vm_compute. reflexivity. Qed.

Example mock_reference_arguments_times_too_few :
  fails_with (test_mock "mock_reference_arguments" 0%nat debug64 (Some 0)
    [new; expect "foo" [unit_ret; StTimes (ANum 2)]; Do (call "foo" [42])]
    [drop])
    "MockFoo::foo: Expectation(<anything>) called 1 time(s) which is fewer than expected 2" = true.
Proof. vm_compute. reflexivity. Qed.

Example mock_reference_arguments_times_too_many :
  fails_with (test_mock "mock_reference_arguments" 0%nat debug64 (Some 0)
    [new; expect "foo" [unit_ret; StTimes (ANum 2)]; Do (call "foo" [42]); Do (call "foo" [42]); Do (call "foo" [42])]
    [drop])
    "MockFoo::foo: Expectation(<anything>) called 3 times which is more than the expected 2" = true.
Proof. vm_compute. reflexivity. Qed.

Example mock_reference_arguments_range_ok :
  test_mock "mock_reference_arguments" 0%nat debug64 (Some 0)
    [new; expect "foo" [unit_ret; StTimes (ARange 2 4)]; Do (call "foo" [42]); Do (call "foo" [42])]
    [drop]
  = Passes.
Proof. vm_compute. reflexivity. Qed.

Example mock_reference_arguments_range_too_few :
  fails_with (test_mock "mock_reference_arguments" 0%nat debug64 (Some 0)
    [new; expect "foo" [unit_ret; StTimes (ARange 2 4)]; Do (call "foo" [42])]
    [drop])
    "MockFoo::foo: Expectation(<anything>) called 1 time(s) which is fewer than expected 2" = true.
Proof. vm_compute. reflexivity. Qed.

Example mock_reference_arguments_range_too_many :
  fails_with (test_mock "mock_reference_arguments" 0%nat debug64 (Some 0)
    [new; expect "foo" [unit_ret; StTimes (ARange 2 4)]; Do (call "foo" [42]); Do (call "foo" [42]); Do (call "foo" [42]); Do (call "foo" [42])]
    [drop])
    "MockFoo::foo: Expectation(<anything>) called 4 times which is more than the expected 3" = true.
Proof. vm_compute. reflexivity. Qed.

Example mock_reference_arguments_times_full :
  test_mock "mock_reference_arguments" 0%nat debug64 (Some 0)
    [new; expect "foo" [unit_ret; StTimes (ANum 1); StTimes AFull]; Do (call "foo" [42]); Do (call "foo" [42])]
    [drop]
  = Passes.
Proof. vm_compute. reflexivity. Qed.

(** *** mock_return_mutable_reference.rs *)

Example mock_return_mutable_reference_return_default :
  fails_with (test_mock "mock_return_mutable_reference" 0%nat debug64 (Some 0)
    [new; expect "foo" []; Same 0 (call "foo" [0])]
    [drop])
    "MockFoo::foo: Expectation(<anything>) Returning default values requires" = true.
Proof. vm_compute. reflexivity. Qed.

Example mock_return_mutable_reference_return_default_nightly :
  test_mock "mock_return_mutable_reference" 0%nat nightly64 (Some 0)
    [new; expect "foo" []; Same 0 (call "foo" [0])]
    [drop]
  = Passes.
Proof. vm_compute. reflexivity. Qed.

Example mock_return_mutable_reference_return_var :
  test_mock "mock_return_mutable_reference" 0%nat debug64 (Some 0)
    [new; expect "foo" [StReturnVar 5]; Same 5 (UCall 0%nat None "foo" 0%nat [0] (fun _ => 6)); Same 6 (call "foo" [0])]
    [drop]
  = Passes.
Proof. vm_compute. reflexivity. Qed.

Example mock_return_mutable_reference_returning :
  test_mock "mock_return_mutable_reference" 0%nat debug64 (Some 0)
    [new; expect "foo" [returns (fun _ => 5)]; Same 5 (call "foo" [0])]
    [drop]
  = Passes.
Proof. vm_compute. reflexivity. Qed.

Example mock_return_mutable_reference_sequence_fail :
  fails_with (test_mock "mock_return_mutable_reference" 0%nat debug64 (Some 0)
    [new; expect "foo" [StWith [eq 3]; StTimes (ANum 1); StReturnVar 0; StInSequence 0%nat]; expect "foo" [StWith [eq 4]; StTimes (ANum 1); StReturnVar 0; StInSequence 0%nat]; Do (call "foo" [4])]
    [drop])
    "MockFoo::foo(4): Method sequence violation" = true.
Proof. vm_compute. reflexivity. Qed.

Example mock_return_mutable_reference_sequence_ok :
  test_mock "mock_return_mutable_reference" 0%nat debug64 (Some 0)
    [new; expect "foo" [StWith [eq 3]; StTimes (ANum 1); StReturnVar 0; StInSequence 0%nat]; expect "foo" [StWith [eq 4]; StTimes (ANum 1); StReturnVar 0; StInSequence 0%nat]; Do (call "foo" [3]); Do (call "foo" [4])]
    [drop]
  = Passes.
Proof. vm_compute. reflexivity. Qed.

(** *** automock_foreign_c.rs *)

Example automock_foreign_c_with_no_matches :
  fails_with (test_module "automock_foreign_c" 0%nat debug64
    [Do (MExpect "foo" 0%nat [StWith [eq 4]; returns arg]); Do (MCall "foo" 0%nat [5])]
    [MCtxDrop "foo"])
    "mock_ffi::foo(5): No matching expectation found" = true.
Proof. vm_compute. reflexivity. Qed.

Example automock_foreign_c_returning :
  test_module "automock_foreign_c" 0%nat debug64
    [Do (MExpect "foo" 0%nat [returns arg]); Same 42 (MCall "foo" 0%nat [42])]
    [MCtxDrop "foo"]
  = Passes.
Proof. vm_compute. reflexivity. Qed.

(** *** automock_foreign_c_variadic.rs *)

Example automock_foreign_c_variadic_mocked_c_variadic :
  test_module "automock_foreign_c_variadic" 0%nat nightly64
    [Do (MExpect "foo" 0%nat [returns (fun l => arg l * arg (tl l))]); Same 6 (MCall "foo" 0%nat [2; 3])]
    [MCtxDrop "foo"]
  = Passes.
Proof. vm_compute. reflexivity. Qed.

Example automock_foreign_c_variadic_panics :
  fails_with (test_module "automock_foreign_c_variadic" 0%nat nightly64
    [Do (MCall "foo" 0%nat [1; 2])]
    [])
    "No matching expectation found" = true.
Proof. vm_compute. reflexivity. Qed.

(** *** clear_expectations_on_panic.rs *)

Example clear_expectations_on_panic_too_few_calls :
  test_mock "clear_expectations_on_panic" 0%nat debug64 (Some 0)
    [Do (UCtxExpect (Some 0%nat) "foo" 0%nat [StTimes (ANum 1); const 42]); Catch (UCtxDrop (Some 0%nat) "foo"); Do (UCtxExpect (Some 0%nat) "foo" 0%nat [StTimes (ANum 1); const 42]); Same 42 (UStaticCall (Some 0%nat) "foo" 0%nat [])]
    [UCtxDrop (Some 0%nat) "foo"]
  = Passes.
Proof. vm_compute. reflexivity. Qed.

Example clear_expectations_on_panic_too_many_calls :
  test_mock "clear_expectations_on_panic" 0%nat nightly64 (Some 0)
    [Do (UCtxExpect (Some 0%nat) "bar" 0%nat [StTimes (ANum 0)]); Catch (UStaticCall (Some 0%nat) "bar" 0%nat []); Do (UUnwinding true); Do (UCtxDrop (Some 0%nat) "bar"); Do (UUnwinding false)]
    [UCtxDrop (Some 0%nat) "bar"]
  = Passes.
Proof. vm_compute. reflexivity. Qed.

(** *** mock_same_trait_twice_on_generic_struct.rs *)

Example mock_same_trait_twice_on_generic_struct_return_once :
  test_mock "mock_same_trait_twice_on_generic_struct" 0%nat debug64 (Some 0)
    [new; Do (UExpect 0%nat (Some 0%nat) "into" 0%nat [StReturnOnce (fun _ u => (u, Ret 42))]); new; Do (UExpect 1%nat (Some 1%nat) "into" 0%nat [StReturnOnce (fun _ u => (u, Ret 24))]); Same 42 (UCall 0%nat (Some 0%nat) "into" 0%nat [] same); Same 24 (UCall 1%nat (Some 1%nat) "into" 0%nat [] same)]
    [UDrop 1%nat; UDrop 0%nat]
  = Passes.
Proof. vm_compute. reflexivity. Qed.

(** *** mock_inherited_traits.rs *)

Example mock_inherited_traits_returning :
  test_mock "mock_inherited_traits" 0%nat debug64 (Some 0)
    [new; Do (UExpect 0%nat (Some 0%nat) "foo" 0%nat [unit_ret]); Do (UExpect 0%nat (Some 1%nat) "bar" 0%nat [unit_ret]); Do (UCall 0%nat (Some 0%nat) "foo" 0%nat [] same); Do (UCall 0%nat (Some 1%nat) "bar" 0%nat [] same)]
    [drop]
  = Passes.
Proof. vm_compute. reflexivity. Qed.

(** *** mock_multiple_traits.rs, mock_multiple_traits_same_name.rs *)

Example mock_multiple_traits_new :
  test_mock "mock_multiple_traits" 0%nat debug64 (Some 0)
    [new]
    [drop]
  = Passes.
Proof. vm_compute. reflexivity. Qed.

Example mock_multiple_traits_same_name_new :
  test_mock "mock_multiple_traits_same_name" 0%nat debug64 (Some 0)
    [new]
    [drop]
  = Passes.
Proof. vm_compute. reflexivity. Qed.

(** *** automock_static_method.rs, mock_trait_with_static_method.rs, automock_generic_static_method.rs *)

Example automock_static_method_returning :
  test_mock "automock_static_method" 0%nat debug64 (Some 0)
    [Do (UCtxExpect (Some 0%nat) "bar" 0%nat [returns (fun _ => 42)]); Same 42 (UStaticCall (Some 0%nat) "bar" 0%nat [])]
    [UCtxDrop (Some 0%nat) "bar"]
  = Passes.
Proof. vm_compute. reflexivity. Qed.

Example mock_trait_with_static_method_returning :
  test_mock "mock_trait_with_static_method" 0%nat debug64 (Some 0)
    [Do (UCtxExpect (Some 0%nat) "baz" 0%nat [returns (fun l => arg l + 1)]); Same 42 (UStaticCall (Some 0%nat) "baz" 0%nat [41])]
    [UCtxDrop (Some 0%nat) "baz"]
  = Passes.
Proof. vm_compute. reflexivity. Qed.

Example automock_generic_static_method_returning :
  test_mock "automock_generic_static_method" 0%nat debug64 (Some 0)
    [Do (UCtxExpect (Some 0%nat) "bar" 0%nat [returns (fun _ => 42)]); Same 42 (UStaticCall (Some 0%nat) "bar" 0%nat [1])]
    [UCtxDrop (Some 0%nat) "bar"]
  = Passes.
Proof. vm_compute. reflexivity. Qed.

Example automock_generic_static_method_return_const :
  test_mock "automock_generic_static_method" 0%nat debug64 (Some 0)
    [Do (UCtxExpect (Some 0%nat) "bar" 0%nat [const 42]); Same 42 (UStaticCall (Some 0%nat) "bar" 0%nat [1])]
    [UCtxDrop (Some 0%nat) "bar"]
  = Passes.
Proof. vm_compute. reflexivity. Qed.

(** *** raw_identifier.rs *)

Example raw_identifier_by_ref :
  test_mock "raw_identifier" 0%nat debug64 (Some 0)
    [new; Do (UExpect 0%nat (Some 0%nat) "match" 0%nat [const 0]); Do (UCall 0%nat (Some 0%nat) "r#match" 0%nat [] same)]
    [drop]
  = Passes.
Proof. vm_compute. reflexivity. Qed.

Example raw_identifier_static_method :
  test_mock "raw_identifier" 0%nat debug64 (Some 0)
    [Do (UCtxExpect (Some 0%nat) "loop" 0%nat [unit_ret]); Do (UStaticCall (Some 0%nat) "r#loop" 0%nat [])]
    [UCtxDrop (Some 0%nat) "loop"]
  = Passes.
Proof. vm_compute. reflexivity. Qed.

Example raw_identifier_module :
  test_module "raw_identifier" 1%nat debug64
    [Do (MExpect "if" 0%nat [unit_ret]); Do (MCall "r#if" 0%nat [])]
    [MCtxDrop "if"]
  = Passes.
Proof. vm_compute. reflexivity. Qed.

Example raw_identifier_manual_mock :
  test_mock "raw_identifier" 2%nat debug64 (Some 0)
    [new; Do (UExpect 0%nat (Some 0%nat) "match" 0%nat [const 0]); Do (UCall 0%nat (Some 0%nat) "r#match" 0%nat [] same)]
    [drop]
  = Passes.
Proof. vm_compute. reflexivity. Qed.

Example raw_identifier_trait_impl :
  test_mock "raw_identifier" 3%nat debug64 (Some 0)
    [new; Do (UExpect 0%nat (Some 0%nat) "match" 0%nat [unit_ret]); Do (UCall 0%nat (Some 0%nat) "r#match" 0%nat [] same)]
    [drop]
  = Passes.
Proof. vm_compute. reflexivity. Qed.
