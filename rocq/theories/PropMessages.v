(** * PropMessages: C80, what failures say *)

From Coq Require Import NArith List Bool String Ascii.
From Verif Require Import Base Times Expect Mock Names Messages MessageSpec MessageText MessageProofs MessageRuns.
Import ListNotations.
Open Scope N_scope.
Open Scope list_scope.

(** Two failures that read the same are the same failure: the same kind, of the same function
    and the same expectation, with the same numbers. *)
Theorem messages_tell_failures :
  forall user a b, proper a -> proper b -> message user a = message user b -> a = b.
Proof. exact message_inj. Qed.

(** A failure says what happened: some expectation that the operation deals with has that
    text, that count and those bounds, or was set up that way (see [reason]); the rest are the
    panics of the user's closures. *)
Theorem failure_messages_tell_what_failed :
  forall (V U : Type) c (sh : shuffle V U) y o y' m,
  (forall s x, In x (sh s) -> In x s) -> step c sh y o = (y', Panic m) ->
  reason c y o m \/ exists me es args e, calls y o me es args /\ In e es /\ raises e m.
Proof. intros V U c sh y o y' m S. exact (step_reason sh S c y o y' m). Qed.

(** In a test a poison error comes only after a panic that says something else. *)
Theorem poison_errors_follow_panics :
  forall (V U : Type) c (sh : shuffle V U) u decls l y rs i,
  (forall s x, In x (sh s) -> In x s) -> Forall polite_op l ->
  run c sh (init u decls) l = (y, rs) -> nth_error rs i = Some (Panic MPoison) ->
  exists j m, (j < i)%nat /\ nth_error rs j = Some (Panic m) /\ m <> MPoison.
Proof.
  intros V U c sh u decls l y rs i S F R. exact (run_first sh S c l _ _ _ (init_clean u decls) F R i).
Qed.

(** ** Cases *)

Definition foo : method N := Method "MockFoo::bar" "MockFoo::bar" None show_N.
Definition foo_decl : sdecl N := SDecl [] [MDecl foo KStatic false false].
Definition stat_decl : mdecl N := MDecl (Method "mock_ffi::baz" "mock_ffi::baz" None show_N) KStatic false true.
Definition start : sys N unit := init tt [stat_decl].
Definition asis (s : gstore N unit) := s.
Definition is5 : pred N unit := ("var == 5"%string, fun a u => (u, Ret (a =? 5))).
Definition says (r : res (option N)) : string :=
  match r with Panic m => message (fun _ => "boom"%string) m | _ => ""%string end.
Definition texts c l : list string := map says (snd (run c asis start l)).
Definition answer (n : N) : setter N unit := StReturning (fun _ u => (u, Ret n)).
Definition same (v : N) := v.

(** The failures of lib.rs 1591-1597, 1708-1713 and mock_function.rs 488, 961, 1044, 1051,
    2192 one after the other. *)
Example failures_are_told :
  texts debug64
    [ONew foo_decl; OExpect 0 0 0%nat [StWith [is5]; StTimes (ANum 2); answer 7];
     OCall 0 0 0%nat [5] same; OCall 0 0 0%nat [4] same; OCheckpoint 0;
     OExpect 0 0 0%nat [StNever; answer 7]; OCall 0 0 0%nat [5] same;
     OCheckpoint 0; OExpect 0 0 0%nat [StTimes (AIncl 1 2)]; OCall 0 0 0%nat [1] same;
     OExpect 0 0 0%nat [StInSequence 0];
     OExpect 0 0 0%nat [StTimes (ARange 3 3)]]
  = [""; ""; ""; "MockFoo::bar(4): No matching expectation found";
     "MockFoo::bar: Expectation(var == 5) called 1 time(s) which is fewer than expected 2";
     ""; "MockFoo::bar: Expectation(<anything>) should not have been called";
     "MockFoo::bar: Expectation(<anything>) called 1 time(s) which is more than expected 0";
     ""; "MockFoo::bar: Expectation(<anything>) Returning default values requires the ""nightly"" feature";
     "Only Expectations with an exact call count have sequences";
     "Backwards range"]%string.
Proof. vm_compute. reflexivity. Qed.

(** [messages_tell_failures] is about all of these. *)
Example messages_tell_failures_applies :
  proper (MTooFew "MockFoo::bar" "var == 5" 1 2) /\ proper (MTooMany "MockFoo::bar" "<anything>" 1 0)
  /\ message (fun _ => ""%string) (MTooFew "f" "x" 1 12) <> message (fun _ => ""%string) (MTooFew "f" "x" 11 2).
Proof.
  split; [|split; [|vm_compute; discriminate]]; cbn; intuition discriminate.
Qed.

Definition failing : sys N unit :=
  fst (run debug64 asis start [ONew foo_decl; OExpect 0 0 0%nat [StWith [is5]; StTimes (ANum 2); answer 7]; OCall 0 0 0%nat [5] same]).
Example failure_messages_tell_what_failed_applies :
  (forall s x, In x (asis s) -> In x s)
  /\ exists y, step debug64 asis failing (OCheckpoint 0) = (y, Panic (MTooFew "MockFoo::bar" "var == 5" 1 2)).
Proof. split; [auto|]. eexists. vm_compute. reflexivity. Qed.

(** A static function whose expectation panics poisons its store; the next call reports that. *)
Definition poisoning : list (op N unit) :=
  [OCtxExpect 0 0%nat [StReturning (fun _ u => (u, Panic (MUser 1)))]; OStaticCall 0 0%nat [1]; OStaticCall 0 0%nat [1]].
Example poison_errors_follow_panics_applies :
  Forall polite_op poisoning
  /\ snd (run debug64 asis start poisoning) = [Ret None; Panic (MUser 1); Panic MPoison].
Proof.
  split; [|vm_compute; reflexivity].
  repeat constructor; intros l S; inversion S; subst.
  repeat constructor. intros a u u' m E. injection E as _ <-. eauto.
Qed.

(** ** What is not so

    "... called [n] times which is more than the expected [mx]" need not be true: without
    overflow checks an expectation set up by [times(..0)] claims to expect at most
    18446744073709551615 calls. *)
Theorem too_many_messages_are_true_refuted :
  exists l fn s n mx, In (Panic (MCall fn s (TeTooMany n mx))) (snd (run release64 asis start l)) /\ n <= mx.
Proof.
  exists [ONew foo_decl; OExpect 0 0 0%nat [StTimes (ATo 0); answer 7]; OCall 0 0 0%nat [5] same],
    "MockFoo::bar"%string, "<anything>"%string, 1, 18446744073709551615.
  split; [|vm_compute; discriminate]. vm_compute. auto.
Qed.

(** A poison error need not follow a panic of the mocks when the user's closures panic with
    that error themselves. *)
Example polite_matters :
  snd (run debug64 asis start
    [OCtxExpect 0 0%nat [StReturning (fun _ u => (u, Panic MPoison))]; OStaticCall 0 0%nat [1]])
  = [Ret None; Panic MPoison].
Proof. vm_compute. reflexivity. Qed.

Print Assumptions messages_tell_failures.
Print Assumptions failure_messages_tell_what_failed.
Print Assumptions poison_errors_follow_panics.
Print Assumptions too_many_messages_are_true_refuted.
