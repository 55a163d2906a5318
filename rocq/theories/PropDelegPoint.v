(** * PropDelegPoint: C93, failures of mocks that closures use *)

From Coq Require Import PeanoNat NArith List Bool String Lia.
From Verif Require Import Base Times TimesSpec Expect Mock Spec MessageSpec PointSpec PropPoint
  DelegSpec DelegProofs DelegMore Samples PropDeleg.
Import ListNotations.
Open Scope N_scope.
Open Scope list_scope.

(** The mocks that closures use behave as in a test that sets them up as the user did and then
    makes the calls that the closures made. *)
Theorem mocks_in_closures_run_like_tests :
  forall (V W T : Type) c sh c' (sh' : shuffle W T) t ds' setup s0 rs0 ds (l : list (op V (others W T))) y rs,
  run c' sh' (init t ds') setup = (s0, rs0) ->
  (forall o, In o l -> op_uses c' sh' o) ->
  run c sh (init (s0, []) ds) l = (y, rs) ->
  let (s, done) := w_user (y_world y) in
  run c' sh' (init t ds') (setup ++ map fst done) = (s, rs0 ++ map snd done).
Proof.
  intros V W T c sh c' sh' t ds' setup s0 rs0 ds l y rs E0 A E.
  pose proof (mocks_that_call_mocks V W T c sh c' sh' s0 ds l y rs A E) as M.
  unfold others in *. destruct (w_user (y_world y)) as [s done].
  rewrite run_app, E0, M. reflexivity.
Qed.
Print Assumptions mocks_in_closures_run_like_tests.

(** So C82 holds of them: what fails inside a closure is explained by the line that set the
    expectation of the other mock. *)
Theorem failures_in_closures_point_to_the_expectation :
  forall (V W T : Type) c sh c' (sh' : shuffle W T) t ds' setup s0 rs0 ds (l : list (op V (others W T))) y rs s done i o m,
  (forall st x, In x (sh' st) -> In x st) ->
  run c' sh' (init t ds') setup = (s0, rs0) ->
  (forall o, In o l -> op_uses c' sh' o) ->
  run c sh (init (s0, []) ds) l = (y, rs) ->
  w_user (y_world y) = (s, done) ->
  Forall polite_op (setup ++ map fst done) -> Forall (sound_op (umax c')) (setup ++ map fst done) ->
  N.of_nat (List.length (setup ++ map fst done)) < umax c' ->
  nth_error done i = Some (o, Panic m) ->
  explained ds' (setup ++ map fst done) (rs0 ++ map snd done) (List.length setup + i) o m.
Proof.
  intros V W T c sh c' sh' t ds' setup s0 rs0 ds l y rs s done i o m S E0 A E Q P So L N'.
  pose proof (mocks_in_closures_run_like_tests V W T c sh c' sh' t ds' setup s0 rs0 ds l y rs E0 A E) as M.
  unfold others in *. rewrite Q in M.
  assert (LN : List.length rs0 = List.length setup).
  { clear - E0. revert E0. generalize (init t ds'). revert s0 rs0.
    induction setup as [|x setup IH]; cbn; intros s0 rs0 y0 E0; [inversion E0; reflexivity|].
    destruct (step c' sh' y0 x). destruct (run c' sh' s setup) as [y2 q] eqn:R. inversion E0; subst. cbn. f_equal. eauto. }
  apply (failures_point_to_the_expectation W T c' sh' t ds' _ s _ (List.length setup + i) o m S P So L M).
  - rewrite nth_error_app2 by lia. replace (List.length setup + i - List.length setup)%nat with i by lia.
    rewrite nth_error_map, N'. reflexivity.
  - rewrite nth_error_app2 by lia. rewrite LN. replace (List.length setup + i - List.length setup)%nat with i by lia.
    rewrite nth_error_map, N'. reflexivity.
Qed.
Print Assumptions failures_in_closures_point_to_the_expectation.

(** The test of [mocks_that_call_mocks_applies]: the third call that the closures make fails, and is about
    the line that allows two. *)
Definition asking : list (op V0 (others V0 U0)) :=
  [ONew (SDecl [] [mdmut]);
   OExpect 0 0 0%nat [StReturning (fun a => perform (Cfg 100 true false) idshuffle (asks_twice a))];
   OCall 0 0 0%nat [1; 2] (fun v => v); OCall 0 0 0%nat [5] (fun v => v)].
Example failures_in_closures_point_to_the_expectation_applies :
  let c := Cfg 100 true false in
  let s0 := fst (run c idshuffle (init [] []) other_mock) in
  let done := snd (w_user (y_world (fst (run c (fun s => s) (init (s0, []) []) asking)))) in
  (forall o, In o asking -> op_uses c idshuffle o) /\
  Forall polite_op (other_mock ++ map fst done) /\ Forall (sound_op (umax c)) (other_mock ++ map fst done) /\
  N.of_nat (List.length (other_mock ++ map fst done)) < umax c /\
  (exists o, nth_error done 2 = Some (o, Panic (MCall "MockFoo::bar" "<anything>" (TeTooMany 3 2)))) /\
  text_of [StTimes (ARange 0 3); StReturning adder] = "<anything>"%string.
Proof.
  cbv zeta. split; [|split; [|split; [|split; [vm_compute; reflexivity|split; [eexists; vm_compute; reflexivity|reflexivity]]]]].
  - intros o [<-|[<-|[<-|[<-|[]]]]]; cbn; auto. intros st [<-|[]]. cbn. exists asks_twice. reflexivity.
  - cbn. repeat (apply Forall_cons; [intros k S; inversion S; subst|]); try apply Forall_nil.
    apply Forall_cons; [exact Logic.I|]. apply Forall_cons; [|apply Forall_nil]. intros a u u' m. discriminate.
  - cbn. repeat (apply Forall_cons; [intros w k S z Z; inversion S; subst|]); try apply Forall_nil.
    destruct Z as [Z|[Z|[]]]; try discriminate. injection Z as <-. split; [split; reflexivity|discriminate].
Qed.

Example mocks_in_closures_run_like_tests_applies :
  let c := Cfg 100 true false in
  let (s0, rs0) := run c idshuffle (init [] []) other_mock in
  (forall o, In o asking -> op_uses c idshuffle o) /\
  map snd (snd (w_user (y_world (fst (run c (fun s => s) (init (s0, []) []) asking)))))
  = skipn 2 (snd (run c idshuffle (init [] []) (other_mock ++ [pass0 [1; 2]; pass0 [3]; pass0 [5]])))
  /\ map fst (snd (w_user (y_world (fst (run c (fun s => s) (init (s0, []) []) asking)))))
     = [pass0 [1; 2]; pass0 [3]; pass0 [5]].
Proof.
  cbv zeta. destruct (run _ _ _ other_mock) as [s0 rs0] eqn:E. vm_compute in E. injection E as <- <-. split.
  - intros o [<-|[<-|[<-|[<-|[]]]]]; cbn; auto. intros st [<-|[]]. cbn. exists asks_twice. reflexivity.
  - split; vm_compute; reflexivity.
Qed.
