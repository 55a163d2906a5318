(** * PropDeleg: C93, the user's state and mocks that call other mocks *)

From Coq Require Import NArith List Bool String Lia.
From Verif Require Import Base Times Expect Mock DelegSpec DelegProofs DelegMore Samples.
Import ListNotations.
Open Scope N_scope.

(** Whatever the relation is that all of the user's closures (matchers, returning closures, the
    test's own code) respect, such as "never decreases" or "appends to the log": the state that they
    share moves along it, whatever the test does with its mocks. *)
Theorem user_state_moves_only_by_user_code :
  forall (V U : Type) (R : U -> U -> Prop) c sh u ds (l : list (op V U)) y rs,
  (forall x, R x x) -> (forall x1 x2 x3, R x1 x2 -> R x2 x3 -> R x1 x3) ->
  (forall o, In o l -> op_along R o) ->
  run c sh (init u ds) l = (y, rs) ->
  R u (w_user (y_world y)).
Proof.
  intros V U R c sh u ds l y rs H1 H2 A E.
  destruct (run_along R H1 H2 c sh l _ _ _ (init_ok R u ds) A E) as [_ M]. exact M.
Qed.
Print Assumptions user_state_moves_only_by_user_code.

(** "Appends to the log." *)
Example user_state_moves_only_by_user_code_applies :
  let R := fun u u' : U0 => exists d, u' = u ++ d in
  let l := [ONew (SDecl [] [md0]); OExpect 0 0 0%nat [StWithf (fun a u => (u ++ [a], Ret (small a))); StReturning seven];
            OCall 0 0 0%nat [4] (fun v => v); OCall 0 0 0%nat [44] (fun v => v)] in
  (forall o, In o l -> op_along R o) /\
  let (y, rs) := run (Cfg 100 true false) idshuffle (init [[9]] []) l in
  w_user (y_world y) = [[9]; [4]; [4]; [44]] /\ List.length rs = 4%nat.
Proof.
  split; [|vm_compute; auto].
  intros o [<-|[<-|[<-|[<-|[]]]]]; cbn; auto. intros st [<-|[<-|[]]]; intros a u; cbn; eexists; reflexivity.
Qed.

(** The user's closures run in calls only: no other operation, such as setting expectations, a
    checkpoint, or the end of a mock, changes the user's state. *)
Theorem only_calls_run_user_code :
  forall (V U : Type) c sh u ds (l : list (op V U)) y rs o y' r,
  run c sh (init u ds) l = (y, rs) ->
  step c sh y o = (y', r) ->
  runs_user_code o = false ->
  w_user (y_world y') = w_user (y_world y).
Proof.
  intros V U c sh u ds l y rs o y' r E S N'.
  assert (A : forall o : op V U, op_along (fun _ _ => True) o).
  { intros []; cbn; auto; intros st _; destruct st; cbn; auto; repeat intro; exact I. }
  destruct (run_along (fun _ _ => True) (fun _ => I) (fun _ _ _ _ _ => I) c sh l _ _ _ (init_ok _ u ds) (fun o _ => A o) E) as [K _].
  destruct (step_along _ (fun _ => I) (fun _ _ _ _ _ => I) c sh y o y' r K (A o) S) as (_ & _ & X). auto.
Qed.
Print Assumptions only_calls_run_user_code.

(** A checkpoint that drops an expectation with closures. *)
Example only_calls_run_user_code_applies :
  let l := [ONew (SDecl [] [md0]); OExpect 0 0 0%nat [StWithf bomb; StReturning seven]] in
  let (y, rs) := run (Cfg 100 true false) idshuffle (init [[9]] []) l in
  runs_user_code (OCheckpoint 0 : op V0 U0) = false /\
  w_user (y_world (fst (step (Cfg 100 true false) idshuffle y (OCheckpoint 0)))) = [[9]] /\
  w_user (y_world (fst (step (Cfg 100 true false) idshuffle y (OCall 0 0 0%nat [4] (fun v => v))))) = [[9]; [4]].
Proof. vm_compute. auto. Qed.

(** Closures that use other mocks: in the end those mocks are in the state that the recorded
    operations lead to, done one after the other, and each had the result recorded.  So everything
    that is proved about tests of mocks holds of the mocks that closures use. *)
Theorem mocks_that_call_mocks :
  forall (V W T : Type) c sh c' (sh' : shuffle W T) s0 ds (l : list (op V (others W T))) y rs,
  (forall o, In o l -> op_uses c' sh' o) ->
  run c sh (init (s0, []) ds) l = (y, rs) ->
  let (s, done) := w_user (y_world y) in
  run c' sh' s0 (map fst done) = (s, map snd done).
Proof.
  intros V W T c sh c' sh' s0 ds l y rs A E.
  pose proof (run_along (went c' sh') (went_refl c' sh') (went_trans c' sh') c sh l _ _ _ (init_ok _ _ ds)
    (fun o I0 => op_uses_along c' sh' o (A o I0)) E) as [_ (d & L & R)].
  unfold others in *. destruct (w_user (y_world y)) as [s done]. cbn in L, R. rewrite L. exact R.
Qed.
Print Assumptions mocks_that_call_mocks.

(** Passing calls on: the results are those of the other mock.  A method that returns a mutable
    reference goes on after a panic; a method that returns an owned value is disabled by it,
    and the other mock is not called any more. *)
Theorem calls_passed_on :
  forall (V T : Type) c (sh' : shuffle V T) target sh me kd s0 ds wr (calls : list (list V)) y rs,
  kd = KStatic \/ kd = KMut ->
  N.of_nat (List.length calls) < umax c ->
  run c sh (init (s0, []) ds)
    (ONew (SDecl [] [MDecl me kd false false]) ::
     OExpect 0 0 0%nat [StReturning (passes_on c sh' target)] ::
     map (fun args => OCall 0 0 0%nat args wr) calls) = (y, rs) ->
  exists rs', rs = Ret None :: Ret None :: rs' /\
    passed_on c sh' target kd s0 calls = (fst (w_user (y_world y)), rs').
Proof.
  intros V T c sh' target sh me kd s0 ds wr calls y rs [->| ->] L E; cbn in E.
  - destruct (run c sh _ _) as [y2 q2] eqn:Q in E. inversion E; subst. eexists. split; [reflexivity|].
    eapply (forwarded_static c sh' target me wr sh _ _ _ _ calls 0 s0 [] y q2); [lia|exact Q].
  - destruct (run c sh _ _) as [y2 q2] eqn:Q in E. inversion E; subst. eexists. split; [reflexivity|].
    eapply (forwarded_mut c sh' target me wr sh _ _ _ _ calls 0 None s0 [] y q2); [lia|exact Q].
Qed.
Print Assumptions calls_passed_on.

(** The other mock accepts two calls; the third call is told so, in its message; the fourth call of the
    method that returns an owned value finds it disabled, and the other method asks the other mock again. *)
Definition other_mock : list (op V0 U0) :=
  [ONew (SDecl [] [md0]); OExpect 0 0 0%nat [StTimes (ARange 0 3); StReturning adder]].
Definition pass0 : list V0 -> op V0 U0 := fun args => OCall 0 0 0%nat args (fun v => v).

Example calls_passed_on_applies :
  let c := Cfg 100 true false in
  let s0 := fst (run c idshuffle (init [] []) other_mock) in
  let test kd := snd (run c (fun s => s) (init (s0, []) [])
    (ONew (SDecl [] [MDecl me0 kd false false]) ::
     OExpect 0 0 0%nat [StReturning (passes_on c idshuffle pass0)] ::
     map (fun args => OCall 0 0 0%nat args (fun v => v)) [[1; 2]; [5]; [6]; [7]])) in
  let told n := Panic (MCall "MockFoo::bar" "<anything>" (TeTooMany n 2)) in
  skipn 2 (test KStatic) = [Ret (Some 3); Ret (Some 5); told 3; Panic MPoison] /\
  skipn 2 (test KMut) = [Ret (Some 3); Ret (Some 5); told 3; told 4].
Proof. vm_compute. auto. Qed.

(** A closure that asks the other mock twice and adds the answers, or panics as it does. *)
Definition asks_twice (args : list V0) : uses V0 U0 V0 :=
  UOp _ (pass0 args) (fun r1 =>
    match r1 with
    | Ret (Some a) => UOp _ (pass0 [a]) (fun r2 =>
        match r2 with Ret (Some b) => UEnd _ (Ret (a + b)) | _ => UEnd _ (Panic (MUser 2)) end)
    | _ => UEnd _ (Panic (MUser 1))
    end).
Example mocks_that_call_mocks_applies :
  let c := Cfg 100 true false in
  let s0 := fst (run c idshuffle (init [] []) other_mock) in
  let l := [ONew (SDecl [] [mdmut]);
            OExpect 0 0 0%nat [StReturning (fun a => perform c idshuffle (asks_twice a))];
            OCall 0 0 0%nat [1; 2] (fun v => v); OCall 0 0 0%nat [5] (fun v => v)] in
  (forall o, In o l -> op_uses c idshuffle o) /\
  (exists done m, w_user (y_world (fst (run c (fun s => s) (init (s0, []) []) l))) = (fst (run c idshuffle s0 (map fst done)), done) /\
    map snd done = [Ret (Some 3); Ret (Some 3); Panic m]) /\
  snd (run c (fun s => s) (init (s0, []) []) l) = [Ret None; Ret None; Ret (Some 6); Panic (MUser 1)].
Proof.
  cbv zeta. split; [|split; [|vm_compute; reflexivity]].
  - intros o [<-|[<-|[<-|[<-|[]]]]]; cbn; auto. intros st [<-|[]]. cbn. exists asks_twice. reflexivity.
  - exists (snd (w_user (y_world (fst (run (Cfg 100 true false) (fun s => s)
      (init (fst (run (Cfg 100 true false) idshuffle (init [] []) other_mock), []) [])
      [ONew (SDecl [] [mdmut]);
            OExpect 0 0 0%nat [StReturning (fun a => perform (Cfg 100 true false) idshuffle (asks_twice a))];
            OCall 0 0 0%nat [1; 2] (fun v => v); OCall 0 0 0%nat [5] (fun v => v)]))))).
    eexists. split; vm_compute; reflexivity.
Qed.
