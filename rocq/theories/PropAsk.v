(** * PropAsk: C85, predicates that call mocks *)

From Coq Require Import Arith NArith List Bool String Lia.
From Verif Require Import Base Times Expect Conc ConcSpec ConcProofs LockProofs ThreadProofs
  LinProofs Nest NestSpec NestProofs NestSim NestLocks NestRank PropNest Ask AskSpec AskLocks AskProofs
  AskEval AskRank.
Import ListNotations.

Local Arguments set_nth : simpl never.
Local Arguments atstep : simpl never.

Section PropAsk.
Context {V U : Type}.
Notation rval := (rval V U).
Notation ncall := (ncall V).
Notation cmeth := (cmeth rval U).
Notation asks := (asks V U).
Notation asker := (asker V U).

(** ** C85: if no predicate calls a mock, everything happens as if predicates could
    not do so. *)
Theorem predicates_that_call_nothing (c : cfg) (ps : asks) (u : U) (l : levels) (ms : list cmeth) (sp : nat -> bool)
    (progs : list (list ncall)) (sched : list nat) :
  (forall m i a, ps m i = Some a -> forall cm e,
     nth_error ms m = Some cm -> nth_error (cm_exps cm) i = Some e ->
     a = of_matcher (c_matcher (e_common e))) ->
  arun c ps (astart u l ms sp progs) sched = nested (nrun c (nstart u l ms sp progs) sched).
Proof.
  intros H. assert (E : astart u l ms sp progs = nested (nstart u l ms sp progs)).
  { unfold astart, nested, nstart. cbn [ns_base ns_threads]. rewrite map_map. reflexivity. }
  rewrite E. apply arun_plain. intros m i a e A C. unfold cexp, cexps in C. cbn in C.
  destruct (nth_error ms m) as [cm|] eqn:M; [|destruct i; discriminate]. eauto.
Qed.

(** ** C85: a predicate is worth its verdict: a call that runs a predicate which calls
    mocks goes on, after all these calls, like one whose predicate says the same without
    calling anything. *)
Theorem predicate_is_worth_its_verdict (c : cfg) (ps : asks) (t : nat) b x i (a : asker) e todo below out u r b' v :
  let here := AThread todo (FCall (PEval x i) :: below) out in
  ps (cc_m x) i = Some a ->
  cexp b (cc_m x) i = Some e -> c_mpoison (e_common e) = false -> cs_ml b (cc_m x) i = Some t ->
  ask_first a (cc_args x) t (cs_user b) = (u, r) -> says c ps t (put_user b u) r b' v ->
  exists k, alone c ps t k (b, here) = atstep c (instead ps (cc_m x) i (saying v)) b' t here.
Proof.
  intros here PA CE MP ML AF SA. eapply worth_verdict; eauto. congruence.
Qed.

(** ** C85: no two calls run the predicate of the same expectation at the same time. *)
Theorem predicates_do_not_overlap (c : cfg) (ps : asks) (u : U) (l : levels) (ms : list cmeth) (sp : nat -> bool)
    (progs : list (list ncall)) (sched : list nat) (m i t d t' d' : nat) q q' :
  let s := arun c ps (astart u l ms sp progs) sched in
  frame_at s t d = Some q -> runs_predicate m i q = true ->
  frame_at s t' d' = Some q' -> runs_predicate m i q' = true ->
  t = t' /\ d = d'.
Proof.
  intros s C1 R1 C2 R2.
  assert (NL : alocks s) by (apply alocks_arun, alocks_start).
  unfold frame_at in C1, C2.
  destruct (nth_error (as_threads s) t) as [th|] eqn:N1; [|discriminate].
  destruct (nth_error (as_threads s) t') as [th'|] eqn:N2; [|discriminate].
  assert (RH : forall q : frame V U, runs_predicate m i q = true -> mheld (fpc q) = Some (m, i)).
  { intros z. destruct z as [p|x j r]; simpl; [destruct p; try discriminate|]; intros E;
      apply andb_true_iff in E as [E1 E2]; apply Nat.eqb_eq in E1, E2; subst; reflexivity. }
  apply RH in R1, R2.
  assert (T : t = t').
  { assert (H1 : cs_ml (as_base s) m i = Some t).
    { apply (al_m _ NL (m, i)). exists th. split; [auto|]. exists (fpc q).
      split; [apply in_map; eapply nth_error_In; eauto|auto]. }
    assert (H2 : cs_ml (as_base s) m i = Some t').
    { apply (al_m _ NL (m, i)). exists th'. split; [auto|]. exists (fpc q').
      split; [apply in_map; eapply nth_error_In; eauto|auto]. }
    congruence. }
  split; [exact T|]. subst t'. assert (th' = th) by congruence. subst th'.
  pose proof (al_md _ NL _ _ N1) as D. clear - D C1 C2 R1 R2.
  revert d d' C1 C2. induction (at_stack th) as [|z st IH]; intros d d' C1 C2; [destruct d; discriminate|].
  destruct D as [D1 D2]. destruct d as [|d], d' as [|d']; simpl in C1, C2.
  - reflexivity.
  - injection C1 as ->. destruct (D1 _ R1). exists (fpc q'). split; [apply in_map; eapply nth_error_In; eauto|auto].
  - injection C2 as ->. destruct (D1 _ R2). exists (fpc q). split; [apply in_map; eapply nth_error_In; eauto|auto].
  - f_equal. auto.
Qed.

(** ** C85: a call made, however indirectly, by the predicate of an expectation waits for
    ever when it comes to that expectation: *)
Theorem own_predicate_waits_for_ever (c : cfg) (ps : asks) (u : U) (l : levels) (ms : list cmeth) (sp : nat -> bool)
    (progs : list (list ncall)) (sched more : list nat) (t i : nat) todo y below out q :
  let here := AThread todo (FCall (PLockM y i) :: below) out in
  nth_error (as_threads (arun c ps (astart u l ms sp progs) sched)) t = Some here ->
  In q below -> runs_predicate (cc_m y) i q = true ->
  nth_error (as_threads (arun c ps (astart u l ms sp progs) (sched ++ more))) t = Some here.
Proof.
  intros here N I R. rewrite arun_app. eapply waits_for_matcher; eauto. apply alocks_arun, alocks_start.
Qed.

(** so does a call of a static function made by a predicate of the same store; *)
Theorem own_store_waits_for_ever (c : cfg) (ps : asks) (u : U) (l : levels) (ms : list cmeth) (sp : nat -> bool)
    (progs : list (list ncall)) (sched more : list nat) (t g : nat) todo y below out q cm :
  let s := arun c ps (astart u l ms sp progs) sched in
  let here := AThread todo (FCall (PLockS y) :: below) out in
  nth_error (as_threads s) t = Some here ->
  nth_error (cs_meths (as_base s)) (cc_m y) = Some cm -> cm_mutex cm = Some g ->
  In q below -> in_store (as_base s) g q ->
  nth_error (as_threads (arun c ps (astart u l ms sp progs) (sched ++ more))) t = Some here.
Proof.
  intros s here N CM G I R. rewrite arun_app. eapply waits_for_store; eauto. apply alocks_arun, alocks_start.
Qed.

(** and a predicate that always begins with a call of its own method makes the method
    unusable, if the expectation is the method's first: no call of it ever returns. *)
Theorem predicate_that_calls_its_own_method (c : cfg) (ps : asks) (u : U) (l : levels) (ms : list cmeth)
    (sp : nat -> bool) (progs : list (list ncall)) (sched : list nat) (m t : nat) (a : asker) cm e y rest :
  nth_error ms m = Some cm -> cm_mutex cm = None ->
  nth_error (cm_exps cm) 0 = Some e -> c_mpoison (e_common e) = false ->
  ps m 0%nat = Some a -> ak_owner a = None ->
  (forall args w, exists w' z k, ak_run a args w = (w', Ret (AReq z k)) /\ nc_m z = m) ->
  nth_error progs t = Some (y :: rest) -> nc_m y = m ->
  exists th, nth_error (as_threads (arun c ps (astart u l ms sp progs) sched)) t = Some th /\ at_out th = [].
Proof.
  intros CM G CE MP PA OW REQ PR MY.
  destruct (hang_run c ps m a PA OW REQ t sched (astart u l ms sp progs)) as (th & N & H & _); [| | | |eauto].
  - apply alocks_start.
  - split; [exists cm; auto|]. exists e. split; [|exact MP]. unfold cexp, cexps. cbn. rewrite CM. exact CE.
  - intros t' th q N I. exfalso. cbn in N. rewrite nth_error_map in N. destruct (nth_error progs t'); [|discriminate].
    injection N as <-. destruct I.
  - exists (AThread (y :: rest) [] []). split; [cbn; rewrite nth_error_map, PR; reflexivity|].
    split; [reflexivity|]. exists y, rest. auto.
Qed.

(** ** C85: if closures and predicates call only lower methods, nobody waits for ever. *)
Theorem ordered_predicates_finish (c : cfg) (ps : asks) (u : U) (l : levels) (ms : list cmeth) (sp : nat -> bool)
    (progs : list (list ncall)) (rank : nat -> nat) (before : list nat) (f : nat -> nat) :
  aordered rank ms ps ->
  Forall (Forall (fun y => nc_m y < List.length ms)%nat) progs ->
  (forall t n, (t < List.length progs)%nat -> exists k, (n <= k)%nat /\ f k = t) ->
  exists k, afinished (arun c ps (astart u l ms sp progs) (before ++ map f (seq 0 k))).
Proof.
  intros [[O1 O2] O3] FP FAIR.
  assert (NI : ainv rank ms (astart u l ms sp progs)).
  { assert (E : forall t th, nth_error (as_threads (astart u l ms sp progs)) t = Some th ->
      at_stack th = [] /\ exists p, nth_error progs t = Some p /\ at_todo th = p).
    { intros t th. unfold astart. simpl. rewrite nth_error_map. destruct (nth_error progs t) eqn:E; [|discriminate].
      intros [= <-]. eauto. }
    constructor.
    - apply alocks_start.
    - reflexivity.
    - intros m i e g C CL args u0 u1 v F. unfold cexp, cexps in C. simpl in C.
      destruct (nth_error ms m) as [cm|] eqn:M; [|destruct i; discriminate].
      eapply O1; eauto. eapply nth_error_In; eauto.
    - intros t th N. rewrite (proj1 (E _ _ N)). constructor.
    - intros t th N. rewrite (proj1 (E _ _ N)). constructor.
    - intros t th N. destruct (E _ _ N) as [_ (p & P & ->)]. rewrite Forall_forall in FP. apply FP.
      eapply nth_error_In; eauto. }
  destruct (fair_finish_a c rank ms ps O3 O2 f (List.length progs) FAIR
    (arun c ps (astart u l ms sp progs) before) (ainv_arun _ _ _ _ O3 _ _ NI)) with (n := 0%nat) as [k K].
  - rewrite arun_nthreads. unfold astart. simpl. apply map_length.
  - exists k. rewrite arun_app. exact K.
Qed.
End PropAsk.
Print Assumptions predicates_that_call_nothing.
Print Assumptions predicate_is_worth_its_verdict.
Print Assumptions predicates_do_not_overlap.
Print Assumptions own_predicate_waits_for_ever.
Print Assumptions own_store_waits_for_ever.
Print Assumptions predicate_that_calls_its_own_method.
Print Assumptions ordered_predicates_finish.

(** ** Cases *)
Open Scope N_scope.
Open Scope string_scope.
Open Scope list_scope.

(** A predicate that calls method [m] with its own arguments, logs the outcome, and
    accepts if the outcome is 5.  A panic of the call passes. *)
Definition if_five (m : nat) : asker N (list N) := Asker None (fun args u =>
  (u, Ret (AReq (NCall m (map plain args)) (fun r u =>
     match r with
     | Ret v => (u ++ [v], Ret (ABool (N.eqb v 5)))
     | Panic e => (u, Panic e)
     | Abort => (u, Abort)
     end)))).
(** The predicates of the given expectations. *)
Definition at_place (m i : nat) (a : asker N (list N)) : asks N (list N) :=
  fun m' i' => if (Nat.eqb m' m && Nat.eqb i' i)%bool then Some a else None.
Definition aout (t : nat) (s : asys N (list N)) : list (res N) :=
  match nth_error (as_threads s) t with Some th => at_out th | None => [] end.

(** [b] answers 5 once and 6 from then on.  The predicate of the first expectation of
    [a] asks [b]: the first call of [a] is answered by the first expectation, the second
    by the second, and the answers of [b] are in the log. *)
Definition ask_ms : list (Conc.cmeth rv (list N)) :=
  [CMeth (nme "a") None [nexp 0 10 (say 7); nexp 0 10 (say 8)];
   CMeth (nme "b") None [nexp 1 2 (say 5); nexp 0 10 (say 6)]].
Example asking_case :
  let s := arun debug64 (at_place 0 0 (if_five 1)) (astart [] (fun _ => 0) ask_ms (fun _ => false)
     [[NCall 0 [1]; NCall 0 [2]]]) (repeat 0%nat 100) in
  aout 0 s = [Ret 7; Ret 8] /\ cs_user (as_base s) = [5; 5; 7; 6; 6; 8].
Proof. split; vm_compute; reflexivity. Qed.

(** [b] panics: so does the call of [a], and the matcher of [a] is poisoned. *)
Definition bad_ms : list (Conc.cmeth rv (list N)) :=
  [CMeth (nme "a") None [nexp 0 10 (say 7)];
   CMeth (nme "b") None [nexp 0 10 (fun _ u => (u, Panic (MUser 9)))]].
Example asking_panics_case :
  aout 0 (arun debug64 (at_place 0 0 (if_five 1)) (astart [] (fun _ => 0) bad_ms (fun _ => false)
     [[NCall 0 [1]; NCall 0 [2]]]) (repeat 0%nat 100)) = [Panic (MUser 9); Panic MPoison].
Proof. vm_compute. reflexivity. Qed.

(** The hypotheses of [predicates_that_call_nothing] with predicates of every kind. *)
Definition odd_pred : ucode (list N) (list rv) bool := fun args u =>
  match args with [RVal v] => (u ++ [v], Ret (N.odd v)) | _ => (u, Panic (MUser 0)) end.
Definition plain_ms : list (Conc.cmeth rv (list N)) :=
  [CMeth (nme "a") None
     [Expectation (Common (MtFunc odd_pred) false None (Times 0 (TRange 0 10))) (AStatic (SMut (say 1)) false);
      Expectation (Common (MtFuncSt 0 odd_pred) false None (Times 0 (TRange 0 10))) (AStatic (SMut (ask 1)) false);
      Expectation (Common MtAlways false None (Times 0 (TRange 0 10))) (AStatic (SMut (ask 1)) false)];
   CMeth (nme "b") None [nexp 0 10 (say 5)]].
Example predicates_that_call_nothing_applies :
  let ps := fun m i => match m, i with
              | O, O => Some (of_matcher (MtFunc odd_pred))
              | O, 1%nat => Some (of_matcher (MtFuncSt 0 odd_pred))
              | _, _ => None
              end in
  (forall m i a, ps m i = Some a -> forall cm e,
     nth_error plain_ms m = Some cm -> nth_error (cm_exps cm) i = Some e ->
     a = of_matcher (c_matcher (e_common e))) /\
  aout 1 (arun debug64 ps (astart [] (fun _ => 0) plain_ms (fun _ => false)
     [[NCall 0 [1]]; [NCall 0 [2]]]) (repeat 0%nat 60 ++ repeat 1%nat 60)) = [Panic MWrongThread].
Proof.
  split; [|vm_compute; reflexivity].
  intros [|m] [|[|i]] a H cm e; try discriminate H; injection H as <-; intros [= <-] [= <-]; reflexivity.
Qed.

(** The first call of [asking_case], up to its predicate: the predicate says yes, after a
    call of [b]. *)
Example predicate_is_worth_its_verdict_applies :
  let ps := at_place 0 0 (if_five 1) in
  let s := arun debug64 ps (astart [] (fun _ => 0) ask_ms (fun _ => false) [[NCall 0 [1]; NCall 0 [2]]]) [0; 0]%nat in
  let b := as_base s in
  let x := to_call (NCall 0 [1]) in
  nth_error (as_threads s) 0 = Some (AThread [NCall 0 [2]] [FCall (PEval x 0)] []) /\
  cs_ml b 0%nat 0%nat = Some 0%nat /\
  exists k b1,
    ask_first (if_five 1) (cc_args x) 0 (cs_user b) = ([], Ret (AReq (NCall 1 [1]) k)) /\
    call_ends debug64 ps 0 (put_user b []) (NCall 1 [1]) b1 (Ret 5) /\
    k (Ret 5) (cs_user b1) = ([5; 5], Ret (ABool true)) /\
    says debug64 ps 0 (put_user b []) (Ret (AReq (NCall 1 [1]) k)) (put_user b1 [5; 5]) (Ret true).
Proof.
  cbv zeta. split; [vm_compute; reflexivity|]. split; [vm_compute; reflexivity|].
  set (b := as_base _).
  eexists. exists (fst (alone debug64 (at_place 0 0 (if_five 1)) 0 30 (put_user b [], AThread [NCall 1 [1]] [] []))).
  split; [reflexivity|].
  assert (C : call_ends debug64 (at_place 0 0 (if_five 1)) 0 (put_user b []) (NCall 1 [1])
     (fst (alone debug64 (at_place 0 0 (if_five 1)) 0 30 (put_user b [], AThread [NCall 1 [1]] [] []))) (Ret 5)).
  { exists 30%nat. rewrite surjective_pairing at 1. f_equal; vm_compute; reflexivity. }
  split; [exact C|]. split; [vm_compute; reflexivity|].
  eapply says_call; [exact C|vm_compute; reflexivity|constructor].
Qed.

(** Thread 0 is inside the predicate of [a], thread 1 waits for it. *)
Example predicates_do_not_overlap_applies :
  let s := arun debug64 (at_place 0 0 (if_five 1)) (astart [] (fun _ => 0) ask_ms (fun _ => false)
     [[NCall 0 [1]]; [NCall 0 [2]]]) (repeat 0%nat 6 ++ repeat 1%nat 5) in
  (exists q, frame_at s 0 1 = Some q /\ runs_predicate 0 0 q = true) /\
  (exists q, frame_at s 1 0 = Some q /\ runs_predicate 0 0 q = false).
Proof. split; eexists; split; vm_compute; reflexivity. Qed.

(** The predicate of [a] calls [b], whose predicate calls [a]: the third call waits. *)
Definition round_ms : list (Conc.cmeth rv (list N)) :=
  [CMeth (nme "a") None [nexp 0 10 (say 7)]; CMeth (nme "b") None [nexp 0 10 (say 5)]].
Example own_predicate_waits_applies :
  let ps := fun m i => match m, i with
              | O, O => Some (if_five 1) | 1%nat, O => Some (if_five 0) | _, _ => None
              end in
  exists todo y below out q,
    nth_error (as_threads (arun debug64 ps (astart [] (fun _ => 0) round_ms (fun _ => false) [[NCall 0 [1]]])
      (repeat 0%nat 20))) 0 = Some (AThread todo (FCall (PLockM y 0) :: below) out) /\
    In q below /\ runs_predicate (cc_m y) 0 q = true.
Proof.
  cbv zeta. do 5 eexists. split; [vm_compute; reflexivity|]. split; [right; left; reflexivity|vm_compute; reflexivity].
Qed.

(** The same with a static function and another one of the same store, whose predicate
    calls nothing. *)
Example own_store_waits_applies :
  let ms := [CMeth (nme "f") (Some 0%nat) [nexp 0 10 (say 7)]; CMeth (nme "g") (Some 0%nat) [nexp 0 10 (say 5)]] in
  let s := arun debug64 (at_place 0 0 (if_five 1)) (astart [] (fun _ => 0) ms (fun _ => false) [[NCall 0 [1]]])
     (repeat 0%nat 20) in
  exists todo y below out q cm,
    nth_error (as_threads s) 0 = Some (AThread todo (FCall (PLockS y) :: below) out) /\
    nth_error (cs_meths (as_base s)) (cc_m y) = Some cm /\ cm_mutex cm = Some 0%nat /\
    In q below /\ in_store (as_base s) 0 q.
Proof.
  cbv zeta. do 6 eexists. split; [vm_compute; reflexivity|]. split; [vm_compute; reflexivity|].
  split; [reflexivity|]. split; [left; reflexivity|].
  do 2 eexists. split; [reflexivity|]. split; vm_compute; reflexivity.
Qed.

(** [a] asks itself. *)
Example predicate_that_calls_its_own_method_applies :
  ak_owner (if_five 0) = None /\
  (forall args w, exists w' z k, ak_run (if_five 0) args w = (w', Ret (AReq z k)) /\ nc_m z = 0%nat) /\
  exists th, nth_error (as_threads (arun debug64 (at_place 0 0 (if_five 0)) (astart [] (fun _ => 0) round_ms
    (fun _ => false) [[NCall 0 [1]]; [NCall 0 [2]]; [NCall 1 [3]]]) (repeat 0%nat 40 ++ repeat 2%nat 40))) 2 = Some th /\
    at_out th = [Ret 5].
Proof.
  split; [reflexivity|]. split; [intros args w; do 3 eexists; split; reflexivity|].
  eexists. split; vm_compute; reflexivity.
Qed.

(** The predicate of [a] calls [b], whose closure calls [c]; three threads. *)
Example ordered_predicates_applies :
  let ms := [CMeth (nme "a") None [nexp 0 10 (ask 1)];
             CMeth (nme "b") None [nexp 0 10 (ask 2)];
             CMeth (nme "c") (Some 0%nat) [nexp 0 10 (say 5)]] in
  let progs := [[NCall 0 [1]; NCall 2 [2]]; [NCall 0 [3]]; [NCall 1 [4]]] in
  aordered (fun m => 3 - m)%nat ms (at_place 0 0 (if_five 1)) /\
  Forall (Forall (fun y => nc_m y < List.length ms)%nat) progs /\
  (forall t n, (t < List.length progs)%nat -> exists k, (n <= k)%nat /\ (k mod 3)%nat = t).
Proof.
  split; [|split].
  - split; [split|].
    + intros m cm e f args u u' v M I C F.
      destruct m as [|[|[|m]]]; simpl in M; try (destruct m; discriminate); injection M as <-;
        destruct I as [<-|[]]; injection C as <-; injection F as <- <-;
        repeat match goal with
        | |- only _ (RVal _) => constructor
        | |- only _ (RReq _ _) => constructor; [simpl; lia|]
        end.
      all: intros r w w' v E; destruct r; injection E; intros; subst; try discriminate; constructor.
    + intros m m' cm cm' g M M' G G'.
      destruct m as [|[|[|m]]]; simpl in M; try (destruct m; discriminate); injection M as <-; try discriminate G.
      destruct m' as [|[|[|m']]]; simpl in M'; try (destruct m'; discriminate); injection M' as <-; try discriminate G'.
      reflexivity.
    + intros m i a args u u' v P R. unfold at_place in P.
      destruct (Nat.eqb m 0 && Nat.eqb i 0)%bool eqn:E; [|discriminate]. injection P as <-.
      apply andb_true_iff in E as [E _]. apply Nat.eqb_eq in E. subst m. injection R as _ <-.
      constructor; [simpl; lia|]. intros r w w' v E. destruct r; injection E; intros; subst; try discriminate; constructor.
  - repeat constructor.
  - intros t n L. simpl in L. exists (t + n * 3)%nat. split; [lia|]. rewrite Nat.mod_add by lia. apply Nat.mod_small. lia.
Qed.

(** Without an order it fails, as for closures: the predicate of [a] calls [b], and that
    of [b] calls [a].  Each accepts the argument 0 without asking, and the
    calls that they make have that argument.  Each thread alone gets its call
    done, but here they wait for each other for ever. *)
Definition ask_unless_zero (m : nat) : asker N (list N) := Asker None (fun args u =>
  match args with
  | [RVal 0] => (u, Ret (ABool true))
  | _ => (u, Ret (AReq (NCall m [0]) (fun r u => (u, let? v := r in Ret (ABool true)))))
  end).

(** Thread [t] waits for the mutex of a matcher. *)
Definition waits_m (s : asys N (list N)) (t : nat) : bool :=
  match nth_error (as_threads s) t with
  | Some (AThread _ (FCall (PLockM x i) :: _) _) =>
      match nth_error (cs_meths (as_base s)) (cc_m x) with
      | Some cm => (Nat.ltb i (List.length (cm_exps cm)) && negb (free (cs_ml (as_base s) (cc_m x) i)))%bool
      | None => false
      end
  | _ => false
  end.
Lemma waits_m_stays c ps (s : asys N (list N)) t : waits_m s t = true -> astep c ps s t = s.
Proof.
  unfold waits_m, astep. destruct (nth_error (as_threads s) t) as [[todo [|[p|z j r] l] o]|] eqn:N; try discriminate.
  destruct p; try discriminate.
  destruct (nth_error (cs_meths (as_base s)) (cc_m x)) as [cm|] eqn:CM; [|discriminate].
  intros H. apply andb_true_iff in H as [H1 H2]. apply Nat.ltb_lt in H1.
  unfold atstep. cbn [request asking pc_call]. rewrite CM. unfold pstep. unfold cexp, cexps. rewrite CM.
  destruct (nth_error (cm_exps cm) i) as [e|] eqn:E; [|apply nth_error_None in E; lia].
  destruct (free _); [discriminate|]. cbn [ret_of].
  rewrite set_nth_self by exact N. destruct s; reflexivity.
Qed.

Theorem crossed_predicates_deadlock_refuted :
  exists (ps : asks N (list N)) (ms : list (Conc.cmeth rv (list N))) (progs : list (list (ncall N))) (sched : list nat),
    let start := astart [] (fun _ => 0) ms (fun _ => false) progs in
    (forall t, (t < 2)%nat -> exists k th,
       nth_error (as_threads (arun debug64 ps start (repeat t k))) t = Some th /\
       at_todo th = [] /\ at_stack th = [] /\ at_out th = [Ret (if Nat.eqb t 0 then 7 else 5)]) /\
    (let s := arun debug64 ps start sched in
     aout 0 s = [] /\ aout 1 s = [] /\ forall more, arun debug64 ps s more = s).
Proof.
  exists (fun m i => match m, i with
              | O, O => Some (ask_unless_zero 1) | 1%nat, O => Some (ask_unless_zero 0) | _, _ => None
              end),
    round_ms, [[NCall 0 [1]]; [NCall 1 [1]]],
    (repeat 0 3 ++ repeat 1 3 ++ repeat 0 30 ++ repeat 1 30)%nat.
  split.
  - intros t L. destruct t as [|[|t]]; [| |lia]; exists 60%nat; eexists;
      (split; [vm_compute; reflexivity|]); repeat split; vm_compute; reflexivity.
  - cbv zeta. split; [vm_compute; reflexivity|]. split; [vm_compute; reflexivity|].
    set (s := arun _ _ _ _).
    assert (W0 : waits_m s 0 = true) by (vm_compute; reflexivity).
    assert (W1 : waits_m s 1 = true) by (vm_compute; reflexivity).
    assert (LN : List.length (as_threads s) = 2%nat) by (vm_compute; reflexivity).
    clearbody s.
    match goal with |- forall more, arun _ ?p _ _ = _ => set (ps := p) end.
    assert (ST : forall t, astep debug64 ps s t = s).
    { intros [|[|t]]; [apply waits_m_stays; auto|apply waits_m_stays; auto|].
      unfold astep. replace (nth_error (as_threads s) (S (S t))) with (@None (athread N (list N))); [reflexivity|].
      symmetry. apply nth_error_None. lia. }
    induction more as [|t more IH]; [reflexivity|]. cbn [arun]. rewrite ST. exact IH.
Qed.
Print Assumptions crossed_predicates_deadlock_refuted.
