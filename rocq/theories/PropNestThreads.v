(** * PropNestThreads: C72, closures that call mocks, in several threads *)

From Coq Require Import Arith NArith List Bool String Lia.
From Verif Require Import Base Times Expect Conc ConcSpec ConcProofs LockProofs ThreadProofs
  LinProofs Nest NestSpec NestProofs NestSim NestLocks NestRank NestMain PropNest.
Import ListNotations.

Local Arguments set_nth : simpl never.
Local Arguments tstep : simpl never.

Section PropNestThreads.
Context {V U : Type}.
Notation rval := (rval V U).
Notation ncall := (ncall V).
Notation cmeth := (cmeth rval U).

(** ** C72: whatever the closures call, no two calls run the closure of the same
    expectation at the same time, neither in two threads nor one inside the other. *)
Theorem nested_closures_do_not_overlap (c : cfg) (u : U) (l : levels) (ms : list cmeth) (sp : nat -> bool)
    (progs : list (list ncall)) (sched : list nat) (m i t d t' d' : nat) p p' :
  let s := nrun c (nstart u l ms sp progs) sched in
  call_at s t d = Some p -> runs_closure m i p = true ->
  call_at s t' d' = Some p' -> runs_closure m i p' = true ->
  t = t' /\ d = d'.
Proof.
  intros s C1 R1 C2 R2.
  assert (NL : nlocks s) by (apply nlocks_nrun, nlocks_start).
  unfold call_at in C1, C2.
  destruct (nth_error (ns_threads s) t) as [th|] eqn:N1; [|discriminate].
  destruct (nth_error (ns_threads s) t') as [th'|] eqn:N2; [|discriminate].
  assert (RH : forall q, runs_closure m i q = true -> rheld (ns_base s) q = Some (m, i)).
  { intros q. destruct q; try discriminate; simpl; intros E; apply andb_true_iff in E as [E1 E2];
      apply Nat.eqb_eq in E1, E2; subst; reflexivity. }
  apply RH in R1, R2.
  assert (T : t = t').
  { assert (H1 : cs_rl (ns_base s) m i = Some t).
    { apply (nl_r _ NL (m, i)). exists th. split; [auto|]. exists p. split; [eapply nth_error_In; eauto|auto]. }
    assert (H2 : cs_rl (ns_base s) m i = Some t').
    { apply (nl_r _ NL (m, i)). exists th'. split; [auto|]. exists p'. split; [eapply nth_error_In; eauto|auto]. }
    congruence. }
  split; [exact T|]. subst t'. assert (th' = th) by congruence. subst th'.
  pose proof (nl_rd _ NL _ _ N1) as D. clear - D C1 C2 R1 R2.
  revert d d' C1 C2. induction (nt_stack th) as [|q st IH]; intros d d' C1 C2; [destruct d; discriminate|].
  destruct D as [D1 D2]. destruct d as [|d], d' as [|d']; simpl in C1, C2.
  - reflexivity.
  - injection C1 as ->. destruct (D1 _ R1). exists p'. split; [eapply nth_error_In; eauto|auto].
  - injection C2 as ->. destruct (D1 _ R2). exists p. split; [eapply nth_error_In; eauto|auto].
  - f_equal. auto.
Qed.

(** ** C72: if closures call only lower methods, nobody waits for ever: whatever
    has happened, a scheduler that forgets no thread gets all calls done. *)
Theorem ordered_calls_finish (c : cfg) (u : U) (l : levels) (ms : list cmeth) (sp : nat -> bool)
    (progs : list (list ncall)) (rank : nat -> nat) (before : list nat) (f : nat -> nat) :
  ordered rank ms ->
  Forall (Forall (fun y => nc_m y < List.length ms)%nat) progs ->
  (forall t n, (t < List.length progs)%nat -> exists k, (n <= k)%nat /\ f k = t) ->
  exists k, nfinished (nrun c (nstart u l ms sp progs) (before ++ map f (seq 0 k))).
Proof.
  intros [O1 O2] FP FAIR.
  assert (NI : ninv rank ms (nstart u l ms sp progs)).
  { constructor.
    - apply nlocks_start.
    - reflexivity.
    - intros m i e g C CL args u0 u1 v F. unfold cexp, cexps in C. simpl in C.
      destruct (nth_error ms m) as [cm|] eqn:M; [|destruct i; discriminate].
      eapply O1; eauto. eapply nth_error_In; eauto.
    - intros t th. unfold nstart. simpl. rewrite nth_error_map. destruct (nth_error progs t); [|discriminate].
      intros [= <-]. constructor.
    - intros t th. unfold nstart. simpl. rewrite nth_error_map. destruct (nth_error progs t) eqn:E; [|discriminate].
      intros [= <-]. simpl. rewrite Forall_forall in FP. apply FP. eapply nth_error_In; eauto. }
  destruct (fair_finish_n c rank ms O2 f (List.length progs) FAIR
    (nrun c (nstart u l ms sp progs) before) (ninv_nrun _ _ _ _ _ NI)) with (n := 0%nat) as [k K].
  - rewrite nrun_nthreads. unfold nstart. simpl. apply map_length.
  - exists k. rewrite nrun_app. exact K.
Qed.
End PropNestThreads.
Print Assumptions nested_closures_do_not_overlap.
Print Assumptions ordered_calls_finish.

(** ** Cases *)
Open Scope N_scope.
Open Scope string_scope.
Open Scope list_scope.

(** Three threads; [a] calls [b], [b] calls [c], [c] is a static function. *)
Example ordered_calls_applies :
  let ms := [CMeth (nme "a") None [nexp 0 10 (ask 1)];
             CMeth (nme "b") None [nexp 0 10 (ask 2)];
             CMeth (nme "c") (Some 0%nat) [nexp 0 10 (say 5)]] in
  let progs := [[NCall 0 [1]; NCall 2 [2]]; [NCall 0 [3]]; [NCall 1 [4]]] in
  ordered (fun m => 3 - m)%nat ms /\
  Forall (Forall (fun y => nc_m y < List.length ms)%nat) progs /\
  (forall t n, (t < List.length progs)%nat -> exists k, (n <= k)%nat /\ (k mod 3)%nat = t).
Proof.
  split; [|split].
  - split.
    + intros m cm e f args u u' v M I C F.
      destruct m as [|[|[|m]]]; simpl in M; try (destruct m; discriminate); injection M as <-;
        destruct I as [<-|[]]; injection C as <-; injection F as <- <-;
        repeat match goal with
        | |- only _ (RVal _) => constructor
        | |- only _ (RReq _ _) => constructor; [simpl; lia|]
        end.
      all: intros r w w' v E; destruct r; injection E; intros; subst; try discriminate; constructor.
    + intros m m' cm cm' g M M' G G'.
      destruct m as [|[|[|m]]]; simpl in M; try (destruct m; discriminate); injection M as <-; try discriminate G.
      destruct m' as [|[|[|m']]]; simpl in M'; try (destruct m'; discriminate); injection M' as <-; try discriminate G'.
      reflexivity.
  - repeat constructor.
  - intros t n L. simpl in L. exists (t + n * 3)%nat. split; [lia|]. rewrite Nat.mod_add by lia. apply Nat.mod_small. lia.
Qed.

(** Without an order it fails: [a] calls [b] and [b] calls [a], both with an argument for
    which the other calls nothing.  Each thread alone gets its call done, but
    here they wait for each other for ever. *)
Definition ask_unless_0 (m : nat) : ucode (list N) (list rv) rv := fun args u =>
  match args with
  | [RVal 0] => (u, Ret (RVal 5))
  | _ => (u, Ret (RReq (NCall m [0]) (fun r u => (u, let? v := r in Ret (RVal v)))))
  end.

(** Thread [t] waits for the mutex of an [Rfunc]. *)
Definition waits {V U} (s : nsys V U) (t : nat) : bool :=
  match nth_error (ns_threads s) t with
  | Some (NThread _ (PLockR x i :: _) _) =>
      match nth_error (cs_meths (ns_base s)) (cc_m x) with
      | Some cm =>
          match nth_error (cm_exps cm) i with
          | Some e => (is_owned (e_action e) && negb (free (cs_rl (ns_base s) (cc_m x) i)))%bool
          | None => false
          end
      | None => false
      end
  | _ => false
  end.
Lemma waits_stays {V U} c (s : nsys V U) t : waits s t = true -> nstep c s t = s.
Proof.
  unfold waits, nstep. destruct (nth_error (ns_threads s) t) as [[todo [|p l] o]|] eqn:N; try discriminate.
  destruct p; try discriminate.
  destruct (nth_error (cs_meths (ns_base s)) (cc_m x)) as [cm|] eqn:CM; [|discriminate].
  destruct (nth_error (cm_exps cm) i) as [e|] eqn:E; [|discriminate].
  intros H. apply andb_true_iff in H as [H1 H2].
  unfold tstep. cbn [pc_call]. rewrite CM. cbn [pstep]. unfold cexp, cexps. rewrite CM, E.
  destruct (e_action e); try discriminate. destruct (free _); [discriminate|]. cbn [ret_of].
  rewrite set_nth_self by exact N. destruct s; reflexivity.
Qed.

Theorem crossed_calls_deadlock_refuted :
  exists (ms : list (cmeth rv (list N))) (progs : list (list (ncall N))) (sched : list nat),
    let start := nstart [] (fun _ => 0) ms (fun _ => false) progs in
    (forall t, (t < 2)%nat -> exists k th,
       nth_error (ns_threads (nrun debug64 start (repeat t k))) t = Some th /\
       nt_todo th = [] /\ nt_stack th = [] /\ nt_out th = [Ret 5]) /\
    (let s := nrun debug64 start sched in
     nout 0 s = [] /\ nout 1 s = [] /\ forall more, nrun debug64 s more = s).
Proof.
  exists [CMeth (nme "a") None [nexp 0 10 (ask_unless_0 1)]; CMeth (nme "b") None [nexp 0 10 (ask_unless_0 0)]],
    [[NCall 0 [1]]; [NCall 1 [1]]],
    (repeat 0 11 ++ repeat 1 11 ++ repeat 0 30 ++ repeat 1 30)%nat.
  split.
  - intros t L. destruct t as [|[|t]]; [| |lia]; exists 60%nat; eexists;
      (split; [vm_compute; reflexivity|]); repeat split; vm_compute; reflexivity.
  - cbv zeta. split; [vm_compute; reflexivity|]. split; [vm_compute; reflexivity|].
    set (s := nrun _ _ _).
    assert (W0 : waits s 0 = true) by (vm_compute; reflexivity).
    assert (W1 : waits s 1 = true) by (vm_compute; reflexivity).
    assert (LN : List.length (ns_threads s) = 2%nat) by (vm_compute; reflexivity).
    clearbody s.
    assert (ST : forall t, nstep debug64 s t = s).
    { intros [|[|t]]; [apply waits_stays; auto|apply waits_stays; auto|].
      unfold nstep. replace (nth_error (ns_threads s) (S (S t))) with (@None (nthread N (list N))); [reflexivity|].
      symmetry. apply nth_error_None. lia. }
    induction more as [|t more IH]; [reflexivity|]. cbn [nrun]. rewrite ST. exact IH.
Qed.
Print Assumptions crossed_calls_deadlock_refuted.

(** Two threads in the middle of nested calls: thread 0 is in the closures of [a] and [b],
    thread 1 waits for [b]. *)
Example nested_closures_applies :
  let ms := [CMeth (nme "a") None [nexp 0 10 (ask 1)]; CMeth (nme "b") None [nexp 0 10 (ask 2)];
             CMeth (nme "c") None [nexp 0 10 (say 5)]] in
  let s := nrun debug64 (nstart [] (fun _ => 0) ms (fun _ => false) [[NCall 0 [1]]; [NCall 1 [2]]])
             (repeat 0 26 ++ repeat 1 30)%nat in
  (exists p, call_at s 0 2 = Some p /\ runs_closure 0 0 p = true) /\
  (exists p, call_at s 0 1 = Some p /\ runs_closure 1 0 p = true) /\
  (exists p, call_at s 1 0 = Some p /\ runs_closure 1 0 p = false).
Proof. repeat split; eexists; split; vm_compute; reflexivity. Qed.
