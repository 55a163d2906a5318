(** * PropMulti: guards of several static functions at once (C92) *)

From Coq Require Import NArith List Bool String Permutation Lia.
From Verif Require Import Base Times Expect Mock Multi MultiSpec MultiProofs MultiMore.
Import ListNotations.
Open Scope N_scope.
Open Scope list_scope.

(** ** Each guard is one builder chain

    Whatever the threads do, and in whatever order: it is as if they had done it one after the other,
    each guard being one builder chain at the end of its scope.  The results are the same, and
    every function of which nobody has a guard has the same expectations. *)
Theorem guards_of_several_functions_are_atomic :
  forall (V U : Type) c sh (y : sys V U) progs sched x tr,
  hrun c sh (hstart y progs) sched = (x, tr) ->
  (forall t s st, In (EvSet t s st) tr -> sequence_free st = true) ->
  exists z, replays c sh y (atoms (fun _ => None) tr) z /\
    y_world z = y_world (hs_sys x) /\ y_seqs z = y_seqs (hs_sys x) /\ y_objs z = y_objs (hs_sys x) /\
    (forall s, (forall t, ~ has x t s) -> nth_error (y_stats z) s = nth_error (y_stats (hs_sys x)) s) /\
    ((forall t s, ~ has x t s) -> z = hs_sys x).
Proof.
  intros V U c sh y progs sched x tr H SF. pose proof (ok_start y progs) as K.
  destruct (rel_run c sh _ _ _ _ _ _ K (rel_start c y progs) H SF) as (z & op & P & [W Q B F _]).
  pose proof (ok_run _ _ _ _ _ _ K H) as K'.
  assert (FR : forall s, (forall t, ~ has x t s) -> nth_error (y_stats z) s = nth_error (y_stats (hs_sys x)) s).
  { intros s NH. apply F. destruct (hs_own x s) as [t|] eqn:E; [|reflexivity]. apply (ok_own _ K') in E. elim (NH t E). }
  exists z. do 4 (split; [assumption|]). split; [exact FR|]. intros NH.
  destruct z as [zw zq zo zs], (hs_sys x) as [xw xq xo xs]. cbn in *. subst. f_equal. apply nth_ext_eq. intros s. apply FR. auto.
Qed.
Print Assumptions guards_of_several_functions_are_atomic.

(** The chain that [HaGuard] stands for is the one of [Mock.v]. *)
Theorem guards_are_chains :
  forall (V U : Type) c sh (y : sys V U) t s ky l y',
  step c sh (Sys (World (w_user (y_world y)) (w_levels (y_world y)) t false) (y_seqs y) (y_objs y) (y_stats y)) (OCtxExpect s ky l) = (y', Ret None) ->
  nth_error (y_stats y) s <> None -> forallb sequence_free l = true ->
  replays c sh y [HaGuard t s ky l false] (Sys (y_world y) (y_seqs y') (y_objs y') (y_stats y')).
Proof.
  intros V U c sh y t s ky l y' H NE SF. cbn [step y_stats y_seqs y_objs y_world] in H.
  destruct (nth_error (y_stats y) s) as [[md sm]|] eqn:N; [|congruence].
  unfold context_expect, slot_expect in H. destruct (sm_poison sm) eqn:PO; [discriminate|]. cbn [w_thread w_panicking] in H.
  destruct (apply_setters c t l (expectation_default c (md_me md) (md_kind md)) (y_seqs y)) as [[e q] r] eqn:E.
  destruct r as [[]|m|]; [|discriminate|discriminate]. inversion H; subst. cbn [y_seqs y_objs y_stats].
  destruct (chain_built c t _ _ _ _ _ SF E) as [-> ->].
  eapply rp_guard; [exact N|exact PO|]. constructor.
Qed.
Print Assumptions guards_are_chains.

Definition mh (n : string) : mdecl N := MDecl (Method n n None (fun _ => "?"%string)) KStatic false true.
Definition funs : sys N unit := init tt [mh "f"; mh "g"].
Definition as_is (s : gstore N unit) : gstore N unit := s.
Definition f_ := 0%nat. Definition g_ := 1%nat. Definition k0 := 0%nat.

(** A thread sets expectations of both functions in turns; another calls [g] twice. *)
Definition both : hprog N unit :=
  HExpect f_ k0 (fun _ => HExpect g_ k0 (fun _ => HSet f_ (StTimes (ANum 2)) (fun _ => HSet g_ (StReturnConst 7) (fun _ =>
    HSet f_ (StReturnConst 5) (fun _ => HDrop g_ false (HDo (HCall g_ k0 []) (fun _ => HDrop f_ false
      (HDo (HCall f_ k0 []) (fun _ => HStop))))))))).
Definition calls_g : hprog N unit := HDo (HCall g_ k0 []) (fun _ => HDo (HCall g_ k0 []) (fun _ => HStop)).

Example guards_of_several_functions_are_atomic_applies :
  let (x, tr) := hrun debug64 as_is (hstart funs [both; calls_g]) [0; 1; 0; 0; 0; 1; 0; 0; 1; 0; 0; 1; 0]%nat in
  (forall t s st, In (EvSet t s st) tr -> sequence_free st = true) /\
  atoms (fun _ => None) tr =
    [HaDo 1 (HCall g_ k0 []) (Panic (MNoMatch "g()"%string));
     HaGuard 0 g_ k0 [StReturnConst 7] false; HaDo 1 (HCall g_ k0 []) (Ret (Some 7)); HaDo 0 (HCall g_ k0 []) (Ret (Some 7));
     HaGuard 0 f_ k0 [StTimes (ANum 2); StReturnConst 5] false; HaDo 0 (HCall f_ k0 []) (Ret (Some 5))] /\
  forall th, In th (hs_threads x) -> th = HThread [] HStop.
Proof.
  vm_compute. split; [|split; [reflexivity|]].
  - intros t s st H. repeat (destruct H as [H|H]; [first [discriminate H|inversion H; reflexivity]|]). destruct H.
  - intros th [<-|[<-|[]]]; reflexivity.
Qed.

Example guards_are_chains_applies :
  snd (step debug64 as_is funs (OCtxExpect f_ k0 [StTimes (ANum 2); StReturnConst 5])) = Ret None /\
  nth_error (y_stats funs) f_ <> None /\ forallb (@sequence_free N unit) [StTimes (ANum 2); StReturnConst 5] = true.
Proof. vm_compute. repeat split; auto. discriminate. Qed.

(** Without the restriction it is false: [in_sequence] of one guard may come between two of another.
    Neither order of the two chains gives these expectations. *)
Definition place_of (y : sys N unit) (s : nat) : list (option seqhandle) :=
  match nth_error (y_stats y) s with
  | Some (_, sm) => map (fun e => c_seq (e_common e)) (slot_get (sm_slot sm) k0)
  | None => []
  end.
Theorem guards_with_sequences_are_atomic_refuted :
  exists (p : hprog N unit) sched lf lg,
  let (x, tr) := hrun debug64 as_is (hstart funs [p]) sched in
  hs_threads x = [HThread [] HStop] /\ setters_on f_ tr = lf /\ setters_on g_ tr = lg /\
  forall l, Permutation [OCtxExpect f_ k0 lf; OCtxExpect g_ k0 lg] l ->
    let (y, rs) := run debug64 as_is funs l in
    rs = [Ret None; Ret None] /\ (place_of y f_, place_of y g_) <> (place_of (hs_sys x) f_, place_of (hs_sys x) g_).
Proof.
  exists (HExpect f_ k0 (fun _ => HExpect g_ k0 (fun _ => HSet f_ StOnce (fun _ => HSet g_ StOnce (fun _ =>
    HSet f_ (StInSequence 0) (fun _ => HSet g_ (StInSequence 0) (fun _ => HSet f_ (StInSequence 0) (fun _ =>
      HDrop f_ false (HDrop g_ false HStop))))))))), (repeat 0%nat 9),
    [StOnce; StInSequence 0; StInSequence 0], [StOnce; StInSequence 0].
  vm_compute. split; [reflexivity|]. split; [reflexivity|]. split; [reflexivity|].
  intros l P. apply Permutation_length_2_inv in P. destruct P as [-> | ->]; vm_compute; (split; [reflexivity|discriminate]).
Qed.
Print Assumptions guards_with_sequences_are_atomic_refuted.

(** ** A guard keeps others from its function, and from no other *)
Theorem guards_keep_their_function :
  forall (V U : Type) c sh (y : sys V U) progs sched0 x0 tr0 t s sched x tr,
  hrun c sh (hstart y progs) sched0 = (x0, tr0) -> has x0 t s ->
  hrun c sh x0 sched = (x, tr) -> (forall b, ~ In (EvGone t s b) tr) ->
  has x t s /\
  (forall ev, In ev tr -> about ev = Some s -> exists st, ev = EvSet t s st) /\
  exists ky i md sl e e',
    nth_error (y_stats (hs_sys x0)) s = Some (md, SMutex false sl) /\ nth_error (slot_get sl ky) i = Some e /\
    nth_error (y_stats (hs_sys x)) s = Some (md, SMutex false (slot_put sl ky (set_nth (slot_get sl ky) i e'))) /\
    ((forall st, In st (setters_on s tr) -> sequence_free st = true) -> e' = built c t (setters_on s tr) e).
Proof.
  intros V U c sh y progs sched0 x0 tr0 t s sched x tr R0 HA R ST.
  pose proof (ok_run _ _ _ _ _ _ (ok_start y progs) R0) as K. destruct HA as (th & N & I0). apply guard_in in I0. destruct I0 as [[ky i] G].
  destruct (ok_exp _ K _ _ _ _ _ N G) as (md & sm & e & A & PO & E). destruct sm as [po sl]. cbn in PO, E. subst po.
  assert (GD : guarded x0 t s ky i md sl e) by (split; [eauto|auto]).
  destruct (guarded_run c sh t s ky i md _ _ _ _ _ _ K GD R ST) as (Q1 & e' & ((th' & N' & G') & M' & _) & B').
  split; [exists th'; split; [exact N'|apply guard_in; eauto]|]. split; [exact Q1|].
  exists ky, i, md, sl, e, e'. auto.
Qed.
Print Assumptions guards_keep_their_function.

(** The thread above has guards of both; the other one waits. *)
Example guards_keep_their_function_applies :
  let x0 := fst (hrun debug64 as_is (hstart funs [both; calls_g]) [0; 0]%nat) in
  has x0 0 g_ /\ let tr := snd (hrun debug64 as_is x0 [1; 0; 0; 1; 0]%nat) in
  (forall b, ~ In (EvGone 0 g_ b) tr) /\ setters_on g_ tr = [StReturnConst 7] /\
  tr = [EvSet 0 f_ (StTimes (ANum 2)); EvSet 0 g_ (StReturnConst 7); EvSet 0 f_ (StReturnConst 5)].
Proof.
  cbv zeta. split; [eexists; split; [vm_compute; reflexivity|vm_compute; auto]|]. vm_compute. split; [|split; reflexivity].
  intros b H. repeat (destruct H as [H|H]; [discriminate H|]). exact H.
Qed.

(** A thread waits exactly for functions of which somebody has a guard: otherwise its operation is
    done at once.  It never waits for its guards' setters or for the end of their scopes.  A setter
    changes one expectation of the function, and the sequences, and returns or panics, as in [Mock.v]. *)
Theorem threads_wait_for_guards_only :
  forall (V U : Type) c sh (y : sys V U) progs sched x tr t th,
  hrun c sh (hstart y progs) sched = (x, tr) -> nth_error (hs_threads x) t = Some th ->
  match ht_prog th with
  | HStop => True
  | HDo o _ => forall s, lock_of o = Some s -> forall t', ~ has x t' s
  | HExpect s _ _ => (s < List.length (y_stats (hs_sys x)))%nat /\ forall t', ~ has x t' s
  | HSet s _ _ | HDrop s _ _ => has x t s
  end ->
  exists x' ev th', hstep c sh x t = (x', ev) /\ nth_error (hs_threads x') t = Some th' /\
    match ht_prog th with
    | HStop => x' = x
    | HDo o k => exists r, ht_prog th' = k r /\ ev = [EvDo t o r]
    | HExpect s ky k =>
        (ht_prog th' = k (Panic MPoison) /\ ev = [EvRefused t s]) \/
        (ht_prog th' = k (Ret None) /\ ev = [EvGuard t s ky] /\ has x' t s)
    | HSet s st k => ev = [EvSet t s st] /\
        exists ky i md sm e, nth_error (y_stats (hs_sys x)) s = Some (md, sm) /\
          nth_error (slot_get (sm_slot sm) ky) i = Some e /\
          let '(e', q, r) := apply_setter c t st e (y_seqs (hs_sys x)) in
          ht_prog th' = k (unit_res r) /\ y_seqs (hs_sys x') = q /\
          nth_error (y_stats (hs_sys x')) s = Some (md, SMutex (sm_poison sm)
            (slot_put (sm_slot sm) ky (set_nth (slot_get (sm_slot sm) ky) i e')))
    | HDrop s b k => ht_prog th' = k /\ ev = [EvGone t s b] /\ forall t', ~ has x' t' s
    end.
Proof.
  intros V U c sh y progs sched x tr t th R N P.
  pose proof (ok_run _ _ _ _ _ _ (ok_start y progs) R) as K.
  destruct (ht_prog th) as [|o k|s ky k|s st k|s b k] eqn:PR.
  { exists x, [], th. split; [unfold hstep; rewrite N; unfold htstep; rewrite PR; reflexivity|]. auto. }
  all: destruct (moves c sh x t th K N) as (y' & own' & th' & ev & E);
    [rewrite PR; first [exact P|eapply has_self; eauto]|];
    exists (HSys y' own' (set_nth (hs_threads x) t th')), [ev], th';
    (split; [unfold hstep; rewrite N, E; reflexivity|]);
    (split; [exact (snth_same _ _ _ _ N)|]);
    apply htstep_case in E; pose proof (ok_case c sh x t th _ _ _ _ K N E) as K';
    inversion E; subst; match goal with A : ht_prog ?a = _, B : ht_prog ?a = _ |- _ => rewrite A in B; inversion B; subst end; cbn [ht_prog]; eauto.
  - right. split; [reflexivity|]. split; [reflexivity|]. apply (has_set x t th _ _ _ N). left. cbn. auto.
  - split; [reflexivity|]. do 5 eexists. do 2 (split; [eassumption|]).
    match goal with A : apply_setter _ _ _ _ _ = _ |- _ => rewrite A end.
    split; [reflexivity|]. split; [reflexivity|]. cbn. eapply snth_same. eassumption.
  - split; [reflexivity|]. split; [reflexivity|]. intros t' Q. apply (ok_own _ K') in Q. cbn in Q. rewrite own_same in Q. discriminate.
Qed.
Print Assumptions threads_wait_for_guards_only.

(** The guard of [f] doesn't keep the other thread from calling [g]. *)
Example threads_wait_for_guards_only_applies :
  let x := fst (hrun debug64 as_is (hstart funs [both; calls_g]) [0%nat]) in
  (forall t', ~ has x t' g_) /\ has x 0 f_ /\ exists k, nth_error (hs_threads x) 1 = Some (HThread [] (HDo (HCall g_ k0 []) k)).
Proof.
  cbv zeta. split; [|split; [eexists; split; [vm_compute; reflexivity|vm_compute; auto]|vm_compute; eauto]].
  intros [| [| [| t']]] (th & N & I0); vm_compute in N; inversion N; subst; vm_compute in I0;
    [destruct I0 as [I0|[]]; discriminate|destruct I0].
Qed.

(** ** Deadlocks

    Threads each of which is about to use a function of which one of them has a guard, wait for
    ever.  With one thread: a thread that uses a function of which it has a guard. *)
Theorem waiting_in_a_circle_is_for_ever :
  forall (V U : Type) c sh (y : sys V U) progs sched0 x0 tr0 (T : nat -> Prop) sched x tr,
  hrun c sh (hstart y progs) sched0 = (x0, tr0) ->
  (forall t, T t -> exists s t', wants x0 t s /\ T t' /\ has x0 t' s) ->
  hrun c sh x0 sched = (x, tr) ->
  forall t, T t -> nth_error (hs_threads x) t = nth_error (hs_threads x0) t.
Proof.
  intros V U c sh y progs sched0 x0 tr0 T sched x tr R0 C R.
  exact (circle_run c sh _ _ _ _ T (ok_run _ _ _ _ _ _ (ok_start y progs) R0) C R).
Qed.
Print Assumptions waiting_in_a_circle_is_for_ever.

(** Two threads that take the guards in opposite orders. *)
Definition takes (a b : nat) : hprog N unit :=
  HExpect a k0 (fun _ => HExpect b k0 (fun _ => HDrop b false (HDrop a false HStop))).
Example waiting_in_a_circle_is_for_ever_applies :
  let x0 := fst (hrun debug64 as_is (hstart funs [takes f_ g_; takes g_ f_]) [0; 1]%nat) in
  forall t, (t < 2)%nat -> exists s t', wants x0 t s /\ (t' < 2)%nat /\ has x0 t' s.
Proof.
  cbv zeta. intros [| [| t]] L.
  - exists g_, 1%nat. split; [|split; [lia|]]; (eexists; split; [vm_compute; reflexivity|vm_compute; eauto]).
  - exists f_, 0%nat. split; [|split; [lia|]]; (eexists; split; [vm_compute; reflexivity|vm_compute; eauto]).
  - lia.
Qed.

(** That threads give back the guards that they took, and never use a function under a guard of it,
    doesn't keep them from waiting for each other for ever. *)
Theorem crossed_guards_never_deadlock_refuted :
  exists sched, let x := fst (hrun debug64 as_is (hstart funs [takes f_ g_; takes g_ f_]) sched) in
  forall more x' tr, hrun debug64 as_is x more = (x', tr) -> ~ done x'.
Proof.
  exists [0; 1]%nat. cbv zeta. intros more x' tr H D.
  destruct (hrun debug64 as_is (hstart funs [takes f_ g_; takes g_ f_]) [0; 1]%nat) as [x0 tr0] eqn:E.
  assert (X : x0 = fst (hrun debug64 as_is (hstart funs [takes f_ g_; takes g_ f_]) [0; 1]%nat)) by (rewrite E; reflexivity).
  cbn [fst] in H.
  assert (Z : nth_error (hs_threads x') 0 = nth_error (hs_threads x0) 0).
  { apply (waiting_in_a_circle_is_for_ever _ _ _ _ _ _ _ _ _ (fun t => (t < 2)%nat) more x' tr E); [|exact H|lia].
    rewrite X. exact waiting_in_a_circle_is_for_ever_applies. }
  assert (Y : exists th, nth_error (hs_threads x0) 0 = Some th /\ ht_held th <> []).
  { rewrite X. eexists. split; [vm_compute; reflexivity|discriminate]. }
  destruct Y as (th & N & NE). rewrite N in Z. apply nth_error_In in Z. apply D in Z. subst th. apply NE. reflexivity.
Qed.
Print Assumptions crossed_guards_never_deadlock_refuted.

(** If all threads use functions in one order while they have guards, then nobody waits for ever:
    whatever has happened, all threads can end.  Under the guards of some functions a thread may
    use all functions that come later. *)
Theorem ordered_guards_never_deadlock :
  forall (V U : Type) c sh (y : sys V U) rank progs sched x tr,
  Forall (orderly (List.length (y_stats y)) rank []) progs ->
  hrun c sh (hstart y progs) sched = (x, tr) ->
  exists more x' tr', hrun c sh x more = (x', tr') /\ (h_aborted (tr ++ tr') \/ done x').
Proof.
  intros V U c sh y rank progs sched x tr F R.
  assert (T : tidy_all (List.length (y_stats y)) rank (hstart y progs)).
  { split; [reflexivity|]. intros t th N. cbn in N. apply nth_error_In in N. apply in_map_iff in N. destruct N as (p & <- & I0).
    cbn. rewrite Forall_forall in F. auto. }
  destruct (tidy_run c sh _ _ _ _ _ _ T R) as [(t & o & I0)|T'].
  - exists [], x, []. split; [reflexivity|]. left. exists t, o. apply in_or_app. auto.
  - destruct (all_end c sh _ _ _ x eq_refl (ok_run _ _ _ _ _ _ (ok_start y progs) R) T') as (more & x2 & tr2 & R2 & Z).
    exists more, x2, tr2. split; [exact R2|]. destruct Z as [(t & o & I0)|Z]; [left; exists t, o; apply in_or_app; auto|auto].
Qed.
Print Assumptions ordered_guards_never_deadlock.

(** A thread that calls [g] while it has a guard of [f], and one that takes both guards; both give up
    if the store is poisoned. *)
Example ordered_guards_never_deadlock_applies :
  let one : hprog N unit := HExpect f_ k0 (fun r => match r with
    | Ret _ => HDo (HCall g_ k0 []) (fun _ => HSet f_ StOnce (fun _ => HDrop f_ false HStop)) | _ => HStop end) in
  let two : hprog N unit := HExpect f_ k0 (fun r => match r with
    | Ret _ => HExpect g_ k0 (fun r => match r with
        | Ret _ => HDrop f_ true (HSet g_ StNever (fun _ => HDrop g_ false HStop)) | _ => HDrop f_ true HStop end)
    | _ => HStop end) in
  Forall (orderly (List.length (y_stats funs)) (fun s => s) []) [one; two].
Proof.
  cbv zeta. constructor; [|constructor; [|constructor]]; cbn.
  - split; [auto|]. split; [intros s []|]. intros [o|m|] NA; [|reflexivity|congruence]. split.
    + intros s E s' [<-|[]]. inversion E. vm_compute. auto.
    + intros r NA2. cbn. auto 10.
  - split; [auto|]. split; [intros s []|]. intros [o|m|] NA; [|reflexivity|congruence]. split; [auto|]. split.
    + intros s' [<-|[]]. vm_compute. auto.
    + intros [o2|m2|] NA2; [|cbn; auto|congruence]. cbn. auto 10.
Qed.

(** ** The checkpoint of a module

    takes one lock after the other.  If nobody has a guard, and nobody else does anything meanwhile,
    it is the [checkpoint()] of [Mock.v]. *)
Theorem module_checkpoints_take_one_lock_after_the_other :
  forall (V U : Type) c sh (y : sys V U) t progs k,
  nth_error progs t = Some (module_checkpoint_prog 0 (List.length (y_stats y)) k) ->
  let (y', r) := step c sh (Sys (World (w_user (y_world y)) (w_levels (y_world y)) t false) (y_seqs y) (y_objs y) (y_stats y)) OModCheckpoint in
  exists more x' tr, Forall (eq t) more /\ hrun c sh (hstart y progs) more = (x', tr) /\
    y_stats (hs_sys x') = y_stats y' /\ y_seqs (hs_sys x') = y_seqs y' /\ y_objs (hs_sys x') = y_objs y' /\
    w_user (y_world (hs_sys x')) = w_user (y_world y') /\
    nth_error (hs_threads x') t = Some (HThread [] (k r)) /\
    (forall t', t' <> t -> nth_error (hs_threads x') t' = nth_error (map (HThread []) progs) t').
Proof.
  intros V U c sh [[u lv w p] q ob ss] t progs k N. cbn [y_stats y_world y_seqs y_objs w_user w_levels w_panicking step set_stats] in *.
  destruct (module_prog_run c sh [] t k ss [] u lv p w q ob (fun _ => None) (map (HThread []) progs))
    as (more & x' & tr & w' & p' & R & A1 & A2 & A3 & A4 & A5).
  { auto. } { apply (map_nth_error (HThread [])). exact N. }
  destruct (module_checkpoint c sh ss false) as [ss' r] eqn:E. cbn [fst snd List.app] in *.
  exists more, x', tr. split; [exact A4|]. split; [exact R|]. rewrite A1. cbn. auto 10.
Qed.
Print Assumptions module_checkpoints_take_one_lock_after_the_other.

Example module_checkpoints_take_one_lock_after_the_other_applies :
  let y := fst (run debug64 as_is funs [OCtxExpect f_ k0 [StNever]; OCtxExpect g_ k0 [StOnce]]) in
  let p : hprog N unit := module_checkpoint_prog 0 (List.length (y_stats y)) (fun _ => HStop) in
  p <> HStop /\ nth_error [calls_g; p] 1 = Some p /\
  snd (step debug64 as_is y OModCheckpoint) <> Ret None.
Proof. vm_compute. split; [discriminate|]. split; [reflexivity|discriminate]. Qed.
