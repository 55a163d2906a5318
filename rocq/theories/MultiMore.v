(** * MultiMore: guards are atomic; deadlocks *)

From Coq Require Import NArith List Bool String Lia Wf_nat.
From Verif Require Import Base Times Expect Mock Multi MultiSpec GuardsEnd MultiProofs.
Import ListNotations.
Open Scope N_scope.
Open Scope list_scope.

Section Atomic.
Context {V U : Type} (c : cfg) (sh : shuffle V U).
Notation hsys := (hsys V U).
Notation sys := (sys V U).
Notation hevent := (hevent V U).
Notation opens := (nat -> option (key * list (setter V U))).

Definition now (open : opens) (ev : hevent) : list hatom :=
  match ev with
  | EvDo t o r => [HaDo t o r]
  | EvRefused t s => [HaRefused s]
  | EvGuard _ _ _ | EvSet _ _ _ => []
  | EvGone t s b => match open s with None => [] | Some (ky, l) => [HaGuard t s ky l b] end
  end.
Definition later (open : opens) (ev : hevent) : opens :=
  match ev with
  | EvDo _ _ _ | EvRefused _ _ => open
  | EvGuard t s ky => note_open open s (Some (ky, []))
  | EvSet t s st => match open s with None => open | Some (ky, l) => note_open open s (Some (ky, l ++ [st])) end
  | EvGone t s b => match open s with None => open | Some _ => note_open open s None end
  end.
Lemma atoms_step open ev tr : atoms open (ev :: tr) = now open ev ++ atoms (later open ev) tr.
Proof. destruct ev; cbn; try reflexivity; destruct (open s) as [[ky l]|]; reflexivity. Qed.

Lemma replays_app (y z w : sys) l1 l2 : replays c sh y l1 z -> replays c sh z l2 w -> replays c sh y (l1 ++ l2) w.
Proof. induction 1; intros H2; cbn [List.app]; [exact H2| | |]; econstructor; eauto. Qed.

Lemma note_same (open : opens) s x : note_open open s x s = x.
Proof. unfold note_open. rewrite PeanoNat.Nat.eqb_refl. reflexivity. Qed.
Lemma note_other (open : opens) s x s' : s' <> s -> note_open open s x s' = open s'.
Proof. intros H. unfold note_open. destruct (Nat.eqb s' s) eqn:Z; [apply PeanoNat.Nat.eqb_eq in Z; congruence|reflexivity]. Qed.

Record rel (x : hsys) (open : opens) (z : sys) : Prop := Rel {
  rl_world : y_world z = y_world (hs_sys x);
  rl_seqs : y_seqs z = y_seqs (hs_sys x);
  rl_objs : y_objs z = y_objs (hs_sys x);
  rl_free : forall s, hs_own x s = None -> open s = None /\ nth_error (y_stats z) s = nth_error (y_stats (hs_sys x)) s;
  rl_held : forall s t, hs_own x s = Some t -> exists ky l th md sl,
    open s = Some (ky, l) /\ nth_error (hs_threads x) t = Some th /\
    guard_for s (ht_held th) = Some (ky, List.length (slot_get sl ky)) /\
    nth_error (y_stats z) s = Some (md, SMutex false sl) /\
    nth_error (y_stats (hs_sys x)) s =
      Some (md, SMutex false (slot_put sl ky (slot_get sl ky ++ [built c t l (expectation_default c (md_me md) (md_kind md))])))
}.

Lemma rel_case (x : hsys) open z t th y' own' th' ev : ok x -> rel x open z -> nth_error (hs_threads x) t = Some th ->
  hcase c sh (hs_sys x) (hs_own x) t th y' own' th' ev ->
  (forall s st, ev = EvSet t s st -> sequence_free st = true) ->
  exists z', replays c sh z (now open ev) z' /\ rel (HSys y' own' (set_nth (hs_threads x) t th')) (later open ev) z'.
Proof.
  intros K [W Q B FR HE] N H SF.
  assert (OWN : forall s g, guard_for s (ht_held th) = Some g -> hs_own x s = Some t).
  { intros s g G. apply (ok_own _ K). exists th. split; [exact N|]. apply guard_in. eauto. }
  inversion H; subst; cbn [now later].
  - (* an operation *)
    rename H1 into L, H2 into E.
    destruct (op_local _ _ _ _ _ _ E) as (E1 & E2 & E3 & E4). cbn [on_thread set_world y_seqs y_objs y_stats] in *.
    destruct (op_same c sh (on_thread (hs_sys x) t) (on_thread z t) o y' r E) as (z' & S1 & S2 & S3).
    { unfold on_thread. cbn. rewrite W. reflexivity. }
    { exact Q. } { exact B. }
    { intros s LS. cbn. rewrite LS in L. cbn in L. destruct (hs_own x s) eqn:OW; [discriminate|]. apply FR. exact OW. }
    destruct (op_local _ _ _ _ _ _ S1) as (D1 & D2 & D3 & D4). cbn [on_thread set_world y_seqs y_objs y_stats] in *.
    exists z'. split; [econstructor; [exact S1|constructor]|].
    constructor; cbn [hs_sys hs_own hs_threads]; [exact S2|congruence|congruence| |].
    + intros s OW. destruct (FR s OW) as [F1 F2]. split; [exact F1|].
      destruct (lock_of o) as [s0|] eqn:LO; [destruct (PeanoNat.Nat.eq_dec s0 s) as [->|NE]|].
      * apply S3. reflexivity.
      * rewrite D4, E4 by congruence. exact F2.
      * rewrite D4, E4 by congruence. exact F2.
    + intros s t0 OW. destruct (HE s t0 OW) as (ky & l & th0 & md & sl & A1 & A2 & A3 & A4 & A5).
      assert (NL : lock_of o <> Some s) by (intros LO; rewrite LO in L; cbn in L; rewrite OW in L; discriminate).
      destruct (PeanoNat.Nat.eq_dec t0 t) as [->|NE].
      * exists ky, l, (HThread (ht_held th) (k r)), md, sl. rewrite (snth_same _ _ _ _ N). rewrite N in A2. inversion A2; subst.
        cbn [ht_held]. rewrite D4, E4 by exact NL. auto.
      * exists ky, l, th0, md, sl. rewrite snth_other by congruence. rewrite D4, E4 by exact NL. auto.
  - (* refused *)
    rename H1 into M, H2 into OW, H3 into PO. exists z.
    split; [econstructor; [rewrite (proj2 (FR s OW)); exact M|exact PO|constructor]|].
    constructor; cbn [hs_sys hs_own hs_threads]; auto.
    intros s0 t0 OW0. destruct (HE s0 t0 OW0) as (ky0 & l & th0 & md0 & sl & A1 & A2 & A3 & A4 & A5).
    destruct (PeanoNat.Nat.eq_dec t0 t) as [->|NE].
    + rewrite N in A2. inversion A2; subst. exists ky0, l, (HThread (ht_held th0) (k (Panic MPoison))), md0, sl.
      rewrite (snth_same _ _ _ _ N). cbn [ht_held]. auto.
    + exists ky0, l, th0, md0, sl. rewrite snth_other by congruence. auto.
  - (* a new guard *)
    rename H1 into M, H2 into OW, H3 into PO. destruct (FR s OW) as [F1 F2].
    exists z. split; [constructor|]. constructor; cbn [hs_sys hs_own hs_threads put_stat set_stats y_world y_seqs y_objs y_stats]; auto.
    + intros s0 OW0. destruct (PeanoNat.Nat.eq_dec s0 s) as [->|NE]; [rewrite own_same in OW0; discriminate|].
      rewrite own_other in OW0 by exact NE. rewrite note_other by exact NE. rewrite snth_other by congruence. apply FR. exact OW0.
    + intros s0 t0 OW0. destruct (PeanoNat.Nat.eq_dec s0 s) as [->|NE].
      * rewrite own_same in OW0. inversion OW0; subst t0. rewrite note_same.
        exists ky, [], (HThread ((s, (ky, List.length (slot_get (sm_slot sm) ky))) :: ht_held th) (k (Ret None))), md, (sm_slot sm).
        rewrite (snth_same _ _ _ _ N), (snth_same _ _ _ _ M). cbn [ht_held guard_for]. rewrite PeanoNat.Nat.eqb_refl.
        do 3 (split; [reflexivity|]). split; [|reflexivity]. rewrite F2, M. destruct sm; cbn in *; subst; reflexivity.
      * rewrite own_other in OW0 by exact NE. rewrite note_other by exact NE. rewrite snth_other with (l := y_stats (hs_sys x)) by congruence.
        destruct (HE s0 t0 OW0) as (ky0 & l & th0 & md0 & sl & A1 & A2 & A3 & A4 & A5).
        destruct (PeanoNat.Nat.eq_dec t0 t) as [->|NT].
        -- rewrite N in A2. inversion A2; subst. eexists ky0, l, _, md0, sl. rewrite (snth_same _ _ _ _ N).
           split; [exact A1|]. split; [reflexivity|]. cbn [ht_held guard_for].
           destruct (Nat.eqb s s0) eqn:Z; [apply PeanoNat.Nat.eqb_eq in Z; congruence|]. auto.
        -- exists ky0, l, th0, md0, sl. rewrite snth_other by congruence. auto.
  - (* a setter *)
    rename H1 into G0, H2 into M, H3 into NE0, H4 into A. pose proof (OWN _ _ G0) as OW.
    destruct (HE s t OW) as (ky1 & l & th1 & md1 & sl & A1 & A2 & A3 & A4 & A5).
    rewrite N in A2. inversion A2; subst th1. rewrite G0 in A3. inversion A3; subst ky1 i. rewrite M in A5. inversion A5; subst md1 sm.
    cbn [sm_slot sm_poison] in *. rewrite get_put, nth_end in NE0. inversion NE0; subst e.
    destruct (setter_pure c t st (built c t l (expectation_default c (md_me md) (md_kind md))) (y_seqs (hs_sys x)) (SF _ _ eq_refl)) as (r0 & SP).
    rewrite SP in A. inversion A; subst e' q r0.
    rewrite A1. exists z. split; [constructor|].
    constructor; cbn [hs_sys hs_own hs_threads y_world y_seqs y_objs y_stats]; auto.
    + intros s0 OW0. assert (NE : s0 <> s) by congruence. rewrite note_other by exact NE. rewrite snth_other by congruence. auto.
    + intros s0 t0 OW0. destruct (PeanoNat.Nat.eq_dec s0 s) as [->|NE].
      * rewrite OW in OW0. inversion OW0; subst t0. rewrite note_same.
        exists ky, (l ++ [st]), (HThread (ht_held th) (k (unit_res r))), md, sl.
        rewrite (snth_same _ _ _ _ N), (snth_same _ _ _ _ M). cbn [ht_held].
        split; [reflexivity|]. split; [reflexivity|]. split; [exact G0|]. split; [exact A4|].
        rewrite get_put, put_twice, snth_end. unfold built. rewrite fold_left_app. reflexivity.
      * rewrite note_other by exact NE. rewrite snth_other with (l := y_stats (hs_sys x)) by congruence.
        destruct (HE s0 t0 OW0) as (ky0 & l0 & th0 & md0 & sl0 & B1 & B2 & B3 & B4 & B5).
        destruct (PeanoNat.Nat.eq_dec t0 t) as [->|NT].
        -- rewrite N in B2. inversion B2; subst. eexists ky0, l0, _, md0, sl0. rewrite (snth_same _ _ _ _ N).
           split; [exact B1|]. split; [reflexivity|]. cbn [ht_held]. auto.
        -- exists ky0, l0, th0, md0, sl0. rewrite snth_other by congruence. auto.
  - (* the end of a guard *)
    rename H1 into G0, H2 into M. pose proof (OWN _ _ G0) as OW.
    destruct (HE s t OW) as (ky1 & l & th1 & md1 & sl & A1 & A2 & A3 & A4 & A5).
    rewrite N in A2. inversion A2; subst th1. rewrite M in A5. inversion A5; subst md1 sm. cbn [sm_slot sm_poison orb] in *.
    rewrite A1. eexists. split; [eapply rp_guard; [exact A4|reflexivity|constructor]|].
    constructor; cbn [hs_sys hs_own hs_threads put_stat set_stats y_world y_seqs y_objs y_stats sm_slot]; auto.
    + intros s0 OW0. destruct (PeanoNat.Nat.eq_dec s0 s) as [->|NE].
      * rewrite note_same. rewrite (snth_same _ _ _ _ M), (snth_same _ _ _ _ A4). auto.
      * rewrite note_other by exact NE. rewrite own_other in OW0 by exact NE. rewrite !snth_other by congruence. auto.
    + intros s0 t0 OW0. destruct (PeanoNat.Nat.eq_dec s0 s) as [->|NE]; [rewrite own_same in OW0; discriminate|].
      rewrite own_other in OW0 by exact NE. rewrite note_other by exact NE.
      rewrite snth_other with (l := y_stats (hs_sys x)) by congruence. rewrite snth_other with (l := y_stats z) by congruence.
      destruct (HE s0 t0 OW0) as (ky0 & l0 & th0 & md0 & sl0 & B1 & B2 & B3 & B4 & B5).
      destruct (PeanoNat.Nat.eq_dec t0 t) as [->|NT].
      -- rewrite N in B2. inversion B2; subst. eexists ky0, l0, _, md0, sl0. rewrite (snth_same _ _ _ _ N).
         split; [exact B1|]. split; [reflexivity|]. cbn [ht_held]. rewrite guard_without by exact NE. auto.
      -- exists ky0, l0, th0, md0, sl0. rewrite snth_other by congruence. auto.
Qed.

Lemma rel_run : forall sched x open z x' tr, ok x -> rel x open z -> hrun c sh x sched = (x', tr) ->
  (forall t s st, In (EvSet t s st) tr -> sequence_free st = true) ->
  exists z' open', replays c sh z (atoms open tr) z' /\ rel x' open' z'.
Proof.
  induction sched as [| t sched IH]; intros x open z x' tr K R H SF; cbn [hrun] in H.
  - inversion H; subst. exists z, open. split; [constructor|exact R].
  - destruct (hstep c sh x t) as [x1 ev1] eqn:E1. destruct (hrun c sh x1 sched) as [x2 ev2] eqn:E2. inversion H; subst.
    pose proof (ok_step _ _ _ _ _ _ K E1) as K1. unfold hstep in E1.
    assert (SF2 : forall t s st, In (EvSet t s st) ev2 -> sequence_free st = true) by (intros; eapply SF; apply in_or_app; right; eauto).
    destruct (nth_error (hs_threads x) t) as [th|] eqn:N; [|inversion E1; subst; eauto].
    destruct (htstep c sh (hs_sys x) (hs_own x) t th) as [[[[y' own'] th'] e]|] eqn:E; [|inversion E1; subst; eauto].
    inversion E1; subst. apply htstep_case in E.
    destruct (rel_case x open z t th y' own' th' e K R N E) as (z1 & P1 & R1).
    { intros s st ->. eapply SF. left. reflexivity. }
    destruct (IH _ _ _ _ _ K1 R1 E2 SF2) as (z2 & op2 & P2 & R2).
    exists z2, op2. split; [|exact R2]. cbn [List.app]. rewrite atoms_step. eapply replays_app; eauto.
Qed.

Lemma rel_start y progs : rel (hstart y progs) (fun _ => None) y.
Proof. constructor; cbn; auto. intros s t H. discriminate. Qed.
End Atomic.

(** ** Waiting *)
Section Waiting.
Context {V U : Type} (c : cfg) (sh : shuffle V U).
Notation hsys := (hsys V U).

Lemma wants_step (x : hsys) t s t' : ok x -> wants x t s -> has x t' s -> hstep c sh x t = (x, []).
Proof.
  intros K (th & N & P) HA. apply (ok_own _ K) in HA. unfold hstep. rewrite N. unfold htstep.
  destruct P as [(o & k & -> & LO)|(ky & k & ->)].
  - rewrite LO. cbn [unlocked]. rewrite HA. reflexivity.
  - destruct (nth_error (y_stats (hs_sys x)) s) as [[md sm]|]; [|reflexivity]. cbn [unlocked]. rewrite HA. reflexivity.
Qed.

(** A step leaves the other threads alone. *)
Lemma step_threads (x : hsys) t x' ev t' : hstep c sh x t = (x', ev) -> t' <> t ->
  nth_error (hs_threads x') t' = nth_error (hs_threads x) t'.
Proof.
  unfold hstep. intros H NE. destruct (nth_error (hs_threads x) t) as [th|]; [|inversion H; subst; reflexivity].
  destruct (htstep c sh (hs_sys x) (hs_own x) t th) as [[[[y' own'] th'] e]|]; inversion H; subst; [|reflexivity].
  cbn. apply snth_other. congruence.
Qed.

Lemma circle_step (x x' : hsys) t ev (T : nat -> Prop) : ok x -> (forall t, T t -> exists s t', wants x t s /\ T t' /\ has x t' s) ->
  hstep c sh x t = (x', ev) ->
  (forall t', T t' -> nth_error (hs_threads x') t' = nth_error (hs_threads x) t') /\ (T t -> ev = []).
Proof.
  intros K C H. split.
  - intros t' TT. destruct (PeanoNat.Nat.eq_dec t' t) as [->|NE]; [|eapply step_threads; eauto].
    destruct (C t TT) as (s & t2 & A & _ & B). rewrite (wants_step x t s t2 K A B) in H. inversion H; subst. reflexivity.
  - intros TT. destruct (C t TT) as (s & t2 & A & _ & B). rewrite (wants_step x t s t2 K A B) in H. inversion H. reflexivity.
Qed.
Lemma circle_run : forall sched (x x' : hsys) tr (T : nat -> Prop), ok x ->
  (forall t, T t -> exists s t', wants x t s /\ T t' /\ has x t' s) -> hrun c sh x sched = (x', tr) ->
  forall t', T t' -> nth_error (hs_threads x') t' = nth_error (hs_threads x) t'.
Proof.
  induction sched as [| t sched IH]; intros x x' tr T K C H t' TT; cbn [hrun] in H; [inversion H; subst; reflexivity|].
  destruct (hstep c sh x t) as [x1 ev1] eqn:E1. destruct (hrun c sh x1 sched) as [x2 ev2] eqn:E2. inversion H; subst.
  destruct (circle_step _ _ _ _ T K C E1) as [C1 _]. rewrite <- (C1 t' TT).
  eapply (IH x1 x' ev2 T); [eapply ok_step; eauto| |exact E2|exact TT].
  intros t0 T0. destruct (C t0 T0) as (s & t2 & A & T2 & B). exists s, t2. unfold wants, has in *. rewrite (C1 t0 T0), (C1 t2 T2). auto.
Qed.

(** The holder of guards, and whoever wants what nobody has, can move. *)
Lemma moves (x : hsys) t th : ok x -> nth_error (hs_threads x) t = Some th ->
  match ht_prog th with
  | HStop => False
  | HDo o _ => forall s, lock_of o = Some s -> forall t', ~ has x t' s
  | HExpect s _ _ => (s < List.length (y_stats (hs_sys x)))%nat /\ forall t', ~ has x t' s
  | HSet s _ _ | HDrop s _ _ => In s (map fst (ht_held th))
  end ->
  exists y' own' th' ev, htstep c sh (hs_sys x) (hs_own x) t th = Some (y', own', th', ev).
Proof.
  intros K N P. assert (FREE : forall s, (forall t', ~ has x t' s) -> hs_own x s = None).
  { intros s H. destruct (hs_own x s) as [t'|] eqn:E; [|reflexivity]. apply (ok_own _ K) in E. elim (H _ E). }
  unfold htstep. destruct (ht_prog th) as [|o k|s ky k|s st k|s b k] eqn:PR; [destruct P| | | |].
  - assert (L : unlocked (hs_own x) (lock_of o) = true).
    { destruct (lock_of o) as [s|]; cbn; [|reflexivity]. rewrite FREE; auto. }
    rewrite L. destruct (step c sh (on_thread (hs_sys x) t) (op_of o)). eauto 10.
  - destruct P as [L H]. destruct (nth_error (y_stats (hs_sys x)) s) as [[md sm]|] eqn:E.
    + cbn [unlocked]. rewrite (FREE s H). destruct (sm_poison sm); eauto 10.
    + apply nth_error_None in E. lia.
  - apply guard_in in P. destruct P as [[ky i] G]. rewrite G. destruct (ok_exp _ K _ _ _ _ _ N G) as (md & sm & e & A & B & D).
    rewrite A, D. destruct (apply_setter c t st e (y_seqs (hs_sys x))) as [[? ?] ?]. eauto 10.
  - apply guard_in in P. destruct P as [[ky i] G]. rewrite G. destruct (ok_exp _ K _ _ _ _ _ N G) as (md & sm & e & A & B & D).
    rewrite A. eauto 10.
Qed.

(** ** Programs in order *)
Context (n : nat) (rank : nat -> nat).

Definition tidy_all (x : hsys) : Prop :=
  List.length (y_stats (hs_sys x)) = n /\
  forall t th, nth_error (hs_threads x) t = Some th -> orderly n rank (map fst (ht_held th)) (ht_prog th).

Lemma tidy_case (x : hsys) t th y' own' th' ev : tidy_all x -> nth_error (hs_threads x) t = Some th ->
  hcase c sh (hs_sys x) (hs_own x) t th y' own' th' ev -> (forall o, ev <> EvDo t o Abort) ->
  tidy_all (HSys y' own' (set_nth (hs_threads x) t th')).
Proof.
  intros [L T] N H NA.
  assert (Z : List.length (y_stats y') = n /\ orderly n rank (map fst (ht_held th')) (ht_prog th')).
  { pose proof (T t th N) as TT. inversion H; subst; match goal with H0 : ht_prog th = _ |- _ => rewrite H0 in TT end; cbn [orderly] in TT.
    - split; [|cbn; apply TT; intros ->; eapply NA; reflexivity].
      match goal with H0 : step _ _ _ _ = _ |- _ => apply op_local in H0; destruct H0 as (_ & _ & Q & _) end.
      exact Q.
    - split; [reflexivity|]. cbn [ht_held ht_prog map fst]. apply (proj2 (proj2 TT) (Panic MPoison)). discriminate.
    - split; [cbn; apply snth_len|]. cbn [ht_held ht_prog map fst]. apply (proj2 (proj2 TT) (Ret None)). discriminate.
    - split; [cbn; apply snth_len|]. cbn [ht_held ht_prog]. apply TT.
      match goal with H0 : apply_setter _ _ _ _ _ = _ |- _ => pose proof (no_abort _ _ _ _ _ _ _ _ H0) as Q end.
      destruct r; [discriminate|discriminate|congruence].
    - split; [cbn; apply snth_len|]. cbn [ht_held ht_prog]. rewrite without_fst. apply TT. }
  split; cbn; [apply Z|]. intros t0 th0 N0. destruct (PeanoNat.Nat.eq_dec t0 t) as [->|NE].
  - rewrite (snth_same _ _ _ _ N) in N0. inversion N0; subst. apply Z.
  - rewrite snth_other in N0 by congruence. eauto.
Qed.

(** Somebody can move: follow the waits upwards. *)
Lemma somebody_moves (x : hsys) m : ok x -> tidy_all x -> (forall s0 t0, has x t0 s0 -> (rank s0 < m)%nat) ->
  forall f t th, nth_error (hs_threads x) t = Some th -> th <> HThread [] HStop ->
  (forall s, wants x t s -> (exists t', has x t' s) -> (m - rank s < f)%nat) -> (0 < f)%nat ->
  exists t' th' y' own' th2 ev, nth_error (hs_threads x) t' = Some th' /\
    htstep c sh (hs_sys x) (hs_own x) t' th' = Some (y', own', th2, ev).
Proof.
  intros K [L T] BD. induction f as [| f IH]; intros t th N ND F PF; [lia|]. clear PF.
  assert (CASE : forall s, wants x t s -> (exists t', has x t' s) \/ (forall t', ~ has x t' s)).
  { intros s _. destruct (hs_own x s) as [t'|] eqn:E; [left; exists t'; apply (ok_own _ K); exact E|].
    right. intros t' Q. apply (ok_own _ K) in Q. congruence. }
  assert (UP : forall s, wants x t s -> (exists t', has x t' s) ->
     exists t' th' y' own' th2 ev, nth_error (hs_threads x) t' = Some th' /\
       htstep c sh (hs_sys x) (hs_own x) t' th' = Some (y', own', th2, ev)).
  { intros s WA HA. pose proof (F s WA HA) as FM. destruct HA as (t' & th' & N' & I').
    assert (HS : has x t' s) by (exists th'; auto). pose proof (BD _ _ HS) as BS.
    pose proof (T _ _ N') as TT.
    assert (UPW : forall s2, wants x t' s2 -> (rank s < rank s2)%nat).
    { intros s2 (th2 & N2 & P2). rewrite N' in N2. inversion N2; subst th2.
      destruct P2 as [(o & k & PP & LO)|(ky & k & PP)]; rewrite PP in TT; cbn in TT; [eapply (proj1 TT); eauto|apply TT; auto]. }
    apply (IH t' th' N').
    - intros ->. cbn in I'. exact I'.
    - intros s2 W2 (t2 & H2). pose proof (UPW s2 W2). pose proof (BD _ _ H2). lia.
    - lia. }
  pose proof (T _ _ N) as TT.
  destruct (ht_prog th) as [|o k|s ky k|s st k|s b k] eqn:PR.
  - elim ND. cbn in TT. destruct th as [hl pr]. cbn in *. subst. destruct hl; [reflexivity|discriminate].
  - destruct (lock_of o) as [s|] eqn:LO.
    + assert (WA : wants x t s) by (exists th; split; [exact N|left; eauto]).
      destruct (CASE s WA) as [HA|NH]; [eapply UP; eauto|].
      destruct (moves x t th K N) as (y' & own' & th2 & ev & E); [rewrite PR, LO; intros s0 E0; inversion E0; subst; exact NH|].
      exists t, th. eauto 10.
    + destruct (moves x t th K N) as (y' & own' & th2 & ev & E); [rewrite PR, LO; discriminate|]. exists t, th. eauto 10.
  - assert (WA : wants x t s) by (exists th; split; [exact N|right; eauto]).
    destruct (CASE s WA) as [HA|NH]; [eapply UP; eauto|].
    destruct (moves x t th K N) as (y' & own' & th2 & ev & E); [rewrite PR; cbn in TT; rewrite L; split; [apply TT|exact NH]|].
    exists t, th. eauto 10.
  - destruct (moves x t th K N) as (y' & own' & th2 & ev & E); [rewrite PR; apply TT|]. exists t, th. eauto 10.
  - destruct (moves x t th K N) as (y' & own' & th2 & ev & E); [rewrite PR; apply TT|]. exists t, th. eauto 10.
Qed.

Lemma ranks_bounded (x : hsys) : exists m, forall s0 t0, has x t0 s0 -> (rank s0 < m)%nat.
Proof.
  unfold has. induction (hs_threads x) as [| th ths IH].
  - exists O. intros s0 [| t0] (th & N & _); discriminate.
  - destruct IH as [m IH].
    assert (B : exists m', forall s, In s (map fst (ht_held th)) -> (rank s < m')%nat).
    { induction (map fst (ht_held th)) as [| s l IHl]; [exists O; intros s []|]. destruct IHl as [m' Hm].
      exists (Nat.max m' (S (rank s))). intros s0 [<-|I0]; [lia|]. specialize (Hm s0 I0). lia. }
    destruct B as [m' B]. exists (Nat.max m m'). intros s0 [| t0] (z & N & I0); cbn in N.
    + inversion N; subst. specialize (B s0 I0). lia.
    + specialize (IH s0 t0 (ex_intro _ z (conj N I0))). lia.
Qed.

(** ** The end *)
Inductive child : hprog V U -> hprog V U -> Prop :=
| ch_do o k r : child (k r) (HDo o k)
| ch_expect s ky k r : child (k r) (HExpect s ky k)
| ch_set s st k r : child (k r) (HSet s st k)
| ch_drop s b k : child k (HDrop s b k).
Lemma child_wf : forall p, Acc child p.
Proof. induction p; constructor; intros q HQ; inversion HQ; subst; auto. Qed.

Definition kid (l' l : list (hthread V U)) : Prop :=
  exists i a b, nth_error l i = Some a /\ child (ht_prog b) (ht_prog a) /\ l' = set_nth l i b.
Lemma kid_wf : forall l, Acc kid l.
Proof.
  induction l as [| a l IH].
  - constructor. intros l' ([| i] & a & b & N & _); discriminate.
  - remember (ht_prog a) as p eqn:E. revert a E l IH. induction (child_wf p) as [p _ IHp]. intros a -> l AL.
    induction AL as [l AL IHl]. constructor. intros l' (i & a' & b & N & C & ->). destruct i as [| i]; cbn in *.
    + inversion N; subst. eapply (IHp (ht_prog b)); [exact C|reflexivity|constructor; exact AL].
    + apply IHl. exists i, a', b. auto.
Qed.
Lemma case_child y own t th y' own' th' ev : hcase c sh y own t th y' own' th' ev -> child (ht_prog th') (ht_prog th).
Proof. intros H. inversion H; subst; match goal with H0 : ht_prog th = _ |- _ => rewrite H0 end; cbn; constructor. Qed.

Lemma dec_done (l : list (hthread V U)) : (forall th, In th l -> th = HThread [] HStop) \/ exists t th, nth_error l t = Some th /\ th <> HThread [] HStop.
Proof.
  induction l as [| a l IH]; [left; intros th []|].
  assert (D : a = HThread [] HStop \/ a <> HThread [] HStop).
  { destruct a as [[| g gs] []]; [left; reflexivity|right; discriminate..]. }
  destruct D as [->|D]; [|right; exists O, a; auto].
  destruct IH as [IH|(t & th & N & ND)]; [left; intros th [<-|I0]; auto|right; exists (S t), th; auto].
Qed.

Lemma all_end : forall l (x : hsys), hs_threads x = l -> ok x -> tidy_all x ->
  exists more x2 tr2, hrun c sh x more = (x2, tr2) /\ (h_aborted tr2 \/ done x2).
Proof.
  intros l. induction (kid_wf l) as [l _ IH]. intros x E K T.
  destruct (dec_done (hs_threads x)) as [D|(t & th & N & ND)].
  - exists [], x, []. split; [reflexivity|]. right. exact D.
  - destruct (ranks_bounded x) as [m BD].
    destruct (somebody_moves x m K T BD (S m) t th N ND) as (t' & th' & y' & own' & th2 & ev & N' & H'); [intros; lia|lia|].
    assert (ST : hstep c sh x t' = (HSys y' own' (set_nth (hs_threads x) t' th2), [ev])) by (unfold hstep; rewrite N', H'; reflexivity).
    pose proof (htstep_case _ _ _ _ _ _ _ _ _ _ H') as C.
    assert (AB : (exists o, ev = EvDo t' o Abort) \/ forall o, ev <> EvDo t' o Abort).
    { destruct ev as [t1 o [q|q|]| | | |]; try (right; discriminate).
      inversion C; subst. left. eauto. }
    destruct AB as [(o & ->)|NA].
    + exists [t']. do 2 eexists. cbn [hrun]. rewrite ST. split; [reflexivity|]. left. exists t', o. left. reflexivity.
    + destruct (IH (set_nth (hs_threads x) t' th2)) with (x := HSys y' own' (set_nth (hs_threads x) t' th2)) as (more & x2 & tr2 & R & Z).
      * subst l. exists t', th', th2. split; [exact N'|]. split; [eapply case_child; eauto|reflexivity].
      * reflexivity.
      * eapply ok_case; eauto.
      * eapply tidy_case; eauto.
      * exists (t' :: more). cbn [hrun]. rewrite ST, R. do 2 eexists. split; [reflexivity|].
        destruct Z as [(t0 & o & I0)|Z]; [left; exists t0, o; right; exact I0|right; exact Z].
Qed.

Lemma tidy_run : forall sched (x x' : hsys) tr, tidy_all x -> hrun c sh x sched = (x', tr) -> h_aborted tr \/ tidy_all x'.
Proof.
  induction sched as [| t sched IH]; intros x x' tr T H; cbn [hrun] in H; [inversion H; subst; auto|].
  destruct (hstep c sh x t) as [x1 ev1] eqn:E1. destruct (hrun c sh x1 sched) as [x2 ev2] eqn:E2. inversion H; subst.
  assert (Z : h_aborted ev1 \/ tidy_all x1).
  { unfold hstep in E1. destruct (nth_error (hs_threads x) t) as [th|] eqn:N; [|inversion E1; subst; auto].
    destruct (htstep c sh (hs_sys x) (hs_own x) t th) as [[[[y' own'] th'] e]|] eqn:E; [|inversion E1; subst; auto].
    inversion E1; subst. apply htstep_case in E.
    destruct e as [t1 o [q|q|]| | | |]; try (right; eapply tidy_case; eauto; discriminate).
    left. exists t1, o. left. reflexivity. }
  destruct Z as [(t0 & o & I0)|Z]; [left; exists t0, o; apply in_or_app; auto|].
  destruct (IH _ _ _ Z E2) as [(t0 & o & I0)|Z2]; [left; exists t0, o; apply in_or_app; auto|auto].
Qed.
End Waiting.

(** ** One guard *)
Section One.
Context {V U : Type} (c : cfg) (sh : shuffle V U).
Notation hsys := (hsys V U).
Notation hevent := (hevent V U).

Lemma setters_on_app s (a b : list hevent) : setters_on s (a ++ b) = setters_on s a ++ setters_on s b.
Proof. induction a as [| e a IH]; [reflexivity|]. destruct e; cbn; try exact IH. destruct (Nat.eqb s0 s); cbn; congruence. Qed.

Definition guarded (x : hsys) t s ky i md sl e : Prop :=
  (exists th, nth_error (hs_threads x) t = Some th /\ guard_for s (ht_held th) = Some (ky, i)) /\
  nth_error (y_stats (hs_sys x)) s = Some (md, SMutex false sl) /\ nth_error (slot_get sl ky) i = Some e.

Lemma guarded_step (x : hsys) t s ky i md sl e t0 x' tr : ok x -> guarded x t s ky i md sl e -> hstep c sh x t0 = (x', tr) ->
  (forall b, ~ In (EvGone t s b) tr) ->
  (forall ev, In ev tr -> about ev = Some s -> exists st, ev = EvSet t s st) /\
  exists e', guarded x' t s ky i md (slot_put sl ky (set_nth (slot_get sl ky) i e')) e' /\
    ((forall st, In st (setters_on s tr) -> sequence_free st = true) -> e' = built c t (setters_on s tr) e).
Proof.
  intros K ((th & N & G) & M & E) H ST. unfold hstep in H.
  assert (OW : hs_own x s = Some t) by (apply (ok_own _ K); exists th; split; [exact N|apply guard_in; eauto]).
  assert (SAME : slot_put sl ky (set_nth (slot_get sl ky) i e) = sl) by (rewrite (snth_id _ _ _ E); eapply put_same; eauto).
  assert (STAY : x' = x -> tr = [] -> (forall ev, In ev tr -> about ev = Some s -> exists st, ev = EvSet t s st) /\
    exists e', guarded x' t s ky i md (slot_put sl ky (set_nth (slot_get sl ky) i e')) e' /\
    ((forall st, In st (setters_on s tr) -> sequence_free st = true) -> e' = built c t (setters_on s tr) e)).
  { intros -> ->. split; [intros ev []|]. exists e. rewrite SAME. split; [|reflexivity]. split; [eauto|]. auto. }
  destruct (nth_error (hs_threads x) t0) as [th0|] eqn:N0; [|apply STAY; inversion H; reflexivity].
  destruct (htstep c sh (hs_sys x) (hs_own x) t0 th0) as [[[[y' own'] th'] ev]|] eqn:ES; [|apply STAY; inversion H; reflexivity].
  inversion H; subst x' tr. apply htstep_case in ES. clear STAY H.
  assert (OW0 : forall s0 g, guard_for s0 (ht_held th0) = Some g -> hs_own x s0 = Some t0).
  { intros s0 g0 Q. apply (ok_own _ K). exists th0. split; [exact N0|apply guard_in; eauto]. }
  (* a step that does not concern the function *)
  assert (ELSE : about ev <> Some s -> nth_error (y_stats y') s = nth_error (y_stats (hs_sys x)) s ->
    guard_for s (ht_held th') = guard_for s (ht_held th0) ->
    (forall ev0, In ev0 [ev] -> about ev0 = Some s -> exists st, ev0 = EvSet t s st) /\
    exists e', guarded (HSys y' own' (set_nth (hs_threads x) t0 th')) t s ky i md (slot_put sl ky (set_nth (slot_get sl ky) i e')) e' /\
    ((forall st, In st (setters_on s [ev]) -> sequence_free st = true) -> e' = built c t (setters_on s [ev]) e)).
  { intros A B D. split; [intros ev0 [<-|[]] Q; congruence|]. exists e. rewrite SAME.
    assert (Z : setters_on s [ev] = []).
    { destruct ev; try reflexivity. cbn. destruct (Nat.eqb s0 s) eqn:Q; [|reflexivity]. apply PeanoNat.Nat.eqb_eq in Q. cbn in A. congruence. }
    rewrite Z. split; [|reflexivity]. split; [|cbn; rewrite B; auto]. cbn.
    destruct (PeanoNat.Nat.eq_dec t t0) as [->|NE].
    - rewrite N0 in N. inversion N; subst th0. exists th'. rewrite (snth_same _ _ _ _ N0). split; [reflexivity|]. congruence.
    - exists th. rewrite snth_other by congruence. auto. }
  inversion ES; subst.
  - assert (NL : lock_of o <> Some s).
    { intros LO. rewrite LO in H0. cbn in H0. rewrite OW in H0. discriminate. }
    apply ELSE; [exact NL| |reflexivity]. apply op_local in H1. destruct H1 as (_ & _ & _ & Q). rewrite Q by exact NL. reflexivity.
  - assert (NE : s0 <> s) by congruence. apply ELSE; cbn; congruence.
  - assert (NE : s0 <> s) by congruence. apply ELSE; cbn; [congruence|rewrite snth_other by congruence; reflexivity|].
    destruct (Nat.eqb s0 s) eqn:Q; [apply PeanoNat.Nat.eqb_eq in Q; congruence|reflexivity].
  - destruct (PeanoNat.Nat.eq_dec s0 s) as [->|NE]; [|apply ELSE; cbn; [congruence|rewrite snth_other by congruence; reflexivity|reflexivity]].
    pose proof (OW0 _ _ H0) as Q. rewrite OW in Q. inversion Q; subst t0. rewrite N0 in N. inversion N; subst th0.
    rewrite G in H0. inversion H0; subst ky0 i0. rewrite M in H1. inversion H1; subst md0 sm. cbn [sm_slot sm_poison] in *.
    rewrite E in H2. inversion H2; subst e0. clear ELSE.
    split; [intros ev0 [<-|[]] _; eauto|]. exists e'. split.
    + split; [|cbn; rewrite (snth_same _ _ _ _ M), get_put; split; [reflexivity|exact (snth_same _ _ _ _ E)]].
      cbn. rewrite (snth_same _ _ _ _ N0). eexists. split; [reflexivity|exact G].
    + cbn [setters_on]. rewrite PeanoNat.Nat.eqb_refl. intros SF. cbn.
      destruct (setter_pure c t st e (y_seqs (hs_sys x)) (SF st (or_introl eq_refl))) as (r0 & SP). rewrite SP in H3. inversion H3. reflexivity.
  - destruct (PeanoNat.Nat.eq_dec s0 s) as [->|NE].
    + pose proof (OW0 _ _ H0) as Q. rewrite OW in Q. inversion Q; subst t0. elim (ST b). left. reflexivity.
    + apply ELSE; cbn; [congruence|rewrite snth_other by congruence; reflexivity|apply guard_without; congruence].
Qed.

Lemma guarded_run t s ky i md : forall sched (x : hsys) sl e x' tr, ok x -> guarded x t s ky i md sl e -> hrun c sh x sched = (x', tr) ->
  (forall b, ~ In (EvGone t s b) tr) ->
  (forall ev, In ev tr -> about ev = Some s -> exists st, ev = EvSet t s st) /\
  exists e', guarded x' t s ky i md (slot_put sl ky (set_nth (slot_get sl ky) i e')) e' /\
    ((forall st, In st (setters_on s tr) -> sequence_free st = true) -> e' = built c t (setters_on s tr) e).
Proof.
  induction sched as [| t0 sched IH]; intros x sl e x' tr K G H ST; cbn [hrun] in H.
  - inversion H; subst. split; [intros ev []|]. exists e. destruct G as (G1 & G2 & G3).
    assert (SAME : slot_put sl ky (set_nth (slot_get sl ky) i e) = sl) by (rewrite (snth_id _ _ _ G3); eapply put_same; eauto).
    rewrite SAME. split; [repeat split; auto|reflexivity].
  - destruct (hstep c sh x t0) as [x1 ev1] eqn:E1. destruct (hrun c sh x1 sched) as [x2 ev2] eqn:E2. inversion H; subst.
    destruct (guarded_step _ _ _ _ _ _ _ _ _ _ _ K G E1) as (A1 & e1 & G1 & B1); [intros b Q; apply (ST b); apply in_or_app; auto|].
    destruct (IH _ _ _ _ _ (ok_step _ _ _ _ _ _ K E1) G1 E2) as (A2 & e2 & G2 & B2); [intros b Q; apply (ST b); apply in_or_app; auto|].
    split; [intros ev Q; apply in_app_or in Q; destruct Q; eauto|].
    rewrite get_put, put_twice, snth_twice in G2. exists e2. split; [exact G2|].
    rewrite setters_on_app. intros SF. rewrite B2, B1.
    + unfold built. rewrite fold_left_app. reflexivity.
    + intros st Q. apply SF. apply in_or_app. auto.
    + intros st Q. apply SF. apply in_or_app. auto.
Qed.

(** ** The checkpoint of a module *)
Lemma nth_mid {A} (l1 : list A) x l2 : nth_error (l1 ++ x :: l2) (List.length l1) = Some x.
Proof. induction l1; cbn; auto. Qed.
Lemma snth_mid {A} (l1 : list A) x y l2 : set_nth (l1 ++ x :: l2) (List.length l1) y = l1 ++ y :: l2.
Proof. induction l1; cbn; congruence. Qed.

Lemma module_prog_run gs t kk : forall (ss pre : statics V U) u lv p w q ob own (ths : list (hthread V U)),
  (forall s, own s = None) ->
  nth_error ths t = Some (HThread gs (module_checkpoint_prog (List.length pre) (List.length ss) kk)) ->
  exists more x' tr w' p', hrun c sh (HSys (Sys (World u lv w p) q ob (pre ++ ss)) own ths) more = (x', tr) /\
  hs_sys x' = Sys (World u lv w' p') q ob (pre ++ fst (module_checkpoint c sh ss false)) /\
  nth_error (hs_threads x') t = Some (HThread gs (kk (unit_res (snd (module_checkpoint c sh ss false))))) /\
  (forall s, hs_own x' s = None) /\ Forall (eq t) more /\
  (forall t', t' <> t -> nth_error (hs_threads x') t' = nth_error ths t').
Proof.
  induction ss as [| [md sm] ss IH]; intros pre u lv p w q ob own ths OW N.
  - exists [], (HSys (Sys (World u lv w p) q ob (pre ++ [])) own ths), [], w, p. cbn. repeat split; auto.
  - cbn [List.length module_checkpoint_prog] in N.
    destruct (static_checkpoint c md sh sm false) as [sm' r] eqn:E.
    assert (ST : hstep c sh (HSys (Sys (World u lv w p) q ob (pre ++ (md, sm) :: ss)) own ths) t =
      (HSys (Sys (World u lv t false) q ob (pre ++ (md, sm') :: ss)) own
         (set_nth ths t (HThread gs (match @unit_res V r with Ret _ => module_checkpoint_prog (S (List.length pre)) (List.length ss) kk | _ => kk (unit_res r) end))),
       [EvDo t (HCheckpoint (List.length pre)) (unit_res r)])).
    { unfold hstep. cbn [hs_threads]. rewrite N. unfold htstep. cbn [ht_prog ht_held hs_own lock_of unlocked hs_sys]. rewrite OW.
      cbn [op_of step on_thread set_world y_stats y_world w_user w_levels y_seqs y_objs w_panicking]. rewrite nth_mid, E. cbn [set_stats y_world y_seqs y_objs].
      rewrite snth_mid. reflexivity. }
    cbn [module_checkpoint]. rewrite E. destruct r as [[]|m|]; cbn [unit_res rbind] in ST.
    + destruct (IH (pre ++ [(md, sm')]) u lv false t q ob own
        (set_nth ths t (HThread gs (module_checkpoint_prog (S (List.length pre)) (List.length ss) kk))) OW)
        as (more & x' & tr & w' & p' & R & A1 & A2 & A3 & A4 & A5).
      { rewrite app_length. cbn [List.length]. rewrite PeanoNat.Nat.add_1_r. exact (snth_same _ _ _ _ N). }
      rewrite <- app_assoc in R. cbn [List.app] in R.
      exists (t :: more). cbn [hrun]. rewrite ST, R. do 4 eexists. split; [reflexivity|].
      destruct (module_checkpoint c sh ss false) as [ss2 r2]. cbn [fst snd] in *. rewrite <- app_assoc in A1. cbn [List.app] in A1.
      split; [exact A1|]. split; [exact A2|]. split; [exact A3|]. split; [constructor; auto|].
      intros t' NE. rewrite A5 by exact NE. apply snth_other. congruence.
    + exists [t]. cbn [hrun]. rewrite ST. do 4 eexists. split; [reflexivity|]. cbn [hs_sys hs_threads hs_own fst snd].
      split; [reflexivity|]. split; [exact (snth_same _ _ _ _ N)|]. split; [exact OW|]. split; [constructor; auto|].
      intros t' NE. apply snth_other. congruence.
    + exists [t]. cbn [hrun]. rewrite ST. do 4 eexists. split; [reflexivity|]. cbn [hs_sys hs_threads hs_own fst snd].
      split; [reflexivity|]. split; [exact (snth_same _ _ _ _ N)|]. split; [exact OW|]. split; [constructor; auto|].
      intros t' NE. apply snth_other. congruence.
Qed.

(** ** Builder chains *)
Lemma chain_built t : forall l (e e' : expectation V U) q q', forallb sequence_free l = true ->
  apply_setters c t l e q = (e', q', Ret tt) -> e' = built c t l e /\ q' = q.
Proof.
  induction l as [| st l IH]; intros e e' q q' SF H; cbn [apply_setters] in H; [inversion H; auto|].
  cbn [forallb] in SF. apply andb_prop in SF. destruct SF as [SF1 SF2].
  destruct (setter_pure c t st e q SF1) as (r & SP). rewrite SP in H. destruct r as [[]|m|]; [|discriminate|discriminate].
  destruct (IH _ _ _ _ SF2 H) as [-> ->]. auto.
Qed.
End One.
