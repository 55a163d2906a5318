(** * MultiProofs: lemmas about guards of several functions *)

From Coq Require Import NArith List Bool String Lia.
From Verif Require Import Base Times Expect Mock Multi MultiSpec GuardsEnd.
Import ListNotations.
Open Scope N_scope.
Open Scope list_scope.

Section Lists.
Context {A : Type}.
Lemma snth_same : forall (l : list A) i x y, nth_error l i = Some y -> nth_error (set_nth l i x) i = Some x.
Proof. induction l as [| a l IH]; intros [| i] x y H; cbn in *; try discriminate; eauto. Qed.
Lemma snth_other : forall (l : list A) i j x, i <> j -> nth_error (set_nth l i x) j = nth_error l j.
Proof. induction l as [| a l IH]; intros [| i] [| j] x H; cbn; try congruence. apply IH. congruence. Qed.
Lemma snth_twice : forall (l : list A) i x y, set_nth (set_nth l i x) i y = set_nth l i y.
Proof. induction l as [| a l IH]; intros [| i] x y; cbn; congruence. Qed.
Lemma snth_id : forall (l : list A) i x, nth_error l i = Some x -> set_nth l i x = l.
Proof. induction l as [| a l IH]; intros [| i] x H; cbn in *; try discriminate; [congruence|]. f_equal. auto. Qed.
Lemma snth_len : forall (l : list A) i x, List.length (set_nth l i x) = List.length l.
Proof. induction l as [| a l IH]; intros [| i] x; cbn; congruence. Qed.
Lemma snth_end : forall (l : list A) x y, set_nth (l ++ [x]) (List.length l) y = l ++ [y].
Proof. induction l as [| a l IH]; intros x y; cbn; congruence. Qed.
Lemma nth_end : forall (l : list A) x, nth_error (l ++ [x]) (List.length l) = Some x.
Proof. induction l as [| a l IH]; intros x; cbn; auto. Qed.
Lemma nth_ext_eq : forall (l l' : list A), (forall i, nth_error l i = nth_error l' i) -> l = l'.
Proof.
  induction l as [| a l IH]; intros [| b l'] H; [reflexivity|discriminate (H 0%nat)|discriminate (H 0%nat)|].
  pose proof (H 0%nat) as H0. inversion H0. f_equal. apply IH. intros i. exact (H (S i)).
Qed.
End Lists.

Section MultiProofs.
Context {V U : Type}.
Notation hsys := (hsys V U).
Notation sys := (sys V U).
Notation hevent := (hevent V U).

(** ** Stores *)
Lemma gget_put (l : gstore V U) k es : gget (gput l k es) k = Some es.
Proof.
  induction l as [| [k0 e0] l IH]; cbn.
  - rewrite PeanoNat.Nat.eqb_refl. reflexivity.
  - destruct (Nat.eqb k0 k) eqn:Z; cbn; rewrite Z; auto.
Qed.
Lemma gput_twice (l : gstore V U) k a b : gput (gput l k a) k b = gput l k b.
Proof.
  induction l as [| [k0 e0] l IH]; cbn.
  - rewrite PeanoNat.Nat.eqb_refl. reflexivity.
  - destruct (Nat.eqb k0 k) eqn:Z; cbn; rewrite Z; congruence.
Qed.
Lemma gput_same (l : gstore V U) k es : gget l k = Some es -> gput l k es = l.
Proof.
  induction l as [| [k0 e0] l IH]; cbn; [discriminate|].
  destruct (Nat.eqb k0 k) eqn:Z; intros H.
  - apply PeanoNat.Nat.eqb_eq in Z. inversion H; subst. reflexivity.
  - f_equal. auto.
Qed.
Lemma get_put (sl : slot V U) k es : slot_get (slot_put sl k es) k = es.
Proof. destruct sl; cbn; [reflexivity|]. rewrite gget_put. reflexivity. Qed.
Lemma put_twice (sl : slot V U) k a b : slot_put (slot_put sl k a) k b = slot_put sl k b.
Proof. destruct sl; cbn; [reflexivity|]. rewrite gput_twice. reflexivity. Qed.
Lemma put_same (sl : slot V U) k i e : nth_error (slot_get sl k) i = Some e -> slot_put sl k (slot_get sl k) = sl.
Proof.
  destruct sl as [es|l]; cbn; [reflexivity|]. destruct (gget l k) as [es|] eqn:G; [|destruct i; discriminate].
  intros _. f_equal. apply gput_same. exact G.
Qed.

(** ** Guards *)
Lemma guard_in s (l : held) : In s (map fst l) <-> exists x, guard_for s l = Some x.
Proof.
  induction l as [| [s' x] l IH]; cbn.
  - split; [intros []|intros (x & H); discriminate].
  - destruct (Nat.eqb s' s) eqn:Z.
    + apply PeanoNat.Nat.eqb_eq in Z. subst. split; eauto.
    + apply PeanoNat.Nat.eqb_neq in Z. rewrite <- IH. split; [intros [H|H]; congruence|auto].
Qed.
Lemma without_in s s' (l : held) : In s (map fst (without s' l)) <-> In s (map fst l) /\ s <> s'.
Proof.
  induction l as [| [s0 x] l IH]; cbn; [tauto|].
  destruct (Nat.eqb s0 s') eqn:Z; cbn [negb map fst In].
  - apply PeanoNat.Nat.eqb_eq in Z. subst. rewrite IH. split; [tauto|]. intros [[H|H] N]; [congruence|auto].
  - apply PeanoNat.Nat.eqb_neq in Z. cbn. rewrite IH. clear IH. split; [intros [H|H]; [subst s0; tauto|tauto]|tauto].
Qed.
Lemma guard_without s s' (l : held) : s <> s' -> guard_for s (without s' l) = guard_for s l.
Proof.
  intros N. induction l as [| [s0 x] l IH]; cbn; [reflexivity|].
  destruct (Nat.eqb s0 s') eqn:Z; cbn [negb guard_for].
  - apply PeanoNat.Nat.eqb_eq in Z. subst. destruct (Nat.eqb s' s) eqn:Y; [apply PeanoNat.Nat.eqb_eq in Y; subst; elim N; reflexivity|exact IH].
  - destruct (Nat.eqb s0 s); [reflexivity|exact IH].
Qed.
Lemma without_fst s (l : held) : map fst (without s l) = filter (fun s' => negb (Nat.eqb s' s)) (map fst l).
Proof. induction l as [| [s0 x] l IH]; cbn; [reflexivity|]. fold (without s l). destruct (Nat.eqb s0 s); cbn; [exact IH|]. f_equal. exact IH. Qed.

Lemma own_same own s o : put_own own s o s = o.
Proof. unfold put_own. rewrite PeanoNat.Nat.eqb_refl. reflexivity. Qed.
Lemma own_other own s o s' : s' <> s -> put_own own s o s' = own s'.
Proof. intros H. unfold put_own. destruct (Nat.eqb s' s) eqn:Z; [apply PeanoNat.Nat.eqb_eq in Z; congruence|reflexivity]. Qed.


Lemma setter_pure c t st (e : expectation V U) q : sequence_free st = true ->
  exists r, apply_setter c t st e q = (fst (fst (apply_setter c t st e sequence_new)), q, r).
Proof.
  destruct st; cbn [sequence_free apply_setter]; intros H; try discriminate H; cbn; try (eexists; reflexivity);
  destruct (e_action e); cbn; eexists; reflexivity.
Qed.

(** ** What an operation does *)
Lemma op_local c sh (y : sys) o y' r : step c sh y (op_of o) = (y', r) ->
  y_seqs y' = y_seqs y /\ y_objs y' = y_objs y /\ List.length (y_stats y') = List.length (y_stats y) /\
  (forall s, lock_of o <> Some s -> nth_error (y_stats y') s = nth_error (y_stats y) s).
Proof.
  intros H. destruct o as [s ky args|s|s|f]; cbn [op_of step lock_of] in *.
  4: { inversion H; subst. cbn. auto. }
  all: destruct (nth_error (y_stats y) s) as [[md sm]|] eqn:N; [|inversion H; subst; auto].
  - destruct (static_call c md sm ky args (y_world y)) as [[sm' w'] q]. inversion H; subst. cbn. rewrite snth_len.
    split; [auto|]. split; [auto|]. split; [auto|]. intros s' NE. apply snth_other. congruence.
  - destruct (static_checkpoint c md sh sm (w_panicking (y_world y))) as [sm' q]. inversion H; subst. cbn. rewrite snth_len.
    split; [auto|]. split; [auto|]. split; [auto|]. intros s' NE. apply snth_other. congruence.
  - destruct (context_drop c md sh sm (w_panicking (y_world y))) as [sm' q]. inversion H; subst. cbn. rewrite snth_len.
    split; [auto|]. split; [auto|]. split; [auto|]. intros s' NE. apply snth_other. congruence.
Qed.

(** It depends on the store of its function only. *)
Lemma op_same c sh (y z : sys) o y' r : step c sh y (op_of o) = (y', r) ->
  y_world z = y_world y -> y_seqs z = y_seqs y -> y_objs z = y_objs y ->
  (forall s, lock_of o = Some s -> nth_error (y_stats z) s = nth_error (y_stats y) s) ->
  exists z', step c sh z (op_of o) = (z', r) /\ y_world z' = y_world y' /\
    (forall s, lock_of o = Some s -> nth_error (y_stats z') s = nth_error (y_stats y') s).
Proof.
  intros H W Q B ST. destruct o as [s ky args|s|s|f]; cbn [op_of step lock_of] in *.
  4: { inversion H; subst. rewrite W. eexists. split; [reflexivity|]. split; [reflexivity|]. discriminate. }
  all: specialize (ST s eq_refl); rewrite ST;
    destruct (nth_error (y_stats y) s) as [[md sm]|] eqn:N;
    [|inversion H; subst; exists z; split; [reflexivity|]; split; [exact W|]; intros s' E; inversion E; subst; rewrite ST; auto].
  all: rewrite W.
  - destruct (static_call c md sm ky args (y_world y)) as [[sm' w'] q]. inversion H; subst.
    eexists. split; [reflexivity|]. split; [reflexivity|]. intros s' E. inversion E; subst. cbn.
    rewrite (snth_same _ _ _ _ N), (snth_same _ _ _ _ ST). reflexivity.
  - destruct (static_checkpoint c md sh sm (w_panicking (y_world y))) as [sm' q]. inversion H; subst.
    eexists. split; [reflexivity|]. split; [exact W|]. intros s' E. inversion E; subst. cbn.
    rewrite (snth_same _ _ _ _ N), (snth_same _ _ _ _ ST). reflexivity.
  - destruct (context_drop c md sh sm (w_panicking (y_world y))) as [sm' q]. inversion H; subst.
    eexists. split; [reflexivity|]. split; [exact W|]. intros s' E. inversion E; subst. cbn.
    rewrite (snth_same _ _ _ _ N), (snth_same _ _ _ _ ST). reflexivity.
Qed.

(** ** The invariant: locks and guards belong together *)
Record ok (x : hsys) : Prop := Ok {
  ok_own : forall s t, hs_own x s = Some t <-> has x t s;
  ok_nodup : forall t th, nth_error (hs_threads x) t = Some th -> NoDup (map fst (ht_held th));
  ok_exp : forall t th s ky i, nth_error (hs_threads x) t = Some th -> guard_for s (ht_held th) = Some (ky, i) ->
    exists md sm e, nth_error (y_stats (hs_sys x)) s = Some (md, sm) /\ sm_poison sm = false /\
      nth_error (slot_get (sm_slot sm) ky) i = Some e
}.

Lemma ok_start y progs : ok (hstart y progs).
Proof.
  assert (E : forall t th, nth_error (map (HThread []) progs) t = Some th -> @ht_held V U th = []).
  { intros t th H. apply nth_error_In in H. apply in_map_iff in H. destruct H as (p & <- & _). reflexivity. }
  constructor; cbn.
  - intros s t. split; [discriminate|]. intros (th & N & I). cbn in N. rewrite (E _ _ N) in I. destruct I.
  - intros t th N. rewrite (E _ _ N). constructor.
  - intros t th s ky i N. rewrite (E _ _ N). discriminate.
Qed.

Lemma has_set (x : hsys) t th th' y own : nth_error (hs_threads x) t = Some th ->
  forall t' s, has (HSys y own (set_nth (hs_threads x) t th')) t' s <->
    (t' = t /\ In s (map fst (ht_held th'))) \/ (t' <> t /\ has x t' s).
Proof.
  intros N t' s. unfold has. cbn. destruct (PeanoNat.Nat.eq_dec t' t) as [->|NE].
  - rewrite (snth_same _ _ _ _ N). split.
    + intros (z & E & I). inversion E; subst. auto.
    + intros [[_ I]|[X _]]; [eauto|congruence].
  - rewrite snth_other by congruence. split; [intros H; right; auto|intros [[X _]|[_ H]]; [congruence|exact H]].
Qed.

Lemma has_self (x : hsys) t th s : nth_error (hs_threads x) t = Some th -> (has x t s <-> In s (map fst (ht_held th))).
Proof. intros N. unfold has. rewrite N. split; [intros (z & E & I); inversion E; subst; auto|eauto]. Qed.

(** The cases of a step. *)
Inductive hcase c sh (y : sys) own t (th : hthread V U) : sys -> (nat -> option nat) -> hthread V U -> hevent -> Prop :=
| hc_do o k y' r : ht_prog th = HDo o k -> unlocked own (lock_of o) = true -> step c sh (on_thread y t) (op_of o) = (y', r) ->
    hcase c sh y own t th y' own (HThread (ht_held th) (k r)) (EvDo t o r)
| hc_refused s ky k md sm : ht_prog th = HExpect s ky k -> nth_error (y_stats y) s = Some (md, sm) -> own s = None ->
    sm_poison sm = true -> hcase c sh y own t th y own (HThread (ht_held th) (k (Panic MPoison))) (EvRefused t s)
| hc_guard s ky k md sm : ht_prog th = HExpect s ky k -> nth_error (y_stats y) s = Some (md, sm) -> own s = None ->
    sm_poison sm = false ->
    hcase c sh y own t th
      (put_stat y s md (SMutex false (slot_put (sm_slot sm) ky (slot_get (sm_slot sm) ky ++ [expectation_default c (md_me md) (md_kind md)]))))
      (put_own own s (Some t)) (HThread ((s, (ky, List.length (slot_get (sm_slot sm) ky))) :: ht_held th) (k (Ret None)))
      (EvGuard t s ky)
| hc_set s st k ky i md sm e e' q r : ht_prog th = HSet s st k -> guard_for s (ht_held th) = Some (ky, i) ->
    nth_error (y_stats y) s = Some (md, sm) -> nth_error (slot_get (sm_slot sm) ky) i = Some e ->
    apply_setter c t st e (y_seqs y) = (e', q, r) ->
    hcase c sh y own t th
      (Sys (y_world y) q (y_objs y) (set_nth (y_stats y) s
         (md, SMutex (sm_poison sm) (slot_put (sm_slot sm) ky (set_nth (slot_get (sm_slot sm) ky) i e')))))
      own (HThread (ht_held th) (k (unit_res r))) (EvSet t s st)
| hc_drop s b k g md sm : ht_prog th = HDrop s b k -> guard_for s (ht_held th) = Some g -> nth_error (y_stats y) s = Some (md, sm) ->
    hcase c sh y own t th (put_stat y s md (SMutex (sm_poison sm || b) (sm_slot sm))) (put_own own s None)
      (HThread (without s (ht_held th)) k) (EvGone t s b).

Lemma htstep_case c sh y own t th y' own' th' ev :
  htstep c sh y own t th = Some (y', own', th', ev) -> hcase c sh y own t th y' own' th' ev.
Proof.
  unfold htstep. intros H. destruct (ht_prog th) as [|o k|s ky k|s st k|s b k] eqn:P; [discriminate| | | |].
  - destruct (unlocked own (lock_of o)) eqn:L; [|discriminate].
    destruct (step c sh (on_thread y t) (op_of o)) as [y1 r] eqn:E. inversion H; subst. econstructor; eauto.
  - destruct (nth_error (y_stats y) s) as [[md sm]|] eqn:N; [|discriminate]. cbn [unlocked] in H.
    destruct (own s) eqn:OW; [discriminate|]. destruct (sm_poison sm) eqn:PO; inversion H; subst; econstructor; eauto.
  - destruct (guard_for s (ht_held th)) as [[ky i]|] eqn:G; [|discriminate].
    destruct (nth_error (y_stats y) s) as [[md sm]|] eqn:N; [|discriminate].
    destruct (nth_error (slot_get (sm_slot sm) ky) i) as [e|] eqn:E; [|discriminate].
    destruct (apply_setter c t st e (y_seqs y)) as [[e' q] r] eqn:A. inversion H; subst. econstructor; eauto.
  - destruct (guard_for s (ht_held th)) as [g|] eqn:G; [|discriminate].
    destruct (nth_error (y_stats y) s) as [[md sm]|] eqn:N; [|discriminate]. inversion H; subst. econstructor; eauto.
Qed.

Lemma ok_case c sh (x : hsys) t th y' own' th' ev : ok x -> nth_error (hs_threads x) t = Some th ->
  hcase c sh (hs_sys x) (hs_own x) t th y' own' th' ev -> ok (HSys y' own' (set_nth (hs_threads x) t th')).
Proof.
  intros [O1 O2 O3] N H.
  assert (HS : forall s, has x t s <-> In s (map fst (ht_held th))) by (intros s; apply has_self; exact N).
  inversion H; subst.
  - (* an operation *)
    rename H1 into L, H2 into E. apply op_local in E. destruct E as (_ & _ & _ & E). cbn [on_thread y_stats set_world] in E.
    constructor; cbn [hs_own hs_sys hs_threads].
    + intros s t'. rewrite (has_set x t th _ _ _ N). cbn [ht_held]. rewrite O1, <- HS.
      destruct (PeanoNat.Nat.eq_dec t' t) as [->|]; tauto.
    + intros t' z Z. destruct (PeanoNat.Nat.eq_dec t' t) as [->|NE].
      * rewrite (snth_same _ _ _ _ N) in Z. inversion Z; subst. cbn. eauto.
      * rewrite snth_other in Z by congruence. eauto.
    + intros t' z s ky i Z G.
      assert (Z' : exists z', nth_error (hs_threads x) t' = Some z' /\ ht_held z' = ht_held z).
      { destruct (PeanoNat.Nat.eq_dec t' t) as [->|NE].
        - rewrite (snth_same _ _ _ _ N) in Z. inversion Z; subst. eauto.
        - rewrite snth_other in Z by congruence. eauto. }
      destruct Z' as (z' & Z1 & Z2). rewrite <- Z2 in G. destruct (O3 _ _ _ _ _ Z1 G) as (md & sm & e & A & B & C).
      exists md, sm, e. split; [|auto]. rewrite E; [exact A|]. intros LO. rewrite LO in L. cbn in L.
      assert (HO : hs_own x s = Some t') by (apply O1; exists z'; split; [exact Z1|apply guard_in; eauto]). rewrite HO in L. discriminate.
  - constructor; cbn [hs_own hs_sys hs_threads].
    + intros s0 t'. rewrite (has_set x t th _ _ _ N). cbn [ht_held]. rewrite O1, <- HS.
      destruct (PeanoNat.Nat.eq_dec t' t) as [->|]; tauto.
    + intros t' z Z. destruct (PeanoNat.Nat.eq_dec t' t) as [->|NE].
      * rewrite (snth_same _ _ _ _ N) in Z. inversion Z; subst. cbn. eauto.
      * rewrite snth_other in Z by congruence. eauto.
    + intros t' z s0 ky0 i Z G. destruct (PeanoNat.Nat.eq_dec t' t) as [->|NE].
      * rewrite (snth_same _ _ _ _ N) in Z. inversion Z; subst. cbn in G. eauto.
      * rewrite snth_other in Z by congruence. eauto.
  - (* a new guard *)
    rename H1 into M, H2 into OW, H3 into PO.
    assert (NH : forall t', ~ has x t' s) by (intros t' Q; apply O1 in Q; congruence).
    constructor; cbn [hs_own hs_sys hs_threads].
    + intros s0 t'. rewrite (has_set x t th _ _ _ N). cbn [ht_held map fst In]. rewrite <- HS.
      destruct (PeanoNat.Nat.eq_dec s0 s) as [->|NE].
      * rewrite own_same. pose proof (NH t'). split; [intros Q; inversion Q; subst; auto|intros [[-> _]|[_ Q]]; [reflexivity|tauto]].
      * rewrite own_other by exact NE. rewrite O1. destruct (PeanoNat.Nat.eq_dec t' t) as [->|]; [|tauto].
        split; [tauto|]. intros [[_ [Q|Q]]|[Q _]]; [congruence|exact Q|congruence].
    + intros t' z Z. destruct (PeanoNat.Nat.eq_dec t' t) as [->|NE].
      * rewrite (snth_same _ _ _ _ N) in Z. inversion Z; subst. cbn. constructor; [rewrite <- HS; apply NH|eauto].
      * rewrite snth_other in Z by congruence. eauto.
    + intros t' z s0 ky0 i Z G. cbn [put_stat set_stats y_stats].
      assert (OLD : (exists z', nth_error (hs_threads x) t' = Some z' /\ guard_for s0 (ht_held z') = Some (ky0, i)) ->
        exists md0 sm0 e, nth_error (set_nth (y_stats (hs_sys x)) s (md, SMutex false (slot_put (sm_slot sm) ky
            (slot_get (sm_slot sm) ky ++ [expectation_default c (md_me md) (md_kind md)])))) s0 = Some (md0, sm0) /\
          sm_poison sm0 = false /\ nth_error (slot_get (sm_slot sm0) ky0) i = Some e).
      { intros (z' & Z1 & G1). destruct (O3 _ _ _ _ _ Z1 G1) as (md0 & sm0 & e & A & B & C). exists md0, sm0, e.
        split; [|auto]. rewrite snth_other; [exact A|]. intros ->. apply (NH t'). exists z'. split; [exact Z1|apply guard_in; eauto]. }
      destruct (PeanoNat.Nat.eq_dec t' t) as [->|NE].
      * rewrite (snth_same _ _ _ _ N) in Z. inversion Z; subst. cbn [ht_held guard_for] in G.
        destruct (Nat.eqb s s0) eqn:Q; [|apply OLD; eauto].
        apply PeanoNat.Nat.eqb_eq in Q. inversion G; subst. rewrite (snth_same _ _ _ _ M).
        do 3 eexists. split; [reflexivity|]. cbn [sm_poison sm_slot]. rewrite get_put, nth_end. auto.
      * rewrite snth_other in Z by congruence. apply OLD. eauto.
  - (* a setter *)
    rename H1 into G0, H2 into M, H3 into NE0, H4 into A.
    constructor; cbn [hs_own hs_sys hs_threads].
    + intros s0 t'. rewrite (has_set x t th _ _ _ N). cbn [ht_held]. rewrite O1, <- HS.
      destruct (PeanoNat.Nat.eq_dec t' t) as [->|]; tauto.
    + intros t' z Z. destruct (PeanoNat.Nat.eq_dec t' t) as [->|NE].
      * rewrite (snth_same _ _ _ _ N) in Z. inversion Z; subst. cbn. eauto.
      * rewrite snth_other in Z by congruence. eauto.
    + intros t' z s0 ky0 i0 Z G. cbn [y_stats].
      assert (Z' : exists z', nth_error (hs_threads x) t' = Some z' /\ ht_held z' = ht_held z).
      { destruct (PeanoNat.Nat.eq_dec t' t) as [->|NE].
        - rewrite (snth_same _ _ _ _ N) in Z. inversion Z; subst. eauto.
        - rewrite snth_other in Z by congruence. eauto. }
      destruct Z' as (z' & Z1 & Z2). rewrite <- Z2 in G. destruct (O3 _ _ _ _ _ Z1 G) as (md0 & sm0 & e0 & B1 & B2 & B3).
      destruct (PeanoNat.Nat.eq_dec s0 s) as [->|NE]; [|exists md0, sm0, e0; rewrite snth_other by congruence; auto].
      assert (T : t' = t).
      { assert (Q1 : hs_own x s = Some t') by (apply O1; exists z'; split; [exact Z1|apply guard_in; eauto]).
        assert (Q2 : hs_own x s = Some t) by (apply O1; apply HS; apply guard_in; eauto). congruence. }
      subst t'. rewrite N in Z1. inversion Z1; subst z'. rewrite G0 in G. inversion G; subst. rewrite M in B1. inversion B1; subst.
      rewrite (snth_same _ _ _ _ M). do 3 eexists. split; [reflexivity|]. cbn [sm_poison sm_slot]. rewrite get_put.
      split; [exact B2|]. exact (snth_same _ _ _ _ NE0).
  - (* the end of a guard *)
    rename H1 into G0, H2 into M.
    assert (HO : hs_own x s = Some t) by (apply O1; apply HS; apply guard_in; eauto).
    constructor; cbn [hs_own hs_sys hs_threads].
    + intros s0 t'. rewrite (has_set x t th _ _ _ N). cbn [ht_held]. rewrite without_in, <- HS.
      destruct (PeanoNat.Nat.eq_dec s0 s) as [->|NE].
      * rewrite own_same. split; [discriminate|]. intros [[_ [_ Q]]|[Q1 Q2]]; [congruence|]. apply O1 in Q2. congruence.
      * rewrite own_other by exact NE. rewrite O1. destruct (PeanoNat.Nat.eq_dec t' t) as [->|]; tauto.
    + intros t' z Z. destruct (PeanoNat.Nat.eq_dec t' t) as [->|NE].
      * rewrite (snth_same _ _ _ _ N) in Z. inversion Z; subst. cbn [ht_held]. rewrite without_fst. apply NoDup_filter. eauto.
      * rewrite snth_other in Z by congruence. eauto.
    + intros t' z s0 ky0 i0 Z G. cbn [put_stat set_stats y_stats].
      assert (NE : s0 <> s).
      { intros ->. destruct (PeanoNat.Nat.eq_dec t' t) as [->|NE].
        - rewrite (snth_same _ _ _ _ N) in Z. inversion Z; subst. cbn [ht_held] in G.
          assert (Q : In s (map fst (without s (ht_held th)))) by (apply guard_in; eauto). apply without_in in Q. tauto.
        - rewrite snth_other in Z by congruence.
          assert (Q1 : hs_own x s = Some t') by (apply O1; exists z; split; [exact Z|apply guard_in; eauto]). congruence. }
      rewrite snth_other by congruence. destruct (PeanoNat.Nat.eq_dec t' t) as [->|NE'].
      * rewrite (snth_same _ _ _ _ N) in Z. inversion Z; subst. cbn [ht_held] in G. rewrite guard_without in G by exact NE. eauto.
      * rewrite snth_other in Z by congruence. eauto.
Qed.

Lemma ok_step c sh x t x' ev : ok x -> hstep c sh x t = (x', ev) -> ok x'.
Proof.
  unfold hstep. intros O H. destruct (nth_error (hs_threads x) t) as [th|] eqn:N; [|inversion H; subst; exact O].
  destruct (htstep c sh (hs_sys x) (hs_own x) t th) as [[[[y' own'] th'] e]|] eqn:E; [|inversion H; subst; exact O].
  inversion H; subst. apply htstep_case in E. eapply ok_case; eauto.
Qed.
Lemma ok_run c sh sched : forall x x' tr, ok x -> hrun c sh x sched = (x', tr) -> ok x'.
Proof.
  induction sched as [| t sched IH]; intros x x' tr O H; cbn [hrun] in H; [inversion H; subst; exact O|].
  destruct (hstep c sh x t) as [x1 ev1] eqn:E1. destruct (hrun c sh x1 sched) as [x2 ev2] eqn:E2. inversion H; subst.
  eapply IH; [|exact E2]. eapply ok_step; eauto.
Qed.
End MultiProofs.
