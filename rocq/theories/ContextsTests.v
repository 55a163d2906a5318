(** * ContextsTests: tests that keep apart by a mutex do not see each other *)

From Coq Require Import NArith List Bool String Lia Arith.
From Verif Require Import Base Times Expect Mock Conc ConcSpec ConcProofs LockProofs LinProofs
  Contexts ContextsSpec ContextsProofs ContextsLin.
Import ListNotations.
Open Scope N_scope.

Local Arguments set_nth : simpl never.
Local Arguments atomic_op : simpl never.
Local Arguments atomic_call : simpl never.

Section Tests.
Context {V U : Type} (c : cfg) (g : nat) (sh : list (cmeth V U) -> list (cmeth V U)).
Context (ms0 : list (cmeth V U)) (E0 : map emptied ms0 = ms0).
Notation xop := (xop V U).
Notation prog := (prog V U).
Notation atom := (atom V U).
Notation xevent := (xevent V U).
Notation answer := (answer V).
Notation xstate := (xstate V U).
Notation xsys := (xsys V U).
Notation axs := (axs (V := V) (U := U)).
Notation phase := (phase (V := V) (U := U)).
Notation test := (test V U).
Notation R := (R c g sh).
Notation astep := (astep c sh).

Definition clean (st : xstate) : Prop := exists u l q, st = ((ms0, false, u, l), q).
Definition shape (st : xstate) : Prop := let '((ms, _, _, _), _) := st in map emptied ms = ms0.

Lemma clean_shape st : clean st -> shape st /\ poisoned st = false.
Proof. intros (u & l & q & ->). simpl. auto. Qed.

Lemma map_emptied_set ms m (cm cm' : cmeth V U) :
  nth_error ms m = Some cm -> emptied cm' = emptied cm ->
  map emptied (set_nth ms m cm') = map emptied ms.
Proof.
  intros N E. revert m N. induction ms as [|x ms IH]; intros [|m] N; try discriminate N.
  - injection N as ->. unfold set_nth. simpl. rewrite E. reflexivity.
  - unfold set_nth; fold (@set_nth (cmeth V U)). simpl. f_equal. auto.
Qed.

Lemma atomic_op_shape st ta : shape st -> shape (fst (atomic_op c sh st ta)).
Proof.
  destruct st as [[[[ms b] u] l] q], ta as [t a]. intros S. unfold atomic_op.
  destruct a as [x|m l0| | | | | |u']; simpl; auto.
  - unfold atomic_call. destruct (nth_error ms (cc_m x)) as [cm|] eqn:N; [|exact S].
    destruct b; [exact S|].
    destruct (expectations_call _ _ _ _ _ _) as [[es w] r]. simpl.
    rewrite (map_emptied_set _ _ _ _ N); auto.
  - destruct (nth_error ms m) as [cm|] eqn:N; [|exact S]. destruct b; [exact S|].
    destruct (apply_setters _ _ _ _ _) as [[e q'] r]. simpl. rewrite (map_emptied_set _ _ _ _ N); auto.
  - destruct b; [exact S|]. simpl. rewrite map_map. simpl. exact S.
  - destruct b; [exact S|]. simpl. rewrite map_map. simpl. exact S.
Qed.

Lemma seq_op_shape st t o : shape st -> shape (fst (seq_op c sh st t o)).
Proof. intros S. destruct o as [| | |[]| | |]; simpl; repeat apply atomic_op_shape; auto. Qed.

(** An operation that returns does not leave the store poisoned. *)
Lemma ret_unpoisoned st t o st' v :
  poisoned st = false -> seq_op c sh st t o = (st', Ret v) -> poisoned st' = false.
Proof.
  destruct st as [[[[ms b] u] l] q]. simpl. intros ->.
  destruct o as [x|m l0| |[]| | |u']; simpl; unfold atomic_op; simpl.
  - unfold atomic_call. destruct (nth_error ms (cc_m x)) as [cm|]; [|intros [= <- ?]; reflexivity].
    destruct (expectations_call _ _ _ _ _ _) as [[es w] [[v0|]|m|]]; simpl; intros [= <- E]; try discriminate; reflexivity.
  - destruct (nth_error ms m) as [cm|]; [|intros [= <- ?]; reflexivity].
    destruct (apply_setters _ _ _ _ _) as [[e q'] [[]|m0|]]; simpl; intros [= <- E]; try discriminate; reflexivity.
  - intros [= <- ?]. reflexivity.
  - intros [= <- ?]. reflexivity.
  - intros [= <- ?]. reflexivity.
  - intros [= <- ?]. reflexivity.
  - intros [= <- ?]. reflexivity.
  - intros [= <- ?]. reflexivity.
Qed.

(** Dropping the context leaves a clean store. *)
Lemma drop_clean st t b :
  shape st -> (b = false -> poisoned st = false) -> clean (fst (seq_op c sh st t (XDrop b))).
Proof.
  destruct st as [[[[ms p] u] l] q]. simpl. intros S P. destruct b; simpl; unfold atomic_op; simpl.
  - exists u, l, q. rewrite <- S. reflexivity.
  - rewrite P by auto. simpl. exists u, l, q. rewrite <- S. reflexivity.
Qed.

Definition tests_ok (tl : list test) : Prop := Forall (fun x => body_ok (snd x)) tl.

(** A program that, when it runs alone from [st], unlocks the mutex with a clean store,
    and then only runs tests. *)
Fixpoint good (st : xstate) (t : nat) (p : prog) : Prop :=
  match p with
  | Stop => True
  | Do o k =>
      match o with
      | XLockU => False
      | XUnlockU => clean st /\ exists tl, tests_ok tl /\ k (Ret None) = run_tests tl
      | _ => let (st', r) := seq_op c sh st t o in good st' t (k r)
      end
  end.

Lemma good_do st t o k :
  o <> XLockU -> o <> XUnlockU ->
  good st t (Do o k) = let (st', r) := seq_op c sh st t o in good st' t (k r).
Proof. intros A B. destruct o; try congruence; reflexivity. Qed.

Lemma good_end st t b tl :
  tests_ok tl -> shape st -> (b = false -> poisoned st = false) ->
  good st t (Do (XDrop b) (fun r => match r with Abort => Stop | _ => Do XUnlockU (fun _ => run_tests tl) end)).
Proof.
  intros T S P. rewrite good_do by discriminate. pose proof (drop_clean st t b S P) as C.
  destruct (seq_op c sh st t (XDrop b)) as [st' r]. simpl in C.
  destruct r; simpl; auto; split; auto; exists tl; auto.
Qed.

Lemma good_body b : forall st t tl,
  body_ok b -> tests_ok tl -> shape st -> poisoned st = false ->
  good st t (with_context b (run_tests tl)).
Proof.
  induction b as [|o k IH]; intros st t tl B T S P.
  - cbn [with_context]. apply good_end; auto.
  - cbn [with_context]. destruct B as [B1 B2]. rewrite good_do by (intros ->; exact B1).
    pose proof (seq_op_shape st t o S) as S'.
    destruct (seq_op c sh st t o) as [st' r] eqn:E. simpl in S'.
    destruct r as [v|m|]; [|apply good_end; auto; discriminate|exact Logic.I].
    apply IH; auto. eapply ret_unpoisoned; eauto.
Qed.

Lemma good_setup st t x tl :
  clean st -> body_ok (snd x) -> tests_ok tl ->
  good st t (Do (XSetup (fst x)) (fun _ => with_context (snd x) (run_tests tl))).
Proof.
  intros (u & l & q & ->) B T. rewrite good_do by discriminate. simpl. unfold atomic_op.
  apply good_body; auto.
Qed.

(** What tests see does not depend on the data before them. *)
Lemma run_tests_clean st st' t tl : clean st -> clean st' ->
  run_prog c sh st t (run_tests tl) = run_prog c sh st' t (run_tests tl).
Proof.
  intros (u & l & q & ->) (u' & l' & q' & ->). destruct tl as [|x tl]; [reflexivity|].
  simpl. unfold atomic_op. simpl. unfold atomic_op. reflexivity.
Qed.

(** ** The invariant *)
Definition outside (t : nat) (total rets : list answer) (ph : phase) : Prop :=
  match ph with
  | PhIdle p => exists tl, p = run_tests tl /\ tests_ok tl /\
      forall st, clean st -> rets ++ run_prog c sh st t p = total
  | PhBefore XLockU k => exists x tl, body_ok (snd x) /\ tests_ok tl /\
      k (Ret None) = Do (XSetup (fst x)) (fun _ => with_context (snd x) (run_tests tl)) /\
      forall st, clean st -> rets ++ Ret None :: run_prog c sh st t (k (Ret None)) = total
  | PhAfter XUnlockU k r => r = Ret None /\ exists tl, k (Ret None) = run_tests tl /\ tests_ok tl /\
      forall st, clean st -> rets ++ Ret None :: run_prog c sh st t (k (Ret None)) = total
  | _ => False
  end.

Definition inside (st : xstate) (t : nat) (total rets : list answer) (ph : phase) : Prop :=
  match ph with
  | PhIdle p => good st t p /\ rets ++ run_prog c sh st t p = total
  | PhBefore o k => good st t (Do o k) /\ rets ++ run_prog c sh st t (Do o k) = total
  | PhCleared k _ => forall st' r, atomic_op c sh st (t, ADrain) = (st', r) ->
      good st' t (k r) /\ rets ++ r :: run_prog c sh st' t (k r) = total
  | PhAfter o k r => good st t (k r) /\ rets ++ r :: run_prog c sh st t (k r) = total
  end.

Definition where_is (st : xstate) (mx : option nat) (t : nat) (total rets : list answer) (ph : phase) : Prop :=
  match mx with
  | Some h => if Nat.eqb h t then inside st t total rets ph else outside t total rets ph
  | None => outside t total rets ph
  end.

Local Arguments where_is : simpl never.

Context (total : nat -> list answer).

Definition apart_inv (a : axs) (tr : list xevent) : Prop :=
  (a_mx a = None -> clean (a_st a)) /\
  forall t ph, nth_error (a_ph a) t = Some ph ->
    where_is (a_st a) (a_mx a) t (total t) (returns_of t tr) ph.

Lemma where_other st st' mx mx' t t' r ph :
  t' <> t -> (mx = None \/ mx = Some t) -> (mx' = None \/ mx' = Some t) ->
  where_is st mx t' (total t') r ph -> where_is st' mx' t' (total t') r ph.
Proof.
  intros N [->| ->] [->| ->]; unfold where_is; auto.
  all: destruct (Nat.eqb_spec t t'); try congruence; auto.
Qed.

Lemma run_do st t o k : o <> XDrop true ->
  run_prog c sh st t (Do o k) =
  let (st', r) := atomic_op c sh st (t, final o) in r :: run_prog c sh st' t (k r).
Proof. intros N. destruct o as [| | |[]| | |]; try congruence; reflexivity. Qed.

Lemma good_final st t o k : o <> XDrop true -> o <> XLockU -> o <> XUnlockU ->
  good st t (Do o k) = let (st', r) := atomic_op c sh st (t, final o) in good st' t (k r).
Proof. intros N A B. rewrite good_do by auto. destruct o as [| | |[]| | |]; try congruence; reflexivity. Qed.

Lemma apart_step a tr e a' : apart_inv a tr -> astep a e a' -> apart_inv a' (tr ++ e).
Proof.
  intros [CL W] H.
  assert (OTH : forall t t' : nat, t' <> t -> Nat.eqb t t' = false).
  { intros t t' N. apply Nat.eqb_neq. congruence. }
  (* a step of [t] that keeps the mutex, while the others stay where they are *)
  destruct H as [st mx ph t o k N|st mx ph t k N P|st mx ph t k N P|st mx ph t o k mx' st' r N M AO|st mx ph t o k r N];
    unfold apart_inv; cbn [a_st a_mx a_ph] in *.
  - (* a new operation *)
    split; auto. intros t' ph'. rewrite nth_set_nth, returns_app. simpl. rewrite app_nil_r.
    destruct (Nat.eqb_spec t' t) as [->|NE]; [|apply W].
    rewrite N. intros [= <-]. specialize (W _ _ N).
    assert (OUT : outside t (total t) (returns_of t tr) (PhIdle (Do o k)) ->
                  outside t (total t) (returns_of t tr) (PhBefore o k)).
    { intros (tl & P & T & F). destruct tl as [|x tl]; [discriminate P|].
      injection P as -> ->. inversion T; subst. simpl. exists x, tl. repeat split; auto.
      intros st1 C1. specialize (F st1 C1). destruct C1 as (u & l & q & ->). exact F. }
    unfold where_is in *. destruct mx as [h|]; auto. destruct (Nat.eqb h t); auto.
  - (* the flag is cleared *)
    assert (MX : mx = Some t).
    { specialize (W _ _ N). unfold where_is in W. destruct mx as [h|]; [|destruct W].
      destruct (Nat.eqb_spec h t); [congruence|destruct W]. }
    subst mx. split; [discriminate|]. intros t' ph'. rewrite nth_set_nth, returns_app. simpl. rewrite app_nil_r.
    destruct (Nat.eqb_spec t' t) as [->|NE].
    + rewrite N. intros [= <-]. specialize (W _ _ N). unfold where_is in *. rewrite Nat.eqb_refl in *.
      destruct W as [W1 W2]. intros st' r AO. rewrite good_do in W1 by discriminate. simpl in W1, W2.
      rewrite AO in W1, W2. auto.
    + intros N'. specialize (W _ _ N'). revert W. apply (where_other _ _ _ _ t); auto.
  - (* the flag is not set *)
    assert (MX : mx = Some t).
    { specialize (W _ _ N). unfold where_is in W. destruct mx as [h|]; [|destruct W].
      destruct (Nat.eqb_spec h t); [congruence|destruct W]. }
    subst mx. split; [discriminate|]. intros t' ph'. rewrite nth_set_nth, returns_app. simpl. rewrite app_nil_r.
    destruct (Nat.eqb_spec t' t) as [->|NE].
    + rewrite N. intros [= <-]. pose proof (W _ _ N) as W0. unfold where_is in *. rewrite Nat.eqb_refl in *.
      destruct P as [P|(t1 & o1 & k1 & r1 & N1 & P1 & US)].
      2:{ specialize (W _ _ P1). rewrite OTH in W by auto. destruct o1; try discriminate US; destruct W. }
      destruct W0 as [W1 W2]. intros st' r AO. rewrite good_do in W1 by discriminate. simpl in W1, W2.
      assert (ID : fst (atomic_op c sh st (t, AClear)) = st).
      { destruct st as [[[[ms b] u] l] q]. simpl in P. subst b. reflexivity. }
      rewrite ID, AO in W1, W2. auto.
    + intros N'. specialize (W _ _ N'). exact W.
  - (* the final piece *)
    assert (FIN : exists ph0, nth_error ph t = Some ph0 /\
      (ph0 = PhBefore o k /\ o <> XDrop true \/ exists b, ph0 = PhCleared k b /\ o = XDrop true)).
    { destruct N as [[N X]|(b & N & X)]; eexists; (split; [exact N|]); eauto. }
    destruct FIN as (ph0 & N0 & C0). pose proof (W _ _ N0) as W0.
    destruct (match mx with Some h => Nat.eqb h t | None => false end) eqn:HO.
    + (* the holder *)
      destruct mx as [h|]; [|discriminate HO]. apply Nat.eqb_eq in HO. subst h.
      unfold where_is in W0. rewrite Nat.eqb_refl in W0.
      assert (NL : o <> XLockU).
      { intros ->. destruct C0 as [[-> _]|(b & _ & X)]; [|discriminate X]. destruct W0 as [[] _]. }
      destruct (match o with XUnlockU => true | _ => false end) eqn:UN.
      * (* unlocks *)
        destruct o; try discriminate UN. simpl in M. subst mx'.
        destruct C0 as [[-> X]|(b & _ & X)]; [|discriminate X]. destruct W0 as [[CS (tl & T & K)] W2].
        assert (SE : st' = st /\ r = Ret None).
        { destruct st as [[[[ms b] u] l] q]. unfold atomic_op in AO. simpl in AO. injection AO as <- <-. auto. }
        destruct SE as [-> ->].
        split; [auto|]. intros t' ph'. rewrite nth_set_nth, returns_app. simpl. rewrite app_nil_r.
        destruct (Nat.eqb_spec t' t) as [->|NE].
        -- rewrite N0. intros [= <-]. simpl. split; [auto|]. exists tl. split; [auto|]. split; [auto|].
           intros st1 C1. rewrite <- W2. rewrite run_do by discriminate. rewrite AO.
           rewrite K. f_equal. f_equal. apply run_tests_clean; auto.
        -- intros N'. specialize (W _ _ N'). revert W. apply (where_other _ _ _ _ t); auto.
      * assert (mx' = Some t) by (destruct o; try discriminate UN; simpl in M; auto; congruence). subst mx'.
        split; [discriminate|]. intros t' ph'. rewrite nth_set_nth, returns_app. simpl. rewrite app_nil_r.
        destruct (Nat.eqb_spec t' t) as [->|NE].
        -- rewrite N0. intros [= <-]. unfold where_is. rewrite Nat.eqb_refl.
           destruct C0 as [[-> X]|(b & -> & X)].
           ++ destruct W0 as [W1 W2]. rewrite good_final in W1 by (auto; intros ->; discriminate UN).
              rewrite run_do in W2 by auto. rewrite AO in W1, W2. split; auto.
           ++ subst o. exact (W0 _ _ AO).
        -- intros N'. specialize (W _ _ N'). revert W. apply (where_other _ _ _ _ t); auto.
    + (* somebody else: it can only lock the mutex *)
      assert (OU : outside t (total t) (returns_of t tr) ph0).
      { unfold where_is in W0. destruct mx as [h|]; auto. rewrite HO in W0. auto. }
      destruct C0 as [[-> X]|(b & -> & X)]; [|destruct OU].
      destruct o; try (destruct OU; fail). destruct M as [-> ->].
      assert (SE : st' = st /\ r = Ret None).
      { destruct st as [[[[ms b] u] l] q]. unfold atomic_op in AO. simpl in AO. injection AO as <- <-. auto. }
      destruct SE as [-> ->]. split; [discriminate|].
      intros t' ph'. rewrite nth_set_nth, returns_app. simpl. rewrite app_nil_r.
      destruct (Nat.eqb_spec t' t) as [->|NE].
      * rewrite N0. intros [= <-]. unfold where_is. rewrite Nat.eqb_refl.
        destruct OU as (x & tl & B & T & K & F). split; [|apply F; auto].
        rewrite K. apply good_setup; auto.
      * intros N'. specialize (W _ _ N'). revert W. apply (where_other _ _ _ _ t); auto.
  - (* the operation returns *)
    split; auto. intros t' ph'. rewrite nth_set_nth, returns_app. simpl.
    destruct (Nat.eqb_spec t' t) as [->|NE].
    + rewrite N, Nat.eqb_refl. intros [= <-]. specialize (W _ _ N).
      assert (OUT : outside t (total t) (returns_of t tr) (PhAfter o k r) ->
                    outside t (total t) (returns_of t tr ++ [r]) (PhIdle (k r))).
      { destruct o; try (intros []; fail). intros (-> & tl & K & T & F). exists tl.
        split; [auto|]. split; [auto|]. intros st1 C1. rewrite <- app_assoc. apply F. auto. }
      unfold where_is in *. destruct mx as [h|]; auto. destruct (Nat.eqb h t); auto.
      destruct W as [W1 W2]. split; auto. rewrite <- app_assoc. exact W2.
    + rewrite OTH by auto. rewrite app_nil_r. apply W.
Qed.

Lemma apart_setup s a tr : R s a -> apart_inv a tr -> setup_ok g s.
Proof.
  intros RR [CL W] t o k u Ht. destruct (cs_sl (x_sys s) g) as [t1|] eqn:SL; [exfalso|auto].
  destruct (R_at _ _ _ _ _ _ _ RR Ht) as (ph & Hph & T).
  assert (PB : ph = PhBefore (XSetup u) k).
  { inversion T; subst; try discriminate. destruct o as [| | |[]| | |]; try discriminate. simpl in *. congruence. }
  subst ph. pose proof (W _ _ Hph) as W0. unfold where_is in W0.
  destruct (a_mx a) as [h|]; [|destruct W0]. destruct (Nat.eqb_spec h t) as [->|N]; [|destruct W0].
  pose proof (r_st _ _ _ _ _ RR) as E. rewrite SL in E. destruct E as (_ & o1 & k1 & q1 & r1 & A & B & I1 & _).
  pose proof (W _ _ B) as W1. unfold where_is in W1.
  destruct (Nat.eqb_spec t t1) as [<-|N1]; [congruence|].
  destruct o1; try destruct W1.
  destruct (R_at _ _ _ _ _ _ _ RR A) as (ph1 & Hph1 & T1). rewrite B in Hph1. injection Hph1 as <-.
  inversion T1; subst; try discriminate.
Qed.

Lemma where_prefix st mx t rets ph l q u :
  st = ((ms0, false, u, l), q) \/ True -> where_is st mx t (total t) rets ph -> prefix rets (total t).
Proof.
  intros _ W.
  assert (C : clean ((ms0, false, u, l), q)) by (exists u, l, q; auto).
  assert (OUT : outside t (total t) rets ph -> prefix rets (total t)).
  { destruct ph as [p|[] k|k b|[] k r]; simpl; try tauto.
    - intros (tl & -> & T & F). rewrite <- (F _ C). eexists. reflexivity.
    - intros (x & tl & B & T & K & F). rewrite <- (F _ C). eexists. reflexivity.
    - intros (-> & tl & K & T & F). rewrite <- (F _ C). eexists. reflexivity. }
  unfold where_is in W. destruct mx as [h|]; auto. destruct (Nat.eqb h t); auto.
  destruct ph as [p|o k|k b|o k r].
  - destruct W as [_ <-]. eexists. reflexivity.
  - destruct W as [_ <-]. eexists. reflexivity.
  - destruct (atomic_op c sh st (t, ADrain)) as [st' r] eqn:AO. destruct (W _ _ AO) as [_ <-]. eexists. reflexivity.
  - destruct W as [_ <-]. eexists. reflexivity.
Qed.
End Tests.

Section Isolation.
Context {V U : Type} (c : cfg) (g : nat) (sh : list (cmeth V U) -> list (cmeth V U)).
Context (ms0 : list (cmeth V U)) (E0 : map emptied ms0 = ms0).

(** A test and what comes after it. *)
Lemma body_then t b : forall st next,
  body_ok b -> shape ms0 st -> poisoned st = false ->
  exists rest, run_prog c sh st t (with_context b next) = run_prog c sh st t (with_context b Stop) ++ rest /\
  (rest = [] \/ exists st', clean ms0 st' /\ rest = run_prog c sh st' t next).
Proof.
  assert (FIN : forall st bb next, shape ms0 st -> (bb = false -> poisoned st = false) ->
    let e n := Do (XDrop bb) (fun r => match r with Abort => Stop | _ => Do XUnlockU (fun _ => n) end) in
    exists rest, run_prog c sh st t (e next) = run_prog c sh st t (e Stop) ++ rest /\
    (rest = [] \/ exists st', clean ms0 st' /\ rest = run_prog c sh st' t next)).
  { intros st bb next S P e. pose proof (drop_clean c sh ms0 st t bb S P) as C. unfold e. cbn [run_prog].
    destruct (seq_op c sh st t (XDrop bb)) as [st' r]. simpl in C.
    destruct C as (u & l & q & ->).
    destruct r; simpl.
    1,2: exists (run_prog c sh ((ms0, false, u, l), q) t next); split; [reflexivity|right];
         exists ((ms0, false, u, l), q); split; [exists u, l, q; auto|reflexivity].
    exists []. auto. }
  induction b as [|o k IH]; intros st next B S P.
  - apply (FIN st false next); auto.
  - destruct B as [B1 B2]. cbn [with_context run_prog].
    pose proof (seq_op_shape c sh ms0 st t o S) as S'.
    destruct (seq_op c sh st t o) as [st' r] eqn:E. simpl in S'.
    destruct r as [v|m|].
    + destruct (IH (Ret v) st' next) as (rest & A & D); auto; [eapply ret_unpoisoned; eauto|].
      exists rest. rewrite A. auto.
    + destruct (FIN st' true next) as (rest & A & D); auto; [discriminate|].
      exists rest. simpl app. rewrite A. auto.
    + exists []. simpl. auto.
Qed.

Lemma tests_alone t tl : forall st,
  tests_ok tl -> clean ms0 st ->
  prefix (run_prog c sh st t (run_tests tl)) (flat_map (alone c sh ms0 t) tl).
Proof.
  induction tl as [|x tl IH]; intros st T C; [exists []; reflexivity|].
  inversion T; subst. destruct C as (u & l & q & ->).
  destruct (body_then t (snd x) ((ms0, false, fst x, fun _ => 0), sequence_new) (run_tests tl)) as (rest & A & D); auto.
  assert (EQ : run_prog c sh ((ms0, false, u, l), q) t (run_tests (x :: tl)) = alone c sh ms0 t x ++ rest).
  { unfold alone. simpl. unfold atomic_op. simpl. unfold atomic_op. rewrite A. reflexivity. }
  rewrite EQ. simpl. destruct D as [->|(st' & C' & ->)].
  - rewrite app_nil_r. exists (flat_map (alone c sh ms0 t) tl). reflexivity.
  - destruct (IH st' H2 C') as (l1 & E1). exists l1. rewrite E1. rewrite app_assoc. reflexivity.
Qed.

Lemma isolated u l q (ts : list (list (test V U))) sched s' tr :
  (forall cm, In cm ms0 -> cm_mutex cm = Some g) ->
  Forall (Forall (fun x => body_ok (snd x))) ts ->
  xrun c g sh (xstart u l q ms0 false (map run_tests ts)) sched = (s', tr) ->
  forall t tl, nth_error ts t = Some tl ->
  prefix (returns_of t tr) (flat_map (alone c sh ms0 t) tl).
Proof.
  intros O TS H t tl N.
  set (st0 := ((ms0, false, u, l), q)).
  assert (C0 : clean ms0 st0) by (exists u, l, q; reflexivity).
  set (total := fun t => match @nth_error (list (test V U)) ts t with Some tl => run_prog c sh st0 t (run_tests tl) | None => [] end).
  pose proof (R_start c g sh u l q ms0 false (map run_tests ts) O) as R0.
  destruct (xrun_sim c g sh (apart_inv c sh ms0 total)) with (sched := sched)
    (s := xstart u l q ms0 false (map (run_tests (V := V) (U := U)) ts))
    (a := AXs st0 None (map PhIdle (map (run_tests (V := V) (U := U)) ts))) (tr := @nil (xevent V U)) (s' := s') (tr' := tr)
    as (a' & RR & P & A); auto.
  - intros a tr0 e a1. apply apart_step; auto.
  - intros s a tr0. apply apart_setup; auto.
  - split; [auto|]. intros t1 ph. simpl. rewrite !nth_error_map.
    destruct (@nth_error (list (test V U)) ts t1) as [tl1|] eqn:N1; simpl; [|discriminate]. intros [= <-]. unfold where_is, outside.
    exists tl1. split; [auto|]. split.
    + rewrite Forall_forall in TS. apply TS. eapply nth_error_In; eauto.
    + intros st C. unfold total. rewrite N1. apply (run_tests_clean c sh ms0); auto.
  - assert (T : tests_ok tl) by (rewrite Forall_forall in TS; apply TS; eapply nth_error_In; eauto).
    destruct (tests_alone t tl st0 T C0) as (l1 & L1).
    assert (LEN : forall a e b, asteps c sh a e b -> List.length (a_ph b) = List.length (a_ph a)).
    { clear. induction 1; auto. rewrite IHasteps. destruct H; simpl; apply set_nth_length. }
    destruct (nth_error (a_ph a') t) as [ph|] eqn:N'.
    + destruct P as [_ P]. specialize (P _ _ N').
      destruct (where_prefix c sh ms0 total _ _ _ _ _ l q u (or_intror Logic.I) P) as (l2 & L2).
      unfold total in L2. rewrite N in L2. rewrite L1, L2. exists (l2 ++ l1). simpl. rewrite app_assoc. reflexivity.
    + exfalso. apply nth_error_None in N'. rewrite (LEN _ _ _ A) in N'. simpl in N'. rewrite !map_length in N'.
      apply nth_error_None in N'. congruence.
Qed.
End Isolation.
