(** * ContextsLin: from atomic pieces to the properties *)

From Coq Require Import NArith List Bool String Lia Arith.
From Verif Require Import Base Times Expect Mock Conc ConcSpec ConcProofs LockProofs LinProofs
  Contexts ContextsSpec ContextsProofs.
Import ListNotations.
Open Scope N_scope.

Local Arguments set_nth : simpl never.
Local Arguments atomic_op : simpl never.

Section Lin.
Context {V U : Type} (c : cfg) (g : nat) (sh : list (cmeth V U) -> list (cmeth V U)).
Notation xop := (xop V U).
Notation prog := (prog V U).
Notation atom := (atom V U).
Notation xevent := (xevent V U).
Notation answer := (answer V).
Notation xstate := (xstate V U).
Notation xsys := (xsys V U).
Notation axs := (axs (V := V) (U := U)).
Notation phase := (phase (V := V) (U := U)).
Notation R := (R c g sh).
Notation asteps := (asteps c sh).
Notation astep := (astep c sh).

Definition setup_ok (s : xsys) : Prop :=
  forall t o k u, nth_error (x_threads s) t = Some (TIn o k (QSetup u)) -> cs_sl (x_sys s) g = None.

Lemma xstep_sim s a t s' ev :
  R s a -> setup_ok s -> xstep c g sh s t = (s', ev) ->
  exists a', asteps a ev a' /\ R s' a'.
Proof.
  intros RR SU H. unfold xstep in H.
  destruct (nth_error (x_threads s) t) as [[[|o k]|o k q]|] eqn:Ht.
  - injection H as <- <-. exists a. split; [constructor|auto].
  - injection H as <- <-. destruct (R_at _ _ _ _ _ _ _ RR Ht) as (ph & Hph & T).
    inversion T; subst. destruct a as [st mx phs]. simpl in Hph.
    eexists. split; [apply asteps_one, as_start; exact Hph|].
    assert (NH : cs_sl (x_sys s) g <> Some t).
    { intros X. pose proof (r_st _ _ _ _ _ RR) as E. rewrite X in E.
      destruct E as (_ & o1 & k1 & q1 & r1 & A & _). congruence. }
    pose proof (R_frame _ _ _ _ _ _ (TIn o k (first o)) (PhBefore o k) mx RR NH) as Q.
    simpl in Q. pose proof (r_mx _ _ _ _ _ RR) as M. simpl in M. unfold put_xthread. rewrite M.
    apply Q. constructor.
  - destruct (qstep c g sh s t q) as [[s1 out] l] eqn:Q.
    assert (SQ : forall u, q = QSetup u -> cs_sl (x_sys s) g = None).
    { intros u ->. eapply SU; eauto. }
    destruct (qstep_sim _ _ _ _ _ _ _ _ _ _ _ _ RR Ht SQ Q) as (a' & A & B).
    exists a'. destruct out; injection H as <- <-; simpl in A; rewrite ?app_nil_r in A; auto.
  - injection H as <- <-. exists a. split; [constructor|auto].
Qed.

(** A run, with an invariant of the abstract system that makes setups harmless. *)
Lemma xrun_sim (P : axs -> list xevent -> Prop) :
  (forall a tr e a', P a tr -> astep a e a' -> P a' (tr ++ e)) ->
  (forall s a tr, R s a -> P a tr -> setup_ok s) ->
  forall sched s a tr s' tr', R s a -> P a tr -> xrun c g sh s sched = (s', tr') ->
  exists a', R s' a' /\ P a' (tr ++ tr') /\ asteps a tr' a'.
Proof.
  intros PS PU.
  assert (PSS : forall a e a', asteps a e a' -> forall tr, P a tr -> P a' (tr ++ e)).
  { induction 1; intros tr HP; [rewrite app_nil_r; auto|]. rewrite app_assoc. eauto. }
  induction sched as [|t sched IH]; simpl; intros s a tr s' tr' RR HP H.
  - injection H as <- <-. exists a. rewrite app_nil_r. split; [auto|]. split; [auto|constructor].
  - destruct (xstep c g sh s t) as [s1 e1] eqn:X1. destruct (xrun c g sh s1 sched) as [s2 e2] eqn:X2.
    injection H as <- <-. destruct (xstep_sim _ _ _ _ _ RR (PU _ _ _ RR HP) X1) as (a1 & A1 & R1).
    destruct (IH _ _ (tr ++ e1) _ _ R1 (PSS _ _ _ A1 _ HP) X2) as (a2 & R2 & P2 & A2).
    exists a2. rewrite app_assoc. split; [auto|]. split; [auto|]. eapply asteps_app; eauto.
Qed.

(** The beginning. *)
Lemma R_start u l q ms poison progs :
  (forall cm, In cm ms -> cm_mutex cm = Some g) ->
  R (xstart u l q ms poison progs) (AXs ((ms, poison, u, l), q) None (map PhIdle progs)).
Proof.
  intros O. split; simpl; auto.
  - intros m cm N. apply O. eapply nth_error_In; eauto.
  - intros t. rewrite !nth_error_map. destruct (nth_error progs t); simpl; auto. constructor.
Qed.

(** ** Where a thread is in its program *)
Inductive at_phase (t : nat) : prog -> list xevent -> list answer -> phase -> Prop :=
| ap_idle p : at_phase t p [] [] (PhIdle p)
| ap_before o k : at_phase t (Do o k) [XStart t o] [] (PhBefore o k)
| ap_cleared k (b : bool) : at_phase t (Do (XDrop true) k)
    (XStart t (XDrop true) :: (if b then [XAtom t AClear] else [])) [] (PhCleared k b)
| ap_after o k l r : pieces o l ->
    at_phase t (Do o k) (XStart t o :: map (XAtom t) l) [r] (PhAfter o k r)
| ap_next o k l r evs rs ph : pieces o l -> at_phase t (k r) evs rs ph ->
    at_phase t (Do o k) (XStart t o :: map (XAtom t) l ++ XReturn t o r :: evs) (r :: rs) ph.

Lemma at_phase_follows t p evs rs ph : at_phase t p evs rs ph -> follows t p evs rs.
Proof.
  induction 1.
  - constructor.
  - apply (fo_start t o k [] [final o]); [constructor|discriminate].
  - destruct b.
    + apply (fo_start t (XDrop true) k [AClear] [ADrain]); [constructor|discriminate].
    + apply (fo_start t (XDrop true) k [] [ADrain]); [exact (pi_final (XDrop true))|discriminate].
  - apply fo_done. auto.
  - apply fo_return; auto.
Qed.

Lemma at_phase_start t p evs rs ph o k :
  at_phase t p evs rs ph -> ph = PhIdle (Do o k) ->
  at_phase t p (evs ++ [XStart t o]) rs (PhBefore o k).
Proof.
  induction 1; intros E; try discriminate E.
  - injection E as ->. constructor.
  - simpl. rewrite <- app_assoc. simpl. apply ap_next; auto.
Qed.

Lemma at_phase_clear t p evs rs ph k (b : bool) :
  at_phase t p evs rs ph -> ph = PhBefore (XDrop true) k ->
  at_phase t p (evs ++ (if b then [XAtom t AClear] else [])) rs (PhCleared k b).
Proof.
  induction 1; intros E; try discriminate E.
  - injection E as -> ->. apply ap_cleared.
  - simpl. rewrite <- app_assoc. simpl. apply ap_next; auto.
Qed.

Lemma at_phase_final t p evs rs ph o k r :
  at_phase t p evs rs ph ->
  (ph = PhBefore o k /\ o <> XDrop true) \/ (exists b, ph = PhCleared k b /\ o = XDrop true) ->
  at_phase t p (evs ++ [XAtom t (final o)]) (rs ++ [r]) (PhAfter o k r).
Proof.
  induction 1; intros E.
  - destruct E as [[E _]|(b & E & _)]; discriminate E.
  - destruct E as [[E N]|(b & E & _)]; [|discriminate E]. injection E as -> ->.
    apply (ap_after t o k [final o]). constructor.
  - destruct E as [[E N]|(b' & E & ->)]; [discriminate E|]. injection E as -> ->.
    destruct b'; [apply (ap_after t (XDrop true) k [AClear; ADrain])|apply (ap_after t (XDrop true) k [ADrain])].
    + constructor.
    + exact (pi_final (XDrop true)).
  - destruct E as [[E _]|(b & E & _)]; discriminate E.
  - simpl. rewrite <- app_assoc. simpl. apply ap_next; auto.
Qed.

Lemma at_phase_return t p evs rs ph o k r :
  at_phase t p evs rs ph -> ph = PhAfter o k r ->
  at_phase t p (evs ++ [XReturn t o r]) rs (PhIdle (k r)).
Proof.
  induction 1; intros E; try discriminate E.
  - injection E as -> -> ->. simpl. apply (ap_next t o k l r []); [auto|constructor].
  - simpl. rewrite <- app_assoc. simpl. apply ap_next; auto.
Qed.

(** ** The trace of pieces determines everything *)
Lemma atoms_app (tr1 tr2 : list xevent) : atoms (tr1 ++ tr2) = atoms tr1 ++ atoms tr2.
Proof. induction tr1 as [|[] tr1 IH]; simpl; auto. f_equal. auto. Qed.
Lemma returns_app t (tr1 tr2 : list xevent) : returns_of t (tr1 ++ tr2) = returns_of t tr1 ++ returns_of t tr2.
Proof. induction tr1 as [|[] tr1 IH]; simpl; auto. destruct (Nat.eqb _ _); simpl; [f_equal|]; auto. Qed.
Lemma events_app t (tr1 tr2 : list xevent) : events_of t (tr1 ++ tr2) = events_of t tr1 ++ events_of t tr2.
Proof. apply filter_app. Qed.
Lemma answers_app t (l1 l2 : list (nat * atom * answer)) : answers_of t (l1 ++ l2) = answers_of t l1 ++ answers_of t l2.
Proof.
  induction l1 as [|[[t' a] r] l1 IH]; simpl; auto. destruct a; try destruct (Nat.eqb _ _); simpl; rewrite ?IH; auto.
Qed.

Lemma atomic_all_snoc st l ta :
  atomic_all c sh st (l ++ [ta]) =
  let (st1, rs) := atomic_all c sh st l in
  let (st2, r) := atomic_op c sh st1 ta in
  (st2, rs ++ [(ta, r)]).
Proof.
  revert st. induction l as [|y l IH]; intros st; simpl.
  - destruct (atomic_op c sh st ta); reflexivity.
  - destruct (atomic_op c sh st y) as [st1 r1]. rewrite IH.
    destruct (atomic_all c sh st1 l) as [st2 rs]. destruct (atomic_op c sh st2 ta); reflexivity.
Qed.

Definition lin (st0 : xstate) (progs : list prog) (a : axs) (tr : list xevent) : Prop :=
  exists outs, atomic_all c sh st0 (atoms tr) = (a_st a, outs) /\
  forall t, orel (fun p ph => at_phase t p (events_of t tr) (answers_of t outs) ph)
                 (nth_error progs t) (nth_error (a_ph a) t).

Lemma orel_set {A B} (P P' : nat -> A -> B -> Prop) (l : list A) (l' : list B) t b b' :
  nth_error l' t = Some b ->
  (forall x, nth_error l t = Some x -> P t x b -> P' t x b') ->
  (forall t' x y, t' <> t -> P t' x y -> P' t' x y) ->
  (forall t', orel (P t') (nth_error l t') (nth_error l' t')) ->
  (forall t', orel (P' t') (nth_error l t') (nth_error (set_nth l' t b') t')).
Proof.
  intros N H O I t'. specialize (I t'). rewrite nth_set_nth. destruct (Nat.eqb_spec t' t) as [->|NE].
  - rewrite N in *. destruct (nth_error l t); simpl in *; auto.
  - destruct (nth_error l t'), (nth_error l' t'); simpl in *; auto.
Qed.

Lemma lin_step st0 progs a tr e a' : lin st0 progs a tr -> astep a e a' -> lin st0 progs a' (tr ++ e).
Proof.
  intros (outs & AT & TH) H. unfold lin. rewrite atoms_app.
  assert (OTH : forall t t' : nat, t' <> t -> Nat.eqb t t' = false).
  { intros t t' N. apply Nat.eqb_neq. congruence. }
  destruct H as [st mx ph t o k N|st mx ph t k N P|st mx ph t k N P|st mx ph t o k mx' st' r N M AO|st mx ph t o k r N];
    cbn [a_st a_ph] in *.
  - exists outs. simpl. rewrite app_nil_r. split; [auto|].
    eapply (orel_set (fun t p ph => at_phase t p (events_of t tr) (answers_of t outs) ph)
       (fun t' p ph => at_phase t' p (events_of t' (tr ++ [XStart t o])) (answers_of t' outs) ph)); [exact N| | |exact TH].
    + intros p _ A. rewrite events_app. simpl. rewrite Nat.eqb_refl. eapply at_phase_start; eauto.
    + intros t' p ph' NE A. rewrite events_app. simpl. rewrite OTH by auto. rewrite app_nil_r. auto.
  - simpl. rewrite atomic_all_snoc, AT. destruct (atomic_op c sh st (t, AClear)) as [st' r] eqn:AO.
    exists (outs ++ [(t, AClear, r)]). split; [reflexivity|].
    eapply (orel_set (fun t p ph => at_phase t p (events_of t tr) (answers_of t outs) ph)
       (fun t' p ph => at_phase t' p (events_of t' (tr ++ [XAtom t AClear])) (answers_of t' (outs ++ [(t, AClear, r)])) ph));
      [exact N| | |exact TH].
    + intros p _ A. rewrite events_app, answers_app. simpl. rewrite Nat.eqb_refl, app_nil_r.
      apply (at_phase_clear _ _ _ _ _ k true A eq_refl).
    + intros t' p ph' NE A. rewrite events_app, answers_app. simpl. rewrite OTH by auto. rewrite !app_nil_r. auto.
  - exists outs. rewrite !app_nil_r. split; [auto|].
    eapply (orel_set (fun t p ph => at_phase t p (events_of t tr) (answers_of t outs) ph)); [exact N| | |exact TH]; auto.
    intros p _ A. rewrite <- (app_nil_r (events_of t tr)). apply (at_phase_clear _ _ _ _ _ k false A eq_refl).
  - simpl. rewrite atomic_all_snoc, AT, AO. exists (outs ++ [(t, final o, r)]). split; [reflexivity|].
    assert (NC : forall t', answers_of t' [(t, final o, r)] = if Nat.eqb t t' then [r] else []).
    { intros t'. destruct o as [| | |[]| | |]; reflexivity. }
    assert (PH : exists ph0, nth_error ph t = Some ph0 /\
      (ph0 = PhBefore o k /\ o <> XDrop true \/ (exists b, ph0 = PhCleared k b /\ o = XDrop true))).
    { destruct N as [[N X]|(b & N & X)]; eexists; split; [exact N|auto|exact N|eauto]. }
    destruct PH as (ph0 & N0 & C0).
    eapply (orel_set (fun t p ph => at_phase t p (events_of t tr) (answers_of t outs) ph)
       (fun t' p ph => at_phase t' p (events_of t' (tr ++ [XAtom t (final o)])) (answers_of t' (outs ++ [(t, final o, r)])) ph));
      [exact N0| | |exact TH].
    + intros p _ A. rewrite events_app, answers_app, NC. simpl. rewrite Nat.eqb_refl.
      eapply at_phase_final; eauto.
    + intros t' p ph' NE A. rewrite events_app, answers_app, NC. simpl. rewrite OTH by auto. rewrite !app_nil_r. auto.
  - exists outs. simpl. rewrite app_nil_r. split; [auto|].
    eapply (orel_set (fun t p ph => at_phase t p (events_of t tr) (answers_of t outs) ph)
       (fun t' p ph => at_phase t' p (events_of t' (tr ++ [XReturn t o r])) (answers_of t' outs) ph)); [exact N| | |exact TH].
    + intros p _ A. rewrite events_app. simpl. rewrite Nat.eqb_refl. eapply at_phase_return; eauto.
    + intros t' p ph' NE A. rewrite events_app. simpl. rewrite OTH by auto. rewrite app_nil_r. auto.
Qed.

(** ** Programs without setups *)
Definition ph_no_setup (ph : phase) : Prop :=
  match ph with
  | PhIdle p => no_setup p
  | PhBefore o k => no_setup (Do o k)
  | PhCleared k _ => forall r, no_setup (k r)
  | PhAfter o k _ => forall r, no_setup (k r)
  end.

Definition quiet (a : axs) : Prop := forall t ph, nth_error (a_ph a) t = Some ph -> ph_no_setup ph.

Lemma quiet_step a e a' : quiet a -> astep a e a' -> quiet a'.
Proof.
  intros Q H t' ph'.
  destruct H as [st mx ph t o k N|st mx ph t k N P|st mx ph t k N P|st mx ph t o k mx' st' r N M AO|st mx ph t o k r N];
    cbn [a_st a_ph] in *; rewrite nth_set_nth; destruct (Nat.eqb_spec t' t) as [->|NE]; try apply Q.
  - rewrite N. intros [= <-]. exact (Q _ _ N).
  - rewrite N. intros [= <-]. exact (proj2 (Q _ _ N)).
  - rewrite N. intros [= <-]. exact (proj2 (Q _ _ N)).
  - destruct N as [[N _]|(b & N & _)]; rewrite N; intros [= <-]; [exact (proj2 (Q _ _ N))|exact (Q _ _ N)].
  - rewrite N. intros [= <-]. exact (Q _ _ N r).
Qed.

Lemma quiet_setup s a : R s a -> quiet a -> setup_ok s.
Proof.
  intros RR Q t o k u Ht. destruct (R_at _ _ _ _ _ _ _ RR Ht) as (ph & Hph & T).
  specialize (Q _ _ Hph). inversion T; subst.
  - destruct o as [| | |[]| | |]; try discriminate. destruct Q as [[] _].
  - discriminate.
Qed.

Lemma linearizable u l q ms poison progs sched s' tr :
  (forall cm, In cm ms -> cm_mutex cm = Some g) -> Forall no_setup progs ->
  xrun c g sh (xstart u l q ms poison progs) sched = (s', tr) ->
  let (st', outs) := atomic_all c sh ((ms, poison, u, l), q) (atoms tr) in
  (forall t p, nth_error progs t = Some p -> follows t p (events_of t tr) (answers_of t outs)) /\
  (cs_sl (x_sys s') g = None ->
   st' = ((cs_meths (x_sys s'), cs_sp (x_sys s') g, cs_user (x_sys s'), cs_levels (x_sys s')), x_seqs s')).
Proof.
  intros O NS H.
  pose proof (R_start u l q ms poison progs O) as R0.
  set (a0 := AXs ((ms, poison, u, l), q) None (map PhIdle progs)) in *.
  destruct (xrun_sim (fun a tr => quiet a /\ lin ((ms, poison, u, l), q) progs a tr)) with (sched := sched) (s := xstart u l q ms poison progs) (a := a0) (tr := @nil xevent) (s' := s') (tr' := tr)
    as (a' & RR & (Q & L) & _); auto.
  - intros a tr0 e a1 [Q L] A. split; [eapply quiet_step; eauto|eapply lin_step; eauto].
  - intros s a tr0 RR [Q L]. eapply quiet_setup; eauto.
  - split.
    + intros t ph. simpl. rewrite nth_error_map. destruct (nth_error progs t) eqn:N; [|discriminate].
      intros [= <-]. simpl. rewrite Forall_forall in NS. apply NS. eapply nth_error_In; eauto.
    + exists []. split; [reflexivity|]. intros t. simpl. rewrite nth_error_map.
      destruct (nth_error progs t); simpl; auto. constructor.
  - simpl in L. destruct L as (outs & AT & TH). rewrite AT. split.
    + intros t p N. specialize (TH t). rewrite N in TH. destruct (nth_error (a_ph a') t); simpl in TH; [|tauto].
      eapply at_phase_follows; eauto.
    + intros F. pose proof (r_st _ _ _ _ _ RR) as E. rewrite F in E. exact E.
Qed.
End Lin.
