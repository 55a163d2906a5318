(** * GuardsEnd: programs that give their guards back never wait for ever *)

From Coq Require Import NArith List Bool String Lia Arith.
From Verif Require Import Base Times Expect Mock Conc ConcSpec ConcProofs LockProofs ThreadProofs LinProofs CountProofs
  Contexts ContextsSpec ContextsProofs ContextsEnd Guards GuardsSpec GuardsProofs GuardsMore.
Import ListNotations.
Open Scope nat_scope.

Local Arguments apply_setter : simpl never.
Local Arguments set_nth : simpl never.
Local Arguments drop_store : simpl never.
Local Arguments put_exp : simpl never.
Local Arguments pstep : simpl never.

Lemma no_abort {V U} c th st (e e' : expectation V U) q q' r : apply_setter c th st e q = (e', q', r) -> r <> Abort.
Proof.
  assert (TF : forall x t0, snd (times_times c x t0) <> Abort).
  { intros x t0. unfold times_times. pose proof (trange_from_total c x). destruct (trange_from c x); cbn; congruence. }
  assert (IS : forall k s0, snd (common_in_sequence (V := V) (U := U) c k s0) <> Abort).
  { intros k s0. unfold common_in_sequence, times_is_exact, usub, next_handle, uadd1.
    repeat match goal with |- context [if ?x then _ else _] => destruct x; cbn end; discriminate. }
  assert (CT : forall x k, snd (common_times (V := V) (U := U) c x k) <> Abort).
  { intros x k. unfold common_times. pose proof (TF x (c_times k)). destruct (times_times c x (c_times k)). auto. }
  assert (SF : forall f e0, snd (set_srfunc (V := V) (U := U) f e0) <> Abort).
  { intros f e0. unfold set_srfunc. repeat match goal with |- context [match ?x with _ => _ end] => destruct x; cbn end; discriminate. }
  assert (MF : forall f e0, snd (set_mrfunc (V := V) (U := U) f e0) <> Abort).
  { intros f e0. unfold set_mrfunc. repeat match goal with |- context [match ?x with _ => _ end] => destruct x; cbn end; discriminate. }
  assert (SM : forall m k, snd (common_set_matcher (V := V) (U := U) m k) <> Abort).
  { intros m k. unfold common_set_matcher. destruct (c_mpoison k); discriminate. }
  assert (LC : forall e0 p, snd (lift_common (V := V) (U := U) e0 p) = snd p).
  { intros e0 [k r0]. reflexivity. }
  intros H. unfold apply_setter in H. destruct st;
  try (injection H as <- <- <-; rewrite ?LC; auto; discriminate).
  - pose proof (IS (e_common e) (q s)) as Z. destruct (common_in_sequence c (e_common e) (q s)) as [[k s0] r0].
    injection H as <- <- <-. exact Z.
  - destruct (e_action e); injection H as <- <- <-; auto.
  - destruct (e_action e); injection H as <- <- <-; auto.
  - destruct (e_action e); injection H as <- <- <-; auto. discriminate.
Qed.

Section End.
Context {V U : Type} (c : cfg) (g : nat) (sh : list (cmeth V U) -> list (cmeth V U)).
Notation csys := (csys V U).
Notation xsys := (xsys V U).
Notation xpc := (xpc V U).
Notation xop := (xop V U).
Notation xthread := (xthread V U).
Notation prog := (prog V U).
Notation gsys := (gsys V U).
Notation gthread := (gthread V U).
Notation INV := (@INV V U g).

(** A thread of [Contexts.v] that holds what this one holds. *)
Inductive abs : xthread -> gthread -> Prop :=
| ab_idle p gp : abs (TIdle p) (GIdle None gp)
| ab_in o k k' q : abs (TIn o k q) (GIn None o k' q)
| ab_lock m k k' : abs (TIn (XExpect m []) k (QLockE m [])) (GLock None m k')
| ab_guard m i k p : abs (TIn (XExpect m []) k (QSet m [])) (GIdle (Some (m, i)) p).

Definition closing (b : bool) : prog := if b then Do XUnlockU (fun _ => Stop) else Stop.
Definition after (o : xop) (b : bool) : bool := match o with XLockU => true | XUnlockU => false | _ => b end.

Definition neat (n : nat) (b : bool) (th : gthread) : Prop :=
  match th with
  | GIdle gd p => tidy n (match gd with Some _ => true | None => false end) b p
  | GIn gd o k q => gd = None /\ tidy n false b (GDo o k)
  | GLock gd m k => gd = None /\ tidy n false b (GExpect m k)
  end.

Definition X (x : xsys) (ths : list xthread) : xsys := XSys (x_sys x) (x_seqs x) (x_mutex x) ths.

Record EI (s : gsys) (ths : list xthread) : Prop := MkEI {
  e_gi : GI g s;
  e_inv : INV (X (g_x s) ths);
  e_abs : forall t, match nth_error ths t, nth_error (g_threads s) t with
          | Some a, Some b => abs a b | None, None => True | _, _ => False end;
  e_neat : forall t th, nth_error (g_threads s) t = Some th -> neat (len (g_x s)) (own (g_x s) t) th;
  e_mutex : match x_mutex (g_x s) with Some t => t < List.length (g_threads s) | None => True end
}.

Lemma closing_ok b : brackets b (closing b).
Proof. destruct b; cbn; auto. Qed.
Lemma closing_exists n b : existing n (closing b).
Proof. destruct b; cbn; auto. Qed.

Lemma qstep_mutex (s : xsys) t q s' out l :
  qstep c g sh s t q = (s', out, l) ->
  x_mutex s' = match q with
               | QLockU => match x_mutex s with None => Some t | m => m end
               | QUnlockU => None
               | _ => x_mutex s
               end /\
  match q with
  | QLockU => match x_mutex s with None => out = inr (Ret None) | _ => out = inl q end
  | QUnlockU => out = inr (Ret None)
  | _ => True
  end.
Proof.
  intros H. destruct q; cbn [qstep] in H;
  repeat match type of H with
  | context [match ?x with _ => _ end] =>
      lazymatch x with
      | context [match _ with _ => _ end] => fail
      | _ => destruct x eqn:?
      end
  end; injection H as <- <- <-; cbn; rewrite ?Heqo; auto.
Qed.

Definition at_ (s : gsys) (t : nat) (th : gthread) : Prop := nth_error (g_threads s) t = Some th.
Definition hold (s : gsys) : option nat := cs_sl (x_sys (g_x s)) g.
Definition mux (s : gsys) : option nat := x_mutex (g_x s).

Definition moved (s : gsys) (t : nat) (th : gthread) (s' : gsys) : Prop :=
  match th with
  | GIdle gd GStop => s' = s
  | GIdle gd (GDo o k) => at_ s' t (GIn gd o k (first o)) /\ hold s' = hold s /\ mux s' = mux s
  | GIdle gd (GExpect m k) => at_ s' t (GLock gd m k) /\ hold s' = hold s /\ mux s' = mux s
  | GIdle gd (GUser f k) => at_ s' t (GIdle gd k) /\ hold s' = hold s /\ mux s' = mux s
  | GIdle gd (GSet st k) =>
      exists gd' r, r <> Abort /\ at_ s' t (GIdle gd' (k r)) /\ (hold s' = None \/ hold s' = hold s) /\ mux s' = mux s
  | GIdle gd (GDrop b k) => at_ s' t (GIdle None k) /\ hold s' = None /\ mux s' = mux s
  | GIn gd o k q =>
      mine t (hold s) -> (q = QLockU -> mux s = None) ->
      mine t (hold s') /\ (mine t (mux s) -> mine t (mux s')) /\
      ((exists q', at_ s' t (GIn gd o k q') /\ qcost (x_sys (g_x s')) q' < qcost (x_sys (g_x s)) q /\ q' <> QLockU) \/
       (exists r, r <> Abort /\ at_ s' t (GIdle gd (k r))))
  | GLock gd m k =>
      mine t (hold s) -> mine t (hold s') /\ mux s' = mux s /\ exists gd' r, r <> Abort /\ at_ s' t (GIdle gd' (k r))
  end.

Lemma own_same (a b : xsys) t : x_mutex a = x_mutex b -> own a t = own b t.
Proof. unfold own. intros ->. reflexivity. Qed.

(** Put a step together: thread [t] moves from [th] to [th']. *)
Lemma EI_put s ths t th x' a' th' :
  EI s ths -> at_ s t th -> GI g (GSys x' (set_nth (g_threads s) t th')) ->
  INV (X x' (set_nth ths t a')) -> abs a' th' -> len x' = len (g_x s) ->
  (forall t', t' <> t -> own x' t' = own (g_x s) t') ->
  neat (len x') (own x' t) th' ->
  match x_mutex x' with Some t1 => t1 = t \/ x_mutex (g_x s) = Some t1 | None => True end ->
  EI (GSys x' (set_nth (g_threads s) t th')) (set_nth ths t a').
Proof.
  intros [E1 E2 E3 E4 E5] N G I A L OW NE MX. unfold at_ in N. split; auto.
  - intros t0. cbn. rewrite !nth_set_nth. destruct (Nat.eqb_spec t0 t) as [->|NT]; [|apply E3].
    specialize (E3 t). rewrite N in *. destruct (nth_error ths t); [exact A|contradiction].
  - intros t0 th0 N0. cbn in N0. rewrite nth_set_nth in N0. cbn [g_x]. destruct (Nat.eqb_spec t0 t) as [->|NT].
    + rewrite N in N0. injection N0 as <-. exact NE.
    + rewrite L, OW by auto. apply E4. auto.
  - cbn. rewrite set_nth_length. destruct (x_mutex x') as [t1|]; auto.
    destruct MX as [->|MX]; [apply nth_error_Some; congruence|]. rewrite MX in E5. exact E5.
Qed.

Lemma EI_step s ths t th s' ev :
  EI s ths -> at_ s t th -> gstep c g sh s t = (s', ev) -> ~ g_aborted ev ->
  (exists ths', EI s' ths') /\ moved s t th s' /\
  (forall t', t' <> t -> nth_error (g_threads s') t' = nth_error (g_threads s) t') /\
  List.length (g_threads s') = List.length (g_threads s).
Proof.
  intros E N H NA. pose proof E as [E1 E2 E3 E4 E5]. pose proof (gstep_inv c g sh _ _ _ _ E1 H) as G'.
  unfold at_ in N. unfold gstep in H. rewrite N in H.
  destruct (gtstep c g sh (g_x s) t th) as [[x th'] gev] eqn:G. injection H as <- <-.
  assert (OTH : (forall t', t' <> t -> nth_error (g_threads (GSys x (set_nth (g_threads s) t th'))) t' = nth_error (g_threads s) t') /\
    List.length (g_threads (GSys x (set_nth (g_threads s) t th'))) = List.length (g_threads s)).
  { cbn. split; [|apply set_nth_length]. intros t' NE. rewrite nth_set_nth. destruct (Nat.eqb_spec t' t); congruence. }
  assert (AT : at_ (GSys x (set_nth (g_threads s) t th')) t th').
  { unfold at_. cbn. rewrite nth_set_nth, Nat.eqb_refl, N. reflexivity. }
  pose proof (E3 t) as A. rewrite N in A. destruct (nth_error ths t) as [a|] eqn:NX; [|contradiction].
  pose proof (E4 _ _ N) as NE.
  assert (TOK : tok g (X (g_x s) ths) t a) by (apply (i_th _ _ E2); exact NX).
  assert (NX' : nth_error (x_threads (X (g_x s) ths)) t = Some a) by exact NX.
  assert (NOTIN : match a with TIn _ _ q => qinside q = false | _ => True end -> cs_sl (x_sys (g_x s)) g <> Some t).
  { intros Q L. pose proof (i_hold _ _ E2) as HO. cbn in HO. rewrite L in HO. destruct HO as (o & k & q & B & D).
    rewrite NX in B. injection B as ->. congruence. }
  (* nothing but the thread changes *)
  assert (ONLY : forall a', x = g_x s -> abs a' th' ->
    match a with TIn _ _ q => qinside q = false | _ => True end ->
    match a' with TIn _ _ q => qinside q = false | _ => True end ->
    tok g (X (g_x s) ths) t a' -> neat (len (g_x s)) (own (g_x s) t) th' ->
    exists ths', EI (GSys x (set_nth (g_threads s) t th')) ths').
  { intros a' -> AB Q Q' TK NT. exists (set_nth ths t a'). eapply EI_put; eauto.
    - apply (build g (X (g_x s) ths) (X (g_x s) ths) t a a'); auto.
      + apply (i_one _ _ E2).
      + left. repeat split; auto.
    - destruct (x_mutex (g_x s)); auto. }
  (* a step of an operation *)
  assert (OP : forall o k q x' out l (Q : qstep c g sh (g_x s) t q = (x', out, l)),
    a = TIn o k q -> out <> inr Abort -> x = x' ->
    (abs (next o k out) th') ->
    (neat (len x') (own x' t) th') ->
    (q = QLockU -> o = XLockU) -> (q = QUnlockU -> o = XUnlockU) ->
    (exists ths', EI (GSys x (set_nth (g_threads s) t th')) ths') /\ len x' = len (g_x s) /\
    (mine t (x_mutex (g_x s)) -> mine t (x_mutex x')) /\
    (mine t (cs_sl (x_sys (g_x s)) g) -> (q = QLockU -> x_mutex (g_x s) = None) ->
     mine t (cs_sl (x_sys x') g) /\
     match out with inl q' => qcost (x_sys x') q' < qcost (x_sys (g_x s)) q /\ q' <> QLockU | inr _ => True end)).
  { intros o k q x' out l Q -> NAB -> AB NT L1 L2.
    destruct (qstep c g sh (X (g_x s) ths) t q) as [[z out2] l2] eqn:QX.
    assert (SS : same_sys (X (g_x s) ths) (g_x s)) by (repeat split).
    destruct (qstep_frame c g sh _ _ _ _ _ _ _ _ _ _ SS QX Q) as ((Z1 & Z2 & Z3) & <- & <- & Z4).
    destruct (qstep_good c g sh _ _ _ _ _ _ _ _ E2 NX' QX) as (_ & I2 & M2 & P2). specialize (I2 NAB).
    cbn in Z4. destruct z as [zy zs zm zt]. cbn [x_sys x_seqs x_mutex x_threads] in *. subst zy zs zm zt.
    assert (LL : len x' = len (g_x s)).
    { clear - Q E1. destruct E1 as [O _]. revert Q. generalize (g_x s) as y. intros y Q.
      destruct q; cbn [qstep] in Q; repeat match type of Q with
      | context [match ?x with _ => _ end] => lazymatch x with
          | context [match _ with _ => _ end] => fail
          | pstep _ _ _ _ _ => fail
          | _ => destruct x eqn:? end end;
      try (destruct (pstep _ _ _ _ _) as [[y' p'] ev] eqn:PS);
      injection Q as <- <- <-; unfold len; cbn; rewrite ?set_nth_length, ?map_length; auto;
      try (pose proof (f_equal (@List.length _) (pstep_decls _ _ _ _ _ _ _ _ PS)) as LX; rewrite !map_length in LX; exact LX);
      match goal with |- context [put_exp ?y ?m ?i ?e] =>
        pose proof (f_equal (@List.length _) (put_exp_decls y m i e)) as LX; rewrite !map_length in LX; exact LX end. }
    split; [|split; [exact LL|split; [exact M2|exact P2]]].
    exists (set_nth ths t (next o k out)). eapply EI_put; eauto.
    - pose proof (qstep_mutex _ _ _ _ _ _ Q) as [MX _]. intros t' NT'.
      destruct q; try (apply own_same; exact MX).
      + unfold own. rewrite MX. destruct (x_mutex (g_x s)); auto. destruct (Nat.eqb_spec t t'); congruence.
      + unfold own. rewrite MX. specialize (L2 eq_refl). subst o. destruct TOK as (TB & _). cbn in TB. destruct TB as [TB _].
        unfold own in TB. cbn in TB. destruct (x_mutex (g_x s)) as [t1|]; auto.
        apply Nat.eqb_eq in TB. subst t1. destruct (Nat.eqb_spec t t'); congruence.
    - pose proof (qstep_mutex _ _ _ _ _ _ Q) as [MX _]. rewrite MX.
      destruct q; destruct (x_mutex (g_x s)); auto. }
  assert (QI : forall o : xop, qinside (first o) = false) by (intros [| | |[]| | |]; reflexivity).
  assert (LPE : forall y m0 i0 (e0 : expectation V U), List.length (cs_meths (put_exp y m0 i0 e0)) = List.length (cs_meths y)).
  { intros y m0 i0 e0. pose proof (f_equal (@List.length _) (put_exp_decls y m0 i0 e0)) as LX. rewrite !map_length in LX. exact LX. }
  cut ((exists ths', EI (GSys x (set_nth (g_threads s) t th')) ths') /\ moved s t th (GSys x (set_nth (g_threads s) t th'))).
  { intros [C1 C2]. auto. }
  clear OTH. destruct A as [p gp|o k k' q|m k k'|m i k p].
  - (* between two operations *)
    assert (FREE : cs_sl (x_sys (g_x s)) g <> Some t) by (apply NOTIN; auto).
    destruct gp as [|o kk|m kk|st kk|f kk|b kk]; cbn [gtstep neat] in *.
    + injection G as <- <- <-. split; [apply (ONLY (TIdle p)); auto; constructor|]. cbn.
      rewrite set_nth_same by auto. destruct s; reflexivity.
    + injection G as <- <- <-. split; [|cbn; auto].
      apply (ONLY (TIn o (fun _ => closing (after o (own (g_x s) t))) (first o))); auto; [constructor| |split; auto].
      destruct NE as (_ & NE1 & NE2). unfold tok. rewrite QI. split; [|split; [|auto]].
      * change (own (X (g_x s) ths) t) with (own (g_x s) t).
        destruct o as [| | |[]| | |]; cbn; try (intros; apply closing_ok).
        -- destruct NE2 as [-> _]. split; auto.
        -- destruct NE2 as [-> _]. split; auto.
      * cbn. split; [destruct o; auto|]. intros. apply closing_exists.
    + injection G as <- <- <-. split; [|cbn; auto]. destruct NE as (_ & NE1 & NE2).
      apply (ONLY (TIn (XExpect m []) (fun _ => closing (own (g_x s) t)) (QLockE m []))); auto; [constructor| |split; cbn; auto].
      unfold tok. cbn. split; [intros; apply closing_ok|]. split; [split; [auto|intros; apply closing_exists]|auto].
    + destruct NE as [NE _]. discriminate.
    + injection G as <- <- <-. split; [|cbn; auto]. exists (set_nth ths t (TIdle p)).
      eapply EI_put; eauto; [|constructor|destruct (x_mutex (g_x s)) eqn:MU; cbn; rewrite MU; auto].
      apply (build g (X (g_x s) ths) (X (put_sys (g_x s) (put_world (x_sys (g_x s)) (World (f (cs_user (x_sys (g_x s)))) (cs_levels (x_sys (g_x s))) t false)) (x_seqs (g_x s))) ths) t (TIdle p) (TIdle p)); auto.
      * apply (i_one _ _ E2).
      * left. repeat split; auto.
    + destruct NE as [NE _]. discriminate.
  - (* inside an operation *)
    destruct NE as [_ NE]. cbn [gtstep] in G. destruct (qstep c g sh (g_x s) t q) as [[x' out] l] eqn:Q.
    pose proof (qstep_mutex _ _ _ _ _ _ Q) as [MX MO].
    assert (LU : (q = QLockU -> o = XLockU) /\ (q = QUnlockU -> o = XUnlockU) /\ (o = XLockU -> q = QLockU) /\ (o = XUnlockU -> q = QUnlockU)).
    { destruct TOK as (_ & _ & T3). destruct (qinside q) eqn:IQ.
      - destruct T3 as (UO & _). repeat split; intros Z; try (subst q; discriminate IQ); subst o; discriminate UO.
      - destruct T3 as [->|[[-> ->]|(UO & l1 & b1 & ->)]].
        + destruct o as [| | |[]| | |]; repeat split; cbn; intros; try discriminate; auto.
        + repeat split; discriminate.
        + repeat split; intros Z; try discriminate Z; subst o; discriminate UO. }
    destruct LU as (LU1 & LU2 & LU3 & LU4).
    assert (NAB : out <> inr Abort).
    { intros ->. injection G as <- <- <-. apply NA. exists t, o. apply in_or_app. right. left. reflexivity. }
    assert (LEN : len x' = len (g_x s) -> neat (len x') (own x' t) (match out with inl q' => GIn None o k' q' | inr r => GIdle None (k' r) end)).
    { intros ->. destruct out as [q'|r].
      - split; [auto|]. replace (own x' t) with (own (g_x s) t); [exact NE|]. apply own_same. rewrite MX.
        destruct q; auto; [|discriminate MO]. destruct (x_mutex (g_x s)); [auto|discriminate MO].
      - cbn. assert (RA : r <> Abort) by (intros ->; apply NAB; reflexivity). destruct NE as (_ & _ & NE).
        assert (KEEPO : o <> XLockU -> o <> XUnlockU -> own x' t = own (g_x s) t).
        { intros N1 N2. apply own_same. rewrite MX. destruct q; auto; [destruct N1; auto|destruct N2; auto]. }
        destruct o; try (rewrite KEEPO by discriminate; apply NE; auto; fail).
        + rewrite (LU3 eq_refl) in MX, MO. destruct NE as [NE1 NE2]. destruct (x_mutex (g_x s)) eqn:MU; [discriminate MO|].
          unfold own. rewrite MX, Nat.eqb_refl. apply NE2. auto.
        + rewrite (LU4 eq_refl) in MX. unfold own. rewrite MX. apply NE. auto. }
    assert (LX : len x' = len (g_x s)).
    { clear - Q LPE. revert Q. generalize (g_x s) as y. intros y Q.
      destruct q; cbn [qstep] in Q; repeat match type of Q with
      | context [match ?x with _ => _ end] => lazymatch x with
          | context [match _ with _ => _ end] => fail
          | pstep _ _ _ _ _ => fail
          | _ => destruct x eqn:? end end;
      try (destruct (pstep _ _ _ _ _) as [[y' p'] ev] eqn:PS);
      injection Q as <- <- <-; unfold len; cbn; rewrite ?set_nth_length, ?map_length, ?LPE; auto;
      try (pose proof (f_equal (@List.length _) (pstep_decls _ _ _ _ _ _ _ _ PS)) as LX; rewrite !map_length in LX; exact LX). }
    destruct (OP o k q x' out l Q eq_refl NAB) as (EX & _ & P1 & P2); auto.
    + destruct out; injection G as <- <- <-; reflexivity.
    + destruct out; injection G as <- <- <-; constructor.
    + destruct out; injection G as <- <- <-; auto.
    + split; [exact EX|]. cbn. intros MI MQ. unfold hold, mux in *.
      destruct (P2 MI MQ) as [P3 P4].
      assert (XX : x = x') by (destruct out; injection G as <- <- <-; reflexivity). subst x'.
      split; [exact P3|]. split; [exact P1|].
      destruct out as [q'|r]; injection G as <- <-; [left; exists q'; auto|right; exists r; split; [intros ->; apply NAB; reflexivity|auto]].
  - (* waiting for the store *)
    destruct NE as [_ NE]. cbn [gtstep] in G. destruct NE as (_ & LM & NE).
    destruct (nth_error (cs_meths (x_sys (g_x s))) m) as [cm|] eqn:M.
    2:{ exfalso. apply nth_error_None in M. unfold len in LM. lia. }
    assert (FREE : cs_sl (x_sys (g_x s)) g <> Some t) by (apply NOTIN; reflexivity).
    destruct (free (cs_sl (x_sys (g_x s)) g)) eqn:FR.
    2:{ injection G as <- <- <-. split.
        - apply (ONLY (TIn (XExpect m []) k (QLockE m []))); auto; try constructor; cbn; auto.
        - cbn. intros [MI|MI]; unfold hold in MI; [rewrite MI in FR; discriminate|congruence]. }
    assert (HN : hold s = None) by (apply free_none; exact FR).
    destruct (cs_sp (x_sys (g_x s)) g) eqn:SP; injection G as <- <- <-.
    + assert (Q : qstep c g sh (g_x s) t (QLockE m []) = (g_x s, inr (Panic MPoison), [(t, AExpect m [])])).
      { cbn. rewrite M, FR, SP. reflexivity. }
      destruct (OP _ _ _ _ _ _ Q eq_refl) as (EX & _ & P1 & P2); auto; try discriminate.
      * constructor.
      * cbn. apply (NE (Panic MPoison)). discriminate.
      * split; [exact EX|]. cbn. unfold mine, hold. cbn. intros. split; [auto|]. split; [auto|].
        exists None, (Panic MPoison). split; [discriminate|auto].
    + assert (Q : qstep c g sh (g_x s) t (QLockE m []) =
        (put_sys (g_x s) (put_sl (put_meths (x_sys (g_x s)) (set_nth (cs_meths (x_sys (g_x s))) m (push_exp c cm))) g (Some t) false) (x_seqs (g_x s)),
         inl (QSet m []), [(t, AExpect m [])])).
      { cbn. rewrite M, FR, SP. reflexivity. }
      destruct (OP _ _ _ _ _ _ Q eq_refl) as (EX & _ & P1 & P2); auto; try discriminate.
      * constructor.
      * cbn. unfold len. cbn. rewrite set_nth_length. apply (NE (Ret None)). discriminate.
      * split; [exact EX|]. cbn. unfold mine, hold. cbn. rewrite Nat.eqb_refl. intros. split; [auto|]. split; [auto|].
        exists (Some (m, List.length (cm_exps cm))), (Ret None). split; [discriminate|auto].
  - (* with a guard *)
    assert (SL : cs_sl (x_sys (g_x s)) g = Some t).
    { destruct E1 as [_ F]. apply (proj1 (F _ _ N)). reflexivity. }
    destruct TOK as (TB & TE & UO & _ & ML & RL & CE). change (own (X (g_x s) ths) t) with (own (g_x s) t) in TB.
    assert (AF : forall m0 i0, cs_ml (x_sys (g_x s)) m0 i0 = None /\ cs_rl (x_sys (g_x s)) m0 i0 = None).
    { intros m0 i0. split; [apply (ML m0 i0)|apply (RL m0 i0)]. }
    (* it keeps the guard *)
    assert (KEEPG : forall y' sq p', x = put_sys (g_x s) y' sq -> th' = GIdle (Some (m, i)) p' ->
      one_store g y' -> List.length (cs_meths y') = List.length (cs_meths (x_sys (g_x s))) ->
      (forall m0 i0, cs_ml y' m0 i0 = None /\ cs_rl y' m0 i0 = None) -> cs_sl y' g = Some t ->
      cexps y' m <> [] -> tidy (len (g_x s)) true (own (g_x s) t) p' ->
      exists ths', EI (GSys x (set_nth (g_threads s) t th')) ths').
    { intros y' sq p' -> -> O' L' AF' SL' CE' TI. exists (set_nth ths t (TIn (XExpect m []) k (QSet m []))).
      assert (OW : forall t', own (put_sys (g_x s) y' sq) t' = own (g_x s) t') by reflexivity.
      eapply EI_put; eauto.
      - apply (build g (X (g_x s) ths) (X (put_sys (g_x s) y' sq) ths) t (TIn (XExpect m []) k (QSet m [])) (TIn (XExpect m []) k (QSet m []))); auto.
        + right. split; [auto|]. cbn. rewrite SL'. split; [auto|]. eauto 6.
        + split; [exact TB|]. split; [unfold len; cbn; rewrite L'; exact TE|]. cbn. split; [auto|]. split; [auto|].
          split; [intros; apply AF'|]. split; [intros; apply AF'|exact CE'].
      - constructor.
      - unfold neat, len. cbn. rewrite L'. exact TI.
      - cbn. destruct (x_mutex (g_x s)); auto. }
    (* it drops the guard *)
    assert (LOSE : forall y' sq p', x = put_sys (g_x s) y' sq -> th' = GIdle None p' ->
      one_store g y' -> List.length (cs_meths y') = List.length (cs_meths (x_sys (g_x s))) ->
      (forall m0 i0, cs_ml y' m0 i0 = None /\ cs_rl y' m0 i0 = None) -> cs_sl y' g = None ->
      tidy (len (g_x s)) false (own (g_x s) t) p' ->
      exists ths', EI (GSys x (set_nth (g_threads s) t th')) ths').
    { intros y' sq p' -> -> O' L' AF' SL' TI. exists (set_nth ths t (TIdle (closing (own (g_x s) t)))).
      assert (OW : forall t', own (put_sys (g_x s) y' sq) t' = own (g_x s) t') by reflexivity.
      eapply EI_put; eauto.
      - apply (build g (X (g_x s) ths) (X (put_sys (g_x s) y' sq) ths) t (TIn (XExpect m []) k (QSet m [])) (TIdle (closing (own (g_x s) t)))); auto.
        + right. split; [auto|]. cbn. rewrite SL'. exact AF'.
        + split; [apply closing_ok|apply closing_exists].
      - constructor.
      - unfold neat, len. cbn. rewrite L'. exact TI.
      - cbn. destruct (x_mutex (g_x s)); auto. }
    destruct p as [|o kk|m0 kk|st kk|f kk|b kk]; cbn [gtstep neat tidy] in *;
      try (exfalso; destruct NE as [NE _]; discriminate NE).
    + destruct (cexp (x_sys (g_x s)) m i) as [e|] eqn:CX.
      2:{ exfalso. destruct E1 as [_ F]. destruct (F _ _ N) as (_ & B & _). destruct (B m i eq_refl). congruence. }
      destruct (apply_setter c t st e (x_seqs (g_x s))) as [[e' sq] r] eqn:AS. pose proof (no_abort _ _ _ _ _ _ _ _ AS) as NR.
      destruct NE as [_ NE].
      assert (PE : cs_sl (put_exp (x_sys (g_x s)) m i e') g = Some t /\
        (forall m0 i0, cs_ml (put_exp (x_sys (g_x s)) m i e') m0 i0 = None /\ cs_rl (put_exp (x_sys (g_x s)) m i e') m0 i0 = None)).
      { unfold put_exp. destruct (nth_error (cs_meths (x_sys (g_x s))) m); auto. }
      destruct PE as [PE1 PE2].
      destruct r as [[]|msg|]; injection G as <- <- <-; [| |congruence].
      * split.
        -- eapply KEEPG; eauto.
           ++ apply one_put_exp, (i_one _ _ E2).
           ++ rewrite cexps_put_exp. intros Z. apply (f_equal (@List.length _)) in Z. rewrite set_nth_length in Z.
              apply CE. change (x_sys (X (g_x s) ths)) with (x_sys (g_x s)). destruct (cexps (x_sys (g_x s)) m); [auto|discriminate Z].
           ++ apply (NE (Ret None)). discriminate.
        -- cbn. exists (Some (m, i)), (Ret None). split; [discriminate|]. split; [auto|]. split; [|auto]. right. unfold hold. cbn. congruence.
      * split.
        -- eapply LOSE; eauto.
           ++ intros m1 cm1. cbn. apply (one_put_exp g _ _ _ _ (i_one _ _ E2)).
           ++ cbn. auto.
           ++ cbn. rewrite Nat.eqb_refl. auto.
           ++ apply (NE (Panic msg)). discriminate.
        -- cbn. exists None, (Panic msg). split; [discriminate|]. split; [auto|]. split; [|auto]. left. unfold hold. cbn. rewrite Nat.eqb_refl. auto.
    + injection G as <- <- <-. split; [|cbn; auto]. eapply KEEPG; eauto; [apply (i_one _ _ E2)].
    + injection G as <- <- <-. split.
      * eapply LOSE; eauto; [apply (i_one _ _ E2)|cbn; rewrite Nat.eqb_refl; auto|apply NE].
      * cbn. unfold hold. cbn. rewrite Nat.eqb_refl. auto.
Qed.

(** ** Everybody gets to the end *)
Lemma grun_app l1 : forall l2 s, grun c g sh s (l1 ++ l2) =
  let (s1, e1) := grun c g sh s l1 in let (s2, e2) := grun c g sh s1 l2 in (s2, e1 ++ e2).
Proof.
  induction l1 as [|t l1 IH]; intros l2 s; cbn.
  - destruct (grun c g sh s l2); reflexivity.
  - destruct (gstep c g sh s t) as [s1 e1]. rewrite IH. destruct (grun c g sh s1 l1) as [s2 e2].
    destruct (grun c g sh s2 l2) as [s3 e3]. rewrite app_assoc. reflexivity.
Qed.
Lemma g_aborted_app (a b : list (gevent V U)) : g_aborted (a ++ b) <-> g_aborted a \/ g_aborted b.
Proof.
  split.
  - intros (t & o & I). apply in_app_or in I as [I|I]; [left|right]; exists t, o; auto.
  - intros [(t & o & I)|(t & o & I)]; exists t, o; apply in_or_app; auto.
Qed.
Lemma g_aborted_dec (a : list (gevent V U)) : g_aborted a \/ ~ g_aborted a.
Proof.
  destruct (existsb (fun e => match e with GvReturn _ _ Abort => true | _ => false end) a) eqn:X.
  - left. apply existsb_exists in X as (e & I & X). destruct e as [|t o []| | |]; try discriminate. exists t, o. auto.
  - right. intros (t & o & I).
    assert (Y : existsb (fun e => match e with GvReturn _ _ Abort => true | _ => false end) a = true).
    { apply existsb_exists. exists (GvReturn t o Abort). auto. } congruence.
Qed.

Definition good_state (s : gsys) : Prop := exists ths, EI s ths.

Lemma good_run sched : forall s s' tr, good_state s -> grun c g sh s sched = (s', tr) -> ~ g_aborted tr -> good_state s'.
Proof.
  induction sched as [|t sched IH]; intros s s' tr E H NA; cbn in H.
  - injection H as <- <-. auto.
  - destruct (gstep c g sh s t) as [s1 e1] eqn:S1. destruct (grun c g sh s1 sched) as [s2 e2] eqn:S2.
    injection H as <- <-. eapply IH; [|exact S2|intros A; apply NA, g_aborted_app; auto].
    destruct E as [ths E]. destruct (nth_error (g_threads s) t) as [th|] eqn:N.
    + apply (EI_step _ _ _ _ _ _ E N S1). intros A; apply NA, g_aborted_app; auto.
    + unfold gstep in S1. rewrite N in S1. injection S1 as <- <-. exists ths. auto.
Qed.

Definition greaches (s : gsys) (P : gsys -> Prop) : Prop :=
  exists sched s' tr, grun c g sh s sched = (s', tr) /\ (g_aborted tr \/ (good_state s' /\ P s')).

Lemma greaches_now s (P : gsys -> Prop) : good_state s -> P s -> greaches s P.
Proof. exists [], s, []. split; [reflexivity|auto]. Qed.
Lemma greaches_trans s (P Q : gsys -> Prop) :
  greaches s P -> (forall s', good_state s' -> P s' -> greaches s' Q) -> greaches s Q.
Proof.
  intros (l1 & s1 & e1 & R1 & [A|[I1 P1]]) H.
  - exists l1, s1, e1. auto.
  - destruct (H _ I1 P1) as (l2 & s2 & e2 & R2 & D). exists (l1 ++ l2), s2, (e1 ++ e2). split.
    + rewrite grun_app, R1, R2. reflexivity.
    + destruct D as [D|D]; auto. left. apply g_aborted_app. auto.
Qed.

Definition but (t : nat) (s s' : gsys) : Prop :=
  List.length (g_threads s') = List.length (g_threads s) /\
  forall t', t' <> t -> nth_error (g_threads s') t' = nth_error (g_threads s) t'.
Lemma but_refl t s : but t s s. Proof. split; auto. Qed.
Lemma but_trans t a b d : but t a b -> but t b d -> but t a d.
Proof. intros [A1 A2] [B1 B2]. split; [congruence|]. intros. rewrite B2, A2; auto. Qed.

Lemma one_step s t th :
  good_state s -> at_ s t th -> greaches s (fun s' => moved s t th s' /\ but t s s').
Proof.
  intros [ths E] N. destruct (gstep c g sh s t) as [s1 e1] eqn:S1.
  exists [t], s1, (e1 ++ []). cbn. rewrite S1. split; [reflexivity|]. rewrite app_nil_r.
  destruct (g_aborted_dec e1) as [A|NA]; [auto|]. right.
  destruct (EI_step _ _ _ _ _ _ E N S1 NA) as (G & M & B1 & B2). split; [exact G|]. split; [auto|]. split; auto.
Qed.

Lemma good_neat s t th : good_state s -> at_ s t th -> neat (len (g_x s)) (own (g_x s) t) th.
Proof. intros [ths E] N. apply (e_neat _ _ E). exact N. Qed.

Lemma idle_gives s t p : good_state s -> at_ s t (GIdle None p) -> mine t (hold s) -> hold s = None.
Proof.
  intros [ths E] N [H|H]; auto. pose proof (i_hold _ _ (e_inv _ _ E)) as HO. cbn in HO. unfold hold in H. rewrite H in HO.
  destruct HO as (o & k & q & A & B). pose proof (e_abs _ _ E t) as AB. unfold at_ in N. rewrite A, N in AB. inversion AB.
Qed.

Lemma finish_op t o k n : forall s q,
  good_state s -> at_ s t (GIn None o k q) -> qcost (x_sys (g_x s)) q < n ->
  mine t (hold s) -> (q = QLockU -> mux s = None) ->
  greaches s (fun s' => (exists r, r <> Abort /\ at_ s' t (GIdle None (k r))) /\ but t s s' /\ mine t (hold s') /\
                        (mine t (mux s) -> mine t (mux s'))).
Proof.
  induction n as [|n IH]; intros s q G N LT MI MX; [lia|].
  eapply greaches_trans; [apply (one_step _ _ _ G N)|]. cbn. intros s1 G1 [M1 B1].
  destruct (M1 MI MX) as (P1 & P2 & [(q' & N1 & LT' & NQ)|(r & NR & N1)]).
  - eapply greaches_trans; [apply (IH s1 q' G1 N1)|]; auto; [lia|congruence|].
    intros s2 G2 (A & B & D & E). apply greaches_now; auto. split; [auto|]. split; [eapply but_trans; eauto|]. auto.
  - apply greaches_now; auto. split; [eauto|auto].
Qed.

Lemma own_true s t : mine t (mux s) -> own (g_x s) t = false -> mux s = None.
Proof.
  intros [H|H] O; auto. unfold own in O. unfold mux in H. rewrite H, Nat.eqb_refl in O. discriminate.
Qed.

Definition ended (t : nat) (s s' : gsys) : Prop :=
  at_ s' t (GIdle None GStop) /\ but t s s' /\ hold s' = None /\ mux s' = None.

Lemma finish_prog t p : forall s gd,
  good_state s -> at_ s t (GIdle gd p) -> mine t (hold s) -> mine t (mux s) -> greaches s (ended t s).
Proof.
  induction p as [|o k IH|m k IH|st k IH|f k IH|b k IH]; intros s gd G N MI MX.
  - pose proof (good_neat _ _ _ G N) as NE. cbn in NE. destruct gd; destruct NE as [NE NE2]; [discriminate|].
    apply greaches_now; auto. split; [auto|]. split; [apply but_refl|]. split; [eapply idle_gives; eauto|].
    eapply own_true; eauto.
  - pose proof (good_neat _ _ _ G N) as NE. cbn in NE. destruct gd; destruct NE as (NE0 & NE1 & NE2); [discriminate|].
    eapply greaches_trans; [apply (one_step _ _ _ G N)|]. cbn. intros s1 G1 [(N1 & H1 & X1) B1].
    eapply greaches_trans; [apply (finish_op t o k _ s1 (first o) G1 N1 (Nat.lt_succ_diag_r _))|].
    + rewrite H1. auto.
    + intros Q. rewrite X1. destruct o as [| | |[]| | |]; try discriminate Q. eapply own_true; eauto. apply NE2.
    + intros s2 G2 ((r & NR & N2) & B2 & H2 & X2). rewrite X1 in X2.
      eapply greaches_trans; [apply (IH r s2 None G2 N2 H2 (X2 MX))|].
      intros s3 G3 (A & B3 & D & E). apply greaches_now; auto. split; [auto|].
      split; [eapply but_trans; [eapply but_trans|]; eauto|auto].
  - pose proof (good_neat _ _ _ G N) as NE. cbn in NE. destruct gd; destruct NE as (NE0 & _); [discriminate|].
    eapply greaches_trans; [apply (one_step _ _ _ G N)|]. cbn. intros s1 G1 [(N1 & H1 & X1) B1].
    eapply greaches_trans; [apply (one_step _ _ _ G1 N1)|]. cbn. intros s2 G2 [M2 B2].
    destruct M2 as (H2 & X2 & gd' & r & NR & N2); [rewrite H1; auto|].
    eapply greaches_trans; [apply (IH r s2 gd' G2 N2 H2)|]; [rewrite X2, X1; auto|].
    intros s3 G3 (A & B3 & D & E). apply greaches_now; auto. split; [auto|].
    split; [eapply but_trans; [eapply but_trans|]; eauto|auto].
  - eapply greaches_trans; [apply (one_step _ _ _ G N)|]. cbn. intros s1 G1 [(gd' & r & NR & N1 & H1 & X1) B1].
    eapply greaches_trans; [apply (IH r s1 gd' G1 N1)|].
    + destruct H1 as [H1|H1]; rewrite H1; [left; auto|auto].
    + rewrite X1. auto.
    + intros s3 G3 (A & B3 & D & E). apply greaches_now; auto. split; [auto|]. split; [eapply but_trans; eauto|auto].
  - eapply greaches_trans; [apply (one_step _ _ _ G N)|]. cbn. intros s1 G1 [(N1 & H1 & X1) B1].
    eapply greaches_trans; [apply (IH s1 gd G1 N1); [rewrite H1|rewrite X1]; auto|].
    intros s3 G3 (A & B3 & D & E). apply greaches_now; auto. split; [auto|]. split; [eapply but_trans; eauto|auto].
  - eapply greaches_trans; [apply (one_step _ _ _ G N)|]. cbn. intros s1 G1 [(N1 & H1 & X1) B1].
    eapply greaches_trans; [apply (IH s1 None G1 N1); [rewrite H1; left; auto|rewrite X1; auto]|].
    intros s3 G3 (A & B3 & D & E). apply greaches_now; auto. split; [auto|]. split; [eapply but_trans; eauto|auto].
Qed.

Lemma in_lock s t gd o k q : good_state s -> at_ s t (GIn gd o k q) -> gd = None /\ (q = QLockU -> own (g_x s) t = false).
Proof.
  intros G N. pose proof (good_neat _ _ _ G N) as [-> NE]. split; [auto|]. intros ->.
  destruct G as [ths E]. pose proof (e_abs _ _ E t) as AB. unfold at_ in N. rewrite N in AB.
  destruct (nth_error ths t) as [a|] eqn:A; [|contradiction]. inversion AB; subst.
  pose proof (i_th _ _ (e_inv _ _ E) t _ A) as (_ & _ & T). cbn in T.
  assert (o = XLockU).
  { destruct T as [T|[[_ T]|(_ & l & b & T)]]; try discriminate. destruct o as [| | |[]| | |]; try discriminate; auto. }
  subst o. apply NE.
Qed.

Lemma finish_thread t th s :
  good_state s -> at_ s t th -> mine t (hold s) -> mine t (mux s) -> greaches s (ended t s).
Proof.
  intros G N MI MX. destruct th as [gd p|gd o k q|gd m k].
  - eapply finish_prog; eauto.
  - destruct (in_lock _ _ _ _ _ _ G N) as [-> Q].
    eapply greaches_trans; [apply (finish_op t o k _ s q G N (Nat.lt_succ_diag_r _) MI)|].
    + intros E. eapply own_true; eauto.
    + intros s2 G2 ((r & NR & N2) & B2 & H2 & X2).
      eapply greaches_trans; [apply (finish_prog t (k r) s2 None G2 N2 H2 (X2 MX))|].
      intros s3 G3 (A & B3 & D & E). apply greaches_now; auto. split; [auto|]. split; [eapply but_trans; eauto|auto].
  - eapply greaches_trans; [apply (one_step _ _ _ G N)|]. cbn. intros s2 G2 [M2 B2].
    destruct (M2 MI) as (H2 & X2 & gd' & r & NR & N2).
    eapply greaches_trans; [apply (finish_prog t (k r) s2 gd' G2 N2 H2)|]; [rewrite X2; auto|].
    intros s3 G3 (A & B3 & D & E). apply greaches_now; auto. split; [auto|]. split; [eapply but_trans; eauto|auto].
Qed.

(** The holder of a guard gets rid of it without anything else. *)
Lemma release t p : forall s mi,
  good_state s -> at_ s t (GIdle (Some mi) p) -> hold s = Some t ->
  greaches s (fun s' => hold s' = None).
Proof.
  induction p as [|o k IH|m k IH|st k IH|f k IH|b k IH]; intros s mi G N H;
    pose proof (good_neat _ _ _ G N) as NE; cbn in NE; try (destruct NE as [NE _]; discriminate NE).
  - eapply greaches_trans; [apply (one_step _ _ _ G N)|]. cbn. intros s1 G1 [(gd' & r & NR & N1 & H1 & X1) B1].
    destruct H1 as [H1|H1]; [apply greaches_now; auto|]. destruct gd' as [mi'|].
    + apply (IH r s1 mi'); auto. congruence.
    + apply greaches_now; auto. eapply idle_gives; eauto. right. congruence.
  - eapply greaches_trans; [apply (one_step _ _ _ G N)|]. cbn. intros s1 G1 [(N1 & H1 & X1) B1].
    apply (IH s1 mi); auto. congruence.
  - eapply greaches_trans; [apply (one_step _ _ _ G N)|]. cbn. intros s1 G1 [(N1 & H1 & X1) B1].
    apply greaches_now; auto.
Qed.

Lemma store_first s : good_state s -> greaches s (fun s' => hold s' = None).
Proof.
  intros G. destruct (hold s) as [t|] eqn:H; [|apply greaches_now; auto].
  pose proof G as [ths E]. pose proof (i_hold _ _ (e_inv _ _ E)) as HO. cbn in HO. unfold hold in H. rewrite H in HO.
  destruct HO as (o & k & q & A & B). pose proof (e_abs _ _ E t) as AB. rewrite A in AB.
  destruct (nth_error (g_threads s) t) as [th|] eqn:N; [|contradiction]. inversion AB; subst.
  - eapply greaches_trans; [apply (finish_op t o k' _ s q G N (Nat.lt_succ_diag_r _)); [right; auto|intros ->; discriminate]|].
    intros s2 G2 ((r & NR & N2) & B2 & H2 & X2). apply greaches_now; auto. eapply idle_gives; eauto.
  - discriminate B.
  - eapply release; eauto.
Qed.

Lemma finish_all n : forall s,
  good_state s -> hold s = None -> mux s = None -> n <= List.length (g_threads s) ->
  greaches s (fun s' => List.length (g_threads s') = List.length (g_threads s) /\ hold s' = None /\ mux s' = None /\
    forall t, t < n -> at_ s' t (GIdle None GStop)).
Proof.
  induction n as [|n IH]; intros s G H M LE.
  - apply greaches_now; auto. repeat split; auto. intros; lia.
  - eapply greaches_trans; [apply (IH s G H M); lia|]. intros s1 G1 (L1 & H1 & M1 & D1).
    destruct (nth_error (g_threads s1) n) as [th|] eqn:N; [|apply nth_error_None in N; lia].
    eapply greaches_trans; [apply (finish_thread n th s1 G1 N); left; auto|].
    intros s2 G2 (A & [B1 B2] & B3 & B4). apply greaches_now; auto. split; [congruence|]. split; [auto|]. split; [auto|].
    intros t LT. destruct (Nat.eq_dec t n) as [->|NE]; auto. unfold at_. rewrite B2 by auto. apply D1. lia.
Qed.

Lemma all_finish s : good_state s -> greaches s (fun s' => forall th, In th (g_threads s') -> th = GIdle None GStop).
Proof.
  intros G. eapply greaches_trans; [apply (store_first s G)|]. intros s1 G1 H1.
  assert (ALL : forall s1, good_state s1 -> hold s1 = None -> mux s1 = None ->
    greaches s1 (fun s' => forall th, In th (g_threads s') -> th = GIdle None GStop)).
  { clear. intros s1 G1 H M. eapply greaches_trans; [apply (finish_all (List.length (g_threads s1)) s1); auto|].
    intros s2 G2 (L & _ & _ & D). apply greaches_now; auto. intros th IN. apply In_nth_error in IN as [t N].
    unfold at_ in D. rewrite D in N; [congruence|]. rewrite <- L. apply nth_error_Some. congruence. }
  destruct (mux s1) as [t|] eqn:M; [|auto].
  pose proof G1 as [ths E]. pose proof (e_mutex _ _ E) as EM. unfold mux in M. rewrite M in EM.
  destruct (nth_error (g_threads s1) t) as [th|] eqn:N; [|apply nth_error_None in N; lia].
  eapply greaches_trans; [apply (finish_thread t th s1 G1 N); [left; auto|right; auto]|].
  intros s2 G2 (A & B & C0 & D). auto.
Qed.

Lemma start_good u l q ms poison progs :
  (forall cm, In cm ms -> cm_mutex cm = Some g) -> Forall (tidy (List.length ms) false false) progs ->
  good_state (gstart u l q ms poison progs).
Proof.
  intros HM T. rewrite Forall_forall in T. exists (map (fun _ => TIdle Stop) progs). split.
  - apply gstart_inv. auto.
  - split.
    + intros m cm N. apply HM. eapply nth_error_In. exact N.
    + intros t th N. cbn in N. rewrite nth_error_map in N. destruct (nth_error progs t); [|discriminate].
      injection N as <-. split; cbn; auto.
    + cbn. split; reflexivity.
  - intros t. cbn. rewrite !nth_error_map. destruct (nth_error progs t); cbn; auto. constructor.
  - intros t th N. cbn in N. rewrite nth_error_map in N. destruct (nth_error progs t) as [p|] eqn:P; [|discriminate].
    injection N as <-. cbn. apply T. eapply nth_error_In. exact P.
  - cbn. auto.
Qed.

Lemma guards_can_end u l q ms poison progs sched s' tr :
  (forall cm, In cm ms -> cm_mutex cm = Some g) -> Forall (tidy (List.length ms) false false) progs ->
  grun c g sh (gstart u l q ms poison progs) sched = (s', tr) ->
  exists more s2 tr2, grun c g sh s' more = (s2, tr2) /\
    (g_aborted (tr ++ tr2) \/ forall th, In th (g_threads s2) -> th = GIdle None GStop).
Proof.
  intros HM T H. destruct (g_aborted_dec tr) as [A|NA].
  - exists [], s', []. split; [reflexivity|]. left. apply g_aborted_app. auto.
  - destruct (all_finish s') as (more & s2 & tr2 & R & D).
    { eapply good_run; [|exact H|exact NA]. apply start_good; auto. }
    exists more, s2, tr2. split; [exact R|]. destruct D as [D|[_ D]]; [left; apply g_aborted_app; auto|auto].
Qed.
End End.
