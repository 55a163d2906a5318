(** * GuardsMore: whole lives of guards, threads that wait for themselves, and builder chains *)

From Coq Require Import NArith List Bool String Lia Arith.
From Verif Require Import Base Times Expect Mock Conc ConcSpec ConcProofs LockProofs ThreadProofs LinProofs
  Contexts ContextsSpec ContextsProofs ContextsEnd Guards GuardsSpec GuardsProofs.
Import ListNotations.
Open Scope nat_scope.

Local Arguments apply_setter : simpl never.
Local Arguments set_nth : simpl never.
Local Arguments drop_store : simpl never.
Local Arguments put_exp : simpl never.
Local Arguments pstep : simpl never.

Section Guards.
Context {V U : Type} (c : cfg) (g : nat) (sh : list (cmeth V U) -> list (cmeth V U)).
Notation csys := (csys V U).
Notation xsys := (xsys V U).
Notation xpc := (xpc V U).
Notation gsys := (gsys V U).
Notation gthread := (gthread V U).
Notation GI := (GI g).

(** ** The life of a guard *)
Lemma guard_begins s t s1 ev t' m i :
  gstep c g sh s t = (s1, ev) -> In (GvGuard t' m i) ev ->
  exists k cm gd, t' = t /\ nth_error (g_threads s) t = Some (GLock gd m k) /\ nth_error (cs_meths (x_sys (g_x s))) m = Some cm /\
    i = List.length (cm_exps cm) /\ cs_sl (x_sys (g_x s)) g = None /\ cs_sp (x_sys (g_x s)) g = false /\
    s1 = GSys (put_sys (g_x s) (put_sl (put_meths (x_sys (g_x s)) (set_nth (cs_meths (x_sys (g_x s))) m (push_exp c cm))) g (Some t) false) (x_seqs (g_x s)))
              (set_nth (g_threads s) t (GIdle (Some (m, i)) (k (Ret None)))).
Proof.
  intros H I. unfold gstep in H. destruct (nth_error (g_threads s) t) as [th|] eqn:N; [|injection H as <- <-; destruct I].
  destruct (gtstep c g sh (g_x s) t th) as [[x th'] ev'] eqn:G. injection H as <- <-.
  destruct th as [gd p|gd o k q|gd m0 k]; cbn [gtstep] in G.
  - exfalso. destruct p; destruct gd as [[? ?]|]; try (injection G as <- <- <-; destruct I; fail).
    + destruct (cexp _ _ _); [|injection G as <- <- <-; destruct I].
      destruct (apply_setter _ _ _ _ _) as [[e' sq] r].
      destruct r as [[]|msg|]; injection G as <- <- <-; cbn in I; intuition discriminate.
    + injection G as <- <- <-. cbn in I. intuition discriminate.
  - exfalso. destruct (qstep _ _ _ _ _ _) as [[s1 out] l]. destruct out; injection G as <- <- <-.
    + destruct (atoms_only _ _ I) as (? & ? & E & _). discriminate.
    + apply in_app_iff in I. destruct I as [I|[I|[]]]; [|discriminate].
      destruct (atoms_only _ _ I) as (? & ? & E & _). discriminate.
  - destruct (nth_error (cs_meths (x_sys (g_x s))) m0) as [cm|] eqn:M; [|injection G as <- <- <-; destruct I].
    destruct (free _) eqn:F; [|injection G as <- <- <-; destruct I]. apply free_none in F.
    destruct (cs_sp _ _) eqn:P; injection G as <- <- <-; cbn in I; [intuition discriminate|].
    destruct I as [I|[I|[]]]; [discriminate|]. injection I as <- <- <-.
    exists k, cm, gd. auto 10.
Qed.

Lemma guard_ends s t s3 ev t' b :
  gstep c g sh s t = (s3, ev) -> In (GvGone t' b) ev ->
  exists m i, t' = t /\
  ((exists k, nth_error (g_threads s) t = Some (GIdle (Some (m, i)) (GDrop b k)) /\ ev = [GvGone t b] /\
      s3 = GSys (put_sys (g_x s) (put_sl (x_sys (g_x s)) g None b) (x_seqs (g_x s))) (set_nth (g_threads s) t (GIdle None k))) \/
   (exists st k e e' sq r, nth_error (g_threads s) t = Some (GIdle (Some (m, i)) (GSet st k)) /\
      ev = [GvSet t st; GvGone t b] /\ cexp (x_sys (g_x s)) m i = Some e /\
      apply_setter c t st e (x_seqs (g_x s)) = (e', sq, r) /\ r <> Ret tt /\
      b = match r with Panic _ => true | _ => false end /\
      s3 = GSys (put_sys (g_x s) (put_sl (put_exp (x_sys (g_x s)) m i e') g None b) sq)
             (set_nth (g_threads s) t (GIdle None (k (let? x := r in Ret None)))))).
Proof.
  intros H I. unfold gstep in H. destruct (nth_error (g_threads s) t) as [th|] eqn:N; [|injection H as <- <-; destruct I].
  destruct (gtstep c g sh (g_x s) t th) as [[x th'] ev'] eqn:G. injection H as <- <-.
  destruct th as [gd p|gd o k q|gd m0 k]; cbn [gtstep] in G.
  - destruct p as [|o k|m0 k|st k|f k|b0 p]; destruct gd as [[m i]|]; try (injection G as <- <- <-; destruct I; fail).
    + destruct (cexp _ _ _) as [e|] eqn:CE; [|injection G as <- <- <-; destruct I].
      destruct (apply_setter _ _ _ _ _) as [[e' sq] r] eqn:AS.
      destruct r as [[]|msg|]; injection G as <- <- <-; cbn in I.
      * intuition discriminate.
      * destruct I as [I|[I|[]]]; [discriminate|]. injection I as <- <-.
        exists m, i. split; [auto|]. right. exists st, k, e, e', sq, (Panic msg). repeat split; auto; discriminate.
      * destruct I as [I|[I|[]]]; [discriminate|]. injection I as <- <-.
        exists m, i. split; [auto|]. right. exists st, k, e, e', sq, Abort. repeat split; auto; discriminate.
    + injection G as <- <- <-. destruct I as [I|[]]. injection I as <- <-. exists m, i. split; [auto|].
      left. exists p. auto.
  - exfalso. destruct (qstep _ _ _ _ _ _) as [[s1 out] l]. destruct out; injection G as <- <- <-.
    + destruct (atoms_only _ _ I) as (? & ? & E & _). discriminate.
    + apply in_app_iff in I. destruct I as [I|[I|[]]]; [|discriminate].
      destruct (atoms_only _ _ I) as (? & ? & E & _). discriminate.
  - exfalso. destruct (nth_error (cs_meths (x_sys (g_x s))) m0) as [cm|] eqn:M; [|injection G as <- <- <-; destruct I].
    destruct (free _) eqn:F; [|injection G as <- <- <-; destruct I].
    destruct (cs_sp _ _) eqn:P; injection G as <- <- <-; cbn in I; intuition discriminate.
Qed.

Lemma lifetime s0 t s1 ev1 m i sched s2 tr s3 ev3 b :
  GI s0 -> gstep c g sh s0 t = (s1, ev1) -> In (GvGuard t m i) ev1 ->
  grun c g sh s1 sched = (s2, tr) -> guard_stays t tr -> no_new_sequences tr ->
  gstep c g sh s2 t = (s3, ev3) -> In (GvGone t b) ev3 ->
  let '((ms, poison, u, l), q, r) := atomic_op c sh (seen g s0) (t, AExpect m (setters_of t (tr ++ ev3))) in
  cs_meths (x_sys (g_x s3)) = ms /\ x_seqs (g_x s3) = q /\
  cs_sp (x_sys (g_x s3)) g = b /\ cs_sl (x_sys (g_x s3)) g = None /\
  ((poison = b /\ exists st k, nth_error (g_threads s2) t = Some (GIdle (Some (m, i)) (GSet st k)) /\
                   nth_error (g_threads s3) t = Some (GIdle None (k r))) \/
   (poison = false /\ r = Ret None /\ exists k, nth_error (g_threads s2) t = Some (GIdle (Some (m, i)) (GDrop b k)) /\
                   nth_error (g_threads s3) t = Some (GIdle None k))).
Proof.
  intros I S1 E1 R ST NS S3 E3.
  destruct (guard_begins _ _ _ _ _ _ _ S1 E1) as (k0 & cm & gd & _ & N0 & M & -> & L0 & P0 & ES1).
  pose proof (gstep_inv c g sh _ _ _ _ I S1) as I1.
  set (i := List.length (cm_exps cm)) in *.
  assert (HG : has_guard s1 t m i).
  { exists (GIdle (Some (m, i)) (k0 (Ret None))). rewrite ES1. cbn. rewrite nth_set_nth, Nat.eqb_refl, N0. auto. }
  destruct (guard_run c g sh _ _ _ _ _ _ _ I1 HG R ST) as [HG2 (_ & K & _)].
  assert (C1 : cexp (x_sys (g_x s1)) m i = Some (expectation_default c (cm_me cm) KStatic)).
  { rewrite ES1. unfold cexp, cexps. cbn. rewrite nth_set_nth, Nat.eqb_refl, M. cbn.
    rewrite nth_error_app2, Nat.sub_diag by lia. reflexivity. }
  destruct (K NS _ C1) as (e' & AS & M2).
  assert (SQ1 : x_seqs (g_x s1) = x_seqs (g_x s0)) by (rewrite ES1; reflexivity).
  assert (W : forall e, with_exp (cs_meths (x_sys (g_x s1))) m i e =
    set_nth (cs_meths (x_sys (g_x s0))) m (CMeth (cm_me cm) (cm_mutex cm) (cm_exps cm ++ [e]))).
  { intros e. rewrite ES1. unfold with_exp. cbn. rewrite nth_set_nth, Nat.eqb_refl, M. cbn. rewrite set_nth_twice.
    do 2 f_equal. pose proof (set_last (cm_exps cm) (expectation_default c (cm_me cm) KStatic) e) as X.
    rewrite app_length in X. cbn in X. replace (Nat.pred (List.length (cm_exps cm) + 1)) with i in X by (unfold i; lia). exact X. }
  assert (C2 : cexp (x_sys (g_x s2)) m i = Some e').
  { eapply with_exp_cexp; [exact M2|]. rewrite ES1. cbn. rewrite nth_set_nth, Nat.eqb_refl, M. cbn.
    rewrite nth_error_app2, Nat.sub_diag by lia. discriminate. }
  destruct HG2 as (th2 & N2 & G2).
  destruct (guard_ends _ _ _ _ _ _ S3 E3) as (m' & i' & _ & [(k & N & -> & ES3)|(st & k & e & e2 & sq & r & N & -> & CE & A2 & NR & BB & ES3)]).
  - rewrite N2 in N. injection N as ->. cbn in G2. injection G2 as -> ->.
    rewrite setters_app. cbn [setters_of]. rewrite app_nil_r. unfold atomic_op, seen. rewrite M, P0, <- SQ1, AS.
    rewrite ES3. cbn. rewrite Nat.eqb_refl. rewrite M2, W. repeat split; auto.
    right. split; [auto|]. split; [auto|]. exists k. rewrite nth_set_nth, Nat.eqb_refl, N2. auto.
  - rewrite N2 in N. injection N as ->. cbn in G2. injection G2 as -> ->. rewrite C2 in CE. injection CE as <-.
    rewrite setters_app. cbn [setters_of]. rewrite Nat.eqb_refl. unfold atomic_op, seen. rewrite M, P0, <- SQ1.
    rewrite (apply_setters_app c _ _ _ _ _ _ _ AS). cbn [apply_setters]. rewrite A2.
    assert (RR : (match r with Ret _ => (e2, sq, Ret tt) | Panic m => (e2, sq, Panic m) | Abort => (e2, sq, Abort) end) = (e2, sq, r)).
    { destruct r as [[]|mm|]; auto. }
    rewrite RR. subst s3. cbn. rewrite with_exp_put, M2, with_exp_twice, W. rewrite Nat.eqb_refl.
    repeat split; auto. left. split; [auto|]. exists st, k. rewrite nth_set_nth, Nat.eqb_refl, N2. auto.
Qed.

(** ** A thread that waits for itself *)
Definition waits (th : gthread) : Prop :=
  match th with
  | GIdle (Some _) (GDo o _) => needs_store o = true
  | GIdle (Some _) (GExpect _ _) => True
  | GIn (Some _) o _ q => needs_store o = true /\ (q = first o \/ q = QLockD)
  | GLock (Some _) _ _ => True
  | _ => False
  end.

Lemma qstep_waits (s : xsys) t (o : xop V U) q s' out l :
  one_store g (x_sys s) -> cs_sl (x_sys s) g = Some t -> needs_store o = true -> q = first o \/ q = QLockD ->
  qstep c g sh s t q = (s', out, l) -> exists q', out = inl q' /\ (q' = first o \/ q' = QLockD).
Proof.
  intros O L N Q H.
  assert (D : qstep c g sh s t QLockD = (s, inl QLockD, [])) by (cbn; rewrite L; reflexivity).
  destruct Q as [->| ->]; [|rewrite D in H; injection H as <- <- <-; eauto].
  destruct o as [x|m l0| |[]| | |]; try discriminate N; cbn [first qstep pc_call] in H.
  - destruct (nth_error _ _) as [cm|] eqn:M; [|injection H as <- <- <-; eauto].
    unfold pstep in H. rewrite (O _ _ M), L in H. injection H as <- <- <-. cbn. eauto.
  - destruct (nth_error _ _); [rewrite L in H|]; injection H as <- <- <-; eauto.
  - rewrite L in H. injection H as <- <- <-. eauto.
  - injection H as <- <- <-. eauto.
  - rewrite L in H. injection H as <- <- <-. eauto.
Qed.

Lemma wait_step s t th t0 s' ev :
  GI s -> nth_error (g_threads s) t = Some th -> waits th -> gstep c g sh s t0 = (s', ev) ->
  (exists th', nth_error (g_threads s') t = Some th' /\ waits th' /\ guard_of th' = guard_of th) /\
  (forall o r, ~ In (GvReturn t o r) ev) /\ guard_stays t ev /\ (forall st, ~ In (GvSet t st) ev).
Proof.
  intros [O F] N W H. unfold gstep in H. destruct (nth_error (g_threads s) t0) as [th0|] eqn:N0.
  2:{ injection H as <- <-. split; [eauto|]. split; [intros ? ? []|split; intros ? []]. }
  destruct (gtstep c g sh (g_x s) t0 th0) as [[x th'] ev'] eqn:G. injection H as <- <-. cbn [g_threads g_x].
  destruct (Nat.eq_dec t t0) as [<-|NE].
  - rewrite N in N0. injection N0 as <-. destruct (F _ _ N) as (A & _).
    assert (Q : (waits th' /\ guard_of th' = guard_of th) /\ forall e, In e ev' -> exists t a, e = GvAtom t a).
    { destruct th as [[mi|] [| o k|m k| | |]|[mi|] o k q|[mi|] m k]; cbn in W; try contradiction; cbn [gtstep] in G.
      - destruct mi. injection G as <- <- <-. split; [|intros ? []]. split; [|reflexivity]. cbn. auto.
      - destruct mi. injection G as <- <- <-. split; [|intros ? []]. split; [|reflexivity]. cbn. auto.
      - specialize (A eq_refl). destruct W as [W1 W2]. destruct (qstep c g sh (g_x s) t q) as [[s1 out] l] eqn:QS.
        destruct (qstep_waits _ _ _ _ _ _ _ O A W1 W2 QS) as (q' & -> & Q). injection G as <- <- <-.
        split; [split; [cbn; auto|reflexivity]|]. intros e I. destruct (atoms_only _ _ I) as (? & ? & E & _). eauto.
      - specialize (A eq_refl). destruct (nth_error (cs_meths (x_sys (g_x s))) m); [rewrite A in G|]; injection G as <- <- <-;
        (split; [split; [cbn; auto|reflexivity]|intros ? []]). }
    destruct Q as [[Q1 Q2] E]. split.
    + exists th'. rewrite nth_set_nth, Nat.eqb_refl, N. auto.
    + split; [intros o r I|split; [intros b I|intros st I]]; destruct (E _ I) as (? & ? & X); discriminate.
  - split.
    + exists th. rewrite nth_set_nth. destruct (Nat.eqb_spec t t0); [congruence|auto].
    + assert (T : forall e, In e ev' -> match e with GvReturn t' _ _ | GvGone t' _ | GvSet t' _ => t' = t0 | _ => True end).
      { intros e I. clear - G I. destruct th0 as [gd p|gd o k q|gd m0 k]; cbn [gtstep] in G.
        - destruct p; destruct gd as [[? ?]|]; try (injection G as <- <- <-; destruct I; fail).
          + destruct (cexp _ _ _); [|injection G as <- <- <-; destruct I].
            destruct (apply_setter _ _ _ _ _) as [[e' sq] r].
            destruct r as [[]|msg|]; injection G as <- <- <-; cbn in I; intuition subst; auto.
          + injection G as <- <- <-. cbn in I. intuition subst; auto.
        - destruct (qstep _ _ _ _ _ _) as [[s1 out] l]. destruct out; injection G as <- <- <-.
          + destruct (atoms_only _ _ I) as (? & ? & -> & _). auto.
          + apply in_app_iff in I. destruct I as [I|[<-|[]]]; [|auto].
            destruct (atoms_only _ _ I) as (? & ? & -> & _). auto.
        - destruct (nth_error _ _) as [cm|]; [|injection G as <- <- <-; destruct I].
          destruct (free _); [|injection G as <- <- <-; destruct I].
          destruct (cs_sp _ _); injection G as <- <- <-; cbn in I; intuition subst; auto. }
      split; [intros o r I|split; [intros b I|intros st I]]; specialize (T _ I); cbn in T; auto.
Qed.

Lemma wait_run sched s s' tr t th :
  GI s -> nth_error (g_threads s) t = Some th -> waits th -> grun c g sh s sched = (s', tr) ->
  (exists th', nth_error (g_threads s') t = Some th' /\ waits th' /\ guard_of th' = guard_of th) /\
  (forall o r, ~ In (GvReturn t o r) tr) /\ guard_stays t tr /\ (forall st, ~ In (GvSet t st) tr).
Proof.
  revert s s' tr th. induction sched as [|t0 sched IH]; intros s s' tr th I N W H; cbn in H.
  - injection H as <- <-. split; [eauto|]. split; [intros ? ? []|split; intros ? []].
  - destruct (gstep c g sh s t0) as [s1 e1] eqn:S1. destruct (grun c g sh s1 sched) as [s2 e2] eqn:S2.
    injection H as <- <-. destruct (wait_step _ _ _ _ _ _ I N W S1) as ((th1 & N1 & W1 & G1) & A1 & A2 & A3).
    destruct (IH _ _ _ _ (gstep_inv c g sh _ _ _ _ I S1) N1 W1 S2) as ((th2 & N2 & W2 & G2) & B1 & B2 & B3).
    split; [exists th2; repeat split; auto; congruence|].
    unfold guard_stays in *.
    split; [intros o r X|split; [intros b X|intros st X]]; apply in_app_iff in X; destruct X as [X|X];
      [eapply A1|eapply B1|eapply A2|eapply B2|eapply A3|eapply B3]; exact X.
Qed.

Lemma waits_guard th : waits th -> exists mi, guard_of th = Some mi.
Proof. destruct th as [[mi|] []|[mi|]|[mi|]]; cbn; intros; try contradiction; eauto. Qed.

Lemma setters_none t (tr : list (gevent V U)) : (forall st, ~ In (GvSet t st) tr) -> setters_of t tr = [].
Proof.
  induction tr as [|e tr IH]; cbn; intros H; auto.
  assert (X : setters_of t tr = []) by (apply IH; intros st I; apply (H st); auto).
  destruct e as [| | |t' st|]; auto. destruct (Nat.eqb_spec t' t) as [->|]; auto. destruct (H st). auto.
Qed.

Lemma self_wait sched s s' tr t th :
  GI s -> nth_error (g_threads s) t = Some th -> waits th -> grun c g sh s sched = (s', tr) ->
  (forall o r, ~ In (GvReturn t o r) tr) /\ guard_stays t tr /\
  (forall t' a, In (GvAtom t' a) tr -> touches a = false) /\
  (forall t' m i, ~ In (GvGuard t' m i) tr) /\
  (no_new_sequences tr -> cs_meths (x_sys (g_x s')) = cs_meths (x_sys (g_x s))).
Proof.
  intros I N W H. destruct (wait_run _ _ _ _ _ _ I N W H) as (_ & A & B & D).
  destruct (waits_guard _ W) as [[m i] G].
  assert (HG : has_guard s t m i) by (exists th; auto).
  destruct (guard_run c g sh _ _ _ _ _ _ _ I HG H B) as [_ ((K1 & K2 & _) & K3 & _)].
  split; [auto|]. split; [auto|]. split; [auto|]. split; [auto|]. intros NS. destruct (guard_cexp g _ _ _ _ I HG) as (CE & _).
  destruct (cexp (x_sys (g_x s)) m i) as [e|] eqn:E; [|congruence].
  destruct (K3 NS e eq_refl) as (e' & AS & M). rewrite (setters_none _ _ D) in AS. cbn in AS. injection AS as <- _.
  rewrite M. apply with_exp_same. auto.
Qed.

(** ** The holder of a guard can go on *)
Lemma holder_moves s t m i p s' ev :
  GI s -> nth_error (g_threads s) t = Some (GIdle (Some (m, i)) p) -> gstep c g sh s t = (s', ev) ->
  match p with
  | GSet _ k => exists r, nth_error (g_threads s') t = Some (GIdle (match r with Ret _ => Some (m, i) | _ => None end) (k r))
  | GUser f k => nth_error (g_threads s') t = Some (GIdle (Some (m, i)) k) /\ cs_user (x_sys (g_x s')) = f (cs_user (x_sys (g_x s)))
  | GDrop b k => nth_error (g_threads s') t = Some (GIdle None k) /\ cs_sl (x_sys (g_x s')) g = None
  | _ => True
  end.
Proof.
  intros [O F] N H. unfold gstep in H. rewrite N in H.
  destruct (gtstep c g sh (g_x s) t (GIdle (Some (m, i)) p)) as [[x th'] ev'] eqn:G. injection H as <- <-.
  assert (NT : nth_error (set_nth (g_threads s) t th') t = Some th') by (rewrite nth_set_nth, Nat.eqb_refl, N; auto).
  destruct (F _ _ N) as (_ & B & _). destruct (B m i eq_refl) as [CE _].
  destruct p as [| | |st k|f k|b k]; auto; cbn [gtstep g_threads g_x] in *.
  - destruct (cexp _ _ _); [|congruence]. destruct (apply_setter _ _ _ _ _) as [[e' sq] r].
    destruct r as [[]|msg|]; injection G as <- <- <-.
    + exists (Ret None). auto.
    + exists (Panic msg). auto.
    + exists Abort. auto.
  - injection G as <- <- <-. auto.
  - injection G as <- <- <-. cbn. rewrite Nat.eqb_refl. auto.
Qed.

(** ** Builder chains *)
Definition plus (k : answer V -> prog V U) (r : answer V) : gprog V U := with_guards (k r).

Inductive same : xthread V U -> gthread -> Prop :=
| sm_idle p : same (TIdle p) (GIdle None (with_guards p))
| sm_in o k q : (forall m l, o <> XExpect m l) -> same (TIn o k q) (GIn None o (plus k) q)
| sm_lock m l k :
    same (TIn (XExpect m l) k (QLockE m l))
         (GLock None m (fun r => match r with Ret _ => chain l (plus k) | _ => plus k r end))
| sm_set m l0 l k i : same (TIn (XExpect m l0) k (QSet m l)) (GIdle (Some (m, i)) (chain l (plus k))).

Definition same_sys (a b : xsys) : Prop := x_sys a = x_sys b /\ x_seqs a = x_seqs b /\ x_mutex a = x_mutex b.

Definition SIM (s : xsys) (s' : gsys) : Prop :=
  same_sys s (g_x s') /\
  (forall t, match nth_error (x_threads s) t, nth_error (g_threads s') t with
   | Some a, Some b => same a b
   | None, None => True
   | _, _ => False
   end).

Lemma qstep_frame (s s' : xsys) t q a out l b out' l' :
  same_sys s s' -> qstep c g sh s t q = (a, out, l) -> qstep c g sh s' t q = (b, out', l') ->
  same_sys a b /\ out' = out /\ l' = l /\ x_threads a = x_threads s.
Proof.
  destruct s as [y sq mx ths], s' as [y2 sq2 mx2 ths2]. intros (E1 & E2 & E3). cbn in E1, E2, E3. subst y2 sq2 mx2.
  intros H H'.
  assert (S0 : forall ya sa ma, same_sys (XSys ya sa ma ths) (XSys ya sa ma ths2)) by (repeat split).
  destruct q as [p|m l0|m l0| | | |b0|l0 b0| | |u]; cbn [qstep x_sys x_seqs x_mutex x_threads] in H, H'.
  - destruct (pc_call p); [|injection H as <- <- <-; injection H' as <- <- <-; auto].
    destruct (nth_error _ _); [|injection H as <- <- <-; injection H' as <- <- <-; auto].
    destruct (pstep _ _ _ _ _) as [[y' p'] ev]. injection H as <- <- <-; injection H' as <- <- <-; auto.
  - destruct (nth_error _ _); [|injection H as <- <- <-; injection H' as <- <- <-; auto].
    destruct (free _); [|injection H as <- <- <-; injection H' as <- <- <-; auto].
    destruct (cs_sp _ _); injection H as <- <- <-; injection H' as <- <- <-; auto.
  - destruct l0 as [|st l0]; [injection H as <- <- <-; injection H' as <- <- <-; auto|].
    destruct (cexp _ _ _); [|injection H as <- <- <-; injection H' as <- <- <-; auto].
    destruct (apply_setter _ _ _ _ _) as [[e' sq'] r].
    destruct r as [[]|msg|]; injection H as <- <- <-; injection H' as <- <- <-; auto.
  - destruct (free _); [|injection H as <- <- <-; injection H' as <- <- <-; auto].
    destruct (cs_sp _ _); injection H as <- <- <-; injection H' as <- <- <-; auto.
  - injection H as <- <- <-; injection H' as <- <- <-; auto.
  - destruct (free _); [|injection H as <- <- <-; injection H' as <- <- <-; auto].
    destruct (cs_sp _ _); injection H as <- <- <-; injection H' as <- <- <-; auto.
  - injection H as <- <- <-; injection H' as <- <- <-; auto.
  - injection H as <- <- <-; injection H' as <- <- <-; auto.
  - destruct mx; injection H as <- <- <-; injection H' as <- <- <-; auto.
  - injection H as <- <- <-; injection H' as <- <- <-; auto.
  - injection H as <- <- <-; injection H' as <- <- <-; auto.
Qed.

Lemma pieces_map (l : list (nat * atom V U)) xs gs : pieces_x xs = pieces_g gs ->
  pieces_x (map (fun ta => XAtom (fst ta) (snd ta)) l ++ xs) = pieces_g (map (fun ta => GvAtom (fst ta) (snd ta)) l ++ gs).
Proof. intros E. induction l; cbn; [auto|f_equal; auto]. Qed.
Lemma returns_map (l : list (nat * atom V U)) xs gs : returns_x xs = returns_g gs ->
  returns_x (map (fun ta => XAtom (fst ta) (snd ta)) l ++ xs) = returns_g (map (fun ta => GvAtom (fst ta) (snd ta)) l ++ gs).
Proof. intros E. induction l; cbn; auto. Qed.

Lemma SIM_step s s' t s1 ev s1' ev' :
  SIM s s' -> GI s' -> xstep c g sh s t = (s1, ev) -> gstep c g sh s' t = (s1', ev') ->
  SIM s1 s1' /\ pieces_x ev = pieces_g ev' /\ returns_x ev = returns_g ev'.
Proof.
  intros [SS TH] [O F] H H'. unfold xstep in H. unfold gstep in H'. pose proof (TH t) as T.
  destruct (nth_error (x_threads s) t) as [a|] eqn:NA, (nth_error (g_threads s') t) as [b|] eqn:NB; try contradiction.
  2:{ injection H as <- <-. injection H' as <- <-. repeat split; auto; apply SS. }
  destruct (gtstep c g sh (g_x s') t b) as [[x' th'] gev] eqn:G. injection H' as <- <-.
  assert (PUT : forall z a', same_sys z x' -> x_threads z = x_threads s -> same a' th' ->
    SIM (put_xthread z t a') (GSys x' (set_nth (g_threads s') t th'))).
  { intros z a' E1 E2 E3. split; [exact E1|]. intros t0. cbn. rewrite E2, !nth_set_nth.
    destruct (Nat.eqb_spec t0 t) as [->|NE]; [rewrite NA, NB; exact E3|apply TH]. }
  assert (KEEP : forall z a', s1 = z -> same_sys z x' -> x_threads z = set_nth (x_threads s) t a' -> same a' th' ->
    SIM s1 (GSys x' (set_nth (g_threads s') t th'))).
  { intros z a' -> E1 E2 E3. split; [exact E1|]. intros t0. cbn. rewrite E2, !nth_set_nth.
    destruct (Nat.eqb_spec t0 t) as [->|NE]; [rewrite NA, NB; exact E3|apply TH]. }
  assert (STAY : forall a', x_threads s = set_nth (x_threads s) t a -> a' = a -> s1 = s -> same_sys s x' -> same a th' ->
    SIM s1 (GSys x' (set_nth (g_threads s') t th'))).
  { intros a' _ _ -> E1 E3. split; [exact E1|]. intros t0. cbn. rewrite nth_set_nth.
    destruct (Nat.eqb_spec t0 t) as [->|NE]; [rewrite NA, NB; exact E3|apply TH]. }
  destruct T as [p|o k q NX|m l k|m l0 l k i].
  - destruct p as [|o k].
    + injection H as <- <-. cbn in G. injection G as <- <- <-. split; [|auto]. eapply STAY; eauto.
      * symmetry. apply set_nth_same. auto.
      * apply (sm_idle Stop).
    + injection H as <- <-. destruct o as [x|m l| | | | |].
      all: cbn in G; injection G as <- <- <-; (split; [|auto]); apply PUT; auto; try (apply sm_in; discriminate).
      apply sm_lock.
  - destruct (qstep c g sh s t q) as [[s2 out] l2] eqn:Q1. cbn [gtstep] in G.
    destruct (qstep c g sh (g_x s') t q) as [[s2' out'] l2'] eqn:Q2.
    destruct (qstep_frame _ _ _ _ _ _ _ _ _ _ SS Q1 Q2) as (E1 & -> & -> & E2).
    destruct out as [q'|r]; injection H as <- <-; injection G as <- <- <-.
    + split; [apply PUT; auto; apply sm_in; auto|]. split.
      * pose proof (pieces_map l2 [] [] eq_refl) as X. rewrite !app_nil_r in X. exact X.
      * pose proof (returns_map l2 [] [] eq_refl) as X. rewrite !app_nil_r in X. exact X.
    + split; [apply PUT; auto; apply sm_idle|]. split.
      * apply pieces_map. reflexivity.
      * apply returns_map. destruct o; try reflexivity. destruct (NX m l). reflexivity.
  - destruct s as [y sq mx ths]. destruct SS as (E1 & E2 & E3). cbn in E1, E2, E3.
    cbn [qstep gtstep x_sys x_seqs x_mutex x_threads] in H, G. rewrite <- E1 in G.
    assert (Y : same_sys (XSys y sq mx ths) (g_x s')) by (repeat split; auto).
    destruct (nth_error (cs_meths y) m) as [cm|] eqn:M.
    2:{ injection H as <- <-. injection G as <- <- <-. split; [|auto]. apply PUT; auto. apply sm_lock. }
    destruct (free (cs_sl y g)) eqn:FR.
    2:{ injection H as <- <-. injection G as <- <- <-. split; [|auto]. apply PUT; auto. apply sm_lock. }
    destruct (cs_sp y g) eqn:P; injection H as <- <-; injection G as <- <- <-.
    + split; [|auto]. apply PUT; auto. apply sm_idle.
    + split; [|auto]. apply PUT; auto; [|apply sm_set]. repeat split; auto.
  - destruct s as [y sq mx ths]. destruct SS as (E1 & E2 & E3). cbn in E1, E2, E3.
    destruct (F _ _ NB) as (_ & B & _). destruct (B m i eq_refl) as [B1 B2].
    destruct l as [|st l]; cbn [qstep gtstep chain x_sys x_seqs x_mutex x_threads] in H, G; rewrite <- E1 in *.
    + injection H as <- <-. injection G as <- <- <-. split; [|auto]. apply PUT; auto; [repeat split; auto|apply (sm_idle (k (Ret None)))].
    + rewrite <- B2 in H. cbn [Nat.pred] in H. rewrite <- E2 in G.
      destruct (cexp y m i) as [e|]; [|congruence].
      destruct (apply_setter c t st e sq) as [[e' sq'] r].
      destruct r as [[]|msg|]; injection H as <- <-; injection G as <- <- <-; (split; [|auto]).
      * apply PUT; auto; [repeat split; auto|apply sm_set].
      * apply PUT; auto; [repeat split; auto|apply (sm_idle (k (Panic msg)))].
      * apply PUT; auto; [repeat split; auto|apply (sm_idle (k Abort))].
Qed.

Lemma SIM_run sched s s' s1 ev s1' ev' :
  SIM s s' -> GI s' -> xrun c g sh s sched = (s1, ev) -> grun c g sh s' sched = (s1', ev') ->
  SIM s1 s1' /\ pieces_x ev = pieces_g ev' /\ returns_x ev = returns_g ev'.
Proof.
  assert (PA : forall a b : list (xevent V U), pieces_x (a ++ b) = pieces_x a ++ pieces_x b)
    by (induction a as [|[] a IH]; cbn; intros; [auto|auto|f_equal; auto|auto]).
  assert (PB : forall a b : list (gevent V U), pieces_g (a ++ b) = pieces_g a ++ pieces_g b)
    by (induction a as [|[] a IH]; cbn; intros; auto; f_equal; auto).
  assert (RA : forall a b : list (xevent V U), returns_x (a ++ b) = returns_x a ++ returns_x b).
  { induction a as [|[|t0 a0|t0 o r] a IH]; cbn; intros; auto. destruct o; cbn; rewrite IH; auto. }
  assert (RB : forall a b : list (gevent V U), returns_g (a ++ b) = returns_g a ++ returns_g b)
    by (induction a as [|[] a IH]; cbn; intros; auto; f_equal; auto).
  revert s s' s1 ev s1' ev'. induction sched as [|t sched IH]; intros s s' s1 ev s1' ev' S0 I H H'; cbn in H, H'.
  - injection H as <- <-. injection H' as <- <-. auto.
  - destruct (xstep c g sh s t) as [a1 e1] eqn:A1. destruct (xrun c g sh a1 sched) as [a2 e2] eqn:A2.
    destruct (gstep c g sh s' t) as [b1 f1] eqn:B1. destruct (grun c g sh b1 sched) as [b2 f2] eqn:B2.
    injection H as <- <-. injection H' as <- <-.
    destruct (SIM_step _ _ _ _ _ _ _ S0 I A1 B1) as (S1 & P1 & R1).
    destruct (IH _ _ _ _ _ _ S1 (gstep_inv c g sh _ _ _ _ I B1) A2 B2) as (S2 & P2 & R2).
    split; [auto|]. rewrite PA, PB, RA, RB. split; congruence.
Qed.

Lemma SIM_start u l q ms poison progs : SIM (xstart u l q ms poison progs) (gstart u l q ms poison (map with_guards progs)).
Proof.
  split; [repeat split|]. intros t. cbn. rewrite !nth_error_map. destruct (nth_error progs t); cbn; auto. apply sm_idle.
Qed.
End Guards.
