(** * ContextsEnd: operations on a static store never wait for ever *)

From Coq Require Import NArith List Bool String Lia Arith.
From Verif Require Import Base Times Expect Mock Conc ConcSpec ConcProofs LockProofs ThreadProofs LinProofs
  Contexts ContextsSpec ContextsProofs.
Import ListNotations.
Open Scope nat_scope.

Local Arguments apply_setter : simpl never.
Local Arguments set_nth : simpl never.
Local Arguments drop_store : simpl never.
Local Arguments put_exp : simpl never.
Local Arguments pstep : simpl never.

Section End.
Context {V U : Type} (c : cfg) (g : nat) (sh : list (cmeth V U) -> list (cmeth V U)).
Notation csys := (csys V U).
Notation xop := (xop V U).
Notation prog := (prog V U).
Notation xevent := (xevent V U).
Notation answer := (answer V).
Notation xsys := (xsys V U).
Notation xpc := (xpc V U).
Notation xthread := (xthread V U).

Definition own (s : xsys) (t : nat) : bool :=
  match x_mutex s with Some t' => Nat.eqb t' t | None => false end.
Definition len (s : xsys) : nat := List.length (cs_meths (x_sys s)).

Definition qm (q : xpc) : option (nat * nat) := match q with QCall p => mheld p | _ => None end.
Definition qr (y : csys) (q : xpc) : option (nat * nat) := match q with QCall p => rheld y p | _ => None end.

(** What is known of the thread that holds the store. *)
Definition qok (y : csys) (t : nat) (q : xpc) : Prop :=
  (forall m i, cs_ml y m i = if holds eq2 (qm q) (m, i) then Some t else None) /\
  (forall m i, cs_rl y m i = if holds eq2 (qr y q) (m, i) then Some t else None) /\
  match q with
  | QCall p => pc_ok y p
  | QSet m l => cexps y m <> []
  | _ => True
  end.

Definition tok (s : xsys) (t : nat) (th : xthread) : Prop :=
  match th with
  | TIdle p => brackets (own s t) p /\ existing (len s) p
  | TIn o k q =>
      brackets (own s t) (Do o k) /\ existing (len s) (Do o k) /\
      (if qinside q then uses o = true /\ cs_sl (x_sys s) g = Some t /\ qok (x_sys s) t q
       else q = first o \/ (o = XDrop true /\ q = QLockD) \/ (uses o = true /\ exists l b, q = QVec l b))
  end.

Definition all_free (y : csys) : Prop := forall m i, cs_ml y m i = None /\ cs_rl y m i = None.

Record INV (s : xsys) : Prop := MkINV {
  i_one : one_store g (x_sys s);
  i_th : forall t th, nth_error (x_threads s) t = Some th -> tok s t th;
  i_hold : match cs_sl (x_sys s) g with
           | None => all_free (x_sys s)
           | Some t => exists o k q, nth_error (x_threads s) t = Some (TIn o k q) /\ qinside q = true
           end
}.

Lemma qok_frame (y y' : csys) t q :
  cs_meths y' = cs_meths y -> (forall m i, cs_ml y' m i = cs_ml y m i) ->
  (forall m i, cs_rl y' m i = cs_rl y m i) -> qok y t q -> qok y' t q.
Proof.
  intros M ML RL (A & B & D). split; [|split].
  - intros m i. rewrite ML. apply A.
  - intros m i. rewrite RL, B. replace (qr y' q) with (qr y q); [reflexivity|].
    unfold qr, rheld, static_at, cexp, cexps. destruct q; auto. rewrite M. reflexivity.
  - destruct q; auto.
    + revert D. unfold pc_ok, static_at, cexp, cexps. rewrite M. auto.
    + revert D. unfold cexps. rewrite M. auto.
Qed.

Lemma build s s' t th th' :
  INV s -> nth_error (x_threads s) t = Some th -> x_threads s' = x_threads s ->
  one_store g (x_sys s') -> len s' = len s ->
  (forall t', t' <> t -> own s' t' = own s t') ->
  (cs_meths (x_sys s') = cs_meths (x_sys s) /\ (forall m i, cs_ml (x_sys s') m i = cs_ml (x_sys s) m i) /\
   (forall m i, cs_rl (x_sys s') m i = cs_rl (x_sys s) m i) /\ cs_sl (x_sys s') g = cs_sl (x_sys s) g /\
   cs_sl (x_sys s) g <> Some t) \/
  ((cs_sl (x_sys s) g = None \/ cs_sl (x_sys s) g = Some t) /\
   match cs_sl (x_sys s') g with
   | None => all_free (x_sys s')
   | Some t' => t' = t /\ exists o k q, th' = TIn o k q /\ qinside q = true
   end) ->
  tok s' t th' -> INV (put_xthread s' t th').
Proof.
  intros [I1 I2 I3] Ht TH O L OW F TK. split; [exact O| |].
  - intros t' th2 N. simpl in N. rewrite TH, nth_set_nth in N. destruct (Nat.eqb_spec t' t) as [->|NE].
    + rewrite Ht in N. injection N as <-. exact TK.
    + specialize (I2 _ _ N). destruct th2 as [p|o k q]; simpl in *.
      * change (len (put_xthread s' t th')) with (len s').
        change (own (put_xthread s' t th') t') with (own s' t'). rewrite L, OW by auto. exact I2.
      * change (len (put_xthread s' t th')) with (len s').
        change (own (put_xthread s' t th') t') with (own s' t'). rewrite L, OW by auto.
        destruct I2 as (A & B & D). split; [exact A|]. split; [exact B|].
        destruct (qinside q); [|exact D]. destruct D as (D1 & D2 & D3). split; [auto|].
        destruct F as [(M & ML & RL & SL & NS)|([SL|SL] & _)]; [|congruence|congruence].
        split; [congruence|]. eapply qok_frame; eauto.
  - simpl. destruct F as [(M & ML & RL & SL & NS)|(SL & F)].
    + rewrite SL. destruct (cs_sl (x_sys s) g) as [t0|].
      * destruct I3 as (o & k & q & N & IN). exists o, k, q. split; auto.
        rewrite TH, nth_set_nth. destruct (Nat.eqb_spec t0 t); congruence.
      * intros m i. rewrite ML, RL. apply I3.
    + destruct (cs_sl (x_sys s') g) as [t'|]; [|exact F].
      destruct F as [-> (o & k & q & -> & IN)]. exists o, k, q. split; auto.
      rewrite TH, nth_set_nth, Nat.eqb_refl, Ht. reflexivity.
Qed.

Definition qcost (y : csys) (q : xpc) : nat :=
  match q with
  | QCall p => S (pcost y p)
  | QLockE m l => 2 + List.length l
  | QSet m l => 1 + List.length l
  | QClear => 4
  | QLockC | QLockD => 3
  | QDrain _ => 2
  | _ => 1
  end.

(** The store and the mutex are not held by other threads. *)
Definition mine (t : nat) (o : option nat) : Prop := o = None \/ o = Some t.

Lemma one_put_exp (y : csys) m i e : one_store g y -> one_store g (put_exp y m i e).
Proof.
  intros O m' cm' N. pose proof (proj1 (decls_mutex _ _ m' (put_exp_decls y m i e))) as D.
  rewrite N in D. destruct (nth_error (cs_meths y) m') as [cm1|] eqn:E.
  - rewrite D. eapply O; eauto.
  - pose proof (f_equal (@List.length _) (put_exp_decls y m i e)) as L. rewrite !map_length in L.
    apply nth_error_None in E. rewrite <- L in E. apply nth_error_None in E. congruence.
Qed.

Lemma pstep_one (y : csys) t cm p y' p' ev :
  one_store g y -> pstep c y t cm p = (y', p', ev) ->
  one_store g y' /\ List.length (cs_meths y') = List.length (cs_meths y).
Proof.
  intros O H. pose proof (pstep_decls _ _ _ _ _ _ _ _ H) as D.
  pose proof (f_equal (@List.length _) D) as L. rewrite !map_length in L. split; [|exact L].
  intros m cm' N. pose proof (proj1 (decls_mutex _ _ m D)) as Q. rewrite N in Q.
  destruct (nth_error (cs_meths y) m) as [cm1|] eqn:E.
  - rewrite Q. eapply O; eauto.
  - apply nth_error_None in E. rewrite <- L in E. apply nth_error_None in E. congruence.
Qed.

Lemma pcost_same (y y' : csys) p : (forall m, explen y' m = explen y m) -> pcost y' p = pcost y p.
Proof. intros H. destruct p; simpl; rewrite ?H; reflexivity. Qed.

Lemma inside_call p : inside p = true -> exists x : ccall V, pc_call (U := U) p = Some x.
Proof. destruct p; simpl; intros; try discriminate; eauto. Qed.

Lemma returned_answer t (ev : list (event V)) (x : ccall V) :
  map fst (returned ev) = [(t, x)] -> exists r, call_answer ev = Some r.
Proof. induction ev as [|[] ev IH]; simpl; try discriminate; eauto. Qed.

Definition good (s s' : xsys) (t : nat) (o : xop) k (q : xpc) (out : xpc + answer) : Prop :=
  x_threads s' = x_threads s /\
  (out <> inr Abort -> INV (put_xthread s' t (next o k out))) /\
  (mine t (x_mutex s) -> mine t (x_mutex s')) /\
  (mine t (cs_sl (x_sys s) g) -> (q = QLockU -> x_mutex s = None) ->
   mine t (cs_sl (x_sys s') g) /\
   match out with inl q' => qcost (x_sys s') q' < qcost (x_sys s) q /\ q' <> QLockU | inr _ => True end).

Lemma brackets_next (s : xsys) t (o : xop) k r : uses o = true -> r <> Abort -> brackets (own s t) (Do o k) -> brackets (own s t) (k r).
Proof. destruct o; simpl; intros; try discriminate; auto. Qed.
Lemma existing_next n (o : xop) k (r : answer) : r <> Abort -> existing n (Do o k) -> existing n (k r).
Proof. simpl. intros NA [_ H]. auto. Qed.

Lemma holder_good s t o k q s' out l :
  INV s -> nth_error (x_threads s) t = Some (TIn o k q) -> qinside q = true ->
  qstep c g sh s t q = (s', out, l) -> good s s' t o k q out.
Proof.
  intros I Ht IN H. pose proof (i_th _ I _ _ Ht) as (TB & TE & T3). rewrite IN in T3.
  destruct T3 as (US & SL & ML & RL & Q).
  assert (NEXT : forall y' seqs r, len (XSys y' seqs (x_mutex s) (x_threads s)) = len s -> r <> Abort ->
    tok (XSys y' seqs (x_mutex s) (x_threads s)) t (TIdle (k r))).
  { intros y' seqs r L NA. split.
    - apply (brackets_next s t o k r); auto.
    - rewrite L. eapply existing_next; eauto. }
  destruct q; try discriminate IN; cbn [qstep] in H.
  - (* a call *)
    simpl in IN. destruct (inside_call _ IN) as [x PX]. rewrite PX in H.
    destruct (proj1 Q x PX) as [cm Hm]. rewrite Hm in H.
    destruct (pstep c (x_sys s) t cm p) as [[y' p'] ev] eqn:ES.
    pose proof (i_one _ I _ _ Hm) as G.
    pose proof (pstep_marks c g _ _ _ _ _ _ _ _ PX G ES) as [_ MK].
    destruct (pstep_ml _ _ _ _ _ _ _ _ ES Q) as [ML' _].
    { intros m i E. rewrite ML. simpl. rewrite (proj2 (holds_iff eq2 _ _) E). reflexivity. }
    destruct (pstep_rl _ _ _ _ _ _ _ _ Q ES) as [RL' _].
    { intros m i E. rewrite RL. simpl. rewrite (proj2 (holds_iff eq2 _ _) E). reflexivity. }
    assert (SH : forall p0, inside p0 = true -> pc_call p0 = Some x -> sheld (x_sys s) p0 = Some g).
    { intros p0 I0 P0. unfold sheld. rewrite P0, Hm. destruct p0; try discriminate; exact G. }
    destruct (pstep_sl _ _ _ _ _ _ _ _ _ PX Hm ES Q) as [SL' _].
    { intros g' E. rewrite (SH _ IN PX) in E. injection E as <-. auto. }
    specialize (SL' g). rewrite (SH _ IN PX) in SL'. simpl holds in SL'.
    destruct (pstep_one _ _ _ _ _ _ _ (i_one _ I) ES) as [O' L'].
    pose proof (pstep_pc_ok _ _ _ _ _ _ _ _ _ PX Hm ES Q) as Q'.
    assert (D : map decl_of (cs_meths y') = map decl_of (cs_meths (x_sys s))) by (eapply pstep_decls; eauto).
    assert (QY : pc_ok y' p').
    { eapply pc_ok_same; [exact D| | |exact Q'].
      - intros. eapply pstep_static; eauto.
      - intros. eapply pstep_index; eauto. }
    assert (RS : rheld y' p' = rheld (x_sys s) p').
    { apply rheld_same. intros. eapply pstep_static; eauto. }
    assert (LK : forall m i, cs_ml y' m i = if holds eq2 (mheld p') (m, i) then Some t else None).
    { intros m i. rewrite ML'. destruct (holds eq2 (mheld p') (m, i)); auto. rewrite ML. simpl.
      destruct (holds eq2 (mheld p) (m, i)); auto. }
    assert (RK : forall m i, cs_rl y' m i = if holds eq2 (rheld y' p') (m, i) then Some t else None).
    { intros m i. rewrite RL', RS. destruct (holds eq2 (rheld (x_sys s) p') (m, i)); auto. rewrite RL. simpl.
      destruct (holds eq2 (rheld (x_sys s) p) (m, i)); auto. }
    assert (HG : forall b1 b2 : option nat, (if holds Nat.eq_dec (Some g) g then b1 else b2) = b1).
    { intros. unfold holds. destruct (Nat.eq_dec g g); congruence. }
    rewrite HG in SL'.
    destruct (pstep_progress _ _ _ _ _ _ _ _ _ PX Hm Q ES) as [BL|LT].
    { exfalso. destruct p; simpl in *; try contradiction; try discriminate IN.
      - apply BL. rewrite ML. reflexivity.
      - apply BL. rewrite ML. reflexivity.
      - apply BL. rewrite RL. reflexivity.
      - apply BL. rewrite ML. reflexivity. }
    assert (CO : pcost y' p' = pcost (x_sys s) p').
    { apply pcost_same. intros. apply decls_len. auto. }
    destruct (inside p') eqn:IN'.
    + (* still inside *)
      assert (PX' : pc_call p' = Some x /\ call_answer (V := V) ev = None).
      { destruct p; try discriminate IN; destruct p'; try discriminate IN'; destruct MK as (A & B & R); split;
          auto using call_answer_none. }
      destruct PX' as [PX' CA]. rewrite CA in H. injection H as <- <- <-.
      rewrite (SH _ IN' PX'), HG in SL'.
      split; [reflexivity|]. split; [|split; [auto|]].
      * intros _. eapply build; eauto.
        -- right. simpl. rewrite SL'. split; [auto|]. split; [auto|]. simpl. eauto 6.
        -- simpl. split; [exact TB|]. split; [unfold len in *; simpl in *; rewrite L'; exact TE|].
           rewrite IN'. split; [auto|]. split; [auto|]. split; [exact LK|]. split; [exact RK|exact QY].
      * intros _ _. simpl. rewrite SL'. split; [right; auto|]. rewrite CO. split; [lia|discriminate].
    + assert (PI : p' = PIdle).
      { destruct p'; try discriminate IN'; auto. destruct p; try discriminate IN; contradiction. }
      subst p'. simpl in SL'.
      assert (CA : exists r, call_answer (V := V) ev = Some r).
      { destruct p; try discriminate IN; destruct MK as (_ & MK); eapply returned_answer; eauto. }
      destruct CA as [r CA]. rewrite CA in H. injection H as <- <- <-.
      split; [reflexivity|]. split; [|split; [auto|]].
      * intros NA. eapply build; eauto.
        -- right. simpl. rewrite SL'. split; [auto|]. intros m i. rewrite LK, RK. auto.
        -- apply NEXT; [unfold len; simpl; auto|intros E0; apply NA; rewrite E0; reflexivity].
      * intros _ _. simpl. rewrite SL'. split; [left; auto|auto].
  - (* a builder *)
    destruct l0 as [|st l0]; cbn [qstep] in H.
    + injection H as <- <- <-. split; [reflexivity|]. split; [|split; [auto|]].
      * intros NA. eapply build; eauto.
        -- apply (i_one _ I).
        -- right. simpl. rewrite Nat.eqb_refl. split; [auto|]. intros m' i. simpl. rewrite ML, RL. auto.
        -- apply NEXT; [reflexivity|discriminate].
      * intros _ _. simpl. rewrite Nat.eqb_refl. split; [left; auto|auto].
    + destruct (cexp (x_sys s) m (Nat.pred (List.length (cexps (x_sys s) m)))) as [e|] eqn:CE.
      2:{ exfalso. unfold cexp in CE. apply nth_error_None in CE.
          destruct (cexps (x_sys s) m); simpl in *; [congruence|lia]. }
      destruct (apply_setter c t st e (x_seqs s)) as [[e' sq] r] eqn:AS.
      set (i := Nat.pred (List.length (cexps (x_sys s) m))) in *.
      assert (LN : List.length (cs_meths (put_exp (x_sys s) m i e')) = List.length (cs_meths (x_sys s))).
      { pose proof (f_equal (@List.length _) (put_exp_decls (x_sys s) m i e')) as L. rewrite !map_length in L. auto. }
      destruct r as [[]|msg|]; injection H as <- <- <-.
      * split; [reflexivity|]. split; [|split; [auto|]].
        -- intros NA. eapply build; eauto.
           ++ apply one_put_exp. apply (i_one _ I).
           ++ right. simpl. rewrite put_exp_sl, SL. split; [auto|]. split; [auto|]. simpl. eauto 6.
           ++ simpl. split; [exact TB|]. split; [unfold len in *; simpl in *; rewrite LN; exact TE|].
              rewrite put_exp_sl. split; [auto|]. split; [auto|]. split; [|split].
              ** intros. rewrite put_exp_ml. apply ML.
              ** intros. rewrite put_exp_rl. apply RL.
              ** rewrite cexps_put_exp. intros E. apply (f_equal (@List.length _)) in E.
                 rewrite set_nth_length in E. destruct (cexps (x_sys s) m); [congruence|discriminate].
        -- intros _ _. simpl. rewrite put_exp_sl, SL. split; [right; auto|]. simpl. split; [lia|discriminate].
      * split; [reflexivity|]. split; [|split; [auto|]].
        -- intros NA. eapply build; eauto.
           ++ apply one_put_exp. apply (i_one _ I).
           ++ right. simpl. rewrite Nat.eqb_refl. split; [auto|]. intros m' i'. simpl.
              rewrite put_exp_ml, put_exp_rl, ML, RL. auto.
           ++ apply NEXT; [unfold len; simpl; auto|intros E0; apply NA; rewrite E0; reflexivity].
        -- intros _ _. simpl. rewrite Nat.eqb_refl. split; [left; auto|auto].
      * split; [reflexivity|]. split; [congruence|split; [auto|]].
        intros _ _. simpl. rewrite Nat.eqb_refl. split; [left; auto|auto].
  - (* draining *)
    injection H as <- <- <-. split; [reflexivity|]. split; [|split; [auto|]].
    + intros NA. eapply build; eauto.
      * intros m cm N. simpl in N. rewrite nth_error_map in N.
        destruct (nth_error (cs_meths (x_sys s)) m) as [cm0|] eqn:E; [|discriminate]. injection N as <-.
        simpl. eapply (i_one _ I); eauto.
      * unfold len. simpl. apply map_length.
      * right. simpl. rewrite Nat.eqb_refl. split; [auto|]. intros m' i. simpl. rewrite ML, RL. auto.
      * simpl. split; [exact TB|]. split; [unfold len in *; simpl in *; rewrite map_length; exact TE|].
        right. right. split; auto. eauto.
    + intros _ _. simpl. rewrite Nat.eqb_refl. split; [left; auto|]. split; [lia|discriminate].
Qed.

Lemma own_none (y : csys) sq th t : own (XSys y sq None th) t = false.
Proof. reflexivity. Qed.

Lemma not_mine (s : xsys) t q : INV s -> forall o k, nth_error (x_threads s) t = Some (TIn o k q) ->
  qinside q = false -> cs_sl (x_sys s) g <> Some t.
Proof.
  intros I o k Ht NI E. pose proof (i_hold _ I) as H. rewrite E in H. destruct H as (o' & k' & q' & A & B). congruence.
Qed.

Lemma other_good s t o k q s' out l :
  INV s -> nth_error (x_threads s) t = Some (TIn o k q) -> qinside q = false ->
  qstep c g sh s t q = (s', out, l) -> good s s' t o k q out.
Proof.
  intros I Ht NI H. pose proof (i_th _ I _ _ Ht) as (TB & TE & T3). rewrite NI in T3.
  pose proof (not_mine _ _ _ I _ _ Ht NI) as NS.
  assert (STAY : q <> QLockU \/ x_mutex s <> None -> cs_sl (x_sys s) g <> None \/ (q = QLockU /\ x_mutex s <> None) ->
     good s s t o k q (inl q)).
  { intros _ BL. split; [reflexivity|]. split; [|split; [auto|]].
    - intros _. eapply build; eauto.
      + apply (i_one _ I).
      + left. repeat split; auto.
      + simpl. rewrite NI. auto.
    - intros [A|A] B; [|congruence]. destruct BL as [BL|[-> BL]]; [congruence|]. specialize (B eq_refl). congruence. }
  assert (RET : forall r, uses o = true -> good s s t o k q (inr r)).
  { intros r US. split; [reflexivity|]. split; [|split; [auto|auto]].
    intros NA. eapply build; eauto.
    - apply (i_one _ I).
    - left. repeat split; auto.
    - assert (NA' : r <> Abort) by (intros E0; apply NA; rewrite E0; reflexivity). split.
      + apply (brackets_next s t o k r); auto.
      + eapply existing_next; eauto. }
  destruct T3 as [->|[[-> ->]|(US & l1 & b & ->)]].
  - destruct o as [x|m l0| |[]| | |u]; cbn [first qstep pc_call] in H.
    + (* call *)
      destruct TE as [TE TE2]. destruct (nth_error (cs_meths (x_sys s)) (cc_m x)) as [cm|] eqn:Hm.
      2:{ apply nth_error_None in Hm. unfold len in TE. lia. }
      unfold pstep in H. rewrite (i_one _ I _ _ Hm) in H.
      destruct (free (cs_sl (x_sys s) g)) eqn:F.
      * apply free_none in F. destruct (cs_sp (x_sys s) g); injection H as <- <- <-.
        -- destruct s. apply RET. reflexivity.
        -- split; [reflexivity|]. split; [|split; [auto|]].
           ++ intros _. eapply build; eauto.
              ** apply (i_one _ I).
              ** right. simpl. rewrite Nat.eqb_refl. split; [auto|]. split; [auto|]. simpl. eauto 6.
              ** pose proof (i_hold _ I) as FR. rewrite F in FR.
                 simpl. split; [exact TB|]. split; [split; [exact TE|exact TE2]|].
                 split; [auto|]. rewrite Nat.eqb_refl. split; [auto|]. split; [|split].
                 --- intros m i. simpl. apply FR.
                 --- intros m i. simpl. apply FR.
                 --- split; [|split; [|split]]; simpl.
                     +++ intros x0 [= <-]. eauto.
                     +++ discriminate.
                     +++ discriminate.
                     +++ intros x0 i [[f E]|[[r E]|E]]; discriminate.
           ++ intros _ _. simpl. rewrite Nat.eqb_refl. split; [right; auto|].
              simpl. unfold explen, cexps. simpl. split; [lia|discriminate].
      * injection H as <- <- <-. simpl. destruct s. apply STAY; [left; discriminate|].
        left. simpl in F. intros E. simpl in E. rewrite E in F. discriminate.
    + (* expect *)
      destruct TE as [TE TE2]. destruct (nth_error (cs_meths (x_sys s)) m) as [cm|] eqn:Hm.
      2:{ apply nth_error_None in Hm. unfold len in TE. lia. }
      destruct (free (cs_sl (x_sys s) g)) eqn:F.
      * apply free_none in F. destruct (cs_sp (x_sys s) g); injection H as <- <- <-.
        -- apply RET. reflexivity.
        -- pose proof (i_hold _ I) as FR. rewrite F in FR.
           split; [reflexivity|]. split; [|split; [auto|]].
           ++ intros _. eapply build; eauto.
              ** intros i x. simpl. apply (one_store_set g) with (cm := cm); auto. apply (i_one _ I).
              ** unfold len. simpl. apply set_nth_length.
              ** right. simpl. rewrite Nat.eqb_refl. split; [auto|]. split; [auto|]. simpl. eauto 6.
              ** simpl. split; [exact TB|]. split; [unfold len in *; simpl; rewrite set_nth_length; split; [exact TE|exact TE2]|].
                 split; [auto|]. rewrite Nat.eqb_refl. split; [auto|]. split; [|split].
                 --- intros m' i. simpl. apply FR.
                 --- intros m' i. simpl. apply FR.
                 --- unfold cexps. simpl. rewrite nth_set_nth, Nat.eqb_refl, Hm. simpl.
                     intros E. apply app_eq_nil in E as [_ E]. discriminate.
           ++ intros _ _. simpl. rewrite Nat.eqb_refl. split; [right; auto|]. simpl. split; [lia|discriminate].
      * injection H as <- <- <-. apply STAY; [left; discriminate|].
        left. intros E. rewrite E in F. discriminate.
    + (* checkpoint *)
      destruct (free (cs_sl (x_sys s) g)) eqn:F.
      * apply free_none in F. destruct (cs_sp (x_sys s) g); injection H as <- <- <-.
        -- apply RET. reflexivity.
        -- pose proof (i_hold _ I) as FR. rewrite F in FR.
           split; [reflexivity|]. split; [|split; [auto|]].
           ++ intros _. eapply build; eauto.
              ** apply (i_one _ I).
              ** right. simpl. rewrite Nat.eqb_refl. split; [auto|]. split; [auto|]. simpl. eauto 6.
              ** simpl. split; [exact TB|]. split; [exact TE|].
                 split; [auto|]. rewrite Nat.eqb_refl. split; [auto|]. split; [|split; [|exact Logic.I]];
                   intros m' i; simpl; apply FR.
           ++ intros _ _. simpl. rewrite Nat.eqb_refl. split; [right; auto|]. simpl. split; [lia|discriminate].
      * injection H as <- <- <-. apply STAY; [left; discriminate|].
        left. intros E. rewrite E in F. discriminate.
    + (* clear *)
      injection H as <- <- <-. split; [reflexivity|]. split; [|split; [auto|]].
      * intros _. eapply build; eauto.
        -- apply (i_one _ I).
        -- left. simpl. rewrite Nat.eqb_refl. repeat split; auto.
        -- simpl. split; [exact TB|]. split; [exact TE|]. auto.
      * intros MI _. simpl. rewrite Nat.eqb_refl. split; [auto|]. split; [lia|discriminate].
    + (* drop *)
      destruct (free (cs_sl (x_sys s) g)) eqn:F.
      * apply free_none in F. destruct (cs_sp (x_sys s) g); injection H as <- <- <-.
        -- apply RET. reflexivity.
        -- pose proof (i_hold _ I) as FR. rewrite F in FR.
           split; [reflexivity|]. split; [|split; [auto|]].
           ++ intros _. eapply build; eauto.
              ** apply (i_one _ I).
              ** right. simpl. rewrite Nat.eqb_refl. split; [auto|]. split; [auto|]. simpl. eauto 6.
              ** simpl. split; [exact TB|]. split; [exact TE|].
                 split; [auto|]. rewrite Nat.eqb_refl. split; [auto|]. split; [|split; [|exact Logic.I]];
                   intros m' i; simpl; apply FR.
           ++ intros _ _. simpl. rewrite Nat.eqb_refl. split; [right; auto|]. simpl. split; [lia|discriminate].
      * injection H as <- <- <-. apply STAY; [left; discriminate|].
        left. intros E. rewrite E in F. discriminate.
    + (* lock *)
      destruct (x_mutex s) as [t0|] eqn:MX; injection H as <- <- <-.
      * apply STAY; [right; congruence|]. right. split; [reflexivity|congruence].
      * split; [reflexivity|]. split; [|split; [|]].
        -- intros _. eapply build; eauto.
           ++ apply (i_one _ I).
           ++ intros t' NE. unfold own. simpl. rewrite MX. apply Nat.eqb_neq. auto.
           ++ left. repeat split; auto.
           ++ simpl in TB. destruct TB as [_ TB]. split.
              ** unfold own. simpl. rewrite Nat.eqb_refl. apply TB. discriminate.
              ** eapply existing_next; [|exact TE]. discriminate.
        -- intros _. right. reflexivity.
        -- intros MI _. simpl. auto.
    + (* unlock *)
      simpl in TB. destruct TB as [OW TB]. injection H as <- <- <-.
      split; [reflexivity|]. split; [|split; [|]].
      * intros _. eapply build; eauto.
        -- apply (i_one _ I).
        -- intros t' NE. unfold own in *. simpl. destruct (x_mutex s) as [t0|]; auto.
           apply Nat.eqb_eq in OW. subst t0. symmetry. apply Nat.eqb_neq. auto.
        -- left. repeat split; auto.
        -- split.
           ++ unfold own. simpl. apply TB. discriminate.
           ++ eapply existing_next; [|exact TE]. discriminate.
      * intros _. left. reflexivity.
      * intros MI _. simpl. auto.
    + (* setup *)
      injection H as <- <- <-. split; [reflexivity|]. split; [|split; [auto|]].
      * intros _. eapply build; eauto.
        -- apply (i_one _ I).
        -- left. repeat split; auto.
        -- split.
           ++ simpl in TB. apply TB. discriminate.
           ++ eapply existing_next; [|exact TE]. discriminate.
      * intros MI _. simpl. auto.
  - (* lock for the drop *)
    cbn [qstep] in H. destruct (free (cs_sl (x_sys s) g)) eqn:F.
    + apply free_none in F. destruct (cs_sp (x_sys s) g); injection H as <- <- <-.
      * apply RET. reflexivity.
      * pose proof (i_hold _ I) as FR. rewrite F in FR.
        split; [reflexivity|]. split; [|split; [auto|]].
        -- intros _. eapply build; eauto.
           ++ apply (i_one _ I).
           ++ right. simpl. rewrite Nat.eqb_refl. split; [auto|]. split; [auto|]. simpl. eauto 6.
           ++ simpl. split; [exact TB|]. split; [exact TE|].
              split; [auto|]. rewrite Nat.eqb_refl. split; [auto|]. split; [|split; [|exact Logic.I]];
                intros m' i; simpl; apply FR.
        -- intros _ _. simpl. rewrite Nat.eqb_refl. split; [right; auto|]. simpl. split; [lia|discriminate].
    + injection H as <- <- <-. apply STAY; [left; discriminate|].
      left. intros E. rewrite E in F. discriminate.
  - cbn [qstep] in H. injection H as <- <- <-. apply RET. auto.
Qed.

Lemma qstep_good s t o k q s' out l :
  INV s -> nth_error (x_threads s) t = Some (TIn o k q) ->
  qstep c g sh s t q = (s', out, l) -> good s s' t o k q out.
Proof.
  intros I Ht H. destruct (qinside q) eqn:Q; [eapply holder_good|eapply other_good]; eauto.
Qed.

Lemma xstep_INV s t s' ev :
  INV s -> xstep c g sh s t = (s', ev) -> ~ aborted ev -> INV s'.
Proof.
  intros I H NA. unfold xstep in H.
  destruct (nth_error (x_threads s) t) as [[[|o k]|o k q]|] eqn:Ht; try (injection H as <- <-; exact I).
  - injection H as <- <-. pose proof (i_th _ I _ _ Ht) as [TB TE].
    assert (NI : qinside (first o) = false) by (destruct o as [| | |[]| | |]; reflexivity).
    eapply build; eauto.
    + apply (i_one _ I).
    + left. repeat split; auto. intros E. pose proof (i_hold _ I) as HO. rewrite E in HO.
      destruct HO as (o' & k' & q' & A & B). congruence.
    + simpl. rewrite NI. auto.
  - destruct (qstep c g sh s t q) as [[s1 out] l] eqn:Q.
    destruct (qstep_good _ _ _ _ _ _ _ _ I Ht Q) as (_ & G & _).
    destruct out as [q'|r]; injection H as <- <-; apply G; [discriminate|].
    intros [= E]. apply NA. exists t, o. apply in_or_app. right. left. rewrite E. reflexivity.
Qed.

Lemma aborted_app (tr1 tr2 : list xevent) : aborted (tr1 ++ tr2) <-> aborted tr1 \/ aborted tr2.
Proof.
  split.
  - intros (t & o & I). apply in_app_or in I as [I|I]; [left|right]; exists t, o; auto.
  - intros [(t & o & I)|(t & o & I)]; exists t, o; apply in_or_app; auto.
Qed.

Lemma xrun_INV sched : forall s s' tr,
  INV s -> xrun c g sh s sched = (s', tr) -> ~ aborted tr -> INV s'.
Proof.
  induction sched as [|t sched IH]; simpl; intros s s' tr I H NA.
  - injection H as <- <-. exact I.
  - destruct (xstep c g sh s t) as [s1 e1] eqn:E1. destruct (xrun c g sh s1 sched) as [s2 e2] eqn:E2.
    injection H as <- <-. eapply IH; [|exact E2|]; [|intros A; apply NA, aborted_app; auto].
    eapply xstep_INV; eauto. intros A; apply NA, aborted_app; auto.
Qed.

Lemma xrun_app l1 : forall l2 s, xrun c g sh s (l1 ++ l2) =
  let (s1, e1) := xrun c g sh s l1 in let (s2, e2) := xrun c g sh s1 l2 in (s2, e1 ++ e2).
Proof.
  induction l1 as [|t l1 IH]; simpl; intros l2 s.
  - destruct (xrun c g sh s l2); reflexivity.
  - destruct (xstep c g sh s t) as [s1 e1]. rewrite IH. destruct (xrun c g sh s1 l1) as [s2 e2].
    destruct (xrun c g sh s2 l2) as [s3 e3]. rewrite app_assoc. reflexivity.
Qed.

(** The state can get to one where [P] holds, unless the process aborts. *)
Definition reaches (s : xsys) (P : xsys -> Prop) : Prop :=
  exists sched s' tr, xrun c g sh s sched = (s', tr) /\ (aborted tr \/ (INV s' /\ P s')).

Lemma reaches_now s (P : xsys -> Prop) : INV s -> P s -> reaches s P.
Proof. exists [], s, []. split; [reflexivity|auto]. Qed.

Lemma reaches_trans s (P Q : xsys -> Prop) :
  reaches s P -> (forall s', INV s' -> P s' -> reaches s' Q) -> reaches s Q.
Proof.
  intros (l1 & s1 & e1 & R1 & [A|[I1 P1]]) H.
  - exists l1, s1, e1. auto.
  - destruct (H _ I1 P1) as (l2 & s2 & e2 & R2 & D). exists (l1 ++ l2), s2, (e1 ++ e2). split.
    + rewrite xrun_app, R1, R2. reflexivity.
    + destruct D as [D|D]; auto. left. apply aborted_app. auto.
Qed.

Definition same_but (t : nat) (s s' : xsys) : Prop :=
  List.length (x_threads s') = List.length (x_threads s) /\
  forall t', t' <> t -> nth_error (x_threads s') t' = nth_error (x_threads s) t'.

(** A thread that waits for nobody ends its operation. *)
Lemma ends_operation t o k n : forall s q,
  INV s -> nth_error (x_threads s) t = Some (TIn o k q) -> qcost (x_sys s) q < n ->
  mine t (cs_sl (x_sys s) g) -> (q = QLockU -> x_mutex s = None) ->
  reaches s (fun s' => (exists r, nth_error (x_threads s') t = Some (TIdle (k r))) /\
                       same_but t s s' /\ mine t (cs_sl (x_sys s') g) /\
                       (mine t (x_mutex s) -> mine t (x_mutex s'))).
Proof.
  induction n as [|n IH]; intros s q I Ht LT MI MX; [lia|].
  destruct (qstep c g sh s t q) as [[s1 out] l] eqn:Q.
  destruct (qstep_good _ _ _ _ _ _ _ _ I Ht Q) as (TH & G & MM & PR). destruct (PR MI MX) as [MI' PR'].
  assert (NX : nth_error (set_nth (x_threads s1) t (next o k out)) t = Some (next o k out)).
  { rewrite nth_set_nth, Nat.eqb_refl, TH, Ht. reflexivity. }
  assert (SB : same_but t s (put_xthread s1 t (next o k out))).
  { split; simpl; [rewrite set_nth_length, TH; reflexivity|]. intros t' NE. rewrite nth_set_nth, TH.
    destruct (Nat.eqb_spec t' t); congruence. }
  assert (ST : xstep c g sh s t = (put_xthread s1 t (next o k out),
     map (fun ta => XAtom (fst ta) (snd ta)) l ++ done t o out)).
  { unfold xstep. rewrite Ht, Q. destruct out; simpl; rewrite ?app_nil_r; reflexivity. }
  assert (AB : out = inr Abort \/ out <> inr Abort).
  { destruct out as [q'|[r|m|]]; try (right; discriminate). left. reflexivity. }
  destruct AB as [->|NA].
  { exists [t], (put_xthread s1 t (next o k (inr Abort))),
      ((map (fun ta => XAtom (fst ta) (snd ta)) l ++ done t o (inr Abort)) ++ []).
    split; [simpl; rewrite ST; reflexivity|]. left. exists t, o. rewrite app_nil_r. apply in_or_app. right. left. reflexivity. }
  specialize (G NA).
  assert (ONE : reaches s (fun s' => s' = put_xthread s1 t (next o k out))).
  { exists [t], (put_xthread s1 t (next o k out)), ((map (fun ta => XAtom (fst ta) (snd ta)) l ++ done t o out) ++ []).
    split; [simpl; rewrite ST; reflexivity|]. auto. }
  apply (reaches_trans _ _ _ ONE). intros s' I' ->.
  destruct out as [q'|r].
  - destruct PR' as [LT' NU]. simpl next in *.
    eapply reaches_trans.
    + apply (IH (put_xthread s1 t (TIn o k q')) q'); auto.
      * simpl. lia.
      * intros ->. congruence.
    + intros s2 I2 (X1 & [X2 X3] & X4 & X5). apply reaches_now; auto. split; [auto|]. split; [|split; [auto|]].
      * destruct SB as [S1 S2]. split; [congruence|]. intros t' NE. rewrite X3, S2; auto.
      * intros M. apply X5. simpl. auto.
  - apply reaches_now; auto. split; [exists r; exact NX|]. split; [exact SB|]. split; [exact MI'|exact MM].
Qed.

Lemma idle_free s t p : INV s -> nth_error (x_threads s) t = Some (TIdle p) -> mine t (cs_sl (x_sys s) g) ->
  cs_sl (x_sys s) g = None.
Proof.
  intros I Ht [E|E]; auto. pose proof (i_hold _ I) as H. rewrite E in H. destruct H as (o & k & q & A & _). congruence.
Qed.

(** ... and its program. *)
Lemma ends_program t p : forall s,
  INV s -> nth_error (x_threads s) t = Some (TIdle p) ->
  cs_sl (x_sys s) g = None -> mine t (x_mutex s) ->
  reaches s (fun s' => nth_error (x_threads s') t = Some (TIdle Stop) /\ same_but t s s' /\
                       cs_sl (x_sys s') g = None /\ x_mutex s' = None).
Proof.
  induction p as [|o k IH]; intros s I Ht SL MX.
  - apply reaches_now; auto. split; [auto|]. split; [split; auto|]. split; [auto|].
    pose proof (i_th _ I _ _ Ht) as [TB _]. simpl in TB. unfold own in TB.
    destruct MX as [->| E]; auto. rewrite E, Nat.eqb_refl in TB. discriminate.
  - assert (ST : xstep c g sh s t = (put_xthread s t (TIn o k (first o)), [XStart t o])).
    { unfold xstep. rewrite Ht. reflexivity. }
    assert (I1 : INV (put_xthread s t (TIn o k (first o)))).
    { eapply xstep_INV; eauto. intros (t0 & o0 & [E|[]]). discriminate. }
    assert (N1 : nth_error (x_threads (put_xthread s t (TIn o k (first o)))) t = Some (TIn o k (first o))).
    { simpl. rewrite nth_set_nth, Nat.eqb_refl, Ht. reflexivity. }
    assert (ONE : reaches s (fun s' => s' = put_xthread s t (TIn o k (first o)))).
    { exists [t], (put_xthread s t (TIn o k (first o))), ([XStart t o] ++ []). split; [simpl; rewrite ST; reflexivity|auto]. }
    apply (reaches_trans _ _ _ ONE). intros s' _ ->.
    pose proof (i_th _ I _ _ Ht) as [TB _].
    eapply reaches_trans.
    + apply (ends_operation t o k _ _ _ I1 N1 (Nat.lt_succ_diag_r _)).
      * left. exact SL.
      * intros E. destruct o as [| | |[]| | |]; try discriminate E. simpl in TB. destruct TB as [TB _].
        simpl. destruct MX as [MX|MX]; auto. unfold own in TB. rewrite MX, Nat.eqb_refl in TB. discriminate.
    + intros s2 I2 ([r X1] & [X2 X3] & X4 & X5).
      pose proof (idle_free _ _ _ I2 X1 X4) as SL2.
      eapply reaches_trans; [apply (IH r s2 I2 X1 SL2); apply X5; exact MX|].
      intros s3 I3 (Y1 & [Y2 Y3] & Y4 & Y5). apply reaches_now; auto. split; [auto|]. split; [|auto].
      split.
      * rewrite Y2, X2. simpl. apply set_nth_length.
      * intros t' NE. rewrite Y3, X3 by auto. simpl. rewrite nth_set_nth. destruct (Nat.eqb_spec t' t); congruence.
Qed.

Lemma ends_thread t th s :
  INV s -> nth_error (x_threads s) t = Some th ->
  mine t (cs_sl (x_sys s) g) -> mine t (x_mutex s) ->
  reaches s (fun s' => nth_error (x_threads s') t = Some (TIdle Stop) /\ same_but t s s' /\
                       cs_sl (x_sys s') g = None /\ x_mutex s' = None).
Proof.
  intros I Ht SL MX. destruct th as [p|o k q].
  - eapply ends_program; eauto. eapply idle_free; eauto.
  - pose proof (i_th _ I _ _ Ht) as (TB & _ & T3).
    eapply reaches_trans.
    + apply (ends_operation t o k _ _ _ I Ht (Nat.lt_succ_diag_r _) SL).
      intros ->. simpl in T3. assert (o = XLockU).
      { destruct T3 as [E|[[_ E]|(_ & l & b & E)]]; try discriminate. destruct o as [| | |[]| | |]; try discriminate; auto. }
      subst o. simpl in TB. destruct TB as [TB _]. destruct MX as [MX|MX]; auto.
      unfold own in TB. rewrite MX, Nat.eqb_refl in TB. discriminate.
    + intros s2 I2 ([r X1] & [X2 X3] & X4 & X5).
      pose proof (idle_free _ _ _ I2 X1 X4) as SL2.
      eapply reaches_trans; [apply (ends_program t (k r) s2 I2 X1 SL2); auto|].
      intros s3 I3 (Y1 & [Y2 Y3] & Y4 & Y5). apply reaches_now; auto. split; [auto|]. split; [|auto].
      split; [congruence|]. intros t' NE. rewrite Y3, X3; auto.
Qed.

Lemma ends_all n : forall s,
  INV s -> cs_sl (x_sys s) g = None -> x_mutex s = None -> n <= List.length (x_threads s) ->
  reaches s (fun s' => List.length (x_threads s') = List.length (x_threads s) /\
    cs_sl (x_sys s') g = None /\ x_mutex s' = None /\
    forall t, t < n -> nth_error (x_threads s') t = Some (TIdle Stop)).
Proof.
  induction n as [|n IH]; intros s I SL MX LE.
  - apply reaches_now; auto. repeat split; auto. intros; lia.
  - eapply reaches_trans; [apply (IH s I SL MX); lia|].
    intros s1 I1 (L1 & SL1 & MX1 & D1).
    destruct (nth_error (x_threads s1) n) as [th|] eqn:Hn.
    2:{ apply nth_error_None in Hn. lia. }
    eapply reaches_trans; [apply (ends_thread n th s1 I1 Hn); left; auto|].
    intros s2 I2 (A & [B1 B2] & B3 & B4). apply reaches_now; auto. repeat split; auto; [congruence|].
    intros t LT. destruct (Nat.eq_dec t n) as [->|NE]; auto. rewrite B2 by auto. apply D1. lia.
Qed.

(** Whoever holds the mutex is a thread. *)
Definition mutex_ok (s : xsys) : Prop :=
  match x_mutex s with Some t => t < List.length (x_threads s) | None => True end.

Lemma xstep_mutex s t s' ev : mutex_ok s -> xstep c g sh s t = (s', ev) ->
  mutex_ok s' /\ List.length (x_threads s') = List.length (x_threads s).
Proof.
  intros M H. unfold xstep in H.
  destruct (nth_error (x_threads s) t) as [[[|o k]|o k q]|] eqn:Ht; try (injection H as <- <-; auto).
  - unfold mutex_ok. simpl. rewrite set_nth_length. auto.
  - destruct (qstep c g sh s t q) as [[s1 out] l] eqn:Q.
    assert (X : mutex_ok s1 /\ List.length (x_threads s1) = List.length (x_threads s)).
    { assert (LT : t < List.length (x_threads s)) by (apply nth_error_Some; congruence).
      unfold mutex_ok in *.
      destruct q; cbn [qstep] in Q;
        repeat match type of Q with
        | context [match ?x with _ => _ end] =>
            lazymatch x with
            | context [match _ with _ => _ end] => fail
            | x_mutex s => let E := fresh "E" in destruct x eqn:E
            | _ => destruct x
            end
        | context [let '(_, _) := ?x in _] => destruct x
        end; injection Q as <- _ _; simpl; rewrite ?E in *; auto. }
    destruct X as [X1 X2]. unfold mutex_ok in *.
    destruct out; injection H as <- <-; simpl; rewrite set_nth_length; auto.
Qed.

Lemma xrun_mutex sched : forall s s' tr, mutex_ok s -> xrun c g sh s sched = (s', tr) ->
  mutex_ok s' /\ List.length (x_threads s') = List.length (x_threads s).
Proof.
  induction sched as [|t sched IH]; simpl; intros s s' tr M H.
  - injection H as <- <-. auto.
  - destruct (xstep c g sh s t) as [s1 e1] eqn:E1. destruct (xrun c g sh s1 sched) as [s2 e2] eqn:E2.
    injection H as <- <-. destruct (xstep_mutex _ _ _ _ M E1) as [M1 L1].
    destruct (IH _ _ _ M1 E2) as [M2 L2]. split; congruence.
Qed.

Lemma all_end s : INV s -> mutex_ok s ->
  reaches s (fun s' => forall th, In th (x_threads s') -> th = TIdle Stop).
Proof.
  intros I MO.
  assert (ALL : forall s1, INV s1 -> cs_sl (x_sys s1) g = None -> x_mutex s1 = None ->
    reaches s1 (fun s' => forall th, In th (x_threads s') -> th = TIdle Stop)).
  { intros s1 I1 SL MX. eapply reaches_trans; [apply (ends_all (List.length (x_threads s1)) s1); auto|].
    intros s2 I2 (L & _ & _ & D). apply reaches_now; auto. intros th IN. apply In_nth_error in IN as [t N].
    rewrite D in N; [congruence|]. rewrite <- L. apply nth_error_Some. congruence. }
  (* the store first *)
  assert (ST : reaches s (fun s1 => cs_sl (x_sys s1) g = None)).
  { destruct (cs_sl (x_sys s) g) as [t|] eqn:SL; [|apply reaches_now; auto].
    pose proof (i_hold _ I) as H. rewrite SL in H. destruct H as (o & k & q & Ht & IN).
    eapply reaches_trans.
    - apply (ends_operation t o k _ _ _ I Ht (Nat.lt_succ_diag_r _)); [right; auto|]. intros ->. discriminate.
    - intros s1 I1 ([r X1] & X2 & X3 & X4). apply reaches_now; auto. eapply idle_free; eauto. }
  destruct ST as (l1 & s1 & e1 & R1 & [A|[I1 SL1]]).
  { exists l1, s1, e1. auto. }
  destruct (xrun_mutex _ _ _ _ MO R1) as [M1 _].
  apply (reaches_trans _ (fun s' => s' = s1)); [exists l1, s1, e1; auto|]. intros s' _ ->.
  destruct (x_mutex s1) as [t|] eqn:MX; [|auto].
  unfold mutex_ok in M1. rewrite MX in M1.
  destruct (nth_error (x_threads s1) t) as [th|] eqn:Ht; [|apply nth_error_None in Ht; lia].
  eapply reaches_trans; [apply (ends_thread t th s1 I1 Ht); [left; auto|right; auto]|].
  intros s2 I2 (A & B & C & D). auto.
Qed.

Lemma INV_start u l q ms poison progs :
  (forall cm, In cm ms -> cm_mutex cm = Some g) ->
  Forall (brackets false) progs -> Forall (existing (List.length ms)) progs ->
  INV (xstart u l q ms poison progs).
Proof.
  intros HM B E. rewrite Forall_forall in B, E. split.
  - intros m cm N. simpl in N. apply nth_error_In in N. auto.
  - intros t th N. simpl in N. rewrite nth_error_map in N.
    destruct (nth_error progs t) as [p|] eqn:P; [|discriminate]. injection N as <-. apply nth_error_In in P.
    split; [apply B; auto|apply E; auto].
  - simpl. split; reflexivity.
Qed.

Lemma can_end u l q ms poison progs sched s' tr :
  (forall cm, In cm ms -> cm_mutex cm = Some g) ->
  Forall (brackets false) progs -> Forall (existing (List.length ms)) progs ->
  xrun c g sh (xstart u l q ms poison progs) sched = (s', tr) ->
  exists more s2 tr2, xrun c g sh s' more = (s2, tr2) /\
    (aborted (tr ++ tr2) \/ forall th, In th (x_threads s2) -> th = TIdle Stop).
Proof.
  intros HM B E H.
  destruct (existsb (fun e => match e with XReturn _ _ Abort => true | _ => false end) tr) eqn:X.
  - apply existsb_exists in X as (e & I & X). exists [], s', []. split; [reflexivity|]. left.
    apply aborted_app. left. destruct e as [| |t o []]; try discriminate. exists t, o. auto.
  - assert (NA : ~ aborted tr).
    { intros (t & o & I). assert (Y : existsb (fun e => match e with XReturn _ _ Abort => true | _ => false end) tr = true).
      { apply existsb_exists. exists (XReturn t o Abort). auto. } congruence. }
    pose proof (xrun_INV _ _ _ _ (INV_start u l q ms poison progs HM B E) H NA) as I.
    destruct (xrun_mutex _ (xstart u l q ms poison progs) _ _ Logic.I H) as [M _].
    destruct (all_end s' I M) as (more & s2 & tr2 & R & D). exists more, s2, tr2. split; [exact R|].
    destruct D as [D|[_ D]]; [left; apply aborted_app; auto|auto].
Qed.
End End.

(** ** Tests *)
Section Tests.
Context {V U : Type}.
Notation prog := (prog V U).

Lemma body_brackets (b : prog) : forall next, body_ok b -> brackets false next -> brackets true (with_context b next).
Proof.
  induction b as [|o k IH]; intros next OK N.
  - simpl. intros r NA. destruct r; try congruence; simpl; auto.
  - destruct OK as [OK1 OK2].
    assert (X : forall r, r <> Abort -> brackets true
      match r with
      | Ret _ => with_context (k r) next
      | Panic _ => Do (XDrop true) (fun r' => match r' with Abort => Stop | _ => Do XUnlockU (fun _ => next) end)
      | Abort => Stop
      end).
    { intros [v|m|] NA; try congruence.
      - apply IH; auto.
      - simpl. intros [v|m'|] NA'; try congruence; simpl; auto. }
    destruct o; try contradiction; exact X.
Qed.

Lemma body_existing n (b : prog) : forall next, existing n b -> existing n next -> existing n (with_context b next).
Proof.
  induction b as [|o k IH]; intros next E N.
  - simpl. split; [exact I|]. intros r NA. destruct r; simpl; auto.
  - destruct E as [E1 E2]. split; [exact E1|]. intros [v|m|] NA; try congruence.
    + apply IH; [apply E2; discriminate|exact N].
    + simpl. split; [exact I|]. intros [v|m'|] NA'; simpl; auto.
Qed.

Lemma tests_brackets (tl : list (test V U)) : Forall (fun x => body_ok (snd x)) tl -> brackets false (run_tests tl).
Proof.
  induction 1 as [|x tl B _ IH]; [reflexivity|]. simpl. split; [reflexivity|]. intros r _ r' _.
  apply body_brackets; auto.
Qed.

Lemma tests_existing n (tl : list (test V U)) : Forall (fun x => existing n (snd x)) tl -> existing n (run_tests tl).
Proof.
  induction 1 as [|x tl B _ IH]; [exact I|]. simpl. split; [exact I|]. intros r _. split; [exact I|]. intros r' _.
  apply body_existing; auto.
Qed.
End Tests.
