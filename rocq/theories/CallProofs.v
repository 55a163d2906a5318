(** * CallProofs: general facts about calls, in every state *)

From Coq Require Import Arith NArith List Bool String Lia.
From Verif Require Import Base Times TimesSpec TimesProofs Expect ExpectProofs Mock Spec
  DispatchProofs FifoProofs.
Import ListNotations.
Open Scope N_scope.

Section P.
Context {V U : Type}.
Implicit Types (w : world U) (me : method V) (md : mdecl V) (e : expectation V U)
  (es : list (expectation V U)).

(** Equal up to the poison flag of the matcher. *)
Definition same_core e e' : Prop :=
  e_action e' = e_action e /\ c_matcher (e_common e') = c_matcher (e_common e) /\
  c_seq (e_common e') = c_seq (e_common e) /\ c_times (e_common e') = c_times (e_common e).

Definition frame w w' : Prop :=
  w_levels w' = w_levels w /\ w_thread w' = w_thread w /\ w_panicking w' = w_panicking w.

Lemma same_core_refl e : same_core e e.
Proof. repeat split. Qed.

Lemma Forall2_refl {A} (R : A -> A -> Prop) : (forall x, R x x) -> forall l, Forall2 R l l.
Proof. intros H. induction l; constructor; auto. Qed.

Lemma frame_refl w : frame w w.
Proof. repeat split. Qed.
Lemma frame_trans w1 w2 w3 : frame w1 w2 -> frame w2 w3 -> frame w1 w3.
Proof. intros (A & B & C0) (D & E & F). repeat split; congruence. Qed.

Lemma matcher_frame (m : matcher V U) args w w' r :
  matcher_matches m args w = (w', r) -> frame w w'.
Proof.
  destruct m; simpl; intros H.
  - inversion H; subst; apply frame_refl.
  - destruct (f args (w_user w)). inversion H; subst; repeat split.
  - destruct (Nat.eqb _ _); [destruct (f args (w_user w))|]; inversion H; subst; repeat split.
  - destruct (eval_preds ps args (w_user w)). inversion H; subst; repeat split.
Qed.

Lemma common_matches_any (k : common V U) args w k' w' r :
  common_matches k args w = (k', w', r) ->
  frame w w' /\ c_matcher k' = c_matcher k /\ c_seq k' = c_seq k /\ c_times k' = c_times k /\
  (forall b, r = Ret b -> k' = k) /\
  (w' = w \/ exists r', matcher_matches (c_matcher k) args w = (w', r')).
Proof.
  unfold common_matches. destruct (c_mpoison k).
  - intros H; inversion H; subst. repeat split; auto; discriminate.
  - destruct (matcher_matches (c_matcher k) args w) as [w1 r1] eqn:M.
    assert (F := matcher_frame _ _ _ _ _ M).
    destruct r1; intros H; inversion H; subst; simpl;
      (split; [exact F|]); (split; [reflexivity|]); (split; [reflexivity|]); (split; [reflexivity|]);
      (split; [intros; try discriminate; auto|right; eauto]).
Qed.

Lemma find_exp_any c one : forall es args w es1 w1 r,
  find_exp c one es args w = (es1, w1, r) ->
  Forall2 same_core es es1 /\ frame w w1 /\
  (forall o, r = Ret o -> es1 = es) /\
  (forall i, r = Ret (Some i) -> (i < List.length es)%nat).
Proof.
  induction es as [|e es IH]; intros args w es1 w1 r H; cbn [find_exp] in H.
  - inversion H; subst. repeat split; auto; try discriminate; constructor.
  - destruct (common_matches (e_common e) args w) as [[k w2] r2] eqn:M.
    apply common_matches_any in M. destruct M as (F & M1 & M2 & M3 & M4 & _).
    assert (SC : same_core e (set_common e k)) by (repeat split; auto).
    assert (HN : forall es1 w1 r,
      (let '(es2, w3, r3) := find_exp c one es args w2 in
       (set_common e k :: es2, w3, let? o := r3 in Ret (option_map S o))) = (es1, w1, r) ->
      (exists b, r2 = Ret b) ->
      Forall2 same_core (e :: es) es1 /\ frame w w1 /\ (forall o, r = Ret o -> es1 = e :: es) /\
      (forall i, r = Ret (Some i) -> (i < List.length (e :: es))%nat)).
    { clear H es1 w1 r. intros es1 w1 r H [b Hb].
      destruct (find_exp c one es args w2) as [[es2 w3] r3] eqn:E.
      apply IH in E. destruct E as (E1 & E2 & E3 & E4).
      inversion H; subst. rewrite (M4 b eq_refl), set_common_id.
      split; [constructor; auto; apply same_core_refl|].
      split; [eapply frame_trans; eauto|]. split.
      - intros o Ho. destruct r3 as [o'|m|]; try discriminate. f_equal. eapply E3. reflexivity.
      - intros i Hi. destruct r3 as [[o'|]|m|]; try discriminate. simpl in Hi. inversion Hi; subst.
        specialize (E4 o' eq_refl). simpl. lia. }
    destruct r2 as [[|]|m|].
    + destruct (common_is_done c k) as [d|m|].
      * destruct (negb d || one).
        -- inversion H; subst. rewrite (M4 true eq_refl), set_common_id.
           split; [constructor; [apply same_core_refl|apply Forall2_refl; apply same_core_refl]|].
           split; auto. split; auto.
           intros i Hi. inversion Hi; subst. simpl; lia.
        -- apply HN in H; eauto.
      * inversion H; subst. split; [constructor; auto; apply Forall2_refl; apply same_core_refl|].
        split; auto. split; discriminate.
      * inversion H; subst. split; [constructor; auto; apply Forall2_refl; apply same_core_refl|].
        split; auto. split; discriminate.
    + apply HN in H; eauto.
    + inversion H; subst. split; [constructor; auto; apply Forall2_refl; apply same_core_refl|].
      split; auto. split; discriminate.
    + inversion H; subst. split; [constructor; auto; apply Forall2_refl; apply same_core_refl|].
      split; auto. split; discriminate.
Qed.

Lemma expectations_call_any c me es args wr w es' w' r :
  expectations_call c me es args wr w = (es', w', r) ->
  (exists i e e' w1 r0,
      nth_error es i = Some e /\
      find_exp c (Nat.eqb (List.length es) 1) es args w = (es, w1, Ret (Some i)) /\
      expectation_call c me e args wr w1 = (e', w', r0) /\
      es' = set_nth es i e' /\ r = (let? v := r0 in Ret (Some v)))
  \/
  (exists r0, find_exp c (Nat.eqb (List.length es) 1) es args w = (es', w', r0) /\
     Forall2 same_core es es' /\ frame w w' /\ (forall v, r <> Ret (Some v)) /\
     (r = Ret None -> es' = es)).
Proof.
  unfold expectations_call.
  destruct (find_exp c (Nat.eqb (List.length es) 1) es args w) as [[es1 w1] r1] eqn:E.
  pose proof (find_exp_any _ _ _ _ _ _ _ _ E) as (F1 & F2 & F3 & F4).
  destruct r1 as [[i|]|m|].
  - specialize (F3 _ eq_refl). subst es1. specialize (F4 _ eq_refl).
    destruct (nth_error es i) as [e|] eqn:N.
    2:{ apply nth_error_None in N. lia. }
    destruct (expectation_call c me e args wr w1) as [[e' w2] r2] eqn:X.
    intros H; inversion H; subst. left. exists i, e, e', w1, r2. auto.
  - intros H; inversion H; subst. right. eexists; split; [reflexivity|].
    repeat (split; [assumption|]). split; [discriminate|]. intros _. eapply F3; reflexivity.
  - intros H; inversion H; subst. right. eexists; split; [reflexivity|].
    repeat (split; [assumption|]). split; discriminate.
  - intros H; inversion H; subst. right. eexists; split; [reflexivity|].
    repeat (split; [assumption|]). split; discriminate.
Qed.

(** ** Observations of the user state *)
Lemma eval_preds_quiet {O} (obs : U -> O) : forall (ps : list (pred V U)) args u,
  (forall p, In p ps -> quiet obs (snd p)) ->
  obs (fst (eval_preds ps args u)) = obs u.
Proof.
  induction ps as [|p ps IH]; intros [|a args] u H; auto.
  cbn [eval_preds].
  assert (Q := H p (or_introl eq_refl) a u).
  destruct p as [nm q]. simpl in *. destruct (q a u) as [u1 [b|m|]]; simpl in *; auto.
  assert (IH' := IH args u1 (fun p Hp => H p (or_intror Hp))).
  destruct (eval_preds ps args u1) as [u2 [bs|m|]]; simpl in *; congruence.
Qed.

Lemma matcher_quiet {O} (obs : U -> O) (m : matcher V U) args w w' r :
  quiet_matcher obs m -> matcher_matches m args w = (w', r) -> obs (w_user w') = obs (w_user w).
Proof.
  intros Q. destruct m; simpl in *; intros H.
  - inversion H; auto.
  - specialize (Q args (w_user w)). destruct (f args (w_user w)). inversion H; subst; auto.
  - specialize (Q args (w_user w)).
    destruct (Nat.eqb _ _); [destruct (f args (w_user w))|]; inversion H; subst; auto.
  - assert (X := eval_preds_quiet obs ps args (w_user w) Q).
    destruct (eval_preds ps args (w_user w)). inversion H; subst; auto.
Qed.

Lemma find_exp_quiet {O} (obs : U -> O) c one : forall es args w es1 w1 r,
  Forall (fun e => quiet_matcher obs (c_matcher (e_common e))) es ->
  find_exp c one es args w = (es1, w1, r) -> obs (w_user w1) = obs (w_user w).
Proof.
  induction es as [|e es IH]; intros args w es1 w1 r Q H; cbn [find_exp] in H.
  - inversion H; auto.
  - inversion Q as [|? ? Q1 Q2]; subst.
    destruct (common_matches (e_common e) args w) as [[k w2] r2] eqn:M.
    apply common_matches_any in M. destruct M as (_ & _ & _ & _ & _ & M).
    assert (X : obs (w_user w2) = obs (w_user w)).
    { destruct M as [M|[r' M]]; [subst; auto|]. eapply matcher_quiet; eauto. }
    assert (HN : forall es1 w1 r,
      (let '(es2, w3, r3) := find_exp c one es args w2 in
       (set_common e k :: es2, w3, let? o := r3 in Ret (option_map S o))) = (es1, w1, r) ->
      obs (w_user w1) = obs (w_user w)).
    { clear H es1 w1 r. intros es1 w1 r H.
      destruct (find_exp c one es args w2) as [[es2 w3] r3] eqn:E.
      inversion H; subst. rewrite <- X. eapply IH; eauto. }
    destruct r2 as [[|]|m|].
    + destruct (common_is_done c k) as [d|m|]; [destruct (negb d || one)| |];
        try (inversion H; subst; auto; fail); eapply HN; eauto.
    + eapply HN; eauto.
    + inversion H; subst; auto.
    + inversion H; subst; auto.
Qed.

(** ** What a call does to the action of an expectation *)
Lemma expectation_call_shape c me e args wr w e' w' r :
  expectation_call c me e args wr w = (e', w', r) ->
  c_matcher (e_common e') = c_matcher (e_common e) /\
  c_mpoison (e_common e') = c_mpoison (e_common e) /\
  c_seq (e_common e') = c_seq (e_common e) /\
  trange_of (c_times (e_common e')) = trange_of (c_times (e_common e)) /\
  tcount (c_times (e_common e')) = uwrap1 c (tcount (c_times (e_common e))) /\
  w_thread w' = w_thread w /\ w_panicking w' = w_panicking w /\
  match e_action e, e_action e' with
  | AStatic rf p, AStatic rf' p' =>
      (rf' = rf \/ (rf' = SExpired /\ (exists f, rf = SOnce f \/ exists o, rf = SOnceSt o f)))
      /\ (p = true -> p' = true)
  | ARef rf, ARef rf' => rf' = rf
  | AMut (XDefault _), AMut (XDefault _) => True
  | AMut (XMut f _), AMut (XMut f' _) => f' = f
  | AMut (XMutSt o f _), AMut (XMutSt o' f' _) => f' = f /\ o' = o
  | AMut (XVar _), AMut (XVar _) => True
  | _, _ => False
  end.
Proof.
  unfold expectation_call.
  destruct (common_call c me (e_common e) (call_desc me args) w) as [[k w1] r1] eqn:C.
  apply common_call_frame in C. destruct C as (C1 & C2 & C3 & C4 & C5 & C6 & C7 & C8).
  assert (SELF : match e_action e, e_action e with
  | AStatic rf p, AStatic rf' p' =>
      (rf' = rf \/ (rf' = SExpired /\ (exists f, rf = SOnce f \/ exists o, rf = SOnceSt o f)))
      /\ (p = true -> p' = true)
  | ARef rf, ARef rf' => rf' = rf
  | AMut (XDefault _), AMut (XDefault _) => True
  | AMut (XMut f _), AMut (XMut f' _) => f' = f
  | AMut (XMutSt o f _), AMut (XMutSt o' f' _) => f' = f /\ o' = o
  | AMut (XVar _), AMut (XVar _) => True
  | _, _ => False
  end).
  { destruct (e_action e) as [rf p|rf|rf]; auto. destruct rf; auto. }
  destruct r1 as [[]|m|].
  - destruct (e_action e) as [rf p|rf|rf] eqn:A.
    + unfold static_ret. destruct p.
      { intros H; inversion H; subst; simpl. repeat (split; [congruence|]). auto. }
      destruct (srfunc_call c me rf args w1) as [[rf' w2] r2] eqn:SR.
      assert (X : w_thread w2 = w_thread w1 /\ w_panicking w2 = w_panicking w1 /\
                  (rf' = rf \/ (rf' = SExpired /\ (exists f, rf = SOnce f \/ exists o, rf = SOnceSt o f)))).
      { destruct rf; simpl in SR; unfold run_user in SR.
        - inversion SR; subst; auto.
        - inversion SR; subst; auto.
        - destruct (f args (w_user w1)). inversion SR; subst; auto.
        - destruct (Nat.eqb _ _); [destruct (f args (w_user w1))|]; inversion SR; subst; auto.
        - destruct (f args (w_user w1)). inversion SR; subst. simpl. repeat split; auto.
          right. split; auto. eauto.
        - destruct (Nat.eqb _ _); [destruct (f args (w_user w1))|]; inversion SR; subst; simpl;
            repeat split; auto; right; split; eauto. }
      destruct X as (X1 & X2 & X3).
      destruct (let? x := r2 in unwrap_rf me k x) as [v|m|];
        intros H; inversion H; subst; simpl; repeat (split; [congruence|]); intros; congruence.
    + intros H; inversion H; subst; simpl. repeat (split; [congruence|]). rewrite A; auto.
    + unfold mut_ret. destruct (show_locked k) as [s|m|].
      * destruct (mrfunc_call c rf args wr w1) as [[rf' w2] r2] eqn:SR.
        intros H; inversion H; subst; simpl.
        destruct rf as [o|f o|ow f o|v]; simpl in SR.
        -- destruct o; inversion SR; subst; repeat (split; [congruence|]); auto.
        -- destruct (f args (w_user w1)) as [u [v|m|]]; inversion SR; subst; simpl; repeat (split; [congruence|]); auto.
        -- destruct (Nat.eqb _ _); [destruct (f args (w_user w1)) as [u [v|m|]]|]; inversion SR; subst; simpl; repeat (split; [congruence|]); auto.
        -- inversion SR; subst; simpl; repeat (split; [congruence|]); auto.
      * intros H; inversion H; subst; simpl. repeat (split; [congruence|]). destruct rf; auto.
      * intros H; inversion H; subst; simpl. repeat (split; [congruence|]). destruct rf; auto.
  - intros H; inversion H; subst; simpl. repeat (split; [congruence|]). auto.
  - intros H; inversion H; subst; simpl. repeat (split; [congruence|]). auto.
Qed.

(** ** Inductive invariants of histories of calls *)
Lemma field_calls_inv c md (I : list (expectation V U) -> world U -> Prop) :
  (forall es args w es' w' r, I es w ->
     expectations_call c (md_me md) es args (fun v => v) w = (es', w', r) -> I es' w') ->
  forall calls es k w f' w' rs,
  I es w -> field_calls c (Field md (SPlain es)) k w calls = (f', w', rs) ->
  exists es', f' = Field md (SPlain es') /\ I es' w'.
Proof.
  intros HI. induction calls as [|a calls IH]; intros es k w f' w' rs H E.
  - simpl in E. inversion E; subst. eauto.
  - cbn [field_calls] in E. unfold field_call, slot_call in E. cbn [f_decl f_slot] in E.
    destruct (expectations_call c (md_me md) es a (fun v => v) w) as [[es1 w1] r1] eqn:X.
    destruct (field_calls c (Field md (SPlain es1)) k w1 calls) as [[f2 w2] rs2] eqn:Y.
    inversion E; subst. eapply IH; [|exact Y]. eapply HI; eauto.
Qed.

Lemma Forall2_nth {A B} (R : A -> B -> Prop) : forall l l' i x,
  Forall2 R l l' -> nth_error l i = Some x -> exists y, nth_error l' i = Some y /\ R x y.
Proof.
  induction l; intros l' i x H N; inversion H; subst; destruct i; simpl in *; try discriminate.
  - inversion N; subst. eauto.
  - eauto.
Qed.
Lemma Forall2_nth_r {A B} (R : A -> B -> Prop) : forall l l' i y,
  Forall2 R l l' -> nth_error l' i = Some y -> exists x, nth_error l i = Some x /\ R x y.
Proof.
  induction l; intros l' i y H N; inversion H; subst; destruct i; simpl in *; try discriminate.
  - inversion N; subst. eauto.
  - eauto.
Qed.

End P.
