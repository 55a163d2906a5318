(** * StProofs: proofs for C19, the single-threaded variants *)

From Coq Require Import Arith NArith List Bool String Lia.
From Verif Require Import Base Times TimesSpec TimesProofs Expect ExpectProofs Mock Spec
  DispatchProofs FifoProofs CallProofs ReturnProofs.
Import ListNotations.
Open Scope N_scope.

Section P.
Context {V U : Type}.
Implicit Types (w : world U) (me : method V) (md : mdecl V) (e : expectation V U)
  (es : list (expectation V U)) (k : common V U).

Definition unst_common k : common V U :=
  Common (unst_matcher (c_matcher k)) (c_mpoison k) (c_seq k) (c_times k).

Lemma unst_matches (m : matcher V U) args w :
  (forall o, matcher_owner m = Some o -> o = w_thread w) ->
  matcher_matches (unst_matcher m) args w = matcher_matches m args w.
Proof.
  destruct m; simpl; auto. intros H. rewrite (H owner eq_refl), Nat.eqb_refl. reflexivity.
Qed.

Lemma unst_common_matches k args w :
  (forall o, matcher_owner (c_matcher k) = Some o -> o = w_thread w) ->
  common_matches (unst_common k) args w =
  let '(k', w', r) := common_matches k args w in (unst_common k', w', r).
Proof.
  intros H. unfold common_matches. simpl. destruct (c_mpoison k); [reflexivity|].
  rewrite unst_matches by exact H.
  destruct (matcher_matches (c_matcher k) args w) as [w1 [b|m|]]; reflexivity.
Qed.

Definition owners_here w e : Prop :=
  (forall o, matcher_owner (c_matcher (e_common e)) = Some o -> o = w_thread w) /\
  (forall o, action_owner (e_action e) = Some o -> o = w_thread w).

Lemma unst_find c one args : forall es w,
  Forall (owners_here w) es ->
  find_exp c one (map unst es) args w =
  let '(es1, w1, r) := find_exp c one es args w in (map unst es1, w1, r).
Proof.
  induction es as [|e es IH]; intros w F; [reflexivity|].
  inversion F as [|? ? [F1 _] F2]; subst. cbn [map find_exp].
  change (e_common (unst e)) with (unst_common (e_common e)).
  rewrite unst_common_matches by exact F1.
  destruct (common_matches (e_common e) args w) as [[k w1] r] eqn:M.
  apply common_matches_any in M. destruct M as ((_ & TH & _) & _).
  assert (F3 : Forall (owners_here w1) es).
  { eapply Forall_impl; [|exact F2]. intros x [X1 X2]. split; intros o; rewrite TH; auto. }
  specialize (IH w1 F3).
  destruct r as [[|]|m|]; cbn [negb]; try reflexivity.
  - change (common_is_done c (unst_common k)) with (common_is_done c k).
    destruct (common_is_done c k) as [d|m|]; try reflexivity.
    destruct (negb d || one); [reflexivity|].
    rewrite IH. destruct (find_exp c one es args w1) as [[es2 w2] r2]. reflexivity.
  - rewrite IH. destruct (find_exp c one es args w1) as [[es2 w2] r2]. reflexivity.
Qed.

Lemma unst_show k :
  same_outcome (let? s := show_locked k in Ret tt) (let? s := show_locked (unst_common k) in Ret tt).
Proof. unfold show_locked. simpl. destruct (c_mpoison k); simpl; auto. Qed.

Lemma unst_common_call c me k desc w k' w' r :
  common_call c me k desc w = (k', w', r) ->
  exists r', common_call c me (unst_common k) desc w = (unst_common k', w', r') /\ same_outcome r r'.
Proof.
  unfold common_call. cbn [unst_common c_times].
  destruct (times_call c (c_times k)) as [t' [[[]|e]|m|]].
  - change (verify_sequence (set_times (unst_common k) t') desc w)
      with (verify_sequence (set_times k t') desc w).
    destruct (verify_sequence (set_times k t') desc w) as [[]|m|].
    + change (satisfy_sequence c (set_times (unst_common k) t') w)
        with (satisfy_sequence c (set_times k t') w).
      destruct (times_is_satisfied t'), (satisfy_sequence c (set_times k t') w) as [w2 [[]|m|]];
        intros H; inversion H; subst; eexists; (split; [reflexivity|]); simpl; auto.
    + intros H; inversion H; subst. eexists; (split; [reflexivity|]); simpl; auto.
    + intros H; inversion H; subst. eexists; (split; [reflexivity|]); simpl; auto.
  - intros H; inversion H; subst. eexists; (split; [reflexivity|]).
    unfold show_locked. simpl. destruct (c_mpoison k); simpl; auto.
  - intros H; inversion H; subst. eexists; (split; [reflexivity|]); simpl; auto.
  - intros H; inversion H; subst. eexists; (split; [reflexivity|]); simpl; auto.
Qed.

Lemma unst_unwrap me k (x : result V rferr) :
  same_outcome (unwrap_rf me k x) (unwrap_rf me (unst_common k) x).
Proof.
  destruct x; simpl; auto. unfold show_locked. simpl. destruct (c_mpoison k); simpl; auto.
Qed.

Lemma same_outcome_refl {A} (r : res A) : same_outcome r r.
Proof. destruct r; simpl; auto. Qed.

Lemma unst_expectation_call c me e args wr w e' w' r :
  owners_here w e ->
  expectation_call c me e args wr w = (e', w', r) ->
  exists r', expectation_call c me (unst e) args wr w = (unst e', w', r') /\ same_outcome r r'.
Proof.
  intros [_ OA]. unfold expectation_call.
  change (e_common (unst e)) with (unst_common (e_common e)).
  destruct (common_call c me (e_common e) (call_desc me args) w) as [[k w1] r1] eqn:C.
  destruct (unst_common_call _ _ _ _ _ _ _ _ C) as (r1' & C' & SO). rewrite C'.
  apply common_call_frame in C. destruct C as (_ & TH & _).
  destruct r1 as [[]|m|], r1' as [[]|m'|]; simpl in SO; try contradiction.
  2:{ intros H; inversion H; subst. eexists; (split; [reflexivity|]); exact I. }
  2:{ intros H; inversion H; subst. eexists; (split; [reflexivity|]); exact I. }
  change (e_action (unst e)) with (unst_action (e_action e)).
  destruct (e_action e) as [rf p|rf|rf] eqn:A.
  - assert (X : forall a2 w2 r2, static_ret c me k rf p args w1 = (a2, w2, r2) ->
      exists rf1 r2', unst_action (AStatic rf p) = AStatic rf1 p /\
        static_ret c me (unst_common k) rf1 p args w1 = (unst_action a2, w2, r2') /\ same_outcome r2 r2').
    { intros a2 w2 r2. unfold static_ret. destruct p.
      - intros H; inversion H; subst.
        exists (match rf with SMutSt _ f => SMut f | SOnceSt _ f => SOnce f | _ => rf end).
        eexists. split; [destruct rf; reflexivity|]. split; [destruct rf; reflexivity|]. exact I.
      - assert (FIN : forall rf2 (x : res (result V rferr)) wx,
          unst_action (AStatic rf2 false) = AStatic rf2 false ->
          (match (let? x := x in unwrap_rf me k x) with
           | Panic m => (AStatic rf2 (negb (w_panicking w1)), wx, Panic m)
           | _ => (AStatic rf2 false, wx, let? x := x in unwrap_rf me k x)
           end) = (a2, w2, r2) ->
          exists r2', (match (let? x := x in unwrap_rf me (unst_common k) x) with
           | Panic m => (AStatic rf2 (negb (w_panicking w1)), wx, Panic m)
           | _ => (AStatic rf2 false, wx, let? x := x in unwrap_rf me (unst_common k) x)
           end) = (unst_action a2, w2, r2') /\ same_outcome r2 r2').
        { intros rf2 x wx UA H.
          assert (UB : forall p, unst_action (AStatic rf2 p) = AStatic rf2 p).
          { intros p. destruct rf2; simpl in *; try discriminate; reflexivity. }
          clear UA. destruct x as [x|m|]; cbn [rbind] in H |- *.
          - assert (S := unst_unwrap me k x).
            destruct (unwrap_rf me k x) as [v|m|], (unwrap_rf me (unst_common k) x) as [v'|m'|];
              simpl in S; try contradiction; subst; inversion H; subst; rewrite UB;
              eexists; (split; [reflexivity|]); simpl; auto.
          - inversion H; subst. rewrite UB. eexists; (split; [reflexivity|]); simpl; auto.
          - inversion H; subst. rewrite UB. eexists; (split; [reflexivity|]); simpl; auto. }
        intros H. destruct rf; cbn [unst_action].
        + exists SDefault. cbn [srfunc_call] in *.
          destruct (FIN SDefault _ _ eq_refl H) as (r2' & Q1 & Q2). exists r2'. split; [reflexivity|]. split; [exact Q1|exact Q2].
        + exists SExpired. cbn [srfunc_call] in *.
          destruct (FIN SExpired _ _ eq_refl H) as (r2' & Q1 & Q2). exists r2'. split; [reflexivity|]. split; [exact Q1|exact Q2].
        + exists (SMut f). cbn [srfunc_call] in *. unfold run_user in *.
          destruct (f args (w_user w1)) as [u rr].
          destruct (FIN (SMut f) _ _ eq_refl H) as (r2' & Q1 & Q2). exists r2'. split; [reflexivity|]. split; [exact Q1|exact Q2].
        + exists (SMut f). cbn [srfunc_call] in *. unfold run_user in *.
          assert (O : owner = w_thread w1) by (rewrite TH; apply OA; reflexivity).
          rewrite O, Nat.eqb_refl in H.
          destruct (f args (w_user w1)) as [u rr].
          destruct rr as [v|m|]; simpl in H; inversion H; subst; simpl;
            eexists; (split; [reflexivity|]); (split; [reflexivity|]); simpl; auto.
        + exists (SOnce f). cbn [srfunc_call] in *. unfold run_user in *.
          destruct (f args (w_user w1)) as [u rr].
          destruct (FIN SExpired _ _ eq_refl H) as (r2' & Q1 & Q2). exists r2'. split; [reflexivity|]. split; [exact Q1|exact Q2].
        + exists (SOnce f). cbn [srfunc_call] in *. unfold run_user in *.
          assert (O : owner = w_thread w1) by (rewrite TH; apply OA; reflexivity).
          rewrite O, Nat.eqb_refl in H.
          destruct (f args (w_user w1)) as [u rr].
          destruct (FIN SExpired _ _ eq_refl H) as (r2' & Q1 & Q2). exists r2'. split; [reflexivity|]. split; [exact Q1|exact Q2]. }
    destruct (static_ret c me k rf p args w1) as [[a2 w2] r2].
    destruct (X _ _ _ eq_refl) as (rf1 & r2' & Y1 & Y2 & Y3). rewrite Y1, Y2.
    intros H; inversion H; subst. eexists; split; [reflexivity|]. auto.
  - cbn [unst_action]. intros H; inversion H; subst. unfold unst. simpl. rewrite A. simpl.
    eexists; split; [reflexivity|]. unfold ref_ret. apply unst_unwrap.
  - destruct rf as [o|f o|ow f o|v]; cbn [unst_action]; unfold mut_ret, show_locked;
      change (c_mpoison (unst_common k)) with (c_mpoison k).
    + destruct (c_mpoison k).
      * intros H; inversion H; subst. eexists; split; [reflexivity|]. simpl; auto.
      * destruct o; simpl; intros H; inversion H; subst; eexists; (split; [reflexivity|]); simpl; auto.
    + destruct (c_mpoison k).
      * intros H; inversion H; subst. eexists; split; [reflexivity|]. simpl; auto.
      * cbn [mrfunc_call]. destruct (f args (w_user w1)) as [u [x|m|]]; simpl;
          intros H; inversion H; subst; eexists; (split; [reflexivity|]); simpl; auto.
    + destruct (c_mpoison k).
      * intros H; inversion H; subst. eexists; split; [reflexivity|]. simpl; auto.
      * assert (O : ow = w_thread w1) by (rewrite TH; apply OA; reflexivity).
        cbn [mrfunc_call]. rewrite O, Nat.eqb_refl.
        destruct (f args (w_user w1)) as [u [x|m|]]; simpl;
          intros H; inversion H; subst; eexists; (split; [reflexivity|]); simpl; auto.
    + destruct (c_mpoison k); simpl;
        intros H; inversion H; subst; eexists; (split; [reflexivity|]); simpl; auto.
Qed.

Lemma map_set_nth {A B} (f : A -> B) : forall l i x, map f (set_nth l i x) = set_nth (map f l) i (f x).
Proof. induction l; intros [|i] x; simpl; auto. rewrite IHl. reflexivity. Qed.

Lemma unst_call c me es args wr w es' w' r :
  Forall (owners_here w) es ->
  expectations_call c me es args wr w = (es', w', r) ->
  exists r', expectations_call c me (map unst es) args wr w = (map unst es', w', r') /\
    same_outcome r r' /\ Forall (owners_here w') es'.
Proof.
  intros F E. pose proof E as E0. unfold expectations_call in *. rewrite map_length.
  rewrite unst_find by exact F.
  destruct (find_exp c (Nat.eqb (List.length es) 1) es args w) as [[es1 w1] r1] eqn:X.
  assert (FA := find_exp_any _ _ _ _ _ _ _ _ X). destruct FA as (FA1 & (FL & FT & FP) & FA3 & FA4).
  assert (F1 : Forall (owners_here w1) es1).
  { assert (G : Forall (owners_here w1) es).
    { eapply Forall_impl; [|exact F]. intros x [X1 X2]. split; intros o; rewrite FT; auto. }
    eapply Forall2_Forall; [|exact FA1|exact G]. intros x y (Y1 & Y2 & _) [Z1 Z2].
    split; intros o; [rewrite Y2|rewrite Y1]; auto. }
  destruct r1 as [[i|]|m|].
  - rewrite nth_error_map. destruct (nth_error es1 i) as [e|] eqn:N; simpl.
    + destruct (expectation_call c me e args wr w1) as [[e' w2] r2] eqn:Y.
      assert (OH : owners_here w1 e). { rewrite Forall_forall in F1. apply F1. eapply nth_error_In; eauto. }
      destruct (unst_expectation_call _ _ _ _ _ _ _ _ _ OH Y) as (r2' & Y' & SO). rewrite Y'.
      assert (SH := expectation_call_shape _ _ _ _ _ _ _ _ _ Y).
      destruct SH as (S1 & _ & _ & _ & _ & S6 & _ & S8).
      inversion E; subst. eexists. split; [rewrite map_set_nth; reflexivity|]. split.
      * destruct r2, r2'; simpl in *; try contradiction; subst; auto.
      * apply Forall_set_nth.
        -- eapply Forall_impl; [|exact F1]. intros x [X1 X2]. split; intros o; rewrite S6; auto.
        -- destruct OH as [O1 O2]. split; intros o; rewrite S6; [rewrite S1; auto|].
           destruct (e_action e) as [rf p|rf|rf], (e_action e') as [rf' p'|rf'|rf']; try contradiction.
           ++ destruct S8 as [[S8|(S8 & _)] _]; subst; auto. discriminate.
           ++ discriminate.
           ++ destruct rf; contradiction.
           ++ destruct rf; contradiction.
           ++ destruct rf, rf'; try contradiction; try discriminate. destruct S8; subst. simpl in *. auto.
    + inversion E; subst. eexists; split; [reflexivity|]. simpl. auto.
  - inversion E; subst. eexists; split; [reflexivity|]. simpl. auto.
  - inversion E; subst. eexists; split; [reflexivity|]. simpl. auto.
  - inversion E; subst. eexists; split; [reflexivity|]. simpl. auto.
Qed.

(** ** On another thread *)
Lemma find_exp_pres {O} (obs : U -> O) (th : nat) c one : forall es args w es1 w1 r,
  (forall e a w w' r, In e es -> w_thread w = th ->
     matcher_matches (c_matcher (e_common e)) a w = (w', r) -> obs (w_user w') = obs (w_user w)) ->
  w_thread w = th ->
  find_exp c one es args w = (es1, w1, r) -> obs (w_user w1) = obs (w_user w).
Proof.
  induction es as [|e es IH]; intros args w es1 w1 r Q T H; cbn [find_exp] in H.
  - inversion H; auto.
  - destruct (common_matches (e_common e) args w) as [[k w2] r2] eqn:M.
    apply common_matches_any in M. destruct M as ((_ & TH & _) & _ & _ & _ & _ & M).
    assert (X : obs (w_user w2) = obs (w_user w)).
    { destruct M as [M|[r' M]]; [subst; auto|]. eapply (Q e); eauto. left; auto. }
    assert (HN : forall es1 w1 r,
      (let '(es2, w3, r3) := find_exp c one es args w2 in
       (set_common e k :: es2, w3, let? o := r3 in Ret (option_map S o))) = (es1, w1, r) ->
      obs (w_user w1) = obs (w_user w)).
    { clear H es1 w1 r. intros es1 w1 r H.
      destruct (find_exp c one es args w2) as [[es2 w3] r3] eqn:E.
      inversion H; subst. rewrite <- X. refine (IH _ _ _ _ _ _ _ E); [|congruence].
      intros e0 a w4 w5 r4 I0. apply Q. right; auto. }
    destruct r2 as [[|]|m|].
    + destruct (common_is_done c k) as [d|m|]; [destruct (negb d || one)| |];
        try (inversion H; subst; auto; fail); eapply HN; eauto.
    + eapply HN; eauto.
    + inversion H; subst; auto.
    + inversion H; subst; auto.
Qed.

Lemma foreign_action c me e args wr w e' w' r o :
  action_owner (e_action e) = Some o -> o <> w_thread w ->
  expectation_call c me e args wr w = (e', w', r) ->
  w_user w' = w_user w /\ forall v, r <> Ret v.
Proof.
  intros A D. unfold expectation_call.
  destruct (common_call c me (e_common e) (call_desc me args) w) as [[k w1] r1] eqn:C.
  apply common_call_frame in C. destruct C as (CU & TH & _).
  destruct r1 as [[]|m|]; try (intros H; inversion H; subst; split; [auto|discriminate]; fail).
  destruct (e_action e) as [rf p|rf|rf]; simpl in A; [|discriminate|].
  - unfold static_ret. destruct p; [intros H; inversion H; subst; split; [auto|discriminate]|].
    destruct rf; try discriminate; inversion A; subst; simpl;
      (destruct (Nat.eqb_spec o (w_thread w1)); [congruence|]);
      simpl; intros H; inversion H; subst; (split; [auto|discriminate]).
  - destruct rf; try discriminate. inversion A; subst. unfold mut_ret, show_locked.
    destruct (c_mpoison k); [intros H; inversion H; subst; split; [auto|discriminate]|].
    simpl. destruct (Nat.eqb_spec o (w_thread w1)); [congruence|].
    simpl; intros H; inversion H; subst; (split; [auto|discriminate]).
Qed.

Lemma foreign_call {O} (obs : U -> O) c me es args wr w es' w' r :
  (forall e, In e es ->
     match matcher_owner (c_matcher (e_common e)) with
     | Some o => o <> w_thread w
     | None => quiet_matcher obs (c_matcher (e_common e))
     end /\
     match action_owner (e_action e) with
     | Some o => o <> w_thread w
     | None => quiet_closure obs e
     end) ->
  expectations_call c me es args wr w = (es', w', r) ->
  obs (w_user w') = obs (w_user w).
Proof.
  intros Q E. apply expectations_call_any in E.
  assert (M : forall e a w1 w' r, In e es -> w_thread w1 = w_thread w ->
     matcher_matches (c_matcher (e_common e)) a w1 = (w', r) -> obs (w_user w') = obs (w_user w1)).
  { intros e a w1 w2 r2 I T M. destruct (Q e I) as [Q1 _].
    destruct (c_matcher (e_common e)) as [|f|o f|ps] eqn:CM; simpl in Q1.
    - simpl in M. inversion M; auto.
    - eapply (matcher_quiet obs (MtFunc f)); eauto.
    - simpl in M. destruct (Nat.eqb_spec o (w_thread w1)); [congruence|]. inversion M; auto.
    - eapply (matcher_quiet obs (MtPred ps)); eauto. }
  destruct E as [(j & e0 & e1 & w1 & r0 & N0 & F & X & E1 & E2)|(r0 & F & S & FR & _)].
  - assert (W1 : obs (w_user w1) = obs (w_user w)) by (eapply find_exp_pres; eauto).
    apply find_exp_any in F. destruct F as (_ & (_ & TH & _) & _).
    destruct (Q e0 (nth_error_In _ _ N0)) as [_ Q2]. rewrite <- W1.
    destruct (action_owner (e_action e0)) as [o|] eqn:A.
    + destruct (foreign_action _ _ _ _ _ _ _ _ _ o A (fun H => Q2 (eq_trans H TH)) X) as [Y _]. congruence.
    + pose proof (expectation_call_user _ _ _ _ _ _ _ _ _ X) as US.
      destruct US as [(U1 & _)|(g & u & rr & G1 & G2 & G3 & _)]; [congruence|].
      rewrite G3. specialize (Q2 g G1 args (w_user w1)). rewrite G2 in Q2. exact Q2.
  - eapply find_exp_pres; eauto.
Qed.

(** ** The matchers consulted by a call that finds an expectation *)
Lemma find_exp_consulted c one : forall es args w es1 w1 i,
  find_exp c one es args w = (es1, w1, Ret (Some i)) ->
  exists bs, consulted (firstn (S i) es) args w bs w1 /\ nth_error bs i = Some true.
Proof.
  induction es as [|e es IH]; intros args w es1 w1 i H; cbn [find_exp] in H; [discriminate|].
  destruct (common_matches (e_common e) args w) as [[k w2] r2] eqn:M.
  assert (VD : forall b, r2 = Ret b -> verdict e args w w2 b).
  { intros b Hb. subst. unfold common_matches in M. unfold verdict.
    destruct (c_mpoison (e_common e)); [discriminate|].
    destruct (matcher_matches (c_matcher (e_common e)) args w) as [w3 [b'|m|]]; inversion M; subst; auto. }
  assert (HN : forall b, r2 = Ret b ->
      (let '(es2, w3, r3) := find_exp c one es args w2 in
       (set_common e k :: es2, w3, let? o := r3 in Ret (option_map S o))) = (es1, w1, Ret (Some i)) ->
      exists bs, consulted (firstn (S i) (e :: es)) args w bs w1 /\ nth_error bs i = Some true).
  { intros b Hb Q. destruct (find_exp c one es args w2) as [[es2 w3] [[i'|]|m|]] eqn:E; inversion Q; subst.
    destruct (IH _ _ _ _ _ E) as (bs & B1 & B2).
    exists (b :: bs). split; [|exact B2]. cbn [firstn consulted]. exists w2. auto. }
  destruct r2 as [[|]|m|]; try discriminate.
  - destruct (common_is_done c k) as [d|m|]; try discriminate.
    destruct (negb d || one).
    + inversion H; subst. exists [true]. split; [|reflexivity]. simpl. exists w1. auto.
    + eauto.
  - eauto.
Qed.

Lemma closure_none_user c me e args wr w e' w' r :
  closure e = None -> expectation_call c me e args wr w = (e', w', r) -> w_user w' = w_user w.
Proof.
  intros N X. apply expectation_call_user in X. destruct X as [[X _]|(f & u & rr & X & _)]; [auto|congruence].
Qed.

(** ** A call at position [i] of a list, from the outside *)
Lemma one_closure c me es args wr w es' w' v :
  expectations_call c me es args wr w = (es', w', Ret (Some v)) ->
  exists i e bs w1,
    nth_error es i = Some e /\
    consulted (firstn (S i) es) args w bs w1 /\ nth_error bs i = Some true /\
    (forall j, j <> i -> nth_error es' j = nth_error es j) /\
    match closure e with
    | Some f => f args (w_user w1) = (w_user w', Ret v)
    | None => w_user w' = w_user w1
    end.
Proof.
  intros E. apply expectations_call_any in E.
  destruct E as [(i & e & e1 & w1 & r0 & N0 & F & X & E1 & E2)|(r0 & F & S & FR & NR & _)].
  2:{ exfalso. eapply NR. reflexivity. }
  destruct (find_exp_consulted _ _ _ _ _ _ _ _ F) as (bs & B1 & B2).
  exists i, e, bs, w1. repeat (split; [assumption|]). split.
  - intros j D. subst. apply nth_set_nth_other. auto.
  - destruct r0 as [v0|m|]; inversion E2; subst.
    apply expectation_call_user in X. destruct X as [[X1 X2]|(f & u & rr & X1 & X2 & X3 & X4)].
    + rewrite (X2 _ eq_refl). exact X1.
    + rewrite X1, X2. subst. reflexivity.
Qed.

Lemma at_most_one_closure {O} (obs : U -> O) c me es args wr w es' w' r :
  (forall e, In e es -> quiet_matcher obs (c_matcher (e_common e))) ->
  expectations_call c me es args wr w = (es', w', r) ->
  obs (w_user w') = obs (w_user w) \/
  exists i e f u rr, nth_error es i = Some e /\ closure e = Some f /\ obs u = obs (w_user w) /\
    f args u = (w_user w', rr) /\ r = (let? v := rr in Ret (Some v)).
Proof.
  intros Q E. apply expectations_call_any in E.
  assert (Q' : Forall (fun e => quiet_matcher obs (c_matcher (e_common e))) es) by (apply Forall_forall; auto).
  destruct E as [(i & e & e1 & w1 & r0 & N0 & F & X & E1 & E2)|(r0 & F & S & FR & NR & _)].
  - assert (W1 : obs (w_user w1) = obs (w_user w)) by (eapply find_exp_quiet; eauto).
    apply expectation_call_user in X. destruct X as [[X1 X2]|(f & u & rr & X1 & X2 & X3 & X4)].
    + left. congruence.
    + right. exists i, e, f, (w_user w1), rr. subst. auto.
  - left. eapply find_exp_quiet; eauto.
Qed.

End P.
