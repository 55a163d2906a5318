(** * ReturnProofs: proofs for C13 - C19 *)

From Coq Require Import Arith NArith List Bool String Lia.
From Verif Require Import Base Times TimesSpec TimesProofs Expect ExpectProofs Mock Spec
  DispatchProofs FifoProofs CallProofs SoleProofs.
Import ListNotations.
Open Scope N_scope.

Section P.
Context {V U : Type}.
Implicit Types (w : world U) (me : method V) (md : mdecl V) (e : expectation V U)
  (es : list (expectation V U)).

Lemma uwrap1_neq c n : 1 <= umax c -> uwrap1 c n <> n.
Proof. intros H. unfold uwrap1. ncase; lia. Qed.

(** ** C14 *)
Definition const_action (v : V) (a : action V U) : Prop :=
  match a with
  | AStatic (SMut f) _ => f = const_fn v
  | AStatic (SMutSt _ f) _ => f = const_fn v
  | ARef (RConst v') => v' = v
  | _ => False
  end.

Lemma set_const_action c th v e t e' t' :
  match e_action e with AMut _ => False | _ => True end ->
  (apply_setter c th (StReturnConst v) e t = (e', t', Ret tt)) ->
  const_action v (e_action e').
Proof.
  intros K H. simpl in H. destruct (e_action e) as [rf p|rf|rf] eqn:A; [| |contradiction].
  - unfold set_srfunc in H. rewrite A in H. destruct p; inversion H; subst. reflexivity.
  - inversion H; subst. reflexivity.
Qed.

Lemma const_call c me e args wr w e' w' r v :
  const_action v (e_action e) -> expectation_call c me e args wr w = (e', w', r) ->
  const_action v (e_action e') /\ forall u, r = Ret u -> u = v.
Proof.
  intros K H. pose proof (expectation_call_shape _ _ _ _ _ _ _ _ _ H) as S.
  destruct S as (_ & _ & _ & _ & _ & _ & _ & S).
  split.
  - destruct (e_action e) as [rf p|rf|rf], (e_action e') as [rf' p'|rf'|rf']; simpl in *; try contradiction.
    + destruct S as [[S|(S1 & f & S2)] _].
      * subst. exact K.
      * destruct S2 as [S2|[o S2]]; subst; contradiction.
    + subst; exact K.
  - intros u Hu. subst r. unfold expectation_call in H.
    destruct (common_call _ _ _ _ _) as [[k w1] r1]. destruct r1 as [[]|m|]; try discriminate.
    destruct (e_action e) as [rf p|rf|rf]; simpl in K; [| |contradiction].
    + unfold static_ret in H. destruct p; [discriminate|].
      destruct rf; try contradiction; subst f; simpl in H; unfold run_user in H; simpl in H.
      * inversion H; auto.
      * destruct (Nat.eqb _ _); simpl in H; inversion H; auto.
    + destruct rf; [contradiction|]. subst. unfold ref_ret in H. simpl in H. inversion H; auto.
Qed.

(** The expectation at position [i] keeps a property of its action that calls
    preserve. *)
Definition at_pos (i : nat) (P : action V U -> Prop) es : Prop :=
  exists e, nth_error es i = Some e /\ P (e_action e).

Lemma at_pos_call c me i (P : action V U -> Prop) :
  (forall e args wr w e' w' r, P (e_action e) -> expectation_call c me e args wr w = (e', w', r) ->
     P (e_action e')) ->
  forall es args wr w es' w' r,
  at_pos i P es -> expectations_call c me es args wr w = (es', w', r) -> at_pos i P es'.
Proof.
  intros HP es args wr w es' w' r (e & N & HE) E.
  apply expectations_call_any in E. destruct E as [(j & e0 & e1 & w1 & r0 & N0 & F & X & E1 & E2)|(r0 & F & S & _)].
  - subst. destruct (Nat.eq_dec j i) as [D|D].
    + subst. assert (e = e0) by congruence. subst. exists e1. split.
      * eapply nth_set_nth_same; eauto.
      * eapply HP; eauto.
    + exists e. rewrite nth_set_nth_other; auto.
  - destruct (Forall2_nth _ _ _ _ _ S N) as (e' & N' & A & _). exists e'. rewrite A. auto.
Qed.

Lemma answered_by c me es args wr w es' w' r i n n' :
  expectations_call c me es args wr w = (es', w', r) ->
  count_at es i = Some n -> count_at es' i = Some n' -> n' <> n ->
  exists e e' w1 r0, nth_error es i = Some e /\ nth_error es' i = Some e' /\
    expectation_call c me e args wr w1 = (e', w', r0) /\ r = (let? v := r0 in Ret (Some v)).
Proof.
  intros E C1 C2 D. unfold count_at in *.
  destruct (nth_error es i) as [e|] eqn:N1; [|discriminate].
  destruct (nth_error es' i) as [e'|] eqn:N2; [|discriminate].
  simpl in *. inversion C1; inversion C2; subst.
  apply expectations_call_any in E. destruct E as [(j & e0 & e1 & w1 & r0 & N0 & F & X & E1 & E2)|(r0 & F & S & _)].
  - subst. destruct (Nat.eq_dec j i) as [D'|D'].
    + subst. assert (e = e0) by congruence. subst.
      erewrite nth_set_nth_same in N2 by eauto. inversion N2; subst.
      exists e0, e', w1, r0. auto.
    + rewrite nth_set_nth_other in N2 by auto. congruence.
  - destruct (Forall2_nth _ _ _ _ _ S N1) as (e2 & N' & _ & _ & _ & A).
    assert (e' = e2) by congruence. subst. rewrite A in D. contradiction.
Qed.

(** ** C15: at most once *)
Definition once_action (f : ucode U (list V) V) (a : action V U) : Prop :=
  match a with
  | AStatic (SOnce g) _ => g = f
  | AStatic (SOnceSt _ g) _ => g = f
  | _ => False
  end.
Definition spent_action (a : action V U) : Prop :=
  match a with AStatic SExpired _ => True | _ => False end.

Lemma once_call c me e args wr w e' w' r f :
  once_action f (e_action e) -> expectation_call c me e args wr w = (e', w', r) ->
  (w_user w' = w_user w /\ (once_action f (e_action e') \/ spent_action (e_action e'))) \/
  (spent_action (e_action e') /\ exists rr, f args (w_user w) = (w_user w', rr)).
Proof.
  intros K H. unfold expectation_call in H.
  destruct (common_call c me (e_common e) (call_desc me args) w) as [[k w2] r1] eqn:CC.
  apply common_call_frame in CC. destruct CC as (CU & CT & _).
  destruct r1 as [[]|m|]; try (inversion H; subst; simpl; left; auto; fail).
  destruct (e_action e) as [rf p|rf|rf]; try contradiction.
  unfold static_ret in H. destruct p.
  { inversion H; subst; simpl. left; auto. }
  destruct rf; simpl in K; try contradiction; subst f0.
  - simpl in H. unfold run_user in H. rewrite CU in H.
    destruct (f args (w_user w)) as [u rr] eqn:F. right.
    destruct rr as [v|m|]; simpl in H; inversion H; subst; simpl; split; auto; eexists; reflexivity.
  - simpl in H. destruct (Nat.eqb _ _).
    + unfold run_user in H. rewrite CU in H.
      destruct (f args (w_user w)) as [u rr] eqn:F. right.
      destruct rr as [v|m|]; simpl in H; inversion H; subst; simpl; split; auto; eexists; reflexivity.
    + simpl in H. inversion H; subst; simpl. left. auto.
Qed.

Definition once_inv (i : nat) (f : ucode U (list V) V) (cnt : U -> N) (n0 : N) es w : Prop :=
  Forall (fun e => quiet_matcher cnt (c_matcher (e_common e))) es /\
  (forall j e, j <> i -> nth_error es j = Some e -> quiet_closure cnt e) /\
  ((at_pos i (once_action f) es /\ cnt (w_user w) <= n0) \/
   (at_pos i spent_action es /\ cnt (w_user w) <= n0 + 1)).

Lemma quiet_closure_shape {O} (obs : U -> O) c me e args wr w e' w' r :
  expectation_call c me e args wr w = (e', w', r) -> quiet_closure obs e -> quiet_closure obs e'.
Proof.
  intros H Q f Hf. pose proof (expectation_call_shape _ _ _ _ _ _ _ _ _ H) as S.
  destruct S as (_ & _ & _ & _ & _ & _ & _ & S).
  apply Q. unfold closure in *.
  destruct (e_action e) as [rf p|rf|rf], (e_action e') as [rf' p'|rf'|rf']; try contradiction.
  - destruct S as [[S|(S1 & f0 & S2)] _]; [subst; auto|subst; discriminate].
  - subst; auto.
  - destruct rf; contradiction.
  - destruct rf; contradiction.
  - destruct rf, rf'; simpl in *; try contradiction; try discriminate.
    + subst; auto.
    + destruct S; subst; auto.
Qed.

Lemma quiet_closure_core {O} (obs : U -> O) e e' :
  same_core e e' -> quiet_closure obs e -> quiet_closure obs e'.
Proof. intros (A & _) Q f Hf. apply Q. unfold closure in *. rewrite <- A. auto. Qed.

Lemma Forall2_Forall {A B} (R : A -> B -> Prop) (P : A -> Prop) (Q : B -> Prop) :
  (forall x y, R x y -> P x -> Q y) -> forall l l', Forall2 R l l' -> Forall P l -> Forall Q l'.
Proof. intros H. induction 1; intros F; inversion F; subst; constructor; eauto. Qed.

Lemma once_inv_call c me i f cnt n0 :
  (forall args u, cnt (fst (f args u)) <= cnt u + 1) ->
  forall es args wr w es' w' r,
  once_inv i f cnt n0 es w ->
  expectations_call c me es args wr w = (es', w', r) ->
  once_inv i f cnt n0 es' w'.
Proof.
  intros Hf es args wr w es' w' r (QM & QC & ST) E.
  apply expectations_call_any in E. destruct E as [(j & e0 & e1 & w1 & r0 & N0 & F & X & E1 & E2)|(r0 & F & S & FR & _)].
  - assert (W1 : cnt (w_user w1) = cnt (w_user w)) by (eapply find_exp_quiet; eauto).
    pose proof (expectation_call_shape _ _ _ _ _ _ _ _ _ X) as SH.
    pose proof (expectation_call_user _ _ _ _ _ _ _ _ _ X) as US.
    destruct SH as (SM & _ & _ & _ & _ & _ & _ & SA).
    subst. split; [|split].
    + apply Forall_set_nth; auto. rewrite SM. rewrite Forall_forall in QM.
      apply QM. eapply nth_error_In; eauto.
    + intros j' e' D N. destruct (Nat.eq_dec j j') as [D'|D'].
      * subst. erewrite nth_set_nth_same in N by eauto. inversion N; subst.
        eapply quiet_closure_shape; eauto.
      * rewrite nth_set_nth_other in N by auto. eauto.
    + destruct (Nat.eq_dec j i) as [D|D].
      * subst j.
        assert (NI : nth_error (set_nth es i e1) i = Some e1) by (eapply nth_set_nth_same; eauto).
        destruct ST as [((e & N & A) & C)|((e & N & A) & C)];
          assert (e = e0) by congruence; subst e.
        -- (* the closure is still there *)
           destruct (once_call _ _ _ _ _ _ _ _ _ _ A X) as [(U1 & [O1|O1])|(O1 & rr & G)].
           ++ left. split; [exists e1; auto|]. rewrite U1. lia.
           ++ right. split; [exists e1; auto|]. rewrite U1. lia.
           ++ right. split; [exists e1; auto|].
              assert (H := Hf args (w_user w1)). rewrite G in H. simpl in H. lia.
        -- (* already spent: no closure *)
           right. destruct (e_action e0) as [rf p|rf|rf] eqn:A0; try contradiction.
           destruct rf; try contradiction.
           destruct (e_action e1) as [rf' p'|rf'|rf'] eqn:A1; try contradiction.
           split.
           ++ exists e1. split; auto. rewrite A1.
              destruct SA as [[SA|(SA & _)] _]; subst; exact I.
           ++ destruct US as [(U1 & _)|(g & u & rr & G1 & _)]; [rewrite U1; lia|].
              unfold closure in G1. rewrite A0 in G1. discriminate.
      * assert (QE : quiet_closure cnt e0) by eauto.
        assert (CW : cnt (w_user w') = cnt (w_user w1)).
        { destruct US as [(U1 & _)|(g & u & rr & G1 & G2 & G3 & _)]; [congruence|].
          rewrite G3. specialize (QE g G1 args (w_user w1)). rewrite G2 in QE. exact QE. }
        destruct ST as [((e & N & A) & C)|((e & N & A) & C)]; [left|right];
          (split; [exists e; rewrite nth_set_nth_other by auto; auto|lia]).
  - assert (W1 : cnt (w_user w') = cnt (w_user w)) by (eapply find_exp_quiet; eauto).
    split; [|split].
    + eapply Forall2_Forall; [|exact S|exact QM]. intros x y (_ & M & _) Q. rewrite M. exact Q.
    + intros j' e' D N. destruct (Forall2_nth_r _ _ _ _ _ S N) as (e & N1 & SC).
      eapply quiet_closure_core; eauto.
    + destruct ST as [((e & N & A) & C)|((e & N & A) & C)]; [left|right];
        (split; [|lia]); destruct (Forall2_nth _ _ _ _ _ S N) as (e' & N' & SC & _);
        exists e'; rewrite SC; auto.
Qed.


(** ** A sole expectation without matcher and sequence *)
Definition sole (r : trange) (j : N) (a : action V U) : expectation V U :=
  Expectation (Common MtAlways false None (Times j r)) a.

Lemma sole_step c md r j a k args wr w :
  1 <= rend r -> j < umax c ->
  field_call c (Field md (SPlain [sole r j a])) k args wr w =
  let K := Common MtAlways false None (Times (j + 1) r) in
  if j + 1 <? rend r then
    match a with
    | AStatic rf p =>
        let '(a', w2, r2) := static_ret c (md_me md) K rf p args w in
        (Field md (SPlain [sole r (j + 1) a']), w2, r2)
    | ARef rf => (Field md (SPlain [sole r (j + 1) a]), w, ref_ret c (md_me md) K rf)
    | AMut rf =>
        let '(rf', w2, r2) := mut_ret c (md_me md) K rf args wr w in
        (Field md (SPlain [sole r (j + 1) (AMut rf')]), w2, r2)
    end
  else (Field md (SPlain [sole r (j + 1) a]), w,
        Panic (MCall (me_name (md_me md)) "<anything>"
                 (if rend r =? 1 then TeNever else TeTooMany (j + 1) (rend r - 1)))).
Proof.
  intros H1 H2. unfold field_call, slot_call, expectations_call.
  cbn [f_slot f_decl List.length Nat.eqb find_exp].
  unfold common_matches. cbn [sole e_common c_mpoison c_matcher matcher_matches].
  unfold common_is_done. rewrite is_done_ok by (simpl; lia).
  rewrite orb_true_r. cbn [nth_error]. unfold expectation_call.
  cbn [set_common e_common e_action].
  destruct (N.ltb_spec (j + 1) (rend r)).
  - rewrite common_call_noseq by (simpl; auto; lia). simpl.
    destruct a as [rf p|rf|rf].
    + destruct (static_ret _ _ _ _ _ _ _) as [[a' w2] [v|m|]]; reflexivity.
    + destruct (ref_ret _ _ _ _); reflexivity.
    + destruct (mut_ret _ _ _ _ _ _ _) as [[a' w2] [v|m|]]; reflexivity.
  - rewrite common_call_over by (simpl; auto; lia). reflexivity.
Qed.

(** ** C15: the messages of a sole return_once *)
Lemma once_later_calls c md hi r (r0 : res V) k : forall l j (p : bool) (w : world U) f' w' rs,
  rend r = match hi with Some m => m + 1 | None => umax c end ->
  1 <= rend r -> rend r <= umax c -> j + N.of_nat (List.length l) < umax c -> 1 <= j ->
  w_panicking w = false ->
  (if p then (match r0 with Ret _ => False | _ => True end \/ 2 <= j)
   else (exists v, r0 = Ret v) /\ (j = 1 \/ exists m, hi = Some m /\ m <= j)) ->
  field_calls c (Field md (SPlain [sole r j (AStatic SExpired p)])) k w l = (f', w', rs) ->
  w' = w /\ rs = map (once_later (md_me md) hi r0) (upto j (List.length l)).
Proof.
  induction l as [|a l IH]; intros j p w f' w' rs E1 E2 E3 J J1 WP HP H.
  - simpl in H. inversion H; subst. auto.
  - cbn [List.length] in J. cbn [field_calls] in H. rewrite sole_step in H by lia.
    cbn zeta in H.
    assert (STEP : exists (p' : bool) r1,
      (if p' then (match r0 with Ret _ => False | _ => True end \/ 2 <= j + 1)
       else (exists v, r0 = Ret v) /\ (j + 1 = 1 \/ exists m, hi = Some m /\ m <= j + 1)) /\
      r1 = once_later (md_me md) hi r0 j /\
      (let '(f2, w2, rs0) :=
         field_calls c (Field md (SPlain [sole r (j + 1) (AStatic SExpired p')])) k w l in
       (f2, w2, r1 :: rs0)) = (f', w', rs)).
    { destruct (N.ltb_spec (j + 1) (rend r)) as [L|L].
      - unfold static_ret in H. destruct p.
        + exists true, (Panic MPoison). split; [right; lia|]. split; [|exact H].
          unfold once_later. destruct hi as [m|].
          * destruct (N.ltb_spec j m); [|lia]. destruct r0; auto. destruct (N.eqb_spec j 1); auto.
            destruct HP; [contradiction|lia].
          * destruct r0; auto. destruct (N.eqb_spec j 1); auto. destruct HP; [contradiction|lia].
        + simpl in H. rewrite WP in H. simpl in H.
          exists true. eexists. split; [right; lia|]. split; [|exact H].
          destruct HP as [(v & Hv) HJ]. subst r0. unfold once_later.
          assert (j = 1). { destruct HJ as [HJ|(m & Hm & Hj)]; auto. subst hi. lia. }
          subst j. destruct hi as [m|]; [destruct (N.ltb_spec 1 m); [|lia]|]; reflexivity.
      - exists p. eexists. split; [|split; [|exact H]].
        + destruct p; [right; lia|]. destruct HP as [HV HJ]. split; auto. right.
          destruct hi as [m|]; [|lia]. exists m. split; auto. lia.
        + unfold once_later. destruct hi as [m|]; [|lia].
          destruct (N.ltb_spec j m); [lia|]. f_equal. f_equal.
          destruct (N.eqb_spec (rend r) 1), (N.eqb_spec m 0); try lia; auto. f_equal. lia. }
    destruct STEP as (p' & r1 & HP' & R1 & H').
    destruct (field_calls c _ k w l) as [[f2 w2] rs2] eqn:Q.
    eapply IH in Q; eauto; try lia. destruct Q as [Q1 Q2]. inversion H'; subst. auto.
Qed.

Lemma once_setup c md x f th t :
  md_generic md = false -> md_kind md = KStatic ->
  arg_below (umax c) x -> satisfiable (umax c) x ->
  exists r, trange_from c x = Ret r /\
  slot_expect c md (slot_new md) 0%nat th [StTimes x; StReturnOnce f] t
    = (SPlain [sole r 0 (AStatic (SOnce f) false)], t, Ret tt).
Proof.
  intros G K B S. destruct (trange_from_bounds c x B S) as (r & E & _).
  exists r. split; auto. unfold slot_expect, slot_new. rewrite G, K. simpl.
  unfold lift_common, common_times, times_times. rewrite E. reflexivity.
Qed.

Lemma once_history c md x f calls w th t s t' r f' w' rs :
  md_generic md = false -> md_kind md = KStatic ->
  arg_below (umax c) x -> satisfiable (umax c) x -> arg_max x <> Some 0 ->
  (forall a u, snd (f a u) <> Abort) ->
  N.of_nat (List.length calls) < umax c -> w_panicking w = false ->
  slot_expect c md (slot_new md) 0%nat th [StTimes x; StReturnOnce f] t = (s, t', r) ->
  field_calls c (Field md s) 0%nat w calls = (f', w', rs) ->
  r = Ret tt /\ (w_user w', rs) = once_answers (md_me md) (arg_max x) f calls (w_user w).
Proof.
  intros G K B S M NA L WP E H.
  destruct (once_setup c md x f th t G K B S) as (rg & E1 & E2).
  destruct (trange_from_bounds c x B S) as (rg' & E1' & R1 & R2 & R3 & R4).
  assert (rg = rg') by congruence. subst rg'.
  rewrite E2 in E. inversion E; subst. split; auto.
  destruct calls as [|a l].
  - simpl in H. inversion H; subst. reflexivity.
  - cbn [List.length] in L. cbn [field_calls] in H. rewrite sole_step in H by lia. cbn zeta in H.
    assert (L1 : 0 + 1 < rend rg). { rewrite R2. destruct (arg_max x) as [m|]; [|lia]. assert (m <> 0) by congruence. lia. }
    apply N.ltb_lt in L1. rewrite L1 in H. clear L1.
    unfold static_ret in H. cbn [srfunc_call] in H. unfold run_user in H.
    unfold once_answers. specialize (NA a (w_user w)).
    destruct (f a (w_user w)) as [u1 r0]. simpl in NA.
    destruct r0 as [v|m|]; [| |congruence]; cbn [rbind unwrap_rf] in H; rewrite ?WP in H; cbn [negb] in H.
    + destruct (field_calls c _ 0%nat _ l) as [[f2 w2] rs2] eqn:Q.
      eapply (once_later_calls c md (arg_max x) rg (Ret v)) in Q; try lia; eauto; try (simpl; eauto; fail).
      destruct Q. inversion H; subst. reflexivity.
    + destruct (field_calls c _ 0%nat _ l) as [[f2 w2] rs2] eqn:Q.
      eapply (once_later_calls c md (arg_max x) rg (Panic m)) in Q; try lia; auto.
      destruct Q. inversion H; subst. reflexivity.
Qed.

(** ** C16 *)
Lemma default_later c md k : forall l j w f' w' rs,
  1 <= umax c -> j + N.of_nat (List.length l) < umax c ->
  field_calls c (Field md (SPlain [sole (trange_default c) j (AStatic SDefault true)])) k w l = (f', w', rs) ->
  w' = w /\ rs = map (fun _ => Panic MPoison) l.
Proof.
  induction l as [|a l IH]; intros j w f' w' rs H1 J H.
  - simpl in H. inversion H; subst; auto.
  - cbn [List.length] in J. cbn [field_calls] in H. rewrite sole_step in H by (simpl; lia). cbn zeta in H.
    assert (L : j + 1 < rend (trange_default c)) by (simpl; lia). apply N.ltb_lt in L. rewrite L in H.
    simpl in H. destruct (field_calls c _ k w l) as [[f2 w2] rs2] eqn:Q.
    apply IH in Q; auto; [|lia]. destruct Q. inversion H; subst. auto.
Qed.

(** Actions of kinds KRef and KMut, and KStatic with a default: every call gives
    the same result and leaves the action as it is. *)
Lemma steady_history c md (a0 : action V U) (res0 : res V) k :
  (forall K args w, c_mpoison K = false -> c_matcher K = MtAlways ->
    match a0 with
    | AStatic rf p => static_ret c (md_me md) K rf p args w = (a0, w, res0)
    | ARef rf => ref_ret c (md_me md) K rf = res0
    | AMut rf => mut_ret c (md_me md) K rf args (fun v => v) w = (rf, w, res0)
    end) ->
  forall l j w f' w' rs,
  1 <= umax c -> j + N.of_nat (List.length l) < umax c ->
  field_calls c (Field md (SPlain [sole (trange_default c) j a0])) k w l = (f', w', rs) ->
  w' = w /\ rs = map (fun _ => res0) l.
Proof.
  intros HA. induction l as [|a l IH]; intros j w f' w' rs H1 J H.
  - simpl in H. inversion H; subst; auto.
  - cbn [List.length] in J. cbn [field_calls] in H. rewrite sole_step in H by (simpl; lia). cbn zeta in H.
    assert (L : j + 1 < rend (trange_default c)) by (simpl; lia). apply N.ltb_lt in L. rewrite L in H.
    specialize (HA (Common MtAlways false None (Times (j + 1) (trange_default c))) a w eq_refl eq_refl).
    assert (X : (let '(f2, w2, rs0) := field_calls c (Field md (SPlain [sole (trange_default c) (j + 1) a0])) k w l in
       (f2, w2, res0 :: rs0)) = (f', w', rs)).
    { destruct a0 as [rf p|rf|rf]; rewrite HA in H; exact H. }
    destruct (field_calls c _ k w l) as [[f2 w2] rs2] eqn:Q.
    apply IH in Q; auto; [|lia]. destruct Q. inversion X; subst. auto.
Qed.

Lemma no_action_history c md calls w th t s t' r f' w' rs :
  md_generic md = false -> 1 <= umax c ->
  N.of_nat (List.length calls) < umax c -> w_panicking w = false ->
  slot_expect c md (slot_new md) 0%nat th [] t = (s, t', r) ->
  field_calls c (Field md s) 0%nat w calls = (f', w', rs) ->
  w' = w /\ rs = no_action_answers c (md_me md) (md_kind md) calls.
Proof.
  intros G H1 L WP E H. unfold slot_expect, slot_new in E. rewrite G in E. simpl in E.
  inversion E; subst. clear E.
  change (expectation_default c (md_me md) (md_kind md))
    with (sole (trange_default c) 0 (action_default c (md_me md) (md_kind md))) in H.
  unfold no_action_answers, no_action_err.
  destruct (md_kind md); cbn [action_default] in H.
  - (* static *)
    destruct (if nightly c then me_default (md_me md) else None) as [d|] eqn:D.
    + apply (steady_history c md _ (Ret d)) in H; auto.
      intros K args w1 _ _. unfold static_ret. simpl. unfold return_default.
      destruct (nightly c); [|discriminate]. rewrite D. reflexivity.
    + destruct calls as [|a l]; [simpl in H; inversion H; subst; auto|].
      cbn [List.length] in L. cbn [field_calls] in H. rewrite sole_step in H by (simpl; lia). cbn zeta in H.
      assert (L' : 0 + 1 < rend (trange_default c)) by (simpl; lia). apply N.ltb_lt in L'. rewrite L' in H.
      unfold static_ret in H. simpl in H. unfold return_default in H.
      assert (X : (if nightly c then match me_default (md_me md) with Some v => Ok v | None => Err ReNoDefault end
                   else Err ReNeedsNightly) = @Err V _ (if nightly c then ReNoDefault else ReNeedsNightly)).
      { destruct (nightly c); [rewrite D|]; reflexivity. }
      rewrite X in H. simpl in H. rewrite WP in H. simpl in H.
      destruct (field_calls c _ 0%nat w l) as [[f2 w2] rs2] eqn:Q.
      apply default_later in Q; auto; try lia. destruct Q. inversion H; subst. auto.
  - (* ref *)
    unfold maybe_return_default in H.
    destruct (if nightly c then me_default (md_me md) else None) as [d|] eqn:D.
    + apply (steady_history c md _ (Ret d)) in H; auto.
    + apply (steady_history c md _ (Panic (MRet (me_name (md_me md)) "<anything>" (if nightly c then ReNoDefault else ReNeedsNightly)))) in H; auto.
      * destruct H. subst. split; auto. destruct calls; auto.
      * intros K args w1 P M. unfold ref_ret. simpl. unfold show_locked. rewrite P, M. reflexivity.
  - (* mut *)
    unfold maybe_return_default in H.
    destruct (if nightly c then me_default (md_me md) else None) as [d|] eqn:D.
    + apply (steady_history c md _ (Ret d)) in H; auto.
      intros K args w1 P M. unfold mut_ret, show_locked. rewrite P. reflexivity.
    + apply (steady_history c md _ (Panic (MRet (me_name (md_me md)) "<anything>" (if nightly c then ReNoDefault else ReNeedsNightly)))) in H; auto.
      * destruct H. subst. split; auto. destruct calls; auto.
      * intros K args w1 P M. unfold mut_ret, show_locked. rewrite P, M. reflexivity.
Qed.

(** ** C17 *)
Lemma var_history c md : forall l j v w f' w' rs,
  1 <= umax c -> j + N.of_nat (List.length l) < umax c ->
  field_calls_wr c (Field md (SPlain [sole (trange_default c) j (AMut (XVar v))])) 0%nat w l = (f', w', rs) ->
  w' = w /\ rs = var_values v (map snd l).
Proof.
  induction l as [|[a wr] l IH]; intros j v w f' w' rs H1 J H.
  - simpl in H. inversion H; subst; auto.
  - cbn [List.length] in J. cbn [field_calls_wr] in H. rewrite sole_step in H by (simpl; lia). cbn zeta in H.
    assert (L : j + 1 < rend (trange_default c)) by (simpl; lia). apply N.ltb_lt in L. rewrite L in H.
    simpl in H.
    destruct (field_calls_wr c _ 0%nat w l) as [[f2 w2] rs2] eqn:Q.
    apply IH in Q; auto; [|lia]. destruct Q. inversion H; subst. auto.
Qed.

Lemma mut_returning_history c md f : forall l j o w f' w' rs,
  1 <= umax c -> j + N.of_nat (List.length l) < umax c ->
  field_calls_wr c (Field md (SPlain [sole (trange_default c) j (AMut (XMut f o))])) 0%nat w l = (f', w', rs) ->
  (w_user w', rs) = fresh_values f (map fst l) (w_user w).
Proof.
  induction l as [|[a wr] l IH]; intros j o w f' w' rs H1 J H.
  - simpl in H. inversion H; subst; auto.
  - cbn [List.length] in J. cbn [field_calls_wr] in H. rewrite sole_step in H by (simpl; lia). cbn zeta in H.
    assert (L : j + 1 < rend (trange_default c)) by (simpl; lia). apply N.ltb_lt in L. rewrite L in H.
    unfold mut_ret, show_locked in H. cbn [c_mpoison c_matcher mrfunc_call] in H.
    cbn [map fst fresh_values].
    destruct (f a (w_user w)) as [u1 [v|m|]]; cbn [rbind] in H;
      destruct (field_calls_wr c _ 0%nat _ l) as [[f2 w2] rs2] eqn:Q;
      apply IH in Q; auto; try lia; cbn [w_user set_user] in Q; rewrite <- Q; inversion H; subst; auto.
Qed.

(** ** C18 *)
Definition kind_of (a : action V U) : kind :=
  match a with AStatic _ _ => KStatic | ARef _ => KRef | AMut _ => KMut end.

Definition clean (a : action V U) : Prop :=
  match a with AStatic _ p => p = false | _ => True end.

Lemma final_seq_ext : forall l t t' h,
  (forall i, t i = t' i) -> @final_seq V U l t h = final_seq l t' h.
Proof.
  induction l as [|st l IH]; intros t t' h H; auto.
  destruct st; simpl; auto. rewrite H. apply IH. intros i. rewrite H. reflexivity.
Qed.

Ltac fin9 y :=
  repeat (split; [solve [auto | exists y; split; auto
    | match goal with |- context [kind_of ?b] => destruct (kind_of b); auto end]|]);
  try (intros; split; auto; lia); auto.

Lemma last_setter_gen c th kd : checks c = true -> 1 <= umax c -> forall l e t e' t' x,
  kind_of (e_action e) = kd -> clean (e_action e) -> c_mpoison (e_common e) = false ->
  trange_from c x = Ret (trange_of (c_times (e_common e))) ->
  apply_setters c th l e t = (e', t', Ret tt) ->
  c_matcher (e_common e') = final_matcher th l (c_matcher (e_common e)) /\
  c_mpoison (e_common e') = false /\
  c_seq (e_common e') = final_seq l t (c_seq (e_common e)) /\
  tcount (c_times (e_common e')) = tcount (c_times (e_common e)) /\
  trange_from c (final_count l x) = Ret (trange_of (c_times (e_common e'))) /\
  e_action e' = final_action kd th l (e_action e) /\
  (forall i, t' i = Sequence (sq_inner (t i)) (sq_next (t i) + positions i l)).
Proof.
  intros CK U1. induction l as [|st l IH]; intros e t e' t' x K CL MP TR H.
  - simpl in H. inversion H; subst. simpl. repeat (split; [solve [auto]|]).
    intros i. rewrite N.add_0_r. destruct (t' i); reflexivity.
  - cbn [apply_setters] in H.
    destruct (apply_setter c th st e t) as [[e1 t1] r1] eqn:A.
    destruct r1 as [[]|m|]; try discriminate.
    assert (X : kind_of (e_action e1) = kd /\ clean (e_action e1) /\ c_mpoison (e_common e1) = false /\
      tcount (c_times (e_common e1)) = tcount (c_times (e_common e)) /\
      (exists y, trange_from c y = Ret (trange_of (c_times (e_common e1))) /\
         final_count (st :: l) x = final_count l y) /\
      final_matcher th (st :: l) (c_matcher (e_common e)) = final_matcher th l (c_matcher (e_common e1)) /\
      final_seq (st :: l) t (c_seq (e_common e)) = final_seq l t1 (c_seq (e_common e1)) /\
      final_action kd th (st :: l) (e_action e) = final_action kd th l (e_action e1) /\
      (forall i, sq_inner (t1 i) = sq_inner (t i) /\
                 sq_next (t1 i) + positions i l = sq_next (t i) + positions i (st :: l))).
    { clear H IH.
      destruct e as [k a]. simpl in K, CL, MP, TR.
      assert (SR : forall rf e1, set_srfunc rf (Expectation k a) = (e1, Ret tt) ->
                e_common e1 = k /\
                e_action e1 = match kd with KStatic => AStatic rf false | _ => a end).
      { intros rf e2 Q. unfold set_srfunc in Q. simpl in Q. destruct a as [rf0 p|rf0|rf0]; simpl in K; subst kd.
        - simpl in CL. subst p. inversion Q; subst; auto.
        - inversion Q; subst; auto.
        - inversion Q; subst; auto. }
      assert (SM : forall rf e1, set_mrfunc rf (Expectation k a) = (e1, Ret tt) ->
                e_common e1 = k /\
                e_action e1 = match kd with KMut => AMut rf | _ => a end).
      { intros rf e2 Q. unfold set_mrfunc in Q. simpl in Q. destruct a as [rf0 p|rf0|rf0]; simpl in K; subst kd;
          inversion Q; subst; auto. }
      destruct st as [xt| | |ps|g|g|s|g|g|g|g|v|v|v]; cbn [apply_setter] in A.
      - (* times *)
        unfold lift_common, common_times, times_times in A. simpl in A.
        destruct (trange_from c xt) as [rg|m|] eqn:T; simpl in A; inversion A; subst; simpl.
        fin9 xt.
      - (* once *)
        unfold lift_common, common_times, times_times in A. cbn [e_common fst snd] in A.
        destruct (trange_from c (ANum 1)) as [rg|m|] eqn:T; simpl in A; inversion A; subst; simpl.
        fin9 (ANum 1).
      - (* never *)
        assert (T0 : trange_from c (ANum 0) = Ret (TRange 0 1)).
        { simpl. rewrite uadd1_ok by lia. reflexivity. }
        inversion A; subst. cbn [e_common e_action set_common c_mpoison c_matcher c_seq c_times common_never set_times
          times_never trange_of tcount final_count final_matcher final_seq final_action positions].
        fin9 (ANum 0).
      - (* with *)
        unfold lift_common, common_set_matcher in A. simpl in A. rewrite MP in A. simpl in A.
        inversion A; subst; simpl. fin9 x.
      - unfold lift_common, common_set_matcher in A. simpl in A. rewrite MP in A. simpl in A.
        inversion A; subst; simpl. fin9 x.
      - unfold lift_common, common_set_matcher in A. simpl in A. rewrite MP in A. simpl in A.
        inversion A; subst; simpl. fin9 x.
      - (* in_sequence *)
        unfold common_in_sequence in A. cbn [e_common] in A.
        destruct (times_is_exact c (c_times k)) as [[|]|m|]; try (inversion A; fail).
        unfold next_handle, uadd1 in A.
        destruct (N.ltb_spec (sq_next (t s)) (umax c)).
        2:{ rewrite CK in A. inversion A. }
        assert (KA : match kind_of a with KStatic | _ => a end = a) by (destruct (kind_of a); auto).
        inversion A; subst. cbn [e_common e_action set_common c_mpoison c_matcher c_seq c_times set_times
          times_never trange_of tcount final_count final_matcher final_seq final_action positions].
        rewrite KA. split; [auto|]. split; [auto|]. split; [auto|].
        split; [auto|]. split; [exists x; auto|]. split; [auto|].
        split.
        { apply final_seq_ext. intros i. unfold set_seq.
          destruct (Nat.eqb_spec i s); [subst|]; auto. }
        split; [auto|]. intros i. unfold set_seq.
        destruct (Nat.eqb_spec i s), (Nat.eqb_spec s i); try congruence; subst; cbn [sq_inner sq_next]; split; auto; lia.
      - (* returning *)
        destruct a as [rf0 p|rf0|rf0]; simpl in K; subst kd; cbn [e_action] in A.
        + destruct (set_srfunc _ _) as [e2 r2] eqn:Q. inversion A; subst. simpl in *. subst.
          apply SR in Q. destruct Q as [Q1 Q2]. rewrite Q1, Q2. simpl.
          fin9 x.
        + destruct (set_srfunc _ _) as [e2 r2] eqn:Q. inversion A; subst. simpl in *. subst.
          apply SR in Q. destruct Q as [Q1 Q2]. rewrite Q1, Q2. simpl.
          fin9 x.
        + destruct (set_mrfunc _ _) as [e2 r2] eqn:Q. inversion A; subst. simpl in *. subst.
          apply SM in Q. destruct Q as [Q1 Q2]. rewrite Q1, Q2. simpl.
          fin9 x.
      - (* returning_st *)
        destruct a as [rf0 p|rf0|rf0]; simpl in K; subst kd; cbn [e_action] in A.
        + destruct (set_srfunc _ _) as [e2 r2] eqn:Q. inversion A; subst. simpl in *. subst.
          apply SR in Q. destruct Q as [Q1 Q2]. rewrite Q1, Q2. simpl.
          fin9 x.
        + destruct (set_srfunc _ _) as [e2 r2] eqn:Q. inversion A; subst. simpl in *. subst.
          apply SR in Q. destruct Q as [Q1 Q2]. rewrite Q1, Q2. simpl.
          fin9 x.
        + destruct (set_mrfunc _ _) as [e2 r2] eqn:Q. inversion A; subst. simpl in *. subst.
          apply SM in Q. destruct Q as [Q1 Q2]. rewrite Q1, Q2. simpl.
          fin9 x.
      - destruct (set_srfunc _ _) as [e2 r2] eqn:Q. inversion A; subst. simpl in *. subst.
        apply SR in Q. destruct Q as [Q1 Q2]. rewrite Q1, Q2. destruct a; simpl in *;
        fin9 x.
      - destruct (set_srfunc _ _) as [e2 r2] eqn:Q. inversion A; subst. simpl in *. subst.
        apply SR in Q. destruct Q as [Q1 Q2]. rewrite Q1, Q2. destruct a; simpl in *;
        fin9 x.
      - (* return_const *)
        destruct a as [rf0 p|rf0|rf0]; simpl in K; subst kd; cbn [e_action] in A.
        + destruct (set_srfunc _ _) as [e2 r2] eqn:Q. inversion A; subst. simpl in *. subst.
          apply SR in Q. destruct Q as [Q1 Q2]. rewrite Q1, Q2. simpl.
          fin9 x.
        + inversion A; subst; simpl.
          fin9 x.
        + destruct (set_srfunc _ _) as [e2 r2] eqn:Q. inversion A; subst. simpl in *. subst.
          apply SR in Q. destruct Q as [Q1 Q2]. rewrite Q1, Q2. simpl.
          fin9 x.
      - destruct (set_srfunc _ _) as [e2 r2] eqn:Q. inversion A; subst. simpl in *. subst.
        apply SR in Q. destruct Q as [Q1 Q2]. rewrite Q1, Q2. destruct a; simpl in *;
        fin9 x.
      - destruct (set_mrfunc _ _) as [e2 r2] eqn:Q. inversion A; subst. simpl in *. subst.
        apply SM in Q. destruct Q as [Q1 Q2]. rewrite Q1, Q2. destruct a; simpl in *;
        fin9 x. }
    destruct X as (X1 & X2 & X3 & X4 & (y & X5 & X5') & X6 & X7 & X8 & X9).
    destruct (IH _ _ _ _ y X1 X2 X3 X5 H) as (B1 & B2 & B3 & B4 & B5 & B6 & B7).
    rewrite X5', X6, X7, X8. repeat (split; [congruence|]).
    intros i. rewrite B7. destruct (X9 i) as [Y1 Y2]. rewrite Y1, Y2. reflexivity.
Qed.

End P.
