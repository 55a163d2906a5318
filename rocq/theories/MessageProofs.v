(** * MessageProofs: what a failure says is what happened *)

From Coq Require Import PeanoNat NArith List Bool String Lia.
From Verif Require Import Base Times Expect Mock MessageSpec.
Import ListNotations.
Open Scope N_scope.

Section Proofs.
Context {V U : Type}.
Notation exps := (list (expectation V U)).

Lemma uadd1_panic c a m : uadd1 c a = Panic m -> m = MOverflow /\ checks c = true.
Proof.
  unfold uadd1. destruct (a <? umax c); [discriminate|]. destruct (checks c); [|discriminate].
  intros E. injection E as <-. auto.
Qed.
Lemma usub_panic c a b m : usub c a b = Panic m -> m = MOverflow /\ checks c = true.
Proof.
  unfold usub. destruct (b <=? a); [discriminate|]. destruct (checks c); [|discriminate].
  intros E. injection E as <-. auto.
Qed.
Lemma show_displayed (m : matcher V U) : displayed m (matcher_show m).
Proof. destruct m; constructor. Qed.

(** ** A call *)

(** What the panic of a call says of one expectation. *)
Definition blames (c : cfg) (w : world U) (me : method V) (args : list V) (e : expectation V U)
  (m : pmsg) : Prop :=
  match m with
  | MCall fn s TeNever => fn = me_name me /\ shows e s /\ bound e = 1
  | MCall fn s (TeTooMany n mx) => fn = me_name me /\ shows e s /\ bound e <> 1
        /\ (bound e <> 0 -> n = counted e + 1 /\ bound e = mx + 1 /\ mx < n)
  | MSeqVerify d seq level => d = described_call me args
        /\ (exists h, c_seq (e_common e) = Some h /\ seq = sh_seq h
                      /\ level = w_levels w (sh_inner h))
        /\ seq <> level
  | MRet fn s r => fn = me_name me /\ shows e s
        /\ match r with
           | ReTwice => exists b, e_action e = AStatic SExpired b
           | ReNeedsNightly => no_value e /\ nightly c = false
           | ReNoDefault => no_value e /\ nightly c = true
               /\ ((exists b, e_action e = AStatic SDefault b) -> me_default me = None)
           end
  | MWrongThread => exists th, owned e th /\ th <> w_thread w
  | MOverflow => checks c = true
  | MPoison => poisoned e
  | _ => False
  end.
Definition at_fault c w me args (e : expectation V U) m : Prop := raises e m \/ blames c w me args e m.

Definition level_kept (w w' : world U) : Prop :=
  w_levels w' = w_levels w /\ w_thread w' = w_thread w.

Lemma kept_refl w : level_kept w w.
Proof. repeat split. Qed.
Lemma kept_trans w w1 w2 : level_kept w w1 -> level_kept w1 w2 -> level_kept w w2.
Proof. unfold level_kept. intros (A & B) (D & E). now rewrite D, E. Qed.

Lemma at_fault_kept c w w' me args e m : level_kept w w' ->
  at_fault c w' me args e m -> at_fault c w me args e m.
Proof.
  intros (L & T) [R|B]; [now left|]. right. unfold blames in *. rewrite <- L, <- T. exact B.
Qed.

Lemma eval_preds_panic (ps : list (pred V U)) args u u' m : eval_preds ps args u = (u', Panic m) ->
  exists p a v v', In p ps /\ snd p a v = (v', Panic m).
Proof.
  revert args u. induction ps as [|p ps IH]; intros [|a args] u; cbn; try discriminate.
  destruct (snd p a u) as [u1 [b|m1|]] eqn:E; try discriminate.
  - destruct (eval_preds ps args u1) as [u2 [bs|m2|]] eqn:E2; try discriminate.
    intros H. injection H as <- <-. destruct (IH _ _ E2) as (q & x & v & v' & I & Q). eauto 8.
  - intros H. injection H as <- <-. eauto 8.
Qed.

Definition panics {A} (r : res A) : Prop := exists m, r = Panic m.

Lemma matches_spec c me e args w k w' r : common_matches (e_common e) args w = (k, w', r) ->
  level_kept w w' /\ (panics r \/ set_common e k = e)
  /\ forall m, r = Panic m -> at_fault c w me args e m.
Proof.
  destruct e as [[mt mp sq ti] ac]. unfold common_matches. cbn [e_common c_mpoison c_matcher c_seq c_times].
  destruct mp.
  - intros E. injection E as <- <- <-. cbn. split; [apply kept_refl|]. split; [left; now eexists|].
    intros m H. injection H as <-. right. left. reflexivity.
  - destruct (matcher_matches mt args w) as [w1 r1] eqn:E. intros H.
    assert (K : level_kept w w1).
    { unfold matcher_matches in E. destruct mt as [|f|th f|ps].
      - injection E as <- _. apply kept_refl.
      - destruct (f args (w_user w)). injection E as <- _. repeat split.
      - destruct (Nat.eqb th (w_thread w)); [destruct (f args (w_user w))|]; injection E as <- _; repeat split.
      - destruct (eval_preds ps args (w_user w)). injection E as <- _. repeat split. }
    assert (R : w' = w1 /\ r = r1 /\ (panics r1 \/ k = Common mt false sq ti)).
    { destruct r1; injection H as <- <- <-; repeat split; auto. left. now eexists. }
    destruct R as (-> & -> & M). split; [exact K|]. split.
    { destruct M as [M|M]; [now left|right]. now rewrite M. }
    intros m ->. unfold matcher_matches in E. destruct mt as [|f|th f|ps].
    + discriminate.
    + left. destruct (f args (w_user w)) as [u r] eqn:F. injection E as _ ->. eapply RaiseFunc; cbn; eauto.
    + destruct (Nat.eqb_spec th (w_thread w)).
      * left. destruct (f args (w_user w)) as [u r] eqn:F. injection E as _ ->. eapply RaiseFuncSt; cbn; eauto.
      * right. injection E as _ <-. exists th. split; [left; cbn; eauto|assumption].
    + left. destruct (eval_preds ps args (w_user w)) as [u [bs|m'|]] eqn:F; cbn in E; try discriminate.
      injection E as _ ->. destruct (eval_preds_panic _ _ _ _ _ F) as (p & a & v & v' & I & Q).
      eapply RaisePred; cbn; eauto.
Qed.

Lemma find_spec c me one es args w es' w' r : find_exp c one es args w = (es', w', r) ->
  level_kept w w' /\ (panics r \/ es' = es)
  /\ forall m, r = Panic m -> exists e, In e es /\ at_fault c w me args e m.
Proof.
  revert w es' w' r. induction es as [|e es IH]; intros w es' w' r; cbn [find_exp].
  - intros E. injection E as <- <- <-. split; [apply kept_refl|]. split; [now right|discriminate].
  - destruct (common_matches (e_common e) args w) as [[k w1] r1] eqn:E.
    destruct (matches_spec c me _ _ _ _ _ _ E) as (K & A & F).
    destruct (find_exp c one es args w1) as [[es2 w2] r2] eqn:E2.
    destruct (IH _ _ _ _ E2) as (K2 & A2 & F2).
    assert (Next : set_common e k = e -> level_kept w w2
      /\ (panics (let? o := r2 in Ret (option_map S o)) \/ set_common e k :: es2 = e :: es)
      /\ forall m, (let? o := r2 in Ret (option_map S o)) = Panic m ->
           exists e0, In e0 (e :: es) /\ at_fault c w me args e0 m).
    { intros ->. split; [exact (kept_trans _ _ _ K K2)|]. split.
      - destruct A2 as [[m ->]| ->]; [left; now eexists|now right].
      - destruct r2; cbn; try discriminate. intros m0 H. injection H as ->.
        destruct (F2 _ eq_refl) as (x & X & Y). exists x. split; [now right|].
        exact (at_fault_kept _ _ _ _ _ _ _ K Y). }
    destruct r1 as [[|]|m1|].
    + destruct A as [[? A]|A]; [discriminate|].
      unfold common_is_done, times_is_done. destruct (usub c (rend (trange_of (c_times k))) 1) as [mx|m1|] eqn:D; cbn [rbind].
      * destruct (negb (mx <=? tcount (c_times k)) || one).
        -- intros H. injection H as <- <- <-. split; [exact K|]. split; [right; now rewrite A|discriminate].
        -- intros H. injection H as <- <- <-. exact (Next A).
      * intros H. injection H as <- <- <-. split; [exact K|]. split; [left; now eexists|].
        intros m H. injection H as <-. destruct (usub_panic _ _ _ _ D) as [-> X].
        exists e. split; [now left|]. right. exact X.
      * intros H. injection H as <- <- <-. split; [exact K|]. split; [right; now rewrite A|discriminate].
    + destruct A as [[? A]|A]; [discriminate|]. intros H. injection H as <- <- <-. exact (Next A).
    + intros H. injection H as <- <- <-. split; [exact K|]. split; [left; now eexists|].
      intros m H. injection H as <-. exists e. split; [now left|]. exact (F _ eq_refl).
    + destruct A as [[? A]|A]; [discriminate|]. intros H. injection H as <- <- <-.
      split; [exact K|]. split; [right; now rewrite A|discriminate].
Qed.

Lemma common_call_spec c me e args w k w' r :
  common_call c me (e_common e) (call_desc me args) w = (k, w', r) ->
  (c_matcher k = c_matcher (e_common e) /\ c_mpoison k = c_mpoison (e_common e))
  /\ w_thread w' = w_thread w
  /\ forall m, r = Panic m -> at_fault c w me args e m.
Proof.
  destruct e as [[mt mp sq [n [a b]]] ac]. unfold common_call, times_call. cbn [e_common c_times trange_of rend tcount c_matcher].
  assert (Show : forall e0 m, (let? s := show_locked (Common mt mp sq (Times n (TRange a b))) in
      Panic (MCall (me_name me) s e0) : res unit) = Panic m ->
      m = MPoison /\ mp = true \/ m = MCall (me_name me) (matcher_show mt) e0).
  { intros e0 m. unfold show_locked. cbn. destruct mp; cbn; intros H; injection H as <-; auto. }
  destruct (uadd1 c n) as [n1|m1|] eqn:A; cbn [rbind].
  - destruct (N.leb_spec b n1).
    + destruct (N.eqb_spec b 1).
      * intros H0. injection H0 as <- <- <-. split; [now split|]. split; [reflexivity|].
        intros m H0. destruct (Show _ _ H0) as [[-> Po]| ->]; right; [left; exact Po|]. cbn.
        repeat split; auto. apply show_displayed.
      * destruct (usub c b 1) as [mx|m1|] eqn:B; cbn [rbind]; intros H0; injection H0 as <- <- <-;
          (split; [now split|]); (split; [reflexivity|]); intros m H0.
        -- destruct (Show _ _ H0) as [[-> Po]| ->]; right; [left; exact Po|]. cbn.
           split; [reflexivity|]. split; [apply show_displayed|]. split; [assumption|]. intros Z.
           unfold counted; cbn. unfold bound in Z; cbn in Z.
           unfold uadd1 in A. unfold usub in B. destruct (N.leb_spec 1 b); [|lia].
           injection B as <-. destruct (n <? umax c); [injection A as <-|].
           ++ unfold bound; cbn. lia.
           ++ destruct (checks c); [discriminate|]. injection A as <-. lia.
        -- injection H0 as <-. right. destruct (usub_panic _ _ _ _ B) as [-> X]. exact X.
        -- discriminate.
    + unfold verify_sequence. cbn [set_times c_seq].
      destruct sq as [h|].
      * unfold handle_verify, inner_verify. destruct (N.eqb_spec (sh_seq h) (w_levels w (sh_inner h))) as [Q|Q].
        -- unfold satisfy_sequence; cbn [set_times c_seq]. unfold handle_satisfy, inner_satisfy.
           rewrite <- Q, N.eqb_refl.
           destruct (times_is_satisfied _); intros H0; injection H0 as <- <- <-;
             (split; [now split|]); (split; [reflexivity|]); discriminate.
        -- intros H0. injection H0 as <- <- <-. split; [now split|]. split; [reflexivity|].
           intros m H0. injection H0 as <-. right. cbn. split; [reflexivity|]. split; [|exact Q]. eauto.
      * unfold satisfy_sequence; cbn [set_times c_seq].
        destruct (times_is_satisfied _); intros H0; injection H0 as <- <- <-;
             (split; [now split|]); (split; [reflexivity|]); discriminate.
  - intros H. injection H as <- <- <-. split; [now split|]. split; [reflexivity|].
    intros m H. injection H as <-. right. destruct (uadd1_panic _ _ _ A) as [-> X]. exact X.
  - intros H. injection H as <- <- <-. split; [now split|]. split; [reflexivity|discriminate].
Qed.

Lemma run_user_panic (f : ucode U (list V) V) args w w' m :
  run_user f args w = (w', Panic m) -> exists u u', f args u = (u', Panic m).
Proof.
  unfold run_user. destruct (f args (w_user w)) as [u [v|m1|]] eqn:E; cbn; try discriminate.
  intros H. injection H as _ <-. eauto.
Qed.
Lemma run_user_err (f : ucode U (list V) V) args w w' e : run_user f args w <> (w', Ret (Err e)).
Proof. unfold run_user. destruct (f args (w_user w)) as [u [v|m1|]]; cbn; discriminate. Qed.

Lemma expectation_call_spec c me e args wr w e' w' m :
  expectation_call c me e args wr w = (e', w', Panic m) -> at_fault c w me args e m.
Proof.
  unfold expectation_call.
  destruct (common_call c me (e_common e) (call_desc me args) w) as [[k w1] [x|m1|]] eqn:E;
    destruct (common_call_spec _ _ _ _ _ _ _ _ E) as ([M MP] & T & F); try discriminate.
  2: { intros H. injection H as _ _ <-. exact (F _ eq_refl). }
  clear F E x. destruct e as [cm ac]. cbn [e_action e_common] in *.
  assert (Show : forall (r : result V rferr) m', unwrap_rf me k r = Panic m' ->
    m' = MPoison /\ c_mpoison cm = true \/ exists e0, r = Err e0 /\ m' = MRet (me_name me) (matcher_show (c_matcher cm)) e0).
  { intros [v|e0] m'; cbn; [discriminate|]. unfold show_locked. rewrite MP. destruct (c_mpoison cm); cbn; intros H; injection H as <-; auto.
    rewrite M. eauto. }
  assert (Disp : forall e0, e_common e0 = cm -> shows e0 (matcher_show (c_matcher cm))).
  { intros e0 <-. apply show_displayed. }
  destruct ac as [rf po|rf|rf].
  - (* static *)
    unfold static_ret. destruct po.
    { intros H. injection H as _ _ <-. right. right. cbn. eauto. }
    destruct (srfunc_call c me rf args w1) as [[rf' w2] r] eqn:R.
    destruct (let? x := r in unwrap_rf me k x) as [v|m1|] eqn:Q; try discriminate.
    intros H. injection H as _ _ ->. destruct r as [x|m2|]; cbn [rbind] in Q; try discriminate.
    + destruct (Show _ _ Q) as [[-> Po]|(e0 & -> & ->)]; [right; left; exact Po|].
      assert (G : forall f, match run_user f args w1 with (w'0, r0) => (rf, w'0, r0) end = (rf', w2, Ret (Err e0)) -> False).
      { intros f. destruct (run_user f args w1) as [w3 r3] eqn:X. intros H. injection H as _ _ ->. exact (run_user_err _ _ _ _ _ X). }
      assert (G' : forall f, match run_user f args w1 with (w'0, r0) => (SExpired, w'0, r0) end = (rf', w2, Ret (Err e0)) -> False).
      { intros f. destruct (run_user f args w1) as [w3 r3] eqn:X. intros H. injection H as _ _ ->. exact (run_user_err _ _ _ _ _ X). }
      right. destruct rf as [| |f|th f|f|th f]; cbn [srfunc_call] in R.
      * injection R as _ _ R. unfold return_default in R. destruct (nightly c) eqn:Ni; [destruct (me_default me) eqn:De|]; try discriminate;
          injection R as <-; cbn; (split; [reflexivity|]); (split; [now apply Disp|]); unfold no_value; cbn; eauto 8.
      * injection R as _ _ <-. cbn. split; [reflexivity|]. split; [now apply Disp|]. eauto.
      * destruct (G _ R).
      * destruct (Nat.eqb th (w_thread w1)); [destruct (G _ R)|discriminate].
      * destruct (G' _ R).
      * destruct (Nat.eqb th (w_thread w1)); [destruct (G' _ R)|discriminate].
    + injection Q as ->. destruct rf as [| |f|th f|f|th f]; cbn [srfunc_call] in R; try discriminate.
      * destruct (run_user f args w1) as [w3 r3] eqn:X. injection R as _ _ ->.
        destruct (run_user_panic _ _ _ _ _ X) as (u & u' & Y). left. eapply RaiseStatic; cbn; eauto.
      * destruct (Nat.eqb_spec th (w_thread w1)) as [Z|Z].
        -- destruct (run_user f args w1) as [w3 r3] eqn:X. injection R as _ _ ->.
           destruct (run_user_panic _ _ _ _ _ X) as (u & u' & Y). left. eapply RaiseStatic; cbn; eauto 8.
        -- injection R as _ _ <-. right. exists th. rewrite <- T. split; [|exact Z]. right. left. cbn. eauto.
      * destruct (run_user f args w1) as [w3 r3] eqn:X. injection R as _ _ ->.
        destruct (run_user_panic _ _ _ _ _ X) as (u & u' & Y). left. eapply RaiseStatic; cbn; eauto.
      * destruct (Nat.eqb_spec th (w_thread w1)) as [Z|Z].
        -- destruct (run_user f args w1) as [w3 r3] eqn:X. injection R as _ _ ->.
           destruct (run_user_panic _ _ _ _ _ X) as (u & u' & Y). left. eapply RaiseStatic; cbn; eauto 8.
        -- injection R as _ _ <-. right. exists th. rewrite <- T. split; [|exact Z]. right. left. cbn. eauto.
  - (* reference *)
    intros H. injection H as _ _ H. unfold ref_ret in H. destruct (Show _ _ H) as [[-> Po]|(e0 & R & ->)]; right; [left; exact Po|].
    destruct rf as [[v|]|v]; cbn in R; try discriminate. injection R as <-. unfold default_err.
    destruct (nightly c) eqn:Ni; cbn; (split; [reflexivity|]); (split; [now apply Disp|]); unfold no_value; cbn; auto.
    split; auto. split; auto. intros [b X]. discriminate.
  - (* mutable reference *)
    unfold mut_ret. destruct (show_locked k) as [s|m1|] eqn:S; try discriminate.
    2: { intros H. injection H as _ _ <-. unfold show_locked in S. rewrite MP in S. destruct (c_mpoison cm) eqn:Po; [|discriminate].
         injection S as <-. right. left. exact Po. }
    assert (s = matcher_show (c_matcher cm)) as ->.
    { unfold show_locked in S. destruct (c_mpoison k); [discriminate|]. injection S as <-. now rewrite M. }
    destruct (mrfunc_call c rf args wr w1) as [[rf' w2] r] eqn:R. intros H. injection H as _ _ H.
    destruct r as [[v|e0]|m2|]; cbn [rbind] in H; try discriminate; injection H as <-.
    + right. destruct rf as [[v|]|f o|th f o|v]; cbn in R; try discriminate.
      * injection R as _ _ <-. unfold default_err.
        destruct (nightly c) eqn:Ni; cbn; (split; [reflexivity|]); (split; [now apply Disp|]); unfold no_value; cbn; auto.
        split; auto. split; auto. intros [b X]. discriminate.
      * destruct (f args (w_user w1)) as [u [?|?|]]; discriminate.
      * destruct (Nat.eqb th (w_thread w1)); [|discriminate]. destruct (f args (w_user w1)) as [u [?|?|]]; discriminate.
    + destruct rf as [[v|]|f o|th f o|v]; cbn in R; try discriminate.
      * destruct (f args (w_user w1)) as [u [?|?|]] eqn:X; try discriminate. injection R as _ _ <-.
        left. eapply RaiseMut; cbn; eauto.
      * destruct (Nat.eqb_spec th (w_thread w1)) as [Z|Z].
        -- destruct (f args (w_user w1)) as [u [?|?|]] eqn:X; try discriminate. injection R as _ _ <-.
           left. eapply RaiseMut; cbn; eauto 8.
        -- injection R as _ _ <-. right. exists th. rewrite <- T. split; [|exact Z]. right. right. cbn. eauto.
Qed.

Lemma expectations_call_spec c me es args wr w es' w' m :
  expectations_call c me es args wr w = (es', w', Panic m) -> exists e, In e es /\ at_fault c w me args e m.
Proof.
  unfold expectations_call. destruct (find_exp c _ es args w) as [[es1 w1] r] eqn:E.
  destruct (find_spec c me _ _ _ _ _ _ _ E) as (K & A & F).
  destruct r as [[i|]|m1|]; try discriminate.
  - destruct (nth_error es1 i) as [e|] eqn:N; [|discriminate].
    destruct (expectation_call c me e args wr w1) as [[e' w2] r2] eqn:X. intros H. injection H as _ _ H.
    destruct r2; cbn in H; try discriminate. injection H as ->.
    destruct A as [[? A]| ->]; [discriminate|]. exists e. split; [exact (nth_error_In _ _ N)|].
    exact (at_fault_kept _ _ _ _ _ _ _ K (expectation_call_spec _ _ _ _ _ _ _ _ _ X)).
  - intros H. injection H as _ _ <-. exact (F _ eq_refl).
Qed.

Lemma slot_call_spec c md s k args wr w s' w' m :
  slot_call c md s k args wr w = (s', w', Panic m) ->
  exists e, In e (slot_get s k) /\ at_fault c w (md_me md) args e m.
Proof.
  destruct s as [es|st]; cbn.
  - destruct (expectations_call c (md_me md) es args wr w) as [[es' w1] r] eqn:E.
    intros H. injection H as _ _ ->. exact (expectations_call_spec _ _ _ _ _ _ _ _ _ E).
  - destruct (gget st k) as [es|]; [|discriminate].
    destruct (expectations_call c (md_me md) es args wr w) as [[es' w1] r] eqn:E.
    intros H. injection H as _ _ ->. exact (expectations_call_spec _ _ _ _ _ _ _ _ _ E).
Qed.

Lemma at_fault_reason c y o me es args e m : calls y o me es args -> In e es ->
  at_fault c (y_world y) me args e m ->
  reason c y o m \/ exists me es args e, calls y o me es args /\ In e es /\ raises e m.
Proof.
  intros C I [R|B]; [right; eauto 8|left].
  destruct m; cbn in B; try contradiction; cbn; auto; try (destruct e0); unfold called_with; eauto 10.
Qed.

(** ** Validation *)

Definition accuses (c : cfg) (me : method V) (e : expectation V U) (m : pmsg) : Prop :=
  match m with
  | MTooFew fn s n k => fn = me_name me /\ shows e s /\ n = counted e /\ k = least e /\ n < k
  | MTooMany fn s n k => fn = me_name me /\ shows e s /\ n = counted e /\ bound e <= n
      /\ (bound e <> 0 -> bound e = k + 1 /\ k < n)
  | MOverflow => checks c = true
  | MPoison => poisoned_matcher e
  | _ => False
  end.

Lemma common_drop_spec c me e p m : common_drop c me (e_common e) p = Panic m ->
  p = false /\ accuses c me e m.
Proof.
  unfold common_drop. destruct p; [discriminate|]. destruct e as [[mt mp sq [n [a b]]] ac].
  unfold show_locked. cbn [e_common c_mpoison c_matcher c_times]. destruct mp; cbn [rbind].
  { intros H. injection H as <-. split; reflexivity. }
  unfold times_is_satisfied. cbn [trange_of rstart rend tcount].
  destruct (N.leb_spec a n), (N.ltb_spec n b); cbn [andb]; try discriminate.
  - unfold times_maximum. cbn [trange_of rend]. destruct (usub c b 1) as [mx|m1|] eqn:B; cbn [rbind]; try discriminate.
    + intros X. injection X as <-. split; [reflexivity|]. cbn. split; [reflexivity|].
      split; [apply show_displayed|]. split; [reflexivity|]. unfold bound; cbn. split; [assumption|]. intros Z.
      unfold usub in B. destruct (N.leb_spec 1 b); [|lia]. injection B as <-. lia.
    + intros X. injection X as <-. split; [reflexivity|]. destruct (usub_panic _ _ _ _ B) as [-> Y]. exact Y.
  - intros X. injection X as <-. split; [reflexivity|]. cbn. repeat split; auto. apply show_displayed.
  - intros X. injection X as <-. split; [reflexivity|]. cbn. repeat split; auto. apply show_displayed.
Qed.

Lemma drop_exps_spec c me es p m : drop_exps c me es p = Panic m ->
  p = false /\ exists e, In e es /\ accuses c me e m.
Proof.
  induction es as [|e es IH]; cbn; [discriminate|].
  destruct (common_drop c me (e_common e) p) as [x|m1|] eqn:E; try discriminate.
  - intros H. destruct (IH H) as (P & a & A & B). eauto.
  - destruct (drop_exps c me es true); try discriminate. intros H. injection H as <-.
    destruct (common_drop_spec _ _ _ _ _ E). eauto.
Qed.
Lemma drop_many_spec c me l p m : drop_many c me l p = Panic m ->
  p = false /\ exists es e, In es l /\ In e es /\ accuses c me e m.
Proof.
  induction l as [|es l IH]; cbn; [discriminate|].
  destruct (drop_exps c me es p) as [x|m1|] eqn:E; try discriminate.
  - intros H. destruct (IH H) as (P & a & b & A & B). eauto 8.
  - destruct (drop_many c me l true); try discriminate. intros H. injection H as <-.
    destruct (drop_exps_spec _ _ _ _ _ E) as (P & e & A & B). eauto 8.
Qed.

Context (sh : shuffle V U) (shuffled : forall s x, In x (sh s) -> In x s).

Lemma slot_drop_spec c md s p m : slot_drop c md sh s p = Panic m ->
  p = false /\ exists es e, stored s es /\ In e es /\ accuses c (md_me md) e m.
Proof.
  destruct s as [es|st]; cbn.
  - intros H. destruct (drop_exps_spec _ _ _ _ _ H) as (P & e & A & B). eauto 8.
  - intros H. destruct (drop_many_spec _ _ _ _ _ H) as (P & es & e & A & B & C). split; [exact P|].
    apply in_map_iff in A as ([k es0] & <- & A). exists es0, e. split; [exists k; now apply shuffled|]. auto.
Qed.

Lemma object_drop_spec c o p m : object_drop c sh o p = Panic m ->
  p = false /\ exists f es e, In f o /\ stored (f_slot f) es /\ In e es /\ accuses c (md_me (f_decl f)) e m.
Proof.
  induction o as [|f o IH]; cbn; [discriminate|].
  destruct (slot_drop c (f_decl f) sh (f_slot f) p) as [x|m1|] eqn:E; try discriminate.
  - intros H. destruct (IH H) as (P & g & es & e & A & B). eauto 8.
  - destruct (object_drop c sh o true); try discriminate. intros H. injection H as <-.
    destruct (slot_drop_spec _ _ _ _ _ E) as (P & es & e & A & B). eauto 9.
Qed.
Lemma object_checkpoint_spec c o p o' m : object_checkpoint c sh o p = (o', Panic m) ->
  p = false /\ exists f es e, In f o /\ stored (f_slot f) es /\ In e es /\ accuses c (md_me (f_decl f)) e m.
Proof.
  revert o'. induction o as [|f o IH]; intros o'; cbn; [discriminate|].
  destruct (slot_drop c (f_decl f) sh (f_slot f) p) as [x|m1|] eqn:E; try discriminate.
  - destruct (object_checkpoint c sh o p) as [o2 r2] eqn:O. intros H. injection H as _ ->.
    destruct (IH _ eq_refl) as (P & g & es & e & A & B). eauto 8.
  - intros H. injection H as _ <-. destruct (slot_drop_spec _ _ _ _ _ E) as (P & es & e & A & B). eauto 9.
Qed.
Lemma static_checkpoint_spec c md sm p sm' m : static_checkpoint c md sh sm p = (sm', Panic m) ->
  m = MPoison /\ sm_poison sm = true \/ p = false /\ exists es e, stored (sm_slot sm) es /\ In e es /\ accuses c (md_me md) e m.
Proof.
  unfold static_checkpoint. destruct (sm_poison sm) eqn:Po.
  - intros H. injection H as _ <-. auto.
  - intros H. injection H as _ H. right. exact (slot_drop_spec _ _ _ _ _ H).
Qed.
Lemma context_drop_spec c md sm p sm' m : context_drop c md sh sm p = (sm', Panic m) ->
  m = MPoison /\ sm_poison sm = true \/ p = false /\ exists es e, stored (sm_slot sm) es /\ In e es /\ accuses c (md_me md) e m.
Proof.
  unfold context_drop. destruct p.
  - intros H. injection H as _ H. right. exact (slot_drop_spec _ _ _ _ _ H).
  - apply static_checkpoint_spec.
Qed.
Lemma module_checkpoint_spec c ss p ss' m : module_checkpoint c sh ss p = (ss', Panic m) ->
  (m = MPoison /\ exists md sm, In (md, sm) ss /\ sm_poison sm = true) \/ p = false /\ exists md sm es e,
    In (md, sm) ss /\ stored (sm_slot sm) es /\ In e es /\ accuses c (md_me md) e m.
Proof.
  revert ss'. induction ss as [|[md sm] ss IH]; intros ss'; cbn; [discriminate|].
  destruct (static_checkpoint c md sh sm p) as [sm' [x|m1|]] eqn:E; try discriminate.
  - destruct (module_checkpoint c sh ss p) as [s2 r2] eqn:O. intros H. injection H as _ ->.
    destruct (IH _ eq_refl) as [(-> & a & b & A & B)|(P & a & b & es & e & A & B)];
      [left; split; [reflexivity|]; exists a, b; split; [now right|exact B]|].
    right. split; [exact P|]. exists a, b, es, e. split; [now right|exact B].
  - intros H. injection H as _ <-. destruct (static_checkpoint_spec _ _ _ _ _ _ E) as [[-> Po]|(P & es & e & A & B)];
      [left; split; [reflexivity|]; exists md, sm; split; [now left|exact Po]|].
    right. split; [exact P|]. exists md, sm, es, e. split; [now left|]. split; [exact A|exact B].
Qed.

Lemma accuses_reason c y o me es e m : w_panicking (y_world y) = false -> validates y o me es -> In e es ->
  accuses c me e m -> reason c y o m.
Proof.
  intros P C I B. destruct m; cbn in B; try contradiction; cbn; auto; unfold validated_with; eauto 10.
Qed.

(** ** Setting up *)

Definition complains (c : cfg) (st : setter V U) (m : pmsg) : Prop :=
  match m with
  | MNotExact => exists s, st = StInSequence s
  | MBackwards => exists a b, st = StTimes (ARange a b) /\ b <= a \/ st = StTimes (AIncl a b) /\ b < a
  | MOverflow => checks c = true
  | _ => False
  end.

Lemma trange_from_panic c x m : trange_from c x = Panic m ->
  m = MOverflow /\ checks c = true
  \/ m = MBackwards /\ exists a b, x = ARange a b /\ b <= a \/ x = AIncl a b /\ b < a.
Proof.
  destruct x as [n|a b|a| |a b|b|b]; cbn; try discriminate.
  - destruct (uadd1 c n) eqn:E; try discriminate. intros H. injection H as <-. left. exact (uadd1_panic _ _ _ E).
  - destruct (N.ltb_spec a b); [discriminate|]. intros E. injection E as <-. right. eauto 6.
  - destruct (N.leb_spec a b).
    + destruct (uadd1 c b) eqn:E; try discriminate. intros X. injection X as <-. left. exact (uadd1_panic _ _ _ E).
    + intros E. injection E as <-. right. eauto 6.
  - destruct (uadd1 c b) eqn:E; try discriminate. intros H. injection H as <-. left. exact (uadd1_panic _ _ _ E).
Qed.

Definition healthy (e : expectation V U) : Prop := ~ poisoned e.

Lemma srfunc_healthy rf (e : expectation V U) : healthy e ->
  snd (set_srfunc rf e) = Ret tt /\ healthy (fst (set_srfunc rf e)).
Proof.
  intros H. unfold set_srfunc. destruct (e_action e) as [r [|]| |] eqn:A; cbn; auto.
  - destruct H. right. eauto.
  - split; [reflexivity|]. intros [P|[x P]]; [apply H; left; exact P|]. cbn in P. discriminate.
Qed.
Lemma mrfunc_healthy rf (e : expectation V U) : healthy e ->
  snd (set_mrfunc rf e) = Ret tt /\ healthy (fst (set_mrfunc rf e)).
Proof.
  intros H. unfold set_mrfunc. destruct (e_action e) as [r|r|r] eqn:A; cbn; auto.
  split; [reflexivity|]. intros [P|[x P]]; [apply H; left; exact P|]. cbn in P. discriminate.
Qed.
Lemma matcher_healthy mt (e : expectation V U) : healthy e ->
  snd (lift_common e (common_set_matcher mt (e_common e))) = Ret tt
  /\ healthy (fst (lift_common e (common_set_matcher mt (e_common e)))).
Proof.
  intros H. unfold lift_common, common_set_matcher. destruct (c_mpoison (e_common e)) eqn:E; cbn.
  - destruct H. left. exact E.
  - split; [reflexivity|]. intros [P|P]; [discriminate|]. apply H. right. exact P.
Qed.
Lemma common_healthy (e : expectation V U) k : healthy e -> c_mpoison k = c_mpoison (e_common e) ->
  healthy (set_common e k).
Proof.
  intros H E [P|P]; apply H; [left|right; exact P]. unfold poisoned_matcher in *. cbn in P. congruence.
Qed.

Lemma setter_spec c th st e t e' t' r : healthy e -> apply_setter c th st e t = (e', t', r) ->
  healthy e' /\ forall m, r = Panic m -> complains c st m.
Proof.
  intros H.
  assert (Pure : forall p : expectation V U * res unit, snd p = Ret tt /\ healthy (fst p) ->
    (fst p, t, snd p) = (e', t', r) -> healthy e' /\ forall m, r = Panic m -> complains c st m).
  { intros p [A B] E. injection E as <- <- <-. rewrite A. split; [exact B|discriminate]. }
  assert (Ti : forall x, st = StTimes x \/ (exists n, x = ANum n) ->
    (fst (lift_common e (common_times c x (e_common e))), t, snd (lift_common e (common_times c x (e_common e))))
      = (e', t', r) -> healthy e' /\ forall m, r = Panic m -> complains c st m).
  { intros x X. unfold lift_common, common_times, times_times. cbn [fst snd].
    destruct (trange_from c x) as [?|m1|] eqn:E; cbn [fst snd]; intros Q; injection Q as <- <- <-;
      (split; [apply common_healthy; auto|]); try discriminate.
    intros m Q. injection Q as <-. destruct (trange_from_panic _ _ _ E) as [[-> Y]|(-> & a & b & Y)]; [exact Y|].
    destruct X as [->|[n ->]]; [|destruct Y as [[? _]|[? _]]; discriminate]. cbn. exists a, b.
    destruct Y as [[-> Y]|[-> Y]]; auto. }
  destruct st as [x| | |ps|f|f|i|f|f|f|f|v|v|v]; cbn [apply_setter].
  - apply Ti. now left.
  - apply Ti. right. eauto.
  - apply (Pure (set_common e (common_never (e_common e)), Ret tt)). split; [reflexivity|]. now apply common_healthy.
  - apply Pure, matcher_healthy, H.
  - apply Pure, matcher_healthy, H.
  - apply Pure, matcher_healthy, H.
  - unfold common_in_sequence, times_is_exact. destruct (usub c _ _) as [d|m1|] eqn:E; cbn [rbind].
    + destruct (d =? 1).
      * unfold next_handle. destruct (uadd1 c _) as [n|m1|] eqn:E2; intros Q; injection Q as <- <- <-;
          (split; [apply common_healthy; auto|]); try discriminate.
        intros m Q. injection Q as <-. destruct (uadd1_panic _ _ _ E2) as [-> X]. exact X.
      * intros Q. injection Q as <- <- <-. split; [apply common_healthy; auto|].
        intros m Q. injection Q as <-. cbn. eauto.
    + intros Q. injection Q as <- <- <-. split; [apply common_healthy; auto|].
      intros m Q. injection Q as <-. destruct (usub_panic _ _ _ _ E) as [-> X]. exact X.
    + intros Q. injection Q as <- <- <-. split; [apply common_healthy; auto|discriminate].
  - destruct (e_action e); first [apply Pure, srfunc_healthy, H|apply Pure, mrfunc_healthy, H].
  - destruct (e_action e); first [apply Pure, srfunc_healthy, H|apply Pure, mrfunc_healthy, H].
  - apply Pure, srfunc_healthy, H.
  - apply Pure, srfunc_healthy, H.
  - destruct (e_action e); [apply Pure, srfunc_healthy, H| |apply Pure, srfunc_healthy, H].
    apply (Pure (set_action e (ARef (RConst v)), Ret tt)). split; [reflexivity|].
    intros [P|[y P]]; [apply H; left; exact P|]. cbn in P. discriminate.
  - apply Pure, srfunc_healthy, H.
  - apply Pure, mrfunc_healthy, H.
Qed.

Lemma setters_spec c th l e t e' t' r : healthy e -> apply_setters c th l e t = (e', t', r) ->
  healthy e' /\ forall m, r = Panic m -> exists st, In st l /\ complains c st m.
Proof.
  revert e t. induction l as [|st l IH]; intros e t G; cbn.
  - intros E. injection E as <- <- <-. split; [exact G|discriminate].
  - destruct (apply_setter c th st e t) as [[e1 t1] r1] eqn:E.
    destruct (setter_spec _ _ _ _ _ _ _ _ G E) as [G1 F].
    destruct r1 as [x|m1|].
    + intros H. destruct (IH _ _ G1 H) as [G2 F2]. split; [exact G2|].
      intros m ->. destruct (F2 _ eq_refl) as (s & S & C). eauto.
    + intros H. injection H as <- <- <-. split; [exact G1|]. intros m H. injection H as <-.
      exists st. split; [now left|exact (F _ eq_refl)].
    + intros H. injection H as <- <- <-. split; [exact G1|discriminate].
Qed.

Lemma default_healthy c me kd : healthy (expectation_default c me kd : expectation V U).
Proof. intros [P|[rf P]]; [discriminate|]. destruct kd; cbn in P; discriminate. Qed.

Lemma slot_expect_spec c md s k th l t s' t' m : slot_expect c md s k th l t = (s', t', Panic m) ->
  exists st, In st l /\ complains c st m.
Proof.
  unfold slot_expect. destruct (apply_setters _ _ _ _ _) as [[e t1] r] eqn:E. intros H. injection H as _ _ ->.
  exact (proj2 (setters_spec _ _ _ _ _ _ _ _ (default_healthy _ _ _) E) _ eq_refl).
Qed.

Lemma complains_reason c y o l st m : sets_up o l -> In st l -> complains c st m -> reason c y o m.
Proof.
  intros S I B. destruct m; cbn in B; try contradiction; cbn; auto.
  - destruct B as (a & b & [[-> B]|[-> B]]); exists l, a, b; auto.
  - destruct B as [s ->]. eauto.
Qed.

(** ** All operations *)

Lemma unit_panic {W} (r : res unit) m : (@unit_res W r) = Panic m -> r = Panic m.
Proof. destruct r; cbn; try discriminate. intros H. now injection H as ->. Qed.

Lemma step_reason c y o y' m : step c sh y o = (y', Panic m) ->
  reason c y o m \/ exists me es args e, calls y o me es args /\ In e es /\ raises e m.
Proof.
  destruct o as [sd|i j k l|i j k args wr|i|i|s k l|s k args|s|s| |t|b|f]; cbn [step]; try discriminate.
  - (* expect *)
    destruct (nth_error (y_objs y) i) as [ob|] eqn:O; [|discriminate].
    destruct (nth_error ob j) as [f|] eqn:F; [|discriminate].
    destruct (slot_expect _ _ _ _ _ _ _) as [[s' t'] r] eqn:E. intros H. injection H as _ H.
    apply unit_panic in H as ->. destruct (slot_expect_spec _ _ _ _ _ _ _ _ _ _ E) as (st & I & C).
    left. exact (complains_reason _ _ _ _ _ _ (SetObj _ _ _ _) I C).
  - (* call *)
    destruct (nth_error (y_objs y) i) as [ob|] eqn:O; [|discriminate].
    destruct (nth_error ob j) as [f|] eqn:F; [|discriminate].
    unfold field_call. destruct (slot_call _ _ _ _ _ _ _) as [[s' w'] r] eqn:E. intros H. injection H as _ H.
    destruct r as [[v|]|m1|]; cbn in H; try discriminate; injection H as <-.
    + left. cbn. exists (md_me (f_decl f)), (slot_get (f_slot f) k), args. split; [econstructor; eauto|reflexivity].
    + destruct (slot_call_spec _ _ _ _ _ _ _ _ _ _ E) as (e & I & A).
      exact (at_fault_reason _ _ _ _ _ _ _ _ (CallObj y i j k args wr ob f O F) I A).
  - (* checkpoint *)
    destruct (nth_error (y_objs y) i) as [ob|] eqn:O; [|discriminate].
    destruct (object_checkpoint _ _ _ _) as [ob' r] eqn:E. intros H. injection H as _ H. apply unit_panic in H as ->.
    destruct (object_checkpoint_spec _ _ _ _ _ E) as (P & f & es & e & A & B & C & D). left.
    exact (accuses_reason _ _ _ _ _ _ _ P (ValCheckpoint y i ob f es O A B) C D).
  - (* drop *)
    destruct (nth_error (y_objs y) i) as [ob|] eqn:O; [|discriminate].
    intros H. injection H as _ H. apply unit_panic in H.
    destruct (object_drop_spec _ _ _ _ H) as (P & f & es & e & A & B & C & D). left.
    exact (accuses_reason _ _ _ _ _ _ _ P (ValDrop y i ob f es O A B) C D).
  - (* context expect *)
    destruct (nth_error (y_stats y) s) as [[md sm]|] eqn:O; [|discriminate].
    unfold context_expect. destruct (sm_poison sm) eqn:Po.
    { intros H. injection H as _ <-. left. right. right. exists sm. split; [exact (LockExpect y s k l md sm O)|exact Po]. }
    destruct (slot_expect _ _ _ _ _ _ _) as [[s' t'] r] eqn:E. destruct r as [x|m1|]; try discriminate.
    intros H. injection H as _ <-. destruct (slot_expect_spec _ _ _ _ _ _ _ _ _ _ E) as (st & I & C).
    left. exact (complains_reason _ _ _ _ _ _ (SetStat _ _ _) I C).
  - (* static call *)
    destruct (nth_error (y_stats y) s) as [[md sm]|] eqn:O; [|discriminate].
    unfold static_call. destruct (sm_poison sm) eqn:Po.
    { intros H. injection H as _ <-. left. right. right. exists sm. split; [exact (LockCall y s k args md sm O)|exact Po]. }
    destruct (slot_call _ _ _ _ _ _ _) as [[s' w'] r] eqn:E.
    destruct r as [[v|]|m1|]; try discriminate; intros H; injection H as _ <-.
    + left. cbn. exists (md_me md), (slot_get (sm_slot sm) k), args. split; [econstructor; eauto|reflexivity].
    + destruct (slot_call_spec _ _ _ _ _ _ _ _ _ _ E) as (e & I & A).
      exact (at_fault_reason _ _ _ _ _ _ _ _ (CallStat y s k args md sm O) I A).
  - (* context checkpoint *)
    destruct (nth_error (y_stats y) s) as [[md sm]|] eqn:O; [|discriminate].
    destruct (static_checkpoint _ _ _ _ _) as [sm' r] eqn:E. intros H. injection H as _ H. apply unit_panic in H as ->.
    left. destruct (static_checkpoint_spec _ _ _ _ _ _ E) as [[-> Po]|(P & es & e & A & B & C)].
    { right. right. exists sm. split; [exact (LockCheckpoint y s md sm O)|exact Po]. }
    exact (accuses_reason _ _ _ _ _ _ _ P (ValCtxCheckpoint y s md sm es O A) B C).
  - (* context drop *)
    destruct (nth_error (y_stats y) s) as [[md sm]|] eqn:O; [|discriminate].
    destruct (context_drop _ _ _ _ _) as [sm' r] eqn:E. intros H. injection H as _ H. apply unit_panic in H as ->.
    left. destruct (context_drop_spec _ _ _ _ _ _ E) as [[-> Po]|(P & es & e & A & B & C)].
    { right. right. exists sm. split; [exact (LockDrop y s md sm O)|exact Po]. }
    exact (accuses_reason _ _ _ _ _ _ _ P (ValCtxDrop y s md sm es O A) B C).
  - (* module checkpoint *)
    destruct (module_checkpoint _ _ _ _) as [ss r] eqn:E. intros H. injection H as _ H. apply unit_panic in H as ->.
    left. destruct (module_checkpoint_spec _ _ _ _ _ E) as [(-> & md & sm & A & Po)|(P & md & sm & es & e & A & B & C & D)].
    { right. right. exists sm. split; [exact (LockModule y md sm A)|exact Po]. }
    exact (accuses_reason _ _ _ _ _ _ _ P (ValModule y md sm es A B) C D).
Qed.
End Proofs.
