(** * GreedyProofs: call histories refine greedy assignment *)

From Coq Require Import NArith List Bool String Lia.
From Verif Require Import Base Times TimesSpec TimesProofs Expect ExpectProofs Mock Spec DispatchProofs.
Import ListNotations.
Open Scope N_scope.

Section P.
Context {V U : Type}.
Implicit Types (w : world U) (me : method V) (x : @xspec V U).

(** The expectation that a specification sets up, after [n] calls. *)
Definition xexp x (n : N) : expectation V U :=
  Expectation (Common (MtFunc (pure_fn (x_match x))) false None
                 (Times n (TRange (x_lo x) (x_hi x + 1))))
              (AStatic (SMut (x_fun x)) false).

Fixpoint build (hist : list (option nat)) (i : nat) (xs : list xspec) : list (expectation V U) :=
  match xs with
  | [] => []
  | x :: xs' => xexp x (given i hist) :: build hist (S i) xs'
  end.

Definition good (c : cfg) x : Prop :=
  x_lo x <= x_hi x /\ x_hi x < umax c /\ total_fn (x_fun x).

Lemma build_length hist : forall xs i, List.length (build hist i xs) = List.length xs.
Proof. induction xs; intros; simpl; auto. Qed.

Lemma build_nth hist : forall xs i j,
  nth_error (build hist i xs) j =
  option_map (fun x => xexp x (given (i + j) hist)) (nth_error xs j).
Proof.
  induction xs; intros i [|j]; simpl; auto.
  - rewrite PeanoNat.Nat.add_0_r. reflexivity.
  - rewrite IHxs. replace (S i + j)%nat with (i + S j)%nat by lia. reflexivity.
Qed.

Lemma set_user_eta w : set_user w (w_user w) = w.
Proof. destruct w; reflexivity. Qed.

Lemma find_build c hist a w : forall xs i,
  Forall (good c) xs ->
  exists o, find_exp c false (build hist i xs) a w = (build hist i xs, w, Ret o) /\
    pick xs i hist a = option_map (fun j => (i + j)%nat) o.
Proof.
  induction xs as [|x xs IH]; intros i HG.
  - exists None. split; reflexivity.
  - inversion HG as [|? ? G1 G2]; subst. destruct G1 as (G1a & G1b & G1c).
    destruct (IH (S i) G2) as (o & E & P). clear IH.
    cbn [build find_exp pick]. unfold common_matches at 1. simpl.
    rewrite set_user_eta. simpl.
    destruct (x_match x a); simpl.
    + unfold common_is_done. rewrite is_done_ok by (simpl; lia). simpl.
      destruct (N.ltb_spec (given i hist) (x_hi x)).
      * replace (x_hi x + 1 <=? given i hist + 1) with false by (symmetry; apply N.leb_gt; lia).
        simpl. exists (Some O). simpl. split; [reflexivity|]. f_equal; lia.
      * replace (x_hi x + 1 <=? given i hist + 1) with true by (symmetry; apply N.leb_le; lia).
        simpl. rewrite E. exists (option_map S o). simpl.
        split; [reflexivity|]. rewrite P. destruct o; simpl; [|reflexivity]. f_equal; lia.
    + rewrite E. exists (option_map S o). simpl.
      split; [reflexivity|]. rewrite P. destruct o; simpl; [|reflexivity]. f_equal; lia.
Qed.

Lemma pick_some c hist a : forall xs i j,
  Forall (good c) xs ->
  pick xs i hist a = Some (i + j)%nat ->
  exists x, nth_error xs j = Some x /\ x_match x a = true /\ given (i + j) hist < x_hi x.
Proof.
  induction xs as [|x xs IH]; intros i j HG H; simpl in H; [discriminate|].
  inversion HG; subst.
  destruct (x_match x a && (given i hist <? x_hi x)) eqn:Q.
  - assert (j = 0)%nat by (inversion H; lia). subst j. exists x.
    apply andb_true_iff in Q. destruct Q as [Q1 Q2]. apply N.ltb_lt in Q2.
    rewrite PeanoNat.Nat.add_0_r. repeat split; auto.
  - destruct j.
    + exfalso. clear - H. assert (G : forall (ys : list (@xspec V U)) i0, pick ys (S i0 + i) hist a <> Some (i + 0)%nat).
      { induction ys; intros i0; simpl; [discriminate|].
        destruct (_ && _); [intros E; inversion E; lia|].
        apply (IHys (S i0)). }
      apply (G xs O). exact H.
    + destruct (IH (S i) j) as (x' & A & B & C0); auto.
      { rewrite H. f_equal. lia. }
      exists x'. simpl. replace (i + S j)%nat with (S i + j)%nat by lia. auto.
Qed.

Lemma given_app i hist o :
  given i (hist ++ [o]) = given i hist + (if onat_dec o (Some i) then 1 else 0).
Proof.
  unfold given. rewrite count_occ_app. simpl. destruct (onat_dec o (Some i)); simpl; lia.
Qed.

Lemma build_ext hist hist' : forall xs i,
  (forall j, (j < List.length xs)%nat -> given (i + j) hist = given (i + j) hist') ->
  build hist i xs = build hist' i xs.
Proof.
  induction xs; intros i H; simpl; auto. f_equal.
  - f_equal. specialize (H O). rewrite PeanoNat.Nat.add_0_r in H. apply H. simpl; lia.
  - apply IHxs. intros j Hj. replace (S i + j)%nat with (i + S j)%nat by lia. apply H. simpl; lia.
Qed.

Lemma build_update hist : forall xs i j x,
  nth_error xs j = Some x ->
  set_nth (build hist i xs) j (xexp x (given (i + j) hist + 1)) = build (hist ++ [Some (i + j)%nat]) i xs.
Proof.
  induction xs as [|y xs IH]; intros i [|j] x H; simpl in H; try discriminate.
  - inversion H; subst. simpl. rewrite PeanoNat.Nat.add_0_r. f_equal.
    + f_equal. rewrite given_app. destruct (onat_dec _ _); congruence.
    + apply build_ext. intros j Hj. rewrite given_app.
      destruct (onat_dec _ _) as [E|E]; [inversion E; lia|lia].
  - simpl. f_equal.
    + f_equal. rewrite given_app. destruct (onat_dec _ _) as [E|E]; [inversion E; lia|lia].
    + replace (i + S j)%nat with (S i + j)%nat by lia. rewrite IH; auto.
Qed.

Lemma build_none hist xs i : build (hist ++ [None]) i xs = build hist i xs.
Proof.
  apply build_ext. intros. rewrite given_app. destruct (onat_dec _ _); [discriminate|lia].
Qed.

(** One call. *)
Lemma call_build c md hist xs a w :
  Forall (good c) xs -> (2 <= List.length xs)%nat ->
  expectations_call c (md_me md) (build hist 0 xs) a (fun v => v) w =
    match pick xs 0 hist a with
    | None => (build (hist ++ [None]) 0 xs, w, Ret None)
    | Some i =>
        match nth_error xs i with
        | None => (build hist 0 xs, w, Ret None)
        | Some x =>
            let (u1, r) := x_fun x a (w_user w) in
            (build (hist ++ [Some i]) 0 xs, set_user w u1, let? v := r in Ret (Some v))
        end
    end.
Proof.
  intros HG HL. unfold expectations_call.
  replace (Nat.eqb (List.length (build hist 0 xs)) 1) with false
    by (symmetry; apply PeanoNat.Nat.eqb_neq; rewrite build_length; lia).
  destruct (find_build c hist a w xs 0 HG) as (o & E & P). rewrite E.
  destruct o as [j|]; simpl in P; rewrite P.
  - destruct (pick_some c hist a xs 0 j HG) as (x & Hx & Hm & Hg); [rewrite P; reflexivity|].
    rewrite build_nth, Hx. cbn [option_map].
    assert (Gx : good c x).
    { rewrite Forall_forall in HG. apply HG. eapply nth_error_In; eauto. }
    destruct Gx as (G1 & G2 & G3).
    unfold expectation_call.
    rewrite common_call_noseq by (simpl in *; try reflexivity; lia).
    cbn [e_action xexp]. unfold static_ret. simpl.
    unfold run_user. destruct (G3 a (w_user w)) as (u' & v & Ef). rewrite Ef.
    simpl. f_equal. f_equal.
    pose proof (build_update hist xs 0 j x Hx) as BU. simpl in BU. rewrite <- BU.
    reflexivity.
  - rewrite build_none. reflexivity.
Qed.

Definition xfield (md : mdecl V) hist xs : field V U := Field md (SPlain (build hist 0 xs)).

Lemma field_calls_build c md : forall calls hist xs w f' w' rs,
  Forall (good c) xs -> (2 <= List.length xs)%nat ->
  field_calls c (xfield md hist xs) 0%nat w calls = (f', w', rs) ->
  f' = xfield md (hist ++ assign xs hist calls) xs /\
  (w_user w', rs) = answers (md_me md) xs (assign xs hist calls) calls (w_user w) /\
  w_levels w' = w_levels w /\ w_thread w' = w_thread w /\ w_panicking w' = w_panicking w.
Proof.
  induction calls as [|a calls IH]; intros hist xs w f' w' rs HG HL H.
  - cbn [assign]. simpl in H. inversion H; subst. rewrite app_nil_r. simpl. auto.
  - cbn [field_calls] in H. unfold field_call, xfield in H. cbn [f_decl f_slot slot_call] in H.
    rewrite call_build in H by auto. cbn [assign answers].
    destruct (pick xs 0 hist a) as [i|] eqn:P.
    + destruct (pick_some c hist a xs 0 i HG P) as (x & Hx & _ & _).
      rewrite Hx in *.
      assert (Gx : good c x).
      { rewrite Forall_forall in HG. apply HG. eapply nth_error_In; eauto. }
      destruct Gx as (_ & _ & G3). destruct (G3 a (w_user w)) as (u1 & v & Ef). rewrite Ef in *.
      simpl in H.
      change {| f_decl := md; f_slot := SPlain (build (hist ++ [Some i]) 0 xs) |}
        with (xfield md (hist ++ [Some i]) xs) in H.
      destruct (field_calls c (xfield md (hist ++ [Some i]) xs) 0%nat (set_user w u1) calls)
        as [[f2 w2] rs2] eqn:E.
      inversion H; subst.
      destruct (IH _ _ _ _ _ _ HG HL E) as (A & B & C0 & D & F).
      rewrite <- app_assoc in A. simpl in A. simpl in B. rewrite <- B.
      repeat split; auto.
    + simpl in H.
      change {| f_decl := md; f_slot := SPlain (build (hist ++ [None]) 0 xs) |}
        with (xfield md (hist ++ [None]) xs) in H.
      destruct (field_calls c (xfield md (hist ++ [None]) xs) 0%nat w calls)
        as [[f2 w2] rs2] eqn:E.
      inversion H; subst.
      destruct (IH _ _ _ _ _ _ HG HL E) as (A & B & C0 & D & F).
      rewrite <- app_assoc in A. simpl in A. rewrite <- B.
      repeat split; auto.
Qed.

(** Counts stay within the maxima. *)
Lemma assign_le c : forall calls hist xs,
  Forall (good c) xs ->
  (forall i x, nth_error xs i = Some x -> given i hist <= x_hi x) ->
  forall i x, nth_error xs i = Some x -> given i (hist ++ assign xs hist calls) <= x_hi x.
Proof.
  induction calls as [|a calls IH]; intros hist xs HG H i x Hx.
  - cbn [assign]. rewrite app_nil_r. auto.
  - cbn [assign].
    replace (hist ++ pick xs 0 hist a :: assign xs (hist ++ [pick xs 0 hist a]) calls)
      with ((hist ++ [pick xs 0 hist a]) ++ assign xs (hist ++ [pick xs 0 hist a]) calls)
      by (rewrite <- app_assoc; reflexivity).
    apply IH; auto.
    intros j y Hy. rewrite given_app. destruct (onat_dec _ _) as [E|E].
    + destruct (pick_some c hist a xs 0 j HG E) as (y' & Hy' & _ & L). simpl in *.
      assert (y = y') by congruence. subst. lia.
    + specialize (H j y Hy). lia.
Qed.

(** Setting up. *)
Lemma setters_x c md th t x :
  good c x -> md_kind md = KStatic ->
  apply_setters c th (x_setters x) (expectation_default c (md_me md) (md_kind md)) t =
    (xexp x 0, t, Ret tt).
Proof.
  intros (G1 & G2 & G3) K. rewrite K. unfold x_setters. simpl.
  unfold lift_common. simpl.
  unfold common_times, times_times. simpl.
  destruct (N.leb_spec (x_lo x) (x_hi x)); [|lia].
  rewrite uadd1_ok by lia. simpl. reflexivity.
Qed.

Lemma build_nil i xs : build [] i xs = map (fun x => xexp x 0) xs.
Proof. revert i. induction xs; intros; simpl; f_equal; auto. Qed.

Lemma setup_x c md th : forall xs t es,
  Forall (good c) xs -> md_kind md = KStatic ->
  field_setup c (Field md (SPlain es)) 0%nat th t (map x_setters xs)
  = (Field md (SPlain (es ++ map (fun x => xexp x 0) xs)), t).
Proof.
  induction xs as [|x xs IH]; intros t es HG K.
  - simpl. rewrite app_nil_r. reflexivity.
  - inversion HG; subst. cbn [map field_setup]. unfold slot_expect. cbn [f_decl f_slot].
    rewrite setters_x by auto. cbn [slot_put slot_get].
    rewrite IH by auto. rewrite <- app_assoc. reflexivity.
Qed.

Lemma setup_new c md th xs t :
  Forall (good c) xs -> md_kind md = KStatic -> md_generic md = false ->
  field_setup c (Field md (slot_new md)) 0%nat th t (map x_setters xs) = (xfield md [] xs, t).
Proof.
  intros HG K G. unfold slot_new. rewrite G. rewrite setup_x by auto.
  unfold xfield. rewrite build_nil. reflexivity.
Qed.

(** ** Dropping *)
Lemma common_drop_panicking c me (k : common V U) : common_drop c me k true = Ret tt.
Proof. reflexivity. Qed.

Lemma drop_exps_panicking c me (es : list (expectation V U)) : drop_exps c me es true = Ret tt.
Proof. induction es; simpl; auto. Qed.

Lemma common_drop_ok c me (e : expectation V U) :
  c_mpoison (e_common e) = false ->
  (common_drop c me (e_common e) false = Ret tt <-> in_range e).
Proof.
  intros HP. unfold common_drop, show_locked, in_range. rewrite HP. simpl.
  pose proof (is_satisfied_spec (c_times (e_common e))) as S.
  destruct (times_is_satisfied _).
  - split; auto.
  - split; [|lia]. unfold times_maximum. destruct (usub _ _ _); simpl; discriminate.
  - split; [discriminate|lia].
Qed.

Lemma drop_exps_ok c me : forall (es : list (expectation V U)),
  Forall (fun e => c_mpoison (e_common e) = false) es ->
  (drop_exps c me es false = Ret tt <-> Forall in_range es).
Proof.
  induction es as [|e es IH]; intros H.
  - simpl. split; auto.
  - inversion H; subst. cbn [drop_exps].
    pose proof (common_drop_ok c me e H2) as D.
    destruct (common_drop c me (e_common e) false) as [[]|m|] eqn:E.
    + rewrite IH by auto. split.
      * intros F. constructor; auto. apply D. auto.
      * intros F. inversion F; auto.
    + rewrite drop_exps_panicking. split; [discriminate|].
      intros F. inversion F; subst. apply D in H4. discriminate.
    + split; [discriminate|]. intros F. inversion F; subst. apply D in H4. discriminate.
Qed.

Lemma drop_build c me hist xs :
  (forall i x, nth_error xs i = Some x -> given i hist <= x_hi x) ->
  (drop_exps c me (build hist 0 xs) false = Ret tt <->
   forall i x, nth_error xs i = Some x -> x_lo x <= given i hist).
Proof.
  intros H. rewrite drop_exps_ok.
  - split.
    + intros F i x Hx. rewrite Forall_forall in F.
      specialize (F (xexp x (given i hist))).
      assert (I : In (xexp x (given i hist)) (build hist 0 xs)).
      { apply nth_error_In with (n := i). rewrite build_nth, Hx. reflexivity. }
      apply F in I. unfold in_range in I. simpl in I. lia.
    + intros F. apply Forall_forall. intros e He.
      apply In_nth_error in He. destruct He as [i Hi]. rewrite build_nth in Hi.
      destruct (nth_error xs i) as [x|] eqn:Hx; [|discriminate].
      simpl in Hi. inversion Hi; subst. specialize (F i x Hx). specialize (H i x Hx).
      unfold in_range. simpl. lia.
  - apply Forall_forall. intros e He.
    apply In_nth_error in He. destruct He as [i Hi]. rewrite build_nth in Hi.
    destruct (nth_error xs i); [|discriminate]. simpl in Hi. inversion Hi; subst. reflexivity.
Qed.

(** The refinement theorem. *)
Theorem histories_refine_greedy c md xs calls w th t sh f' w' rs :
  md_generic md = false -> md_kind md = KStatic ->
  (2 <= List.length xs)%nat ->
  Forall (good c) xs ->
  field_calls c (fst (field_setup c (Field md (slot_new md)) 0%nat th t (map x_setters xs))) 0%nat w calls
    = (f', w', rs) ->
  (w_user w', rs) = answers (md_me md) xs (assign xs [] calls) calls (w_user w) /\
  (object_drop c sh [f'] false = Ret tt <->
   forall i x, nth_error xs i = Some x -> x_lo x <= given i (assign xs [] calls)).
Proof.
  intros Gn K L HG H. rewrite setup_new in H by auto. simpl in H.
  destruct (field_calls_build c md calls [] xs w f' w' rs HG L H) as (A & B & _).
  split; auto. subst f'. simpl.
  assert (LE := assign_le c calls [] xs HG).
  rewrite <- (drop_build c (md_me md)).
  - simpl. destruct (drop_exps c (md_me md) (build (assign xs [] calls) 0 xs) false) as [[]|m|]; split; intros Q; auto; discriminate.
  - simpl in LE. apply LE. intros i x Hx. unfold given. simpl. lia.
Qed.

(** ** Hand-over: everybody matches *)
(** [given]-counts of a history that follows [owner]. *)
Definition filled (ms : list N) (j : N) (i : nat) : N :=
  N.min (nth i ms 0) (j - sum (firstn i ms)).

Lemma pick_owner : forall xs i hist a j,
  Forall (fun x => x_match x a = true) xs ->
  (forall n, (n < List.length xs)%nat ->
     given (i + n) hist = filled (map x_hi xs) j n) ->
  pick xs i hist a = option_map (fun n => (i + n)%nat) (owner (map x_hi xs) j).
Proof.
  induction xs as [|x xs IH]; intros i hist a j HM HC; [reflexivity|].
  inversion HM; subst. simpl. rewrite H1. simpl.
  assert (G0 := HC O). simpl in G0. rewrite PeanoNat.Nat.add_0_r in G0.
  unfold filled in G0. simpl in G0. rewrite G0 by lia. 
  destruct (N.ltb_spec j (x_hi x)).
  - replace (N.min (x_hi x) (j - 0) <? x_hi x) with true by (symmetry; apply N.ltb_lt; lia).
    simpl. f_equal. lia.
  - replace (N.min (x_hi x) (j - 0) <? x_hi x) with false by (symmetry; apply N.ltb_ge; lia).
    rewrite (IH (S i) hist a (j - x_hi x)); auto.
    + destruct (owner _ _); simpl; [|reflexivity]. f_equal; lia.
    + intros n Hn. replace (S i + n)%nat with (i + S n)%nat by lia.
      rewrite HC by (simpl; lia). unfold filled. simpl. f_equal. lia.
Qed.

Lemma filled_step : forall ms j n,
  (n < List.length ms)%nat ->
  filled ms (j + 1) n = filled ms j n + (if onat_dec (owner ms j) (Some n) then 1 else 0).
Proof.
  induction ms as [|m ms IH]; intros j n Hn; [simpl in Hn; lia|].
  destruct n; unfold filled in *; simpl.
  - destruct (N.ltb_spec j m).
    + destruct (onat_dec (Some 0%nat) (Some 0%nat)); [lia|congruence].
    + destruct (onat_dec _ _) as [E|E]; [destruct (owner ms (j - m)); discriminate|lia].
  - destruct (N.ltb_spec j m).
    + destruct (onat_dec _ _) as [E|E]; [discriminate|lia].
    + simpl in Hn. specialize (IH (j - m) n ltac:(lia)).
      replace (j + 1 - (m + sum (firstn n ms))) with (j - m + 1 - sum (firstn n ms)) by lia.
      replace (j - (m + sum (firstn n ms))) with (j - m - sum (firstn n ms)) by lia.
      rewrite IH. f_equal. clear IH.
      destruct (owner ms (j - m)) as [o|]; cbn [option_map].
      * destruct (onat_dec (Some o) (Some n)) as [A|A], (onat_dec (Some (S o)) (Some (S n))) as [B|B];
          first [reflexivity | exfalso; apply B; congruence | exfalso; apply A; congruence].
      * destruct (onat_dec None (Some n)) as [A|A], (onat_dec None (Some (S n))) as [B|B];
          auto; discriminate.
Qed.

Lemma assign_owner : forall calls xs hist j,
  Forall (fun a => Forall (fun x => x_match x a = true) xs) calls ->
  (forall n, (n < List.length xs)%nat -> given n hist = filled (map x_hi xs) j n) ->
  assign xs hist calls = map (owner (map x_hi xs)) (upto j (List.length calls)).
Proof.
  induction calls as [|a calls IH]; intros xs hist j HM HC; [reflexivity|].
  inversion HM; subst. cbn [assign List.length upto map].
  assert (P : pick xs 0 hist a = owner (map x_hi xs) j).
  { rewrite (pick_owner xs 0 hist a j); auto. destruct (owner _ _); reflexivity. }
  rewrite P. f_equal. apply IH; auto.
  intros n Hn. rewrite given_app, filled_step by (rewrite map_length; auto).
  rewrite HC by auto. reflexivity.
Qed.

Theorem handover xs calls :
  Forall (fun a => Forall (fun x => x_match x a = true) xs) calls ->
  assign xs [] calls = map (owner (map x_hi xs)) (upto 0 (List.length calls)).
Proof.
  intros H. apply assign_owner; auto. intros n Hn. unfold given, filled. simpl. lia.
Qed.

End P.
