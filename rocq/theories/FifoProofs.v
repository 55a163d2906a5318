(** * FifoProofs: proofs for C06, C07, C10 - C13 *)

From Coq Require Import Arith NArith List Bool String Lia.
From Verif Require Import Base Times TimesSpec TimesProofs Expect ExpectProofs Mock Spec
  DispatchProofs SoleProofs.
Import ListNotations.
Open Scope N_scope.

Section P.
Context {V U : Type}.
Implicit Types (w : world U) (me : method V) (md : mdecl V) (e : expectation V U) (es : list (expectation V U)).

Lemma find_exp_pick c one : forall es args w i e bs w1,
  Forall proper es ->
  nth_error es i = Some e ->
  consulted (firstn (S i) es) args w bs w1 ->
  nth_error bs i = Some true ->
  (~ saturated e \/ one = true) ->
  (forall j e' b, (j < i)%nat -> nth_error es j = Some e' -> nth_error bs j = Some b ->
     b = false \/ (saturated e' /\ one = false)) ->
  find_exp c one es args w = (es, w1, Ret (Some i)).
Proof.
  induction es as [|e0 es IH]; intros args w i e bs w1 HP N C B T F; [destruct i; discriminate|].
  inversion HP as [|? ? P1 P2]; subst.
  destruct bs as [|b bs]; [destruct i; discriminate|].
  cbn [firstn consulted] in C. destruct C as (w2 & HV & C).
  cbn [find_exp]. rewrite (common_matches_verdict _ _ _ _ _ HV), set_common_id.
  destruct (is_done_proper c e0 P1) as (d & Hd & Hsat).
  destruct i as [|i].
  - simpl in N, B. inversion N; inversion B; subst.
    assert (w1 = w2). { simpl in C. destruct bs; [auto|contradiction]. } subst.
    rewrite Hd.
    destruct T as [T|T].
    + destruct d; [exfalso; apply T, Hsat; auto|]. reflexivity.
    + subst one. rewrite orb_true_r. reflexivity.
  - simpl in N, B.
    rewrite (IH args w2 i e bs w1); auto.
    2:{ intros j e' b' Hj He' Hb'. apply (F (S j) e' b'); auto. lia. }
    destruct b; [|reflexivity].
    destruct (F O e0 true ltac:(lia) eq_refl eq_refl) as [Q|[Q1 Q2]]; [discriminate|].
    rewrite Hd. rewrite Q2. apply Hsat in Q1. rewrite Q1. reflexivity.
Qed.

Lemma find_exp_none c one : forall es args w bs w1,
  Forall proper es ->
  consulted es args w bs w1 ->
  (forall j e' b, nth_error es j = Some e' -> nth_error bs j = Some b ->
     b = false \/ (saturated e' /\ one = false)) ->
  find_exp c one es args w = (es, w1, Ret None).
Proof.
  induction es as [|e0 es IH]; intros args w bs w1 HP C F.
  - destruct bs; simpl in C; [subst; reflexivity|contradiction].
  - inversion HP as [|? ? P1 P2]; subst.
    destruct bs as [|b bs]; [contradiction|]. destruct C as (w2 & HV & C).
    cbn [find_exp]. rewrite (common_matches_verdict _ _ _ _ _ HV), set_common_id.
    destruct (is_done_proper c e0 P1) as (d & Hd & Hsat).
    rewrite (IH args w2 bs w1); auto.
    2:{ intros j e' b' He' Hb'. apply (F (S j) e' b'); auto. }
    destruct b; [|reflexivity].
    destruct (F O e0 true eq_refl eq_refl) as [Q|[Q1 Q2]]; [discriminate|].
    rewrite Hd, Q2. apply Hsat in Q1. rewrite Q1. reflexivity.
Qed.

Lemma fifo_pick c me : forall es args wr w i e bs w1 e' w2 r,
  Forall proper es ->
  nth_error es i = Some e ->
  consulted (firstn (S i) es) args w bs w1 ->
  nth_error bs i = Some true ->
  takes (List.length es = 1%nat) e ->
  (forall j e' b, (j < i)%nat -> nth_error es j = Some e' -> nth_error bs j = Some b ->
     passes (List.length es = 1%nat) e' b) ->
  expectation_call c me e args wr w1 = (e', w2, r) ->
  expectations_call c me es args wr w = (set_nth es i e', w2, let? v := r in Ret (Some v)).
Proof.
  intros es args wr w i e bs w1 e' w2 r HP N C B T F E. unfold expectations_call.
  rewrite (find_exp_pick c _ es args w i e bs w1); auto.
  - rewrite N, E. reflexivity.
  - destruct T as [T|T]; [left; auto|right; apply PeanoNat.Nat.eqb_eq; auto].
  - intros j e0 b Hj He Hb. destruct (F j e0 b Hj He Hb) as [Q|[Q1 Q2]]; auto.
    right; split; auto. apply PeanoNat.Nat.eqb_neq; auto.
Qed.


Lemma gget_gput_same : forall (s : gstore V U) k es, gget (gput s k es) k = Some es.
Proof.
  induction s as [|[k' es'] s IH]; intros k es; simpl.
  - rewrite PeanoNat.Nat.eqb_refl. reflexivity.
  - destruct (Nat.eqb_spec k' k); simpl.
    + subst. rewrite PeanoNat.Nat.eqb_refl. reflexivity.
    + destruct (Nat.eqb_spec k' k); [contradiction|]. apply IH.
Qed.

Lemma gget_gput_other : forall (s : gstore V U) k k2 es,
  k <> k2 -> gget (gput s k es) k2 = gget s k2.
Proof.
  induction s as [|[k' es'] s IH]; intros k k2 es D; simpl.
  - destruct (Nat.eqb_spec k k2); [contradiction|]. reflexivity.
  - destruct (Nat.eqb_spec k' k); simpl.
    + subst. destruct (Nat.eqb_spec k k2); [contradiction|]. reflexivity.
    + destruct (Nat.eqb_spec k' k2); auto.
Qed.

Lemma gput_same_id : forall (s : gstore V U) k es, gget s k = Some es -> gput s k es = s.
Proof.
  induction s as [|[k' es'] s IH]; intros k es H; simpl in *; [discriminate|].
  destruct (Nat.eqb_spec k' k); [congruence|]. f_equal. auto.
Qed.

Lemma consulted_frame : forall es args w bs w1,
  consulted es args w bs w1 ->
  w_levels w1 = w_levels w /\ w_thread w1 = w_thread w /\ w_panicking w1 = w_panicking w.
Proof.
  induction es as [|e es IH]; intros args w bs w1 H; destruct bs as [|b bs]; simpl in H; try contradiction.
  - subst; auto.
  - destruct H as (w2 & [_ HV] & C). apply IH in C. destruct C as (A1 & A2 & A3).
    rewrite A1, A2, A3. clear - HV. destruct (c_matcher (e_common e)); simpl in HV.
    + inversion HV; auto.
    + destruct (f args (w_user w)). inversion HV; auto.
    + destruct (Nat.eqb _ _); [|discriminate]. destruct (f args (w_user w)). inversion HV; auto.
    + destruct (eval_preds ps args (w_user w)). inversion HV; auto.
Qed.

Lemma unmatched c f k args wr w bs w1 :
  let es := slot_get (f_slot f) k in
  Forall proper es ->
  consulted es args w bs w1 ->
  (forall j e b, nth_error es j = Some e -> nth_error bs j = Some b ->
     passes (List.length es = 1%nat) e b) ->
  field_call c f k args wr w = (f, w1, Panic (MNoMatch (call_desc (md_me (f_decl f)) args))).
Proof.
  intros es HP C F.
  assert (X : expectations_call c (md_me (f_decl f)) es args wr w = (es, w1, Ret None)).
  { unfold expectations_call. rewrite (find_exp_none c _ es args w bs w1); auto.
    intros j e0 b He Hb. destruct (F j e0 b He Hb) as [Q|[Q1 Q2]]; auto.
    right; split; auto. apply PeanoNat.Nat.eqb_neq; auto. }
  unfold field_call, slot_call. destruct f as [md s]. simpl in *. subst es.
  destruct s as [es|st]; simpl in *.
  - rewrite X. reflexivity.
  - destruct (gget st k) as [es|] eqn:G.
    + rewrite X. rewrite gput_same_id by auto. reflexivity.
    + destruct bs; [simpl in C; subst; reflexivity|contradiction].
Qed.

(** ** Predicates *)
Lemma evals_eval : forall ps args u bs u',
  evals ps args u bs u' -> @eval_preds V U ps args u = (u', Ret bs).
Proof.
  induction 1; auto. destruct p as [nm q]. simpl in *. rewrite H, IHevals. reflexivity.
Qed.

Lemma pure_preds_eval : forall (qs : list (string * (V -> bool))) args (u : U),
  List.length qs = List.length args ->
  exists bs, eval_preds (map pure_pred qs) args u = (u, Ret bs) /\
    (forallb (fun b => b) bs = true <-> Forall2 (fun q a => snd q a = true) qs args).
Proof.
  induction qs as [|q qs IH]; intros [|a args] u L; try discriminate.
  - exists []. simpl. split; auto. split; auto.
  - simpl in L. inversion L. destruct (IH args u) as (bs & E & S); auto.
    exists (snd q a :: bs). simpl. rewrite E. split; auto.
    rewrite andb_true_iff, S. split.
    + intros [A B]. constructor; auto.
    + intros A. inversion A; auto.
Qed.

(** ** Matchers set by a chain *)
Lemma matcher_setters c th : forall pre e t,
  Forall sets_matcher pre -> c_mpoison (e_common e) = false ->
  exists m, apply_setters c th pre e t =
    (set_common e (Common m false (c_seq (e_common e)) (c_times (e_common e))), t, Ret tt).
Proof.
  induction pre as [|st pre IH]; intros e t H P.
  - exists (c_matcher (e_common e)). simpl. rewrite <- P. destruct e as [k a]. destruct k. reflexivity.
  - inversion H as [|? ? H1 H2]; subst.
    assert (X : exists m, apply_setter c th st e t =
       (set_common e (Common m false (c_seq (e_common e)) (c_times (e_common e))), t, Ret tt)).
    { destruct st; try contradiction; simpl; unfold lift_common, common_set_matcher; rewrite P; simpl; eexists; reflexivity. }
    destruct X as [m X]. cbn [apply_setters]. rewrite X.
    destruct (IH (set_common e (Common m false (c_seq (e_common e)) (c_times (e_common e)))) t H2) as (m2 & E); [reflexivity|].
    exists m2. rewrite E. reflexivity.
Qed.

Lemma apply_setters_app c th : forall l1 l2 e t,
  @apply_setters V U c th (l1 ++ l2) e t =
  let '(e1, t1, r) := apply_setters c th l1 e t in
  match r with
  | Ret _ => apply_setters c th l2 e1 t1
  | _ => (e1, t1, r)
  end.
Proof.
  induction l1 as [|s l1 IH]; intros l2 e t; simpl; auto.
  destruct (apply_setter c th s e t) as [[e1 t1] r]. destruct r; auto.
Qed.

Definition mexp c (m : matcher V U) (f : ucode U (list V) V) (j : N) : expectation V U :=
  Expectation (Common m false None (Times j (trange_default c))) (AStatic (SMut f) false).

Lemma chain_matcher c md pre st m f th t :
  md_generic md = false -> md_kind md = KStatic ->
  Forall sets_matcher pre ->
  (st = [] /\ pre = [] /\ m = MtAlways \/ exists s, st = [s] /\
     match s with StWith ps => m = MtPred ps | StWithf g => m = MtFunc g
                | StWithfSt g => m = MtFuncSt th g | _ => False end) ->
  slot_expect c md (slot_new md) 0%nat th (pre ++ st ++ [StReturning f]) t
    = (SPlain [mexp c m f 0], t, Ret tt).
Proof.
  intros G K P S. unfold slot_expect, slot_new. rewrite G, K.
  rewrite apply_setters_app.
  destruct (matcher_setters c th pre (expectation_default c (md_me md) KStatic) t P) as (m0 & E); [reflexivity|].
  rewrite E. destruct S as [(S1 & S2 & S3)|(s & S1 & S2)]; subst.
  - simpl in E. inversion E; subst. reflexivity.
  - destruct s; try contradiction; subst; reflexivity.
Qed.

Lemma mexp_call c md m f args w u' b :
  total_fn f -> 2 <= umax c ->
  matcher_matches m args w = (set_user w u', Ret b) ->
  field_call c (Field md (SPlain [mexp c m f 0])) 0%nat args (fun v => v) w =
  if b then
    let (u2, r) := f args u' in (Field md (SPlain [mexp c m f 1]), set_user w u2, r)
  else (Field md (SPlain [mexp c m f 0]), set_user w u',
        Panic (MNoMatch (call_desc (md_me md) args))).
Proof.
  intros T H2 M. unfold field_call, slot_call, expectations_call.
  cbn [f_slot f_decl List.length Nat.eqb find_exp].
  unfold common_matches at 1. cbn [mexp e_common c_mpoison c_matcher]. rewrite M.
  destruct b.
  - unfold common_is_done. rewrite is_done_ok by (simpl; lia).
    rewrite orb_true_r. cbn [nth_error]. unfold expectation_call.
    rewrite common_call_noseq by (simpl; auto; lia).
    simpl. unfold static_ret. simpl. unfold run_user.
    destruct (T args u') as (u2 & v & E). simpl. rewrite E. reflexivity.
  - reflexivity.
Qed.

End P.

Section Q.
Context {V U : Type}.
Implicit Types (w : world U) (me : method V) (md : mdecl V) (e : expectation V U) (es : list (expectation V U)).

(** ** One call, in every detail: the user state *)
Lemma common_call_frame c me (k : common V U) d w k' w' r :
  common_call c me k d w = (k', w', r) ->
  w_user w' = w_user w /\ w_thread w' = w_thread w /\ w_panicking w' = w_panicking w /\
  c_matcher k' = c_matcher k /\ c_mpoison k' = c_mpoison k /\ c_seq k' = c_seq k /\
  trange_of (c_times k') = trange_of (c_times k) /\
  tcount (c_times k') = uwrap1 c (tcount (c_times k)).
Proof.
  unfold common_call. destruct (times_call c (c_times k)) as [t' r0] eqn:T.
  assert (T1 : t' = Times (uwrap1 c (tcount (c_times k))) (trange_of (c_times k))).
  { unfold times_call in T. inversion T; reflexivity. }
  destruct r0 as [[[]|e]|m|]; intros H.
  - destruct (verify_sequence _ _ _) as [[]|m|].
    + destruct (times_is_satisfied t'); try (inversion H; subst; simpl; repeat split; auto; fail);
        unfold satisfy_sequence in H; cbn [set_times c_seq] in H;
        destruct (c_seq k) as [h|] eqn:Q; unfold handle_satisfy, inner_satisfy in H;
        inversion H; subst; simpl; repeat split; auto.
    + inversion H; subst; simpl; repeat split; auto.
    + inversion H; subst; simpl; repeat split; auto.
  - inversion H; subst; simpl; repeat split; auto.
  - inversion H; subst; simpl; repeat split; auto.
  - inversion H; subst; simpl; repeat split; auto.
Qed.

Lemma expectation_call_user c me e args wr w e' w' r :
  expectation_call c me e args wr w = (e', w', r) ->
  (w_user w' = w_user w /\ (forall v, r = Ret v -> closure e = None)) \/
  (exists f u rr, closure e = Some f /\ f args (w_user w) = (u, rr) /\ w_user w' = u /\ r = rr).
Proof.
  unfold expectation_call.
  destruct (common_call c me (e_common e) (call_desc me args) w) as [[k w1] r1] eqn:C.
  apply common_call_frame in C. destruct C as (C1 & C2 & C3 & _).
  destruct r1 as [[]|m|].
  - unfold closure. destruct (e_action e) as [rf p|rf|rf].
    + unfold static_ret. destruct p; [intros H; inversion H; subst; left; split; auto; discriminate|].
      destruct rf; simpl; unfold run_user; rewrite ?C2; intros H.
      * left. destruct (return_default c (me_default me)); simpl in H.
        -- inversion H; subst; auto.
        -- destruct (show_locked k); simpl in H; inversion H; subst; auto.
      * left. destruct (show_locked k); simpl in H; inversion H; subst; split; auto; discriminate.
      * rewrite C1 in H. destruct (f args (w_user w)) as [u rr] eqn:F. right.
        exists f, u, rr. destruct rr as [v|m|]; simpl in H; inversion H; subst; auto.
      * destruct (Nat.eqb owner (w_thread w)).
        -- rewrite C1 in H. destruct (f args (w_user w)) as [u rr] eqn:F. right.
           exists f, u, rr. destruct rr as [v|m|]; simpl in H; inversion H; subst; auto.
        -- left. simpl in H. inversion H; subst. split; auto. discriminate.
      * rewrite C1 in H. destruct (f args (w_user w)) as [u rr] eqn:F. right.
        exists f, u, rr. destruct rr as [v|m|]; simpl in H; inversion H; subst; auto.
      * destruct (Nat.eqb owner (w_thread w)).
        -- rewrite C1 in H. destruct (f args (w_user w)) as [u rr] eqn:F. right.
           exists f, u, rr. destruct rr as [v|m|]; simpl in H; inversion H; subst; auto.
        -- left. simpl in H. inversion H; subst. split; auto. discriminate.
    + intros H; inversion H; subst. left. split; auto.
    + unfold mut_ret. destruct (show_locked k) as [s|m|].
      * destruct rf as [o|f o|ow f o|v]; simpl; rewrite ?C2; intros H.
        -- left. destruct o; simpl in H; inversion H; subst; auto.
        -- rewrite C1 in H. destruct (f args (w_user w)) as [u rr] eqn:F. right.
           exists f, u, rr. destruct rr as [v|m|]; simpl in H; inversion H; subst; auto.
        -- destruct (Nat.eqb ow (w_thread w)).
           ++ rewrite C1 in H. destruct (f args (w_user w)) as [u rr] eqn:F. right.
              exists f, u, rr. destruct rr as [v|m|]; simpl in H; inversion H; subst; auto.
           ++ left. simpl in H. inversion H; subst. split; auto. discriminate.
        -- left. inversion H; subst; auto.
      * intros H; inversion H; subst. left; split; auto; discriminate.
      * intros H; inversion H; subst. left; split; auto; discriminate.
  - intros H; inversion H; subst. left; split; auto; discriminate.
  - intros H; inversion H; subst. left; split; auto; discriminate.
Qed.

End Q.
