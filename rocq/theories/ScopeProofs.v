(** * ScopeProofs: lemmas about parameters in scope *)

From Coq Require Import List Bool String NArith Arith.
From Verif Require Import Ast AstProofs AstSpec Rewrite Derive DeriveSpec Names Subst Sig MockFn MockFnSpec
  MockFnProofs TyEq GenericsProofs ClosureProofs Item MockItem Scopes ItemSpec GenSpec GenRunSpec GenProofs
  GenRunDesc ScopeSpec.
Import ListNotations.
Open Scope string_scope.
Open Scope list_scope.

(** ** Tokens of moved types *)

Section moved.
  Context (q : token) (Q1 : q <> TkId "super") (Q2 : forall s, TkSym s <> q).

  Lemma nosym s : TkSym s = q <-> False.
  Proof. split; [apply Q2|tauto]. Qed.

  Lemma each_in sep L : In q (each sep L) <-> Exists (fun x => In q x) L.
  Proof.
    unfold each. induction L as [|x L IH]; cbn [flat_map]; [split; [intros []|intros X; inversion X]|].
    rewrite !in_app_iff, Exists_cons, IH. cbn [In]. rewrite nosym. tauto.
  Qed.
  Lemma between_in sep L : In q (between sep L) <-> Exists (fun x => In q x) L.
  Proof.
    induction L as [|x L IH]; [split; [intros []|intros X; inversion X]|].
    destruct L as [|y L].
    - cbn [between]. rewrite Exists_cons. split; auto. intros [H|H]; auto. inversion H.
    - change (between sep (x :: y :: L)) with (x ++ TkSym sep :: between sep (y :: L)).
      rewrite in_app_iff. cbn [In]. rewrite nosym, IH, (Exists_cons _ x). tauto.
  Qed.

  Ltac tk := cbn [tokens path_tokens seg_tokens pargs_tokens garg_tokens bound_tokens].
  Ltac simp := repeat progress (cbn [In]; rewrite ?in_app_iff, ?each_in, ?between_in, ?Exists_map, ?nosym).

  Lemma exists_iff {A} (P R : A -> Prop) L :
    Forall (fun x => P x <-> R x) L -> Exists P L <-> Exists R L.
  Proof.
    induction 1 as [|x L H _ IH]; [split; intros X; inversion X|].
    rewrite !Exists_cons. rewrite H, IH. reflexivity.
  Qed.

  Lemma moved_tok n :
    (forall t, In q (tokens (supersuperfy n t)) <-> In q (tokens t)) /\
    (forall p, Exists (fun s => In q (seg_tokens s)) (segs (supersuperfy_path n p))
               <-> Exists (fun s => In q (seg_tokens s)) (segs p)) /\
    (forall s, In q (seg_tokens (supersuperfy_seg n s)) <-> In q (seg_tokens s)) /\
    (forall a, In q (pargs_tokens (supersuperfy_pargs n a)) <-> In q (pargs_tokens a)) /\
    (forall g, In q (garg_tokens (supersuperfy_garg n g)) <-> In q (garg_tokens g)) /\
    (forall b, In q (bound_tokens (supersuperfy_bound n b)) <-> In q (bound_tokens b)).
  Proof.
    assert (PT : forall p, In q (path_tokens p) <-> Exists (fun s => In q (seg_tokens s)) (segs p)).
    { intros [b l]. tk. cbn [segs]. simp. destruct b; cbn [In]; rewrite ?nosym; tauto. }
    assert (QT : forall t k p, In q (tokens (TQPath t k p))
              <-> In q (tokens t) \/ Exists (fun s => In q (seg_tokens s)) (segs p)).
    { intros t k [b l]. cbn [segs]. destruct k as [|k]; tk.
      - cbn [In]. rewrite in_app_iff. cbn [In]. rewrite !nosym, in_flat_map, Exists_exists. cbn [In].
        split.
        + intros [[]|[H|[[]|(x & I & [H|H])]]]; auto; [now elim (Q2 _ H)|]. right. exists x. auto.
        + intros [H|(x & I & H)]; auto. right. right. right. exists x. auto.
      - simp. rewrite firstn_map, skipn_map, !Exists_map.
        rewrite (exists_split _ (S k) l).
        assert (X : In q (if b then [TkSym "::"] else []) <-> False)
          by (destruct b; cbn [In]; rewrite ?nosym; tauto).
        rewrite X. tauto. }
    apply ast_ind;
      cbn [supersuperfy supersuperfy_path supersuperfy_seg
           supersuperfy_pargs supersuperfy_garg supersuperfy_bound]; intros.
    all: try (tk; reflexivity).
    all: try (rewrite ?QT; tk; simp; rewrite ?PT;
              repeat match goal with
              | H : _ <-> _ |- _ => rewrite H; clear H
              end; tauto).
    all: try (tk; simp;
              match goal with
              | H : Forall _ ?L |- _ => rewrite (exists_iff _ _ _ H); tauto
              end).
    - destruct H0 as [|t H0]; cbn [option_map]; tk; simp; rewrite (exists_iff _ _ _ H), ?H0; tauto.
    - cbn [segs].
      assert (E : Exists (fun s => In q (seg_tokens s)) (on_last (supersuperfy_seg n) l)
                  <-> Exists (fun s => In q (seg_tokens s)) l).
      { induction H as [|s l H _ IH]; [reflexivity|]. destruct l as [|s' l].
        - cbn [on_last]. rewrite !Exists_cons, H. tauto.
        - change (on_last (supersuperfy_seg n) (s :: s' :: l))
            with (s :: on_last (supersuperfy_seg n) (s' :: l)).
          rewrite (Exists_cons _ s), (Exists_cons _ s), IH. tauto. }
      unfold add_supers. destruct (starts_with_super _); [|exact E].
      rewrite Exists_app, E. split; auto. intros [X|X]; auto.
      apply Exists_exists in X as (s & I & X). apply repeat_spec in I. subst s.
      cbn in X. destruct X as [X|[]]. now elim Q1.
    - destruct H0 as [|t H0]; cbn [option_map]; tk; simp; rewrite (exists_iff _ _ _ H), ?H0; tauto.
  Qed.
End moved.

(** ** Parameters in moved types and generics *)

Definition free_key (k : pkey) : Prop := forall i, k = KType i -> ~ In i written.

Lemma tok_sym k s : TkSym s <> tok k.
Proof. destruct k; discriminate. Qed.

Lemma free_written k i : free_key k -> (forall j, k <> KConst j) -> In i written -> tok k <> TkId i.
Proof.
  intros F C I E. destruct k as [l|j|j]; cbn in E; try discriminate.
  - injection E as ->. exact (F i eq_refl I).
  - exact (C j eq_refl).
Qed.

Section key.
  Context (k : pkey) (F : free_key k) (NC : forall j, k <> KConst j).

  Lemma not_written i : In i written -> tok k <> TkId i.
  Proof. apply free_written; auto. Qed.

  Lemma not_super : tok k <> TkId "super".
  Proof. apply not_written. cbn; tauto. Qed.

  Lemma in_moved n t : in_ty k (supersuperfy n t) <-> in_ty k t.
  Proof. apply (moved_tok (tok k) not_super (tok_sym k) n). Qed.
  Lemma in_moved_bound n b : in_bound k (supersuperfy_bound n b) <-> in_bound k b.
  Proof. apply (moved_tok (tok k) not_super (tok_sym k) n). Qed.

  Lemma in_moved_bounds n l : Exists (in_bound k) (map (supersuperfy_bound n) l) <-> Exists (in_bound k) l.
  Proof. rewrite Exists_map. split; apply Exists_impl; intros a; apply in_moved_bound. Qed.

  Lemma in_moved_generics n g : in_generics k (supersuperfy_generics n g) <-> in_generics k g.
  Proof.
    unfold in_generics, preds. cbn [supersuperfy_generics params where_clause].
    assert (A : Exists (in_param k) (map (supersuperfy_param n) (params g)) <-> Exists (in_param k) (params g)).
    { rewrite Exists_map. split; apply Exists_impl; intros [l b|i b d|i t d]; cbn; auto;
        apply in_moved_bounds. }
    rewrite A. destruct (where_clause g) as [w|]; cbn [option_map]; [|tauto].
    assert (B : Exists (in_pred k) (map (supersuperfy_pred n) w) <-> Exists (in_pred k) w).
    { rewrite Exists_map. split; apply Exists_impl; intros [l b|f t b]; cbn; auto;
        rewrite in_moved, in_moved_bounds; auto. }
    rewrite B. tauto.
  Qed.
End key.

(** ** Splitting and merging *)

Lemma merged_nodup x y : NoDup (keys x) -> NoDup (keys y) -> NoDup (keys (merge_generics x y)).
Proof.
  intros X Y. unfold keys, merge_generics, merge_params in *. cbn [params].
  destruct (is_empty_generics x); auto. destruct (is_empty_generics y); auto. cbn [params].
  rewrite fold_param_keys by exact Y. apply NoDup_app_filter; auto.
Qed.

Lemma exists_bounds k o y :
  Exists (in_bound k) (add_bounds o y) -> Exists (in_bound k) o \/ Exists (in_bound k) y.
Proof. unfold add_bounds. destruct (bounds_eqb o y); auto. apply Exists_app. Qed.

Lemma in_add_param_bounds k y : forall l,
  Exists (in_param k) (add_param l y) -> Exists (in_param k) l \/ in_param k y.
Proof.
  induction l as [|o l IH]; cbn [add_param]; intros H.
  - right. inversion H as [? ? X|? ? X]; subst; auto. inversion X.
  - destruct (cmp_gp_idents o y).
    + rewrite Exists_cons in H. destruct H as [H|H]; [|left; now right].
      destruct o as [a b|i b d|i t d], y as [a' b'|i' b' d'|i' t' d']; cbn [merge_param in_param] in *;
        try (left; left; exact H).
      apply exists_bounds in H as [H|H]; [left; left; exact H|right; exact H].
    + rewrite Exists_cons in H. destruct H as [H|H]; [left; now left|].
      apply IH in H as [H|H]; auto.
Qed.

Lemma in_fold_param_bounds k ys : forall l,
  Exists (in_param k) (fold_left add_param ys l) -> Exists (in_param k) l \/ Exists (in_param k) ys.
Proof.
  induction ys as [|y ys IH]; intros l; cbn [fold_left]; auto. intros H.
  apply IH in H as [H|H]; auto.
  apply in_add_param_bounds in H as [H|H]; auto.
Qed.

Lemma in_add_pred_bounds k y : forall l,
  Exists (in_pred k) (add_pred l y) -> Exists (in_pred k) l \/ in_pred k y.
Proof.
  induction l as [|o l IH]; cbn [add_pred]; intros H.
  - right. inversion H as [? ? X|? ? X]; subst; auto. inversion X.
  - destruct (cmp_wp_idents o y).
    + rewrite Exists_cons in H. destruct H as [H|H]; [|left; now right].
      destruct o as [a b|f t b], y as [a' b'|f' t' b']; cbn [merge_pred in_pred] in *;
        try (left; left; exact H).
      destruct H as [H|H]; [left; left; now left|].
      apply exists_bounds in H as [H|H]; [left; left; now right|right; now right].
    + rewrite Exists_cons in H. destruct H as [H|H]; [left; now left|].
      apply IH in H as [H|H]; auto.
Qed.

Lemma in_fold_pred_bounds k ys : forall l,
  Exists (in_pred k) (fold_left add_pred ys l) -> Exists (in_pred k) l \/ Exists (in_pred k) ys.
Proof.
  induction ys as [|y ys IH]; intros l; cbn [fold_left]; auto. intros H.
  apply IH in H as [H|H]; auto.
  apply in_add_pred_bounds in H as [H|H]; auto.
Qed.

Lemma in_merge k x y :
  in_generics k (merge_generics x y) -> in_generics k x \/ in_generics k y.
Proof.
  unfold in_generics, preds, merge_generics. cbn [params where_clause]. intros [H|H].
  - unfold merge_params in H. destruct (is_empty_generics x); [tauto|].
    destruct (is_empty_generics y); [tauto|]. cbn [params] in H.
    apply in_fold_param_bounds in H. tauto.
  - assert (X : Exists (in_pred k) match where_clause (merge_params x y) with Some w => w | None => [] end ->
      Exists (in_pred k) match where_clause x with Some w => w | None => [] end
      \/ Exists (in_pred k) match where_clause y with Some w => w | None => [] end).
    { unfold merge_params. destruct (is_empty_generics x); [tauto|].
      destruct (is_empty_generics y); [tauto|]. cbn. tauto. }
    destruct (where_clause (merge_params x y)) as [w|] eqn:E1;
      destruct (where_clause y) as [w'|] eqn:E2; try tauto.
    apply in_fold_pred_bounds in H. tauto.
Qed.

(** The two groups of lifetimes. *)
Lemma split_lts g args w tg a r :
  bracketed g -> split_lifetimes g args (Some w) = (tg, a, r) ->
  r = filter (fun x => memb (fst x) (find_lifetimes w)) (lifetime_params g)
  /\ a = filter (fun x => negb (memb (fst x) (find_lifetimes w))
                          && memb (fst x) (flat_map arg_lifetimes args)) (lifetime_params g)
  /\ (params tg = filter is_type_param (params g)
      /\ (where_clause tg = where_clause g \/ where_clause tg = None)).
Proof.
  intros B. unfold split_lifetimes. destruct (lt_token g) eqn:L; cbn [negb].
  - intros E. injection E as <- <- <-. split; [apply lifetime_params_filter|]. split.
    + rewrite <- (lifetime_params_filter g (fun l => negb (memb l (find_lifetimes w))
                          && memb l (flat_map arg_lifetimes args))).
      apply flat_map_ext. intros [l b| |]; auto. destruct (memb l (find_lifetimes w)); auto.
    + change (fun p => match p with GpType _ _ _ => true | _ => false end) with is_type_param.
      destruct (filter is_type_param (params g)); cbn; auto.
  - intros E. injection E as <- <- <-. unfold lifetime_params. rewrite (B L). cbn. auto.
Qed.

Lemma memb_in l s : memb l s = true <-> In l s.
Proof.
  unfold memb. rewrite existsb_exists. split.
  - intros (x & I & E). apply String.eqb_eq in E. now subst.
  - intros I. exists l. split; auto. apply String.eqb_refl.
Qed.

Lemma in_lifetime_params g l b : In (l, b) (lifetime_params g) <-> In (GpLifetime l b) (params g).
Proof.
  unfold lifetime_params. rewrite in_flat_map. split.
  - intros (p & I & J). destruct p as [m c| |]; try contradiction. destruct J as [E|[]]. now injection E as <- <-.
  - intros I. exists (GpLifetime l b). split; auto. now left.
Qed.

Lemma lifetime_params_names g : map fst (lifetime_params g) = lifetime_names g.
Proof.
  unfold lifetime_params, lifetime_names. induction (params g) as [|[l b| |] ps IH]; cbn; auto. now rewrite IH.
Qed.

Lemma lifetime_names_nodup g : NoDup (keys g) -> NoDup (lifetime_names g).
Proof.
  unfold keys, lifetime_names. induction (params g) as [|p ps IH]; cbn; intros N; [constructor|].
  inversion N as [|? ? N1 N2]; subst. destruct p as [l b|i b d|i t d]; cbn; auto. constructor; auto.
  intros I. apply N1. apply in_flat_map in I as (p & I & J). destruct p; try contradiction.
  destruct J as [->|[]]. apply in_map_iff. eexists. split; [|exact I]. reflexivity.
Qed.

Lemma filter_nodup_fst {A} (f : string * A -> bool) l : NoDup (map fst l) -> NoDup (map fst (filter f l)).
Proof.
  induction l as [|x l IH]; cbn; intros N; [constructor|]. inversion N as [|? ? N1 N2]; subst.
  destruct (f x); cbn; auto. constructor; auto. intros I. apply N1.
  apply in_map_iff in I as (y & E & I). apply filter_In in I as [I _]. apply in_map_iff. eauto.
Qed.

Lemma in_lifetimes_bounds k l :
  in_generics k (lifetimes_to_generics l) <-> exists a b j, In (a, b) l /\ k = KLifetime j /\ In j b.
Proof.
  unfold in_generics, preds, lifetimes_to_generics. destruct l as [|x l].
  - cbn. split; [intros [H|H]; inversion H|]. intros (a & b & j & [] & _).
  - cbn [params where_clause]. split.
    + intros [H|H]; [|inversion H]. rewrite Exists_map in H. apply Exists_exists in H as ([a b] & I & j & E & J).
      exists a, b, j. auto.
    + intros (a & b & j & I & E & J). left. rewrite Exists_map. apply Exists_exists. exists (a, b).
      split; auto. exists j. auto.
Qed.

Lemma keys_lifetimes l : keys (lifetimes_to_generics l) = map (fun x => KLifetime (fst x)) l.
Proof. destruct l; cbn; auto. unfold keys. cbn. now rewrite map_map. Qed.

Lemma in_union a x y : In a (lt_union x y) <-> In a x \/ In a y.
Proof.
  unfold lt_union. rewrite in_app_iff, filter_In. split; [tauto|]. intros [H|H]; auto.
  destruct (existsb (ltparam_eqb a) x) eqn:E; auto. left.
  apply existsb_exists in E as (z & I & E). unfold ltparam_eqb in E. apply andb_prop in E as [E1 E2].
  apply String.eqb_eq in E1. unfold lts_eqb in E2.
  assert (snd a = snd z).
  { now apply lifetimes_eqb_eq. }
  destruct a, z. cbn in *. now subst.
Qed.
