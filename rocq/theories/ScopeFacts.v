(** * ScopeFacts: from the parts of a private module to all of its places *)

From Coq Require Import List Bool String NArith Arith.
From Verif Require Import Ast AstProofs AstSpec Rewrite Derive DeriveSpec Names Subst Sig MockFn MockFnSpec
  MockFnProofs GenericsProofs ClosureProofs Item MockItem Scopes ItemSpec ItemProofs GenSpec GenRunSpec GenProofs
  GenRunDesc ScopeSpec ScopeProofs.
Import ListNotations.
Open Scope string_scope.
Open Scope list_scope.

Section facts.
  Context (k : pkey) (F : free_key k) (NC : forall j, k <> KConst j).

  Lemma in_ty_of i : in_ty k (ty_of i) <-> k = KType i.
  Proof.
    unfold in_ty, ty_of. cbn. split.
    - intros [E|[]]. destruct k as [l|j|j]; cbn in E; try discriminate; [congruence|].
      now elim (NC j).
    - intros ->. auto.
  Qed.

  Lemma in_args_tokens ps :
    (forall i, ~ In (KConst i) (map key_of ps)) ->
    (Exists (fun x => In (tok k) (garg_tokens x)) (map arg_of_param ps) <-> In k (map key_of ps)).
  Proof.
    intros C. rewrite Exists_map, Exists_exists, in_map_iff. split.
    - intros (p & I & H). exists p. split; auto. destruct p as [l b|i b d|i t d].
      + cbn in H. destruct H as [H|[]]. destruct k; cbn in H; try discriminate. cbn. congruence.
      + apply in_ty_of in H. auto.
      + elim (C i). apply in_map_iff. eexists. split; [|exact I]. reflexivity.
    - intros (p & E & I). exists p. split; auto. rewrite <- E in NC |- *.
      destruct p as [l b|i b d|i t d]; cbn; auto. now elim (NC i).
  Qed.

  Lemma in_type_args g : no_const g -> (In (tok k) (pargs_tokens (type_args g)) <-> In k (keys g)).
  Proof.
    intros C. unfold type_args, keys.
    set (L := filter is_lifetime_param (params g)
              ++ filter (fun p => negb (is_lifetime_param p)) (params g)).
    assert (E : forall q, In q (params g) <-> In q L).
    { intros q. unfold L. rewrite in_app_iff, !filter_In. destruct (is_lifetime_param q); cbn; tauto. }
    assert (K : In k (map key_of (params g)) <-> In k (map key_of L)).
    { rewrite !in_map_iff. split; intros (q & H & I); exists q; split; auto; now apply E. }
    rewrite K, <- in_args_tokens.
    2: { intros i I. apply (C i). unfold keys. apply in_map_iff in I as (q & H & I).
         apply in_map_iff. exists q. split; auto. now apply E. }
    destruct (params g) as [|p0 ps0] eqn:P.
    - unfold L. cbn. split; [intros []|intros X; inversion X].
    - change (filter is_lifetime_param (p0 :: ps0) ++ filter (fun p => negb (is_lifetime_param p)) (p0 :: ps0))
        with L.
      cbn [pargs_tokens]. cbn [In]. rewrite in_app_iff. cbn [In].
      rewrite (each_in (tok k) (tok_sym k)), !Exists_map.
      pose proof (tok_sym k "<"). pose proof (tok_sym k ">"). tauto.
  Qed.

  Lemma in_local n g :
    In n written -> no_const g -> (in_ty k (local n g) <-> In k (keys g)).
  Proof.
    intros W C. rewrite <- (in_type_args g C). unfold local, in_ty. cbn.
    assert (N : TkId n <> tok k) by (intros X; exact (free_written k n F NC W (eq_sym X))). tauto.
  Qed.

  Lemma in_keyid g :
    no_const g ->
    in_ty k (TPath (Path true [seg_of "mockall"; Seg "Key" (PaAngle (gen_keyid g))])) ->
    In k (keys g).
  Proof.
    intros C. unfold in_ty.
    assert (N : forall i, In i written -> TkId i <> tok k)
      by (intros i W X; exact (free_written k i F NC W (eq_sym X))).
    assert (N1 : TkId "mockall" <> tok k) by (apply N; cbn; tauto).
    assert (N2 : TkId "Key" <> tok k) by (apply N; cbn; tauto).
    cbn [tokens path_tokens map between seg_tokens pargs_tokens seg_of app]. cbn [In].
    rewrite in_app_iff. cbn [In]. rewrite (each_in (tok k) (tok_sym k)), Exists_map.
    assert (S := tok_sym k).
    intros H. assert (X : Exists (fun x => In (tok k) (garg_tokens x)) (gen_keyid g)).
    { decompose [or] H; try contradiction; auto; try (now elim (S _ H0)); try (now elim (S _ H1));
        try (now elim (S _ H2)); try (now elim (S _ H3)). }
    clear H. unfold gen_keyid in X. unfold keys.
    destruct (params g) as [|p [|p' ps]] eqn:P.
    - exfalso. inversion X as [? ? Y|? ? Y]; subst; [|inversion Y]. cbn in Y.
      destruct Y as [Y|[Y|[]]]; now elim (S _ Y).
    - apply in_args_tokens; auto. intros i I. apply (C i). unfold keys. now rewrite P.
    - rewrite <- P in *. inversion X as [? ? Y|? ? Y]; subst; [|inversion Y]. clear X.
      cbn [garg_tokens tokens In] in Y. rewrite in_app_iff, (each_in (tok k) (tok_sym k)), Exists_map in Y.
      cbn [In] in Y. destruct Y as [Y|[Y|[Y|[]]]]; try (now elim (S _ Y)).
      apply Exists_exists in Y as (t & I & Y). apply in_flat_map in I as (q & I & J).
      destruct q as [|i b d|]; try contradiction. destruct J as [<-|[]].
      apply in_ty_of in Y. rewrite Y. apply in_map_iff. eexists. split; [|exact I]. reflexivity.
  Qed.

  Lemma closed_in outer l ts : In k outer -> closed k outer l ts.
  Proof.
    revert outer. induction l as [|g l IH]; intros outer I; cbn [closed]; auto.
    assert (J : In k (outer ++ keys g)) by (apply in_or_app; auto). split; auto.
  Qed.

  Context (f : mock_function).
  Local Notation C := (mf_cgenerics f).
  Local Notation E := (mf_egenerics f).
  Local Notation L := (lifetimes_to_generics (mf_alifetimes f)).
  Local Notation tg := (mf_type_generics f).
  Local Notation mg := (mf_call_generics f).

  Record facts : Prop := Facts {
    fa_const : no_const E /\ no_const C /\ no_const tg;
    fa_guard : k <> KLifetime "__mockall_lt";
    fa_tg : in_generics k tg -> In k (keys tg);
    fa_mg : in_generics k mg -> In k (keys tg) \/ In k (keys mg);
    fa_C : in_generics k C -> In k (keys C);
    fa_E : in_generics k E -> In k (keys E);
    fa_L : ~ in_generics k L;
    fa_CE : In k (keys C) -> In k (keys E);
    fa_EC : forall i, k = KType i -> In k (keys E) -> In k (keys C);
    fa_A : Exists (in_ty k) (mf_argty f) ->
      In k (keys E)
      \/ (In k (keys L) /\ kind_of f <> KRefMut /\ generic_part f = None);
    fa_P : Exists (in_ty k) (mf_predty f) -> In k (keys C) \/ In k (keys L);
    fa_O : in_ty k (mf_output f) ->
      In k (keys E)
      \/ (In k (keys L) /\ kind_of f <> KStatic /\ generic_part f = None /\ mf_is_static f = false);
    fa_W : in_ty k (mf_owned_output f) -> In k (keys E);
    fa_phantom : forall i, In i (mf_fn_params f) -> In (KType i) (keys E);
    fa_static : mf_is_static f = true ->
      (In k (keys E) -> In k (keys tg) \/ In k (keys mg))
      /\ (is_expectation_generic f = false -> ~ In k (keys E));
    fa_lens : List.length (mf_argnames f) = List.length (mf_argty f)
  }.

  Context (FA : facts).

  Lemma refs_in l : Exists (in_ty k) (map (TRef None false) l) <-> Exists (in_ty k) l.
  Proof.
    rewrite Exists_map. split; apply Exists_impl; intros t; unfold in_ty; cbn; auto.
    intros [X|X]; auto. now elim (tok_sym k "&").
  Qed.

  Lemma phantom_in : Exists (in_ty k) (map ty_of (mf_fn_params f)) -> In k (keys E) /\ In k (keys C).
  Proof.
    rewrite Exists_map. intros H. apply Exists_exists in H as (i & I & H). apply in_ty_of in H.
    apply (fa_phantom FA) in I. rewrite <- H in I. split; auto. exact (fa_EC FA i H I).
  Qed.

  Lemma with_in (b : bool) l : Exists (in_ty k) (if b then l else []) -> Exists (in_ty k) l.
  Proof. destruct b; auto. intros X; inversion X. Qed.

  Lemma guard_keys g : keys (with_guard_lt g) = keys g ++ [KLifetime "__mockall_lt"].
  Proof. unfold keys, with_guard_lt. cbn. now rewrite map_app. Qed.
  Lemma guard_in g : in_generics k (with_guard_lt g) <-> in_generics k g.
  Proof.
    unfold in_generics, with_guard_lt, preds. cbn [params where_clause]. rewrite Exists_app.
    assert (X : Exists (in_param k) [GpLifetime "__mockall_lt" []] <-> False).
    { split; [|tauto]. intros X. inversion X as [? ? Y|? ? Y]; subst; [|inversion Y].
      destruct Y as (l & _ & []). }
    rewrite X. tauto.
  Qed.
  Lemma guard_const g : no_const g -> no_const (with_guard_lt g).
  Proof.
    unfold no_const. intros N i. rewrite guard_keys, in_app_iff. intros [H|[H|[]]]; [|discriminate].
    exact (N i H).
  Qed.

  Lemma in_send_syncify g t :
    in_generics k (Generics (lt_token g) (params g) (send_syncify (where_clause g) t)) ->
    in_generics k g \/ in_ty k t.
  Proof.
    unfold in_generics, preds, send_syncify. cbn [params where_clause]. intros [H|H]; auto.
    assert (X : Exists (in_pred k) match where_clause g with Some w => w | None => [] end
                \/ in_pred k (WpType None t [BTrait false [] (path_of "Send"); BTrait false [] (path_of "Sync")])).
    { destruct (where_clause g) as [w|].
      - apply Exists_app in H as [H|H]; auto. inversion H as [? ? Y|? ? Y]; subst; auto. inversion Y.
      - inversion H as [? ? Y|? ? Y]; subst; auto. }
    destruct X as [X|[X|X]]; auto. exfalso.
    apply Exists_exists in X as (b & [<-|[<-|[]]] & X); cbn in X; destruct X as [X|[]];
      symmetry in X; revert X; apply free_written; auto; cbn; tauto.
  Qed.

  Ltac ex := repeat rewrite Exists_app in *; repeat rewrite Exists_cons in *; rewrite ?Exists_nil in *;
    rewrite ?in_app_iff in *.

  Lemma facts_closed u : In u (uses (priv_module f)) -> closed k [] (us_scopes u) (us_types u).
  Proof.
    destruct (fa_const FA) as (NE & NCC & NT).
    assert (fA := fa_A FA). assert (fP := fa_P FA). assert (fO := fa_O FA). assert (fW := fa_W FA).
    assert (fC := fa_C FA). assert (fE := fa_E FA). assert (fL := fa_L FA). assert (fS := fa_static FA).
    assert (fCE := fa_CE FA). assert (ftg := fa_tg FA). assert (fmg := fa_mg FA). assert (fG := fa_guard FA).
    assert (PH := phantom_in).
    assert (A : map snd (combine (mf_argnames f) (mf_argty f)) = mf_argty f).
    { assert (N := fa_lens FA). revert N. generalize (mf_argnames f), (mf_argty f).
      induction l as [|x l IH]; intros [|t ts] N; try discriminate; auto. cbn. f_equal. apply IH.
      now injection N. }
    assert (WI := with_in (gp_with (priv_module f)) (mf_predty f)).
    assert (RP := refs_in (mf_predty f)).
    assert (LC : forall n, In n written -> in_ty k (local n C) <-> In k (keys C)) by (intros; now apply in_local).
    assert (LE : forall n, In n written -> in_ty k (local n E) <-> In k (keys E)) by (intros; now apply in_local).
    assert (LT : forall n, In n written -> in_ty k (local n tg) <-> In k (keys tg)) by (intros; now apply in_local).
    assert (LG : forall n, In n written -> in_ty k (local n (with_guard_lt E)) <-> In k (keys E)).
    { intros n W. rewrite in_local by (auto using guard_const). rewrite guard_keys, in_app_iff. cbn [In].
      split; auto. intros [X|[X|[]]]; auto. now elim fG. }
    assert (GE := guard_in E). assert (GM := guard_in mg).
    assert (GK : forall g, In k (keys (with_guard_lt g)) <-> In k (keys g)).
    { intros g. rewrite guard_keys, in_app_iff. cbn [In]. split; auto. intros [X|[X|[]]]; auto. now elim fG. }
    assert (KD : gp_kind (priv_module f) = kind_of f) by reflexivity.
    unfold uses. rewrite !in_app_iff.
    assert (SP : forall l (P : use -> Prop), Forall P l -> forall u, In u l -> P u)
      by (intros l P X; now apply Forall_forall).
    intros [H|[H|[H|[H|[H|[H|[H|H]]]]]]]; revert u H; apply SP; clear SP.
    - unfold common_uses. cbn [priv_module gp_common_generics gp_lifetimes gp_predty].
      repeat constructor; cbn [closed us_scopes us_types]; rewrite ?app_nil_l, ?in_app_iff, ?RP; try tauto.
      ex. rewrite !LC by (cbn; tauto). tauto.
    - unfold expectation_uses. cbn [priv_module gp_generics gp_lifetimes gp_predty].
      repeat constructor; cbn [closed us_scopes us_types]; rewrite ?app_nil_l, ?in_app_iff, ?RP; tauto.
    - unfold matcher_uses. cbn [priv_module gp_common_generics gp_lifetimes gp_predty gp_phantom].
      repeat constructor; cbn [closed us_scopes us_types]; rewrite ?app_nil_l, ?in_app_iff, ?RP; try tauto.
      ex. rewrite !LC by (cbn; tauto). tauto.
    - unfold rfunc_uses. rewrite KD.
      cbn [priv_module gp_generics gp_args gp_lifetimes gp_predty gp_phantom gp_owned gp_output].
      rewrite A. constructor.
      { cbn [closed us_scopes us_types]. rewrite ?app_nil_l. split; auto. ex.
        rewrite !LE by (cbn; tauto). tauto. }
      destruct (kind_of f) eqn:KK;
        repeat constructor; cbn [closed us_scopes us_types]; rewrite ?app_nil_l, ?in_app_iff; try tauto; ex.
      all: try (intuition congruence).
    - unfold kind_uses. rewrite KD.
      cbn [priv_module gp_generics gp_common_generics gp_args gp_lifetimes gp_predty gp_phantom gp_owned gp_output].
      rewrite A. constructor.
      { cbn [closed us_scopes us_types]. rewrite ?app_nil_l. split; auto. ex.
        rewrite !LE, !LC by (cbn; tauto). tauto. }
      destruct (kind_of f) eqn:KK;
        repeat constructor; cbn [closed us_scopes us_types]; rewrite ?app_nil_l, ?in_app_iff; try tauto; ex.
      all: try (intuition congruence).
    - unfold expectations_uses. cbn [priv_module gp_generics gp_args gp_lifetimes gp_output]. rewrite A.
      repeat constructor; cbn [closed us_scopes us_types]; rewrite ?app_nil_l, ?in_app_iff; try tauto; ex.
      + rewrite !LE by (cbn; tauto). tauto.
      + tauto.
    - unfold generic_uses. cbn [priv_module gp_generic].
      destruct (generic_part f) as [kk|] eqn:GP; [|constructor].
      cbn [priv_module gp_generics gp_args gp_output]. rewrite A.
      assert (KW : gk_key kk = gen_keyid E
        /\ (in_generics k (Generics (lt_token E) (params E) (gk_any_where kk)) -> In k (keys E))
        /\ (in_generics k (Generics (lt_token E) (params E) (gk_call_where kk)) -> In k (keys E))).
      { unfold generic_part in GP. destruct (_ && _); [|discriminate]. injection GP as <-.
        cbn [gk_key gk_call_where gk_any_where].
        assert (EE : Generics (lt_token E) (params E) (where_clause E) = E) by (now destruct E).
        split; [reflexivity|]. rewrite EE. split; auto. destruct (_ || _); [|rewrite EE; auto].
        intros H. apply in_send_syncify in H. tauto. }
      destruct KW as (KY & K1 & K2). rewrite KY.
      repeat constructor; cbn [closed us_scopes us_types]; rewrite ?app_nil_l; auto.
      + ex. change (keys (Generics (lt_token E) (params E) (gk_any_where kk))) with (keys E).
        rewrite !LE by (cbn; tauto). tauto.
      + ex. change (keys (Generics (lt_token E) (params E) (gk_call_where kk))) with (keys E).
        intuition congruence.
      + ex. intros [H|H]; [|destruct H]. apply in_keyid; auto.
    - unfold static_uses. cbn [priv_module gp_context].
      destruct (mf_is_static f) eqn:ST; [|constructor]. destruct (fS eq_refl) as [S1 S2]. clear fS.
      cbn [priv_module gp_generics gp_generic_guard gp_args gp_lifetimes gp_predty gp_phantom gp_owned gp_output].
      rewrite A. apply Forall_app. split.
      { destruct (is_expectation_generic f) eqn:IG; repeat constructor; cbn [closed us_scopes us_types];
          rewrite ?app_nil_l; ex; rewrite ?GE, ?GK; auto; try tauto.
        rewrite LE by (cbn; tauto). tauto. }
      repeat constructor; cbn [closed us_scopes us_types]; rewrite ?app_nil_l, ?in_app_iff, ?RP, ?GE, ?GM, ?GK;
        try tauto; ex; rewrite ?LE, ?LG, ?LT by (cbn; tauto); try tauto.
      + intuition congruence.
      + intros [H|H]; auto. rewrite Exists_map in H. apply Exists_exists in H as (i & I & H).
        apply in_ty_of in H. rewrite H. now apply in_type_names.
  Qed.
End facts.
