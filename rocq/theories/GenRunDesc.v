(** * GenRunDesc: what the generator knows about a function, in terms of the input *)

From Coq Require Import List Bool String NArith Arith.
From Verif Require Import Base Times Expect Mock.
From Verif Require Import Ast AstSpec TyEq Rewrite Derive DeriveSpec ClosureProofs
  Names Sig MockFn MockFnSpec MockFnProofs PropOutput Item ItemProofs
  NameProofs MockItem ItemSpec GenSpec GenProofs GenRun GenRunSpec GenRunLists GenRunObj.
Import ListNotations.
Open Scope string_scope.
Open Scope list_scope.

(** ** Generic parameters *)

Lemma has_type_names g : has_type_params g = true <-> type_names g <> [].
Proof.
  unfold has_type_params, type_names. induction (params g) as [|[l b|i b d|i t d] ps IH]; cbn; auto.
  - split; [discriminate|intros H; now elim H].
  - split; auto. discriminate.
Qed.

Lemma split_generic g args rt tg a r :
  bracketed g -> split_lifetimes g args rt = (tg, a, r) ->
  generic tg = true
  <-> type_names g <> [] \/ (lt_token g = false /\ where_clause g <> None).
Proof.
  intros B. unfold split_lifetimes. destruct (lt_token g) eqn:L; cbn [negb].
  - intros E.
    assert (TV : type_names g <> [] <-> filter (fun p => match p with GpType _ _ _ => true | _ => false end) (params g) <> []).
    { unfold type_names. clear E B. induction (params g) as [|[l b|i b d|i t d] ps IH]; cbn; auto; try tauto.
      split; intros _; discriminate. }
    destruct (filter _ (params g)) as [|p ps] eqn:F; injection E as <- _ _.
    + split; [discriminate|]. intros [H|[H _]]; [|discriminate]. apply TV in H. now elim H.
    + split; [|intros _]. { intros _. left. apply TV. discriminate. }
      unfold generic. cbn [params where_clause]. apply orb_true_iff. left. unfold has_type_params. cbn [params].
      assert (I : In p (filter (fun p => match p with GpType _ _ _ => true | _ => false end) (params g)))
        by (rewrite F; cbn; auto).
      apply filter_In in I as [_ I]. cbn. rewrite I. reflexivity.
  - intros E. injection E as <- _ _. unfold generic. rewrite orb_true_iff, has_type_names.
    unfold has_where. destruct (where_clause g); intuition congruence.
Qed.

Lemma merge_where x y :
  has_where (merge_generics x y) = true -> has_where x = true \/ has_where y = true.
Proof.
  unfold has_where, merge_generics, merge_params. cbn [where_clause].
  destruct (is_empty_generics x), (is_empty_generics y); cbn [where_clause];
    destruct (where_clause x), (where_clause y); auto.
Qed.

Lemma lifetimes_where l : has_where (lifetimes_to_generics l) = false.
Proof. unfold lifetimes_to_generics. destruct l; reflexivity. Qed.

(** ** A function's own parameters *)

Lemma moved_names_nil n g : type_names (supersuperfy_generics n g) <> [] <-> type_names g <> [].
Proof.
  split; intros H E; apply H; clear H; unfold type_names, supersuperfy_generics in *; cbn [params] in *;
    induction (params g) as [|[l b|i b d|i t d] ps IH]; cbn in *; auto; discriminate.
Qed.

Lemma declosured_names g :
  type_names (declosured_generics g) <> []
  <-> exists i, In i (type_names g) /\ ~ closure_param g i.
Proof.
  unfold declosured_generics, type_names. cbn [params].
  set (k := fn_types g).
  assert (K : forall i, has_key (ty_of i) k = true <-> closure_param g i) by (intros; apply closure_key).
  induction (params g) as [|[l b|i b d|i t d] ps IH]; cbn; auto.
  - split; [intros H; now elim H|intros (i & [] & _)].
  - destruct (has_key (ty_of i) k) eqn:E; cbn [negb flat_map app].
    + rewrite IH. split; intros (j & I & J); exists j; cbn; auto.
      cbn in I. destruct I as [<-|I]; auto. elim J. now apply K.
    + split; [intros _|discriminate]. exists i. cbn. split; auto. intros C. apply K in C. congruence.
Qed.

Lemma declosured_where g :
  where_clause (declosured_generics g) <> None
  <-> exists w, In w (preds g)
        /\ match w with
           | WpType _ t _ => forall i, closure_param g i -> keyword i = false -> t <> ty_of i
           | WpLifetime _ _ => True
           end.
Proof.
  unfold declosured_generics, preds. cbn [where_clause].
  destruct (where_clause g) as [l|]; [|split; [congruence|intros (w & [] & _)]].
  match goal with |- match filter ?k l with _ => _ end <> None <-> _ => set (keep := k) end.
  assert (K : forall w, keep w = true <->
    match w with
    | WpType _ t _ => forall i, closure_param g i -> keyword i = false -> t <> ty_of i
    | WpLifetime _ _ => True
    end).
  { intros [|q t bs]; cbn; [tauto|]. destruct (ident_of_ty t) as [i|] eqn:E.
    - apply ident_of_ty_spec in E as [-> E]. destruct (has_key (ty_of i) (fn_types g)) eqn:H.
      + split; [discriminate|]. intros X. elim (X i); auto. now apply closure_key.
      + split; auto. intros _ j C _ J. unfold ty_of in J.
        assert (i = j) by (unfold path_of, seg_of in J; congruence). subst j.
        apply closure_key in C. congruence.
    - split; auto. intros _ j _ K ->.
      assert (ident_of_ty (ty_of j) = Some j) by (apply ident_of_ty_spec; auto). congruence. }
  split.
  - intros H. destruct (filter keep l) as [|w r] eqn:F; [now elim H|].
    assert (I : In w (filter keep l)) by (rewrite F; cbn; auto). apply filter_In in I as [I J].
    exists w. split; auto. now apply K.
  - intros (w & I & J). apply K in J.
    assert (F : In w (filter keep l)) by (apply filter_In; auto).
    destruct (filter keep l); [destruct F|discriminate].
Qed.

Lemma declosured_token g :
  bracketed g ->
  lt_token (declosured_generics g) = false
  <-> forall p, In p (params g) -> exists i b d, p = GpType i b d /\ closure_param g i.
Proof.
  intros B. unfold declosured_generics. cbn [lt_token].
  match goal with |- match ?l with _ => _ end = false <-> _ => set (ps := l) end.
  assert (P : ps = [] <-> forall p, In p (params g) -> exists i b d, p = GpType i b d /\ closure_param g i).
  { split.
    - intros E p I. assert (F : ~ In p ps) by (rewrite E; auto).
      destruct p as [a b|i b d|i t d].
      + elim F. apply filter_In. auto.
      + exists i, b, d. split; auto. apply closure_key. destruct (has_key _ _) eqn:K; auto.
        elim F. apply filter_In. split; auto. now rewrite K.
      + elim F. apply filter_In. auto.
    - intros H. destruct ps as [|p r] eqn:E; auto. assert (I : In p ps) by (rewrite E; cbn; auto).
      apply filter_In in I as [I J]. destruct (H p I) as (i & b & d & -> & C).
      apply closure_key in C. rewrite C in J. discriminate. }
  rewrite <- P. destruct ps as [|p r] eqn:E; [tauto|]. split; [|discriminate].
  intros L. apply B in L. assert (I : In p ps) by (rewrite E; cbn; auto).
  apply filter_In in I as [I _]. rewrite L in I. destruct I.
Qed.

Section Built.
Context (b : builder) (f : mock_function) (x : fn_item).
Context (H : build b = Some f) (HS : b_sig b = fi_sig x) (HA : b_attrs b = fi_attrs x).
Context (B : bracketed (sg_generics (fi_sig x))).

Lemma method_separated : is_method_generic f = true <-> separated x.
Proof.
  destruct (build_built _ _ H) as (dg & di & ce & sig & BT).
  destruct (bt_generics _ _ _ _ _ _ BT) as (sa & sr & ma & mr & S1 & S2 & _).
  assert (P := bt_prepared _ _ _ _ _ _ BT).
  destruct (prepared_sig _ _ _ _ _ P) as (_ & _ & PB). rewrite HS in PB. specialize (PB B).
  assert (BM := super_bracketed (b_levels b) _ PB).
  change (is_method_generic f) with (generic (mf_call_generics f)).
  rewrite (split_generic _ _ _ _ _ _ BM S2), moved_names_nil.
  cbn [supersuperfy_generics lt_token where_clause].
  assert (W : option_map (map (supersuperfy_pred (b_levels b))) (where_clause dg) <> None
              <-> where_clause dg <> None) by (destruct (where_clause dg); cbn; split; congruence).
  rewrite W. clear W. unfold separated, chosen, other_where.
  assert (BC : b_concretize b = existsb is_concretize (fi_attrs x)) by (unfold b_concretize; now rewrite HA).
  unfold prepared in P. rewrite HS in P. rewrite <- BC. destruct (b_concretize b).
  - cbn [concretize_args] in P. injection P as <- _ _ _. cbn [type_names no_generics params flat_map where_clause].
    split; [intros [E|[_ E]]; now elim E|].
    intros [(i & _ & _ & E)|(E & _)]; discriminate.
  - destruct (declosurefy _ _) as [[[g' i'] c']|] eqn:D; [|discriminate].
    unfold declosurefy in D. destruct (distinct_keys _); [|discriminate].
    injection D as <- <- <-. injection P as <- _ _ _.
    rewrite declosured_names, declosured_where, declosured_token by exact B.
    split.
    + intros [(i & I & J)|[T W]]; [left; exists i; auto|right; auto].
    + intros [(i & I & J & _)|(_ & T & W)]; [left; exists i; auto|right; auto].
Qed.

Lemma expectation_separated_in g :
  match b_struct_generics b with Some g' => g' | None => no_generics end = g -> bracketed g ->
  is_expectation_generic f = true
  <-> separated x
      \/ (type_names g <> [] \/ (lt_token g = false /\ where_clause g <> None)).
Proof.
  intros SG BG.
  assert (B' : bracketed (sg_generics (b_sig b))) by (rewrite HS; exact B).
  assert (TY : typing b f).
  { apply (build_typing _ _ H B'). destruct (b_struct_generics b); auto. now rewrite SG. }
  rewrite <- method_separated.
  destruct (build_built _ _ H) as (dg & di & ce & sig & BT).
  destruct (bt_generics _ _ _ _ _ _ BT) as (sa & sr & ma & mr & S1 & S2 & C & E & _).
  assert (P := bt_prepared _ _ _ _ _ _ BT).
  destruct (prepared_sig _ _ _ _ _ P) as (_ & _ & PB). specialize (PB B').
  assert (BM := super_bracketed (b_levels b) _ PB).
  assert (SF : mf_struct_generics f = g) by (rewrite (bt_sgenerics _ _ _ _ _ _ BT); exact SG).
  assert (BSG : bracketed (mf_struct_generics f)) by (now rewrite SF).
  assert (SO1 := split_solid _ _ _ _ _ _ BSG S1).
  assert (SO2 := split_solid _ _ _ _ _ _ BM S2).
  rewrite <- SF at 1. rewrite <- SF at 1. rewrite <- SF at 1.
  rewrite <- (split_generic _ _ _ _ _ _ BSG S1).
  change (is_expectation_generic f) with (generic (mf_egenerics f)).
  change (is_method_generic f) with (generic (mf_call_generics f)).
  destruct (merge_generic _ _ SO1 SO2) as [M1 M2]. rewrite <- C in M1, M2.
  destruct (merge_generic _ _ M1 (lifetimes_solid sr)) as [M3 M4].
  destruct (merge_generic _ _ M3 (lifetimes_solid mr)) as [M5 M6]. rewrite <- E in M5, M6.
  split.
  - unfold generic. rewrite orb_true_iff, has_type_names. intros [I|I].
    + destruct (type_names (mf_egenerics f)) as [|i r] eqn:N; [now elim I|].
      assert (J : In i (type_names (mf_egenerics f))) by (rewrite N; cbn; auto).
      apply (ty_names _ _ TY) in J as [J|J]; [right|left]; apply orb_true_iff; left;
        apply has_type_names; intros Z; rewrite Z in J; destruct J.
    + rewrite E in I. apply merge_where in I as [I|I]; [|rewrite lifetimes_where in I; discriminate].
      apply merge_where in I as [I|I]; [|rewrite lifetimes_where in I; discriminate].
      rewrite C in I. apply merge_where in I as [I|I]; [right|left]; rewrite I; apply orb_true_r.
  - intros I. apply M6. apply orb_true_iff. left. apply M4. apply orb_true_iff. left. apply M2.
    apply orb_true_iff. tauto.
Qed.

Lemma expectation_separated g :
  b_struct_generics b = Some g -> bracketed g ->
  is_expectation_generic f = true
  <-> separated x
      \/ (type_names g <> [] \/ (lt_token g = false /\ where_clause g <> None)).
Proof. intros SG BG. apply expectation_separated_in; auto. now rewrite SG. Qed.

End Built.
