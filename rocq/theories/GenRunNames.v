(** * GenRunNames: when the generated names are distinct *)

From Coq Require Import List Bool String NArith Arith Lia.
From Verif Require Import Base Times Expect Mock.
From Verif Require Import Ast AstSpec TyEq Rewrite Derive DeriveSpec
  Names Sig MockFn MockFnSpec Item ItemProofs
  NameProofs MockItem ItemSpec PropItems GenSpec GenProofs GenRun GenRunSpec GenRunLists GenRunObj.
Import ListNotations.
Open Scope string_scope.
Open Scope list_scope.

Local Arguments inner_mod_ident : simpl never.
Local Arguments gen_mod_ident : simpl never.
Local Arguments submod_ident : simpl never.
Local Arguments field_ident : simpl never.

Lemma unique_from_not_seen l : forall seen t,
  In t (unique_from seen l) -> existsb (same_trait t) seen = false.
Proof.
  induction l as [|x l IH]; intros seen t I; [destruct I|]. cbn [unique_from] in I.
  destruct (existsb (same_trait x) seen) eqn:E; [auto|]. destruct I as [<-|I]; auto.
  assert (X := IH _ _ I). cbn in X. now apply orb_false_iff in X.
Qed.

Lemma unique_from_in' l : forall seen t, In t (unique_from seen l) -> In t l.
Proof.
  induction l as [|x l IH]; intros seen t I; [destruct I|]. cbn [unique_from] in I.
  destruct (existsb (same_trait x) seen); [right; eauto|]. destruct I as [<-|I]; [left; auto|right; eauto].
Qed.

Lemma unique_nodup {B} (k : mock_trait -> B) l : forall seen,
  (forall t t', In t l -> In t' l -> k t = k t' -> same_trait t t' = true) ->
  NoDup (map k (unique_from seen l)).
Proof.
  induction l as [|x l IH]; intros seen H; cbn [unique_from]; [constructor|].
  assert (H' : forall t t', In t l -> In t' l -> k t = k t' -> same_trait t t' = true)
    by (intros; apply H; cbn; auto).
  destruct (existsb (same_trait x) seen); [auto|]. cbn [map]. constructor; auto.
  intros I. apply in_map_iff in I as (t & E & I). assert (X := unique_from_not_seen _ _ _ I).
  cbn in X. apply orb_false_iff in X as [X _]. rewrite H in X; try discriminate; auto.
  - right. eapply unique_from_in'; eauto.
  - cbn. auto.
Qed.

Lemma NoDup_map_unraw {A} (n : A -> ident) (l : list A) :
  NoDup (map (fun x => unraw (n x)) l) -> NoDup (map n l).
Proof. apply NoDup_map_factor. intros x y _ _ E. now rewrite E. Qed.

Lemma Forall2_map_eq {A B C} (f : A -> C) (h : B -> C) l k :
  Forall2 (fun a b => f a = h b) l k -> map f l = map h k.
Proof. intros F. induction F; cbn; congruence. Qed.

(** [_t0], [_t1], ... *)
Lemma phantom_names n l f :
  In f (phantom_fields_from n l) -> l <> [] /\ exists k, gf_name f = phantom_ident k /\ (n <= k)%nat.
Proof.
  revert n. induction l as [|p l IH]; intros n I; [destruct I|]. split; [discriminate|].
  assert (X : In f (phantom_fields_from (S n) l) -> exists k, gf_name f = phantom_ident k /\ (n <= k)%nat).
  { intros J. destruct (IH _ J) as (_ & k & E & K). exists k. split; auto. lia. }
  cbn in I. destruct p as [a b|i b d|i t d].
  - destruct I as [<-|I]; [|auto]. exists n. split; auto.
  - destruct I as [<-|I]; [|auto]. exists n. split; auto.
  - auto.
Qed.

Lemma phantom_inj a b : phantom_ident a = phantom_ident b -> a = b.
Proof. unfold phantom_ident. intros E. apply append_inj_l, show_inj in E. lia. Qed.

Lemma phantom_nodup n l : NoDup (map gf_name (phantom_fields_from n l)).
Proof.
  revert n. induction l as [|p l IH]; intros n; [constructor|].
  assert (X : ~ In (phantom_ident n) (map gf_name (phantom_fields_from (S n) l))).
  { intros I. apply in_map_iff in I as (f & E & I). destruct (phantom_names _ _ _ I) as (_ & k & E2 & K).
    rewrite E2 in E. apply phantom_inj in E. lia. }
  destruct p as [a b|i b d|i t d]; cbn [phantom_fields_from map gf_name]; auto; constructor; auto.
Qed.

Lemma phantom_not_field n u : phantom_ident n <> (u ++ "_expectations")%string.
Proof.
  unfold phantom_ident. intros E. destruct (cut_last "" u ("t" ++ show_N (N.of_nat n)) "expectations") as [_ X].
  - intros v w H. destruct v as [|c v]; cbn in H; [discriminate|]. injection H as <- H.
    exact (show_no1 _ _ _ H).
  - intros v w H. do 12 (destruct v as [|? v]; cbn in H; [discriminate|]; injection H as ? H). destruct v; discriminate.
  - exact E.
  - discriminate.
Qed.

Lemma no_self_suffix (a b : string) : a <> (a ++ "_" ++ b)%string.
Proof. intros E. apply (f_equal String.length) in E. rewrite append_length in E. cbn in E. lia. Qed.

Section Names.
Context (hash : list pargs -> N) (m : mockable_struct) (s : mock_struct).
Context (M : mocked hash m s).
Context (CF : forall who, NoDup (map (fun x => unraw (fn_name x)) (fns_at m who)))
  (CP : forall who x n, In x (fns_at m who) -> has_self x = true ->
    params (ms_generics m) <> [] -> fn_name x <> ("_t" ++ show_N n)%string)
  (CE : forall t x u, In t (mi_traits s) -> In x (ms_methods m) -> has_self x = true ->
    fn_name x <> (u ++ "_expectations")%string)
  (traits_same : forall t t', In t (mi_traits s) -> In t' (mi_traits s) ->
    unraw (mt_ss_name t) = unraw (mt_ss_name t') -> same_trait t t' = true).

Lemma made_names who k f :
  Forall2 (made k) (fns_at m who) f ->
  NoDup (map (fun f => unraw (mf_name f)) f).
Proof.
  intros F. assert (N := CF who).
  rewrite <- (Forall2_map_eq (fun x => unraw (fn_name x)) (fun f => unraw (mf_name f)) (fns_at m who) f); auto.
  eapply Forall2_imp; [exact F|]. intros x y _ (E & _). now rewrite E.
Qed.

Lemma block_privmods who k f :
  Forall2 (made k) (fns_at m who) f -> NoDup (map gp_name (map priv_module f)).
Proof.
  intros F. rewrite map_map. cbn. eapply NoDup_map_factor; [|exact (made_names _ _ _ F)].
  intros x y _ _ E. cbn in E. now apply inner_inj in E.
Qed.

Lemma block_fields who k f md :
  Forall2 (made k) (fns_at m who) f ->
  NoDup (map gf_name (field_definitions md f ++ phantom_fields (mi_generics s))).
Proof.
  intros F. rewrite map_app. unfold field_definitions. rewrite map_map. cbn [field_definition gf_name].
  apply NoDup_app_intro.
  - apply NoDup_filter_map. apply NoDup_map_unraw. exact (made_names _ _ _ F).
  - apply phantom_nodup.
  - intros n I J. apply in_map_iff in I as (h & <- & I). apply filter_In in I as [I S].
    apply in_map_iff in J as (p & E & J). destruct (phantom_names _ _ _ J) as (P & i & E2 & _).
    destruct (Forall2_in_r _ _ _ _ F I) as (x & Ix & N & _ & _ & S2 & _).
    unfold not_static in S. rewrite S2, negb_involutive in S.
    apply (CP who x (N.of_nat i) Ix S).
    + rewrite <- (mo_generics _ _ _ M). exact P.
    + rewrite <- N, <- E, E2. reflexivity.
Qed.

Lemma trait_block t : In t (mi_traits s) ->
  exists i x, nth_error (ms_impls m) i = Some x /\ fns_at m (Some i) = impl_fns x /\ trait_made hash x t.
Proof.
  intros I. destruct (Forall2_in_r _ _ _ _ (mo_traits _ _ _ M) I) as (x & Ix & T).
  apply In_nth_error in Ix as (i & E). exists i, x. cbn. rewrite E. auto.
Qed.

Lemma distinct_if_clear : distinct_names (gen_struct s).
Proof.
  assert (FM : Forall2 (made None) (fns_at m None) (mi_methods s)) by exact (mo_methods _ _ _ M).
  assert (FI : forall t t', In t (mi_traits s) -> In t' (mi_traits s) ->
    field_ident (mt_ss_name t) = field_ident (mt_ss_name t') -> same_trait t t' = true).
  { intros t t' I I' E. apply traits_same; auto. unfold field_ident in E. now apply append_inj_r in E. }
  split; [|split; [|split]].
  - cbn [gen_struct gm_fields]. rewrite map_app, map_map. cbn [gf_name]. apply NoDup_app_intro.
    + apply NoDup_filter_map. apply unique_nodup. exact FI.
    + exact (block_fields None _ _ _ FM).
    + intros n I J. apply in_map_iff in I as (t & <- & It). apply in_map_iff in J as (f & E & J).
      apply filter_In in It as [It _]. apply unique_in in It.
      apply in_app_iff in J as [J|J].
      * unfold field_definitions in J. apply in_map_iff in J as (h & <- & J). apply filter_In in J as [J S].
        destruct (Forall2_in_r _ _ _ _ FM J) as (x & Ix & N & _ & _ & S2 & _).
        unfold not_static in S. rewrite S2, negb_involutive in S.
        apply (CE t x (unraw (mt_ss_name t)) It Ix S). rewrite <- N. exact E.
      * destruct (phantom_names _ _ _ J) as (_ & i & E2 & _). rewrite E2 in E.
        exact (phantom_not_field _ _ E).
  - cbn [gen_struct gm_modname gm_substructs]. constructor.
    + intros I. rewrite map_map in I. apply in_map_iff in I as (t & E & _). cbn [substruct gs_modname] in E.
      rewrite (mo_modname _ _ _ M) in E. unfold submod_ident, gen_mod_ident in E.
      change (unraw ("__mock_" ++ unraw (ms_name m))%string) with ("__mock_" ++ unraw (ms_name m))%string in E.
      symmetry in E. exact (no_self_suffix _ _ E).
    + rewrite map_map. apply unique_nodup. intros t t' I I' E. apply traits_same; auto.
      cbn [substruct gs_modname] in E. unfold submod_ident in E. apply append_inj_l in E.
      now apply (append_inj_l "_") in E.
  - cbn [gen_struct gm_privmods]. exact (block_privmods None _ _ FM).
  - intros ss I. cbn [gen_struct gm_substructs] in I. apply in_map_iff in I as (t & <- & I).
    apply unique_in in I. destruct (trait_block t I) as (i & x & _ & E & T).
    assert (F := tm_methods _ _ _ T). rewrite <- E in F. split.
    + exact (block_fields (Some i) _ _ _ F).
    + exact (block_privmods (Some i) _ _ F).
Qed.

End Names.

Section Clear.
Context (hash : list pargs -> N) (m : mockable_struct) (s : mock_struct).
Context (M : mocked hash m s) (C : clear_names hash m).

Lemma traits_same t t' :
  In t (mi_traits s) -> In t' (mi_traits s) ->
  unraw (mt_ss_name t) = unraw (mt_ss_name t') -> same_trait t t' = true.
Proof.
  intros I I' E. destruct (trait_block _ _ _ M t I) as (i & x & X & _ & T).
  destruct (trait_block _ _ _ M t' I') as (i' & x' & X' & _ & T').
  apply nth_error_In in X. apply nth_error_In in X'.
  destruct (tm_path _ _ _ T) as (b & P). destruct (tm_path _ _ _ T') as (b' & P').
  assert (SP := cn_paths _ _ C _ _ _ X P). assert (SP' := cn_paths _ _ C _ _ _ X' P').
  rewrite (tm_ss _ _ _ T), (tm_ss _ _ _ T'), !ss_unraw in E by assumption.
  apply ss_name_distinct in E; auto; [|exact (cn_hash _ _ C _ _ _ _ _ _ X X' P P')].
  destruct (cn_traits _ _ C _ _ _ _ _ _ X X' P P' E) as [EP EA].
  apply same_trait_eq. split; auto. rewrite (tm_attrs _ _ _ T), (tm_attrs _ _ _ T'). now rewrite EA.
Qed.

Lemma clear_distinct : distinct_names (gen_struct s).
Proof.
  apply (distinct_if_clear hash m s M).
  - exact (cn_fns _ _ C).
  - exact (cn_phantom _ _ C).
  - intros t x u _. exact (cn_fields _ _ C x u).
  - exact traits_same.
Qed.

End Clear.
