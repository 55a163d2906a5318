(** * ItemProofs: lemmas about generated mocks *)

From Coq Require Import List Bool String NArith Arith Lia.
From Verif Require Import Ast TyEq Rewrite Derive DeriveSpec Names Subst Sig MockFn MockFnSpec
  Item MockItem ItemSpec MockFnProofs NameProofs.
Import ListNotations.
Open Scope string_scope.
Open Scope list_scope.

(** ** Lists *)

Lemma all_some_spec {A B} (f : A -> option B) l r :
  all_some f l = Some r <-> Forall2 (fun x y => f x = Some y) l r.
Proof.
  revert r. induction l as [|x l IH]; intros r; cbn.
  - split; intros H; [injection H as <-; constructor|inversion H; reflexivity].
  - destruct (f x) as [y|] eqn:E.
    + destruct (all_some f l) as [t|] eqn:F.
      * split; intros H.
        -- injection H as <-. constructor; auto. apply IH. reflexivity.
        -- inversion H; subst. apply IH in H4. congruence.
      * split; intros H; [discriminate|]. inversion H; subst. apply IH in H4. discriminate.
    + split; intros H; [discriminate|]. inversion H; congruence.
Qed.

Lemma Forall2_in_r {A B} (R : A -> B -> Prop) l r y :
  Forall2 R l r -> In y r -> exists x, In x l /\ R x y.
Proof.
  induction 1; cbn; [tauto|]. intros [<-|I]; eauto. destruct (IHForall2 I) as (z & ? & ?). eauto.
Qed.

Lemma Forall2_in_l {A B} (R : A -> B -> Prop) l r x :
  Forall2 R l r -> In x l -> exists y, In y r /\ R x y.
Proof.
  induction 1; cbn; [tauto|]. intros [<-|I]; eauto. destruct (IHForall2 I) as (z & ? & ?). eauto.
Qed.

Lemma Forall2_map {A B C} (R : A -> B -> Prop) (f : A -> C) (g : B -> C) l r :
  Forall2 R l r -> (forall x y, R x y -> f x = g y) -> map f l = map g r.
Proof. induction 1; cbn; intros H'; auto. f_equal; auto. Qed.

Lemma Forall2_filter {A B} (R : A -> B -> Prop) (f : A -> bool) (g : B -> bool) l r :
  Forall2 R l r -> (forall x y, R x y -> f x = g y) -> Forall2 R (filter f l) (filter g r).
Proof.
  induction 1; cbn; intros H'; auto. rewrite (H' _ _ H). destruct (g y); auto.
Qed.

Lemma Forall2_imp {A B} (R S : A -> B -> Prop) l r :
  Forall2 R l r -> (forall x y, In x l -> R x y -> S x y) -> Forall2 S l r.
Proof. induction 1; constructor; cbn in *; auto. Qed.

(** ** Functions *)

Definition made (tr : option ident) (x : fn_item) (f : mock_function) : Prop :=
  mf_name f = fn_name x /\ mf_attrs f = fi_attrs x /\ mf_trait f = tr
  /\ mf_is_static f = negb (has_self x)
  /\ (bracketed (sg_generics (fi_sig x)) ->
      is_method_generic f = true -> is_expectation_generic f = true).

Lemma static_receivers l l' :
  (forall r m c t, In (FaReceiver r m c t) l <-> In (FaReceiver r m c t) l') ->
  forallb (fun a => match a with FaTyped _ _ => true | FaReceiver _ _ _ _ => false end) l
  = negb (existsb (fun a => match a with FaReceiver _ _ _ _ => true | FaTyped _ _ => false end) l').
Proof.
  intros H.
  destruct (forallb _ l) eqn:A, (existsb _ l') eqn:B; auto; exfalso.
  - apply existsb_exists in B as ([r m c t|p t] & I & E); [|discriminate].
    apply H in I. rewrite forallb_forall in A. specialize (A _ I). discriminate.
  - assert (C : forallb (fun a => match a with
      | FaReceiver _ _ _ _ => false | FaTyped _ _ => true end) l = true).
    { apply forallb_forall. intros [r m c t|p t] I; auto.
      apply H in I.
      assert (X : existsb (fun a => match a with
         | FaReceiver _ _ _ _ => true | FaTyped _ _ => false end) l' = true).
      { apply existsb_exists. exists (FaReceiver r m c t). auto. }
      congruence. }
    congruence.
Qed.

Lemma prepared_sig b dg di ce sig :
  prepared b = Some (dg, di, ce, sig) ->
  sg_ident sig = sg_ident (b_sig b) /\ sg_abi sig = sg_abi (b_sig b)
  /\ (bracketed (sg_generics (b_sig b)) -> bracketed dg).
Proof.
  unfold prepared. destruct (b_concretize b).
  - cbn [concretize_args]. intros E. injection E as <- _ _ <-. repeat split.
  - unfold declosurefy. destruct (distinct_keys _); [|discriminate].
    intros E. injection E as <- _ _ <-. repeat split. unfold bracketed. cbn.
    intros B. destruct (filter _ _) eqn:F; auto. intros L. specialize (B L).
    rewrite B in F. discriminate.
Qed.

(** Type parameters are not lost when generics are merged. *)
Definition any_type (l : list gparam) : bool :=
  existsb (fun p => match p with GpType _ _ _ => true | _ => false end) l.

Lemma add_param_type l y :
  any_type (add_param l y) = any_type l || any_type [y].
Proof.
  unfold any_type. induction l as [|o l IH]; cbn; auto.
  destruct (cmp_gp_idents o y) eqn:E; cbn.
  - destruct o, y; cbn in *; try discriminate; rewrite ?orb_false_r, ?orb_true_r; auto.
  - rewrite IH. cbn. now rewrite orb_assoc.
Qed.

Lemma add_params_type m : forall l,
  any_type (fold_left add_param m l) = any_type l || any_type m.
Proof.
  induction m as [|y m IH]; intros l; cbn [fold_left].
  - now rewrite orb_false_r.
  - rewrite IH, add_param_type. unfold any_type. cbn. now rewrite orb_false_r, orb_assoc.
Qed.

Definition generic (g : generics) : bool := has_type_params g || has_where g.

Definition solid (g : generics) : Prop := is_empty_generics g = true -> params g = [].

Lemma bracketed_solid g : bracketed g -> solid g.
Proof.
  unfold bracketed, solid, is_empty_generics. intros B E. apply B. destruct (lt_token g); auto.
Qed.

Lemma merge_generic x y :
  solid x -> solid y ->
  solid (merge_generics x y)
  /\ (generic x || generic y = true -> generic (merge_generics x y) = true).
Proof.
  unfold solid, generic, has_type_params, has_where, merge_generics, merge_params.
  intros Bx By. destruct (is_empty_generics x) eqn:Ex.
  - assert (Wx : where_clause x = None).
    { unfold is_empty_generics in Ex. destruct (lt_token x), (where_clause x); auto; discriminate. }
    rewrite (Bx eq_refl), Wx. cbn. split.
    + unfold is_empty_generics in *. cbn. intros H. apply By.
      destruct (lt_token y), (where_clause y); auto.
    + destruct (existsb _ (params y)); cbn; auto. destruct (where_clause y); auto.
  - destruct (is_empty_generics y) eqn:Ey.
    + assert (Wy : where_clause y = None).
      { unfold is_empty_generics in Ey. destruct (lt_token y), (where_clause y); auto; discriminate. }
      rewrite (By eq_refl), Wy. cbn. split.
      * unfold is_empty_generics in *. cbn. destruct (lt_token x), (where_clause x); discriminate.
      * rewrite orb_false_r. destruct (existsb _ (params x)), (where_clause x); auto.
    + cbn. split.
      * unfold is_empty_generics in *. cbn. destruct (lt_token x), (where_clause x), (where_clause y);
          discriminate.
      * change (existsb (fun p => match p with GpType _ _ _ => true | _ => false end)
                  (fold_left add_param (params y) (params x)))
          with (any_type (fold_left add_param (params y) (params x))).
        rewrite add_params_type. unfold any_type.
        destruct (existsb _ (params x)), (existsb _ (params y)), (where_clause x), (where_clause y);
          auto.
Qed.

Lemma split_solid g args rt tg a r :
  bracketed g -> split_lifetimes g args rt = (tg, a, r) -> solid tg.
Proof.
  intros B. unfold split_lifetimes. destruct (lt_token g) eqn:L; cbn.
  - destruct (filter _ _) eqn:F; intros E; injection E as <- _ _; [intros _; reflexivity|].
    intros H. unfold is_empty_generics in H. cbn in H. discriminate.
  - intros E. injection E as <- _ _. apply bracketed_solid. exact B.
Qed.

(** The generics of the structure don't matter. *)
Lemma merge_solid_r x y :
  solid y -> generic y = true -> generic (merge_generics x y) = true.
Proof.
  intros By G. unfold generic, has_type_params, has_where, merge_generics, merge_params in *.
  destruct (is_empty_generics x) eqn:Ex.
  - cbn. destruct (existsb _ (params y)); auto. destruct (where_clause y); auto.
  - destruct (is_empty_generics y) eqn:Ey.
    + exfalso. rewrite (By Ey) in G. unfold is_empty_generics in Ey.
      destruct (lt_token y), (where_clause y); discriminate.
    + cbn.
      change (existsb (fun p => match p with GpType _ _ _ => true | _ => false end)
                (fold_left add_param (params y) (params x)))
        with (any_type (fold_left add_param (params y) (params x))).
      rewrite add_params_type. unfold any_type.
      destruct (existsb _ (params x)), (existsb _ (params y)), (where_clause x), (where_clause y);
        auto.
Qed.

Lemma merge_solid_out x y : solid y -> generic y = true -> solid (merge_generics x y).
Proof.
  intros By G. unfold solid, generic, has_type_params, has_where, merge_generics, merge_params in *.
  destruct (is_empty_generics x) eqn:Ex.
  - unfold is_empty_generics in *. cbn. intros H. apply By.
    destruct (lt_token y), (where_clause y); auto.
  - destruct (is_empty_generics y) eqn:Ey.
    + exfalso. rewrite (By eq_refl) in G. unfold is_empty_generics in Ey.
      destruct (lt_token y), (where_clause y); discriminate.
    + unfold is_empty_generics in *. cbn. destruct (lt_token x), (where_clause x), (where_clause y);
        discriminate.
Qed.

Lemma lifetimes_solid l : solid (lifetimes_to_generics l).
Proof. destruct l; cbn; intros H; [reflexivity|discriminate]. Qed.

Lemma super_bracketed n g : bracketed g -> bracketed (supersuperfy_generics n g).
Proof. unfold bracketed. cbn. intros B L. rewrite (B L). reflexivity. Qed.

Lemma method_generic_expectation b f :
  build b = Some f -> bracketed (sg_generics (b_sig b)) ->
  is_method_generic f = true -> is_expectation_generic f = true.
Proof.
  intros H B G. apply build_built in H as (dg & di & ce & sig & BT).
  destruct (bt_generics _ _ _ _ _ _ BT) as (sa & sr & ma & mr & _ & S & C & E & _).
  change (generic (mf_call_generics f) = true) in G.
  change (generic (mf_egenerics f) = true). rewrite E, C.
  assert (SC : solid (mf_call_generics f)).
  { eapply split_solid; [|exact S]. apply super_bracketed.
    apply (prepared_sig _ _ _ _ _ (bt_prepared _ _ _ _ _ _ BT)). exact B. }
  destruct (merge_generic (merge_generics (mf_type_generics f) (mf_call_generics f))
              (lifetimes_to_generics sr)) as [S1 G1].
  { apply merge_solid_out; assumption. }
  { apply lifetimes_solid. }
  destruct (merge_generic _ (lifetimes_to_generics mr) S1 (lifetimes_solid mr)) as [S2 G2].
  apply G2. rewrite G1; auto. rewrite merge_solid_r; auto.
Qed.

Lemma made_trait hash_ss structname g vis x f :
  build (trait_builder structname g vis hash_ss x) = Some f -> made (Some hash_ss) x f.
Proof.
  intros H. assert (MG := method_generic_expectation _ _ H). cbn in MG.
  apply build_built in H as (dg & di & ce & sig & B).
  assert (P := bt_prepared _ _ _ _ _ _ B). repeat split.
  - unfold mf_name. rewrite (bt_sig _ _ _ _ _ _ B). apply (prepared_sig _ _ _ _ _ P).
  - exact (bt_attrs _ _ _ _ _ _ B).
  - exact (bt_trait _ _ _ _ _ _ B).
  - rewrite (bt_static _ _ _ _ _ _ B). apply static_receivers.
    exact (prepared_receivers _ _ _ _ _ P).
  - exact MG.
Qed.

Lemma made_method m x f : build (method_builder m x) = Some f -> made None x f.
Proof.
  intros H. assert (MG := method_generic_expectation _ _ H). cbn in MG.
  apply build_built in H as (dg & di & ce & sig & B).
  assert (P := bt_prepared _ _ _ _ _ _ B). repeat split.
  - unfold mf_name. rewrite (bt_sig _ _ _ _ _ _ B). apply (prepared_sig _ _ _ _ _ P).
  - exact (bt_attrs _ _ _ _ _ _ B).
  - exact (bt_trait _ _ _ _ _ _ B).
  - rewrite (bt_static _ _ _ _ _ _ B). apply static_receivers.
    exact (prepared_receivers _ _ _ _ _ P).
  - exact MG.
Qed.

(** ** Mocks *)

Record trait_made (hash : list pargs -> N) (x : item_impl) (t : mock_trait) : Prop := TraitMade {
  tm_path : exists b, im_trait x = Some (b, mt_path t);
  tm_ss : mt_ss_name t = ss_name hash (mt_path t);
  tm_attrs : mt_attrs t = im_attrs x;
  tm_self : self_path (im_self x) = Some (mt_self t);
  tm_generics : mt_generics t = im_generics x;
  tm_unsafe : mt_unsafe t = im_unsafe x;
  tm_consts : mt_consts t
    = flat_map (fun i => match i with IiConst n e => [(n, e)] | _ => [] end) (im_items x);
  tm_types : mt_types t
    = flat_map (fun i => match i with IiType n t => [(n, t)] | _ => [] end) (im_items x);
  tm_methods : Forall2 (made (Some (mt_ss_name t))) (impl_fns x) (mt_methods t)
}.

Lemma new_trait_made hash n g x v t : new_trait hash n g x v = Some t -> trait_made hash x t.
Proof.
  unfold new_trait. destruct (im_trait x) as [[b p]|] eqn:T; [|discriminate].
  destruct (self_path (im_self x)) as [s|] eqn:S; [|discriminate].
  destruct (existsb _ _); [discriminate|].
  destruct (all_some _ _) as [ms|] eqn:A; [|discriminate].
  intros E. injection E as <-. constructor; cbn; auto.
  - exists b. exact T.
  - apply all_some_spec in A. eapply Forall2_imp; [exact A|].
    intros f y _ H. eapply made_trait. exact H.
Qed.

Record mocked (hash : list pargs -> N) (m : mockable_struct) (s : mock_struct) : Prop := Mocked {
  mo_attrs : mi_attrs s = ms_attrs m;
  mo_consts : mi_consts s = ms_consts m;
  mo_generics : mi_generics s = ms_generics m;
  mo_new : mi_has_new s = has_new m;
  mo_modname : mi_modname s = gen_mod_ident (ms_name m) None;
  mo_name : mi_name s = ms_name m;
  mo_vis : mi_vis s = ms_vis m;
  mo_methods : Forall2 (made None) (ms_methods m) (mi_methods s);
  mo_traits : Forall2 (trait_made hash) (ms_impls m) (mi_traits s);
  mo_phantom : phantom_error (ms_generics m) = false
}.

Lemma mock_it_mocked hash m g :
  mock_it hash m = Some g -> exists s, mocked hash m s /\ g = gen_struct s.
Proof.
  unfold mock_it, from_mockable. destruct (all_some _ (ms_methods m)) as [ms|] eqn:A; [|discriminate].
  destruct (all_some _ (ms_impls m)) as [ts|] eqn:B; [|discriminate].
  unfold gen_struct_error. cbn [mi_generics].
  destruct (phantom_error (ms_generics m)) eqn:P; [discriminate|].
  intros E. injection E as <-. eexists. split; [|reflexivity].
  constructor; cbn; auto.
  - apply all_some_spec in A. eapply Forall2_imp; [exact A|].
    intros f y _ H. eapply made_method. exact H.
  - apply all_some_spec in B. eapply Forall2_imp; [exact B|].
    intros x y _ H. eapply new_trait_made. exact H.
Qed.

(** ** Traits *)

Lemma attribute_eqb_eq a b : attribute_eqb a b = true <-> a = b.
Proof.
  unfold attribute_eqb. destruct a as [p o r], b as [p' o' r']. cbn.
  rewrite !andb_true_iff, path_eqb_eq, String.eqb_eq. split.
  - intros [[-> H] ->]. destruct o, o'; try discriminate; auto.
    apply String.eqb_eq in H. congruence.
  - intros H. injection H as -> -> ->. repeat split. destruct o'; auto. apply String.eqb_refl.
Qed.

Lemma same_trait_eq x y :
  same_trait x y = true
  <-> mt_path x = mt_path y /\ bare_attrs (mt_attrs x) = bare_attrs (mt_attrs y).
Proof.
  unfold same_trait. rewrite andb_true_iff, path_eqb_eq.
  rewrite (list_eqb_all _ _ attribute_eqb_eq). reflexivity.
Qed.

Lemma unique_from_in l : forall seen t,
  In t (unique_from seen l) -> In t l.
Proof.
  induction l as [|x l IH]; cbn; auto. intros seen t. destruct (existsb _ _); cbn.
  - intros H. right. eapply IH. exact H.
  - intros [->|H]; auto. right. eapply IH. exact H.
Qed.

Lemma unique_from_covers l : forall seen t,
  In t l -> existsb (same_trait t) seen = true
            \/ exists t', In t' (unique_from seen l) /\ same_trait t t' = true.
Proof.
  induction l as [|x l IH]; cbn; [tauto|]. intros seen t [->|I].
  - destruct (existsb (same_trait t) seen) eqn:E; auto. right. exists t. split; [left; auto|].
    apply same_trait_eq. auto.
  - destruct (existsb (same_trait x) seen) eqn:E.
    + apply IH. exact I.
    + destruct (IH (x :: seen) t I) as [H|(t' & H1 & H2)].
      * cbn in H. apply orb_true_iff in H as [H|H]; auto.
        right. exists x. split; [left; auto|exact H].
      * right. exists t'. split; [right|]; auto.
Qed.

Lemma unique_in l t : In t (unique_traits l) -> In t l.
Proof. apply unique_from_in. Qed.

Lemma unique_covers l t :
  In t l -> exists t', In t' (unique_traits l) /\ same_trait t t' = true.
Proof.
  intros I. destruct (unique_from_covers l [] t I) as [H|H]; [discriminate|exact H].
Qed.
