(** * AutoProofs: lemmas about the auto traits of generated types *)

From Coq Require Import List Bool String NArith Arith.
From Verif Require Import Base Times Expect Mock.
From Verif Require Import Ast AstSpec TyEq Rewrite Derive DeriveSpec
  Names Sig MockFn MockFnSpec MockFnProofs PropOutput Item ItemProofs
  NameProofs MockItem ItemSpec PropItems GenSpec GenProofs GenRun GenRunSpec GenRunLists GenRunObj GenRunDesc
  GenRunProofs AutoTraits AutoSpec.
Import ListNotations.
Open Scope string_scope.
Open Scope list_scope.

Local Arguments inner_mod_ident : simpl never.
Local Arguments gen_mod_ident : simpl never.
Local Arguments submod_ident : simpl never.
Local Arguments substruct_ident : simpl never.
Local Arguments field_ident : simpl never.

Section User.
Context (user : marker -> list ident -> ty -> Prop).
Local Notation auto := (auto user).

Lemma auto_all a l : auto a (GAll l) <-> Forall (auto a) l.
Proof.
  induction l as [|t l IH]; [split; [constructor|exact (fun _ => Logic.I)]|].
  change (auto a (GAll (t :: l))) with (auto a t /\ auto a (GAll l)). rewrite IH. split.
  - intros [X Y]. now constructor.
  - intros X. inversion X; auto.
Qed.

Lemma matcher_send p : auto Send (matcher_gty p).
Proof.
  unfold matcher_gty. destruct (gp_with p); cbn; repeat split; auto.
  induction (gp_predty p); cbn; auto.
Qed.

Lemma common_auto a p : auto a (common_gty p).
Proof. split; [exact (matcher_send p)|]. cbn. tauto. Qed.

Lemma expectations_auto a m p :
  auto a (expectations_gty m p) <-> (gp_kind p = MockFn.KStatic \/ user a m (gp_owned p)).
Proof.
  assert (E : auto a (expectations_gty m p) <->
    auto a (match gp_kind p with MockFn.KStatic => GMutex (rfunc_gty m p) | _ => rfunc_gty m p end)).
  { change (auto a (expectations_gty m p)) with
      ((auto a (common_gty p) /\
        auto a (match gp_kind p with MockFn.KStatic => GMutex (rfunc_gty m p) | _ => rfunc_gty m p end)
        /\ True) /\ True).
    assert (C := common_auto a p). tauto. }
  rewrite E. unfold rfunc_gty. destruct (gp_kind p); cbn.
  - tauto.
  - split; [tauto|]. intros [X|X]; [discriminate|tauto].
  - split; [tauto|]. intros [X|X]; [discriminate|]. destruct a; tauto.
Qed.

Lemma generic_auto a : auto a generic_gty.
Proof. destruct a; cbn; tauto. Qed.

Lemma static_sync m p : gp_kind p = MockFn.KStatic -> auto Sync (static_gty m p).
Proof.
  intros K. unfold static_gty. destruct (gp_generic_guard p).
  - cbn. tauto.
  - change (auto Send (expectations_gty m p)). apply expectations_auto. auto.
Qed.

(** ** Mocks *)

Section Mock.
Context (s : mock_struct) (D : good s).

Definition cell_gty (c : cell) : gty :=
  if is_method_generic (snd c) then generic_gty else expectations_gty (fst c) (priv_module (snd c)).
Definition phantom_gtys : list gty :=
  flat_map (fun p => match p with
                     | GpLifetime _ _ => [GWord]
                     | GpType i _ _ => [GUser [] (ty_of i)]
                     | GpConst _ _ _ => []
                     end) (params (mi_generics s)).

Lemma field_is md f : In (mcell md f) (cells s) -> not_static f = true ->
  field_gty (gen_struct s) (gf_ty (field_definition f md)) = Some (cell_gty (mcell md f)).
Proof.
  intros I S. cbn [field_definition gf_ty field_gty].
  change [md; inner_mod_ident (mf_name f)] with (fst (mcell md f)).
  rewrite (cell_mod s D (fst (mcell md f)) f I). reflexivity.
Qed.

Lemma phantoms_are h :
  (forall t, (forall n b, t <> FtSub n b) -> h t = field_gty (gen_struct s) t) ->
  all_some (fun f => h (gf_ty f)) (phantom_fields (mi_generics s)) = Some phantom_gtys.
Proof.
  intros H. unfold phantom_fields, phantom_gtys. generalize (params (mi_generics s)). intros l.
  generalize 0%nat. induction l as [|[x y|x y z|x y z] l IH]; intros n; cbn; auto.
  - rewrite H by discriminate. cbn. now rewrite IH.
  - rewrite H by discriminate. cbn. now rewrite IH.
Qed.

Definition sub_gty (t : mock_trait) : gty :=
  GAll (map (fun f => cell_gty (mcell (tmod s t) f)) (filter not_static (mt_methods t)) ++ phantom_gtys).

Lemma sub_is t : In t (subs s) ->
  fields_gty (field_gty (gen_struct s)) (gs_fields (substruct s t)) = Some (sub_gty t).
Proof.
  intros I. unfold fields_gty. cbn [substruct gs_fields].
  rewrite (all_some_app _ _ _ (map (fun f => cell_gty (mcell (tmod s t) f)) (filter not_static (mt_methods t)))
             phantom_gtys); auto.
  - apply all_some_on_map. intros f J. apply filter_In in J as [J S]. fold (tmod s t).
    apply field_is; auto. apply sub_cell; auto.
  - apply phantoms_are. auto.
Qed.

Lemma mock_is : mock_gty (gen_struct s)
  = Some (GAll (map sub_gty (objects s)
                ++ map (fun f => cell_gty (mcell (mi_modname s) f)) (filter not_static (mi_methods s))
                ++ phantom_gtys)).
Proof.
  unfold mock_gty, fields_gty. cbn [gen_struct gm_fields]. fold (subs s). fold (objects s).
  rewrite (all_some_app (fun f => outer_gty (gen_struct s) (gf_ty f)) _ _ (map sub_gty (objects s))
    (map (fun f => cell_gty (mcell (mi_modname s) f)) (filter not_static (mi_methods s)) ++ phantom_gtys)); auto.
  - apply all_some_on_map. intros t I. cbn [gf_ty outer_gty].
    rewrite find_sub by (auto; now apply objects_in). apply sub_is. now apply objects_in.
  - apply all_some_app.
    + apply all_some_on_map. intros f I. apply filter_In in I as [I S].
      change (field_gty (gen_struct s) (gf_ty (field_definition f (mi_modname s)))
              = Some (cell_gty (mcell (mi_modname s) f))).
      apply field_is; auto. now apply own_cell.
    + apply (phantoms_are (outer_gty (gen_struct s))). intros t N. destruct t; auto. now elim (N name args).
Qed.

Lemma phantoms_auto a : Forall (auto a) phantom_gtys
  <-> forall i, In i (type_names (mi_generics s)) -> user a [] (ty_of i).
Proof.
  unfold phantom_gtys, type_names. induction (params (mi_generics s)) as [|[x y|x y z|x y z] l IH]; cbn.
  - split; [intros _ i []|constructor].
  - rewrite Forall_cons_iff. cbn. tauto.
  - rewrite Forall_cons_iff, IH. cbn. split.
    + intros [X Y] i [<-|I]; auto.
    + intros X. split; auto.
  - exact IH.
Qed.

Lemma mock_auto a t : mock_gty (gen_struct s) = Some t ->
  (auto a t <-> (forall i, In i (type_names (mi_generics s)) -> user a [] (ty_of i))
                /\ forall c, In c (ocells s) -> auto a (cell_gty c)).
Proof.
  rewrite mock_is. intros E. injection E as <-. rewrite auto_all, !Forall_app, phantoms_auto.
  rewrite ocells_eq by exact D. split.
  - intros (X & Y & Z). split; auto. intros c I. apply in_app_iff in I as [I|I].
    + apply in_flat_map in I as (t & It & I). rewrite Forall_map in X. rewrite Forall_forall in X.
      specialize (X t It). unfold sub_gty in X. rewrite auto_all, Forall_app, Forall_map, Forall_forall in X.
      destruct X as [X _]. apply in_map_iff in I as (f & <- & I). auto.
    + rewrite Forall_map, Forall_forall in Y. apply in_map_iff in I as (f & <- & I). auto.
  - intros (X & Y). repeat split; auto.
    + rewrite Forall_map, Forall_forall. intros t It. unfold sub_gty.
      rewrite auto_all, Forall_app, Forall_map, Forall_forall. split; [|now apply phantoms_auto].
      intros f I. apply Y. apply in_app_iff. left. apply in_flat_map. exists t. split; auto. now apply in_map.
    + rewrite Forall_map, Forall_forall. intros f I. apply Y. apply in_app_iff. right. now apply in_map.
Qed.
End Mock.
End User.

(** ** The user's functions and the cells *)

Section Input.
Context (hash : list pargs -> N) (m : mockable_struct) (s : mock_struct).
Context (M : mocked hash m s).
Context (FM : Forall2 (fun x f => build (method_builder m x) = Some f) (ms_methods m) (mi_methods s)).
Context (FT : Forall2 (fun x t => new_trait hash (ms_name m) (ms_generics m) x (ms_vis m) = Some t)
                      (ms_impls m) (mi_traits s)).
Context (WF : well_formed m) (DN : distinct_names (gen_struct s)).

Definition built_from (x : option path * fn_item) (c : cell) : Prop :=
  List.length (fst c) = 2%nat /\ mf_is_static (snd c) = negb (has_self (snd x))
  /\ bracketed (sg_generics (fi_sig (snd x)))
  /\ exists b, build b = Some (snd c) /\ b_sig b = fi_sig (snd x) /\ b_attrs b = fi_attrs (snd x)
       /\ b_levels b = 2%nat.

Lemma all_built : Forall2 built_from (all_fns m) (cells s).
Proof.
  unfold all_fns, cells. apply Forall2_app.
  - assert (F := traits_implement hash m s FT DN). induction F as [|x t l k H F IH]; cbn [flat_map]; auto.
    apply Forall2_app; auto. destruct H as (P & SS & i & I & <- & NT). unfold tcells.
    assert (B := new_trait_fns _ _ _ _ _ _ NT). assert (W := proj2 (proj1 WF) i).
    assert (W' : forall y, In y (impl_fns i) -> bracketed (sg_generics (fi_sig y)))
      by (intros y J; exact (W y I J)).
    clear W NT I IH F. revert W' B. generalize (impl_fns i) (mt_methods t). intros fs ks W B.
    induction B as [|y f fs ks H B IH]; cbn [map]; constructor.
    + destruct (made_trait _ _ _ _ _ _ H) as (N & _ & _ & S & _).
      split; [reflexivity|]. split; [exact S|]. split; [apply W; cbn; auto|]. eexists. split; [exact H|].
      repeat split.
    + apply IH. intros; apply W; cbn; auto.
  - unfold own_cells. assert (W := proj1 (proj1 WF)). revert W FM.
    generalize (ms_methods m), (mi_methods s). intros l k W F.
    induction F as [|x f l k H F IH]; cbn [map]; constructor.
    + destruct (made_method _ _ _ H) as (N & _ & _ & S & _).
      split; [reflexivity|]. split; [exact S|]. split; [exact (W x (or_introl eq_refl))|]. eexists. split; [exact H|].
      repeat split.
    + apply IH. intros f0 J. exact (W f0 (or_intror J)).
Qed.

Lemma objects_built : Forall2 built_from (object_fns m) (ocells s).
Proof.
  apply Forall2_filter; [exact all_built|]. intros a b _ (_ & S & _). unfold not_static.
  rewrite S. now rewrite negb_involutive.
Qed.
End Input.

Lemma in_l {A B} (R : A -> B -> Prop) l k a : Forall2 R l k -> In a l -> exists b, In b k /\ R a b.
Proof.
  intros F. induction F as [|x y l k H F IH]; cbn; [intros []|]. intros [<-|I]; eauto.
  destruct (IH I) as (b & J & Q). eauto.
Qed.
Lemma in_r {A B} (R : A -> B -> Prop) l k b : Forall2 R l k -> In b k -> exists a, In a l /\ R a b.
Proof.
  intros F. induction F as [|x y l k H F IH]; cbn; [intros []|]. intros [<-|I]; eauto.
  destruct (IH I) as (a & J & Q). eauto.
Qed.

Lemma kind_static f b : build b = Some f ->
  (kind_of f = MockFn.KStatic <-> ~ exists t mu, sg_output (b_sig b) = Some t /\ borrows mu t).
Proof.
  intros H. destruct (expectation_kinds _ _ H) as (K & K' & _). split.
  - intros E (t & [|] & O & B).
    + assert (X : kind_of f = MockFn.KRefMut) by (apply K'; eauto). congruence.
    + assert (X : kind_of f = MockFn.KRef) by (apply K; eauto). congruence.
  - intros N. destruct (kind_of f) eqn:E; auto; elim N.
    + destruct (proj1 K eq_refl) as (t & O & B). eauto.
    + destruct (proj1 K' eq_refl) as (t & O & B). eauto.
Qed.

Lemma built_auto knows at_ own a x c : built_from x c ->
  movable own true (stored (sg_output (fi_sig (snd x)))) = true ->
  (auto (known knows at_ own) a (cell_gty c)
   <-> (lends (snd x) -> ~ separated (snd x) -> known knows at_ own a [] (stored (sg_output (fi_sig (snd x)))))).
Proof.
  intros (L & S & B & b & H & HS & HA & HL) MV. unfold cell_gty.
  assert (MS := method_separated b (snd c) (snd x) H HS HA B).
  assert (KS := kind_static _ _ H). rewrite HS in KS.
  destruct (is_method_generic (snd c)) eqn:E.
  - split; [|intros _; apply generic_auto]. intros _ _ N. elim N. now apply MS.
  - rewrite expectations_auto. cbn [priv_module gp_kind gp_owned]. unfold known.
    rewrite (expectations_store_the_owned_output b (snd c) at_ (fst c) own H) by (rewrite ?HS; congruence).
    rewrite HS. split.
    + intros [X|X]; auto. intros Y _. apply KS in X. now elim X.
    + intros X. destruct (kind_of (snd c)) eqn:K; auto; right; apply X.
      * destruct (expectation_kinds _ _ H) as (K1 & _). rewrite HS in K1. destruct (proj1 K1 K) as (t & O & Q).
        exists t, false. auto.
      * intros Y. apply MS in Y. discriminate.
      * destruct (expectation_kinds _ _ H) as (_ & K1 & _). rewrite HS in K1. destruct (proj1 K1 K) as (t & O & Q).
        exists t, true. auto.
      * intros Y. apply MS in Y. discriminate.
Qed.
