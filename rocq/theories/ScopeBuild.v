(** * ScopeBuild: the parts of the private module of one function *)

From Coq Require Import List Bool String NArith Arith.
From Verif Require Import Ast AstProofs AstSpec TyEq Rewrite Derive DeriveSpec Names Subst Sig MockFn MockFnSpec
  MockFnProofs GenericsProofs ClosureProofs Item MockItem Scopes ItemSpec ItemProofs GenSpec GenRunSpec GenProofs
  GenRunDesc ScopeSpec ScopeProofs ScopeFacts.
Import ListNotations.
Open Scope string_scope.
Open Scope list_scope.

(** ** The output *)

Section output.
  Context (k : pkey) (F : free_key k) (NC : forall j, k <> KConst j).

  Lemma no_std m i a : In "std" written -> In m written -> In i written ->
    (In (tok k) (tokens (std_path m i a)) <-> In (tok k) (pargs_tokens a)).
  Proof.
    intros W1 W2 W3. unfold std_path, seg_of. cbn.
    assert (N : forall i, In i written -> TkId i <> tok k)
      by (intros j W X; exact (free_written k j F NC W (eq_sym X))).
    pose proof (N _ W1). pose proof (N _ W2). pose proof (N _ W3). pose proof (tok_sym k "::"). tauto.
  Qed.

  Ltac toks := unfold in_ty in *;
    repeat match goal with
    | H : In (tok k) _ |- _ => revert H
    end;
    cbn; rewrite ?in_app_iff; cbn; rewrite ?in_app_iff; cbn; rewrite ?in_app_iff; cbn;
    rewrite ?(nosym (tok k) (tok_sym k)).

  Lemma stored_in o : in_ty k (stored o) -> exists t, o = Some t /\ in_ty k t.
  Proof.
    destruct o as [t|]; cbn [stored].
    - intros H. exists t. split; auto. destruct t as [| | | | | | | | | | |l m e| | | |]; auto.
      assert (R : forall e', in_ty k (TRef l m e') <-> In (tok k) match l with None => [] | Some l => [TkLt l] end \/ in_ty k e').
      { intros e'. clear H. destruct m; toks; tauto. }
      assert (OW : in_ty k (owned e) -> in_ty k e).
      { clear H R. destruct e as [| | | | | | | |[[|] [|[i [| |]] [|]]]| | | |e'|d b| |]; auto; cbn [owned].
        - cbn [find_name owned_names].
          repeat match goal with |- context [if ?x then _ else _] => destruct x eqn:? end; auto;
            intros H; apply no_std in H; try (cbn; tauto); destruct H.
        - intros H. apply no_std in H; try (cbn; tauto). toks. tauto.
        - intros H. assert (N : TkId "Box" <> tok k)
            by (intros X; exact (free_written k "Box" F NC ltac:(cbn; tauto) (eq_sym X))).
          toks. tauto. }
      rewrite R.
      assert (X : in_ty k (owned e) -> In (tok k) match l with Some l0 => [TkLt l0] | None => [] end \/ in_ty k e)
        by auto.
      destruct (is_static_dec l) as [->|S].
      + destruct e; rewrite R in H; auto; destruct H as [H|H]; auto.
        right. toks. tauto.
      + assert (E : stored (Some (TRef l m e)) = owned e).
        { apply stored_other. exact S. }
        change (in_ty k (stored (Some (TRef l m e)))) in H. rewrite E in H. auto.
    - cbn. intros [H|[H|[]]]; now elim (tok_sym k _ H).
  Qed.

  Lemma out_in n o :
    in_ty k (fst (output_of n o)) ->
    in_ty k (stored o) \/ exists m t, o = Some t /\ borrows m t /\ in_ty k t.
  Proof.
    intros H. assert (S := output_stored n o).
    assert (W : in_ty k (ownify (fst (output_of n o))) <-> in_ty k (stored o))
      by (rewrite S; apply in_moved; auto).
    destruct o as [t|]; [|left; apply W; exact H].
    destruct (is_ref t) eqn:R.
    - destruct t as [| | | | | | | | | | |l m e| | | |]; try discriminate.
      assert (O : exists e', fst (output_of n (Some (TRef l m e))) = TRef l m e').
      { cbn [output_of supersuperfy destrify]. destruct (is_static_lt l) eqn:E.
        - destruct (supersuperfy n e); cbn [dedynify fst]; rewrite ?E; cbn [fst]; eauto.
        - match goal with |- context [dedynify (TRef l m ?x)] => generalize x; intros e' end.
          destruct e'; cbn [dedynify fst]; rewrite ?E; cbn [fst]; eauto. }
      destruct O as [e' O]. rewrite O in H, W. cbn [ownify] in W.
      destruct (is_static_lt l) eqn:E; [left; now apply W|].
      assert (X : In (tok k) match l with None => [] | Some l => [TkLt l] end \/ in_ty k e').
      { unfold in_ty in H. cbn [tokens] in H. cbn [In] in H. rewrite !in_app_iff in H.
        destruct H as [H|[H|[H|H]]]; auto.
        - now elim (tok_sym k _ H).
        - destruct m; cbn in H; [|tauto]. destruct H as [H|[]]. now elim (tok_sym k _ H). }
      destruct X as [X|X]; [|left; now apply W]. right. exists m, (TRef l m e). repeat split.
      + exists l, e. split; auto. intros ->. discriminate.
      + unfold in_ty. cbn [tokens]. right. rewrite in_app_iff. auto.
    - left. apply W. cbn [output_of] in *.
      destruct (not_ref_same _ (super_not_ref n _ R)) as (N1 & N2 & N3 & _).
      rewrite N1, N2 in *. cbn [fst] in *. now rewrite N3.
  Qed.

  Lemma kept_in t : (forall m, ~ borrows m t) -> in_ty k t -> in_ty k (stored (Some t)).
  Proof.
    intros B H. destruct t as [| | | | | | | | | | |l m e| | | |]; auto.
    destruct (is_static_dec l) as [->|S].
    - rewrite stored_static. destruct e; auto. toks. destruct m; cbn; rewrite ?(nosym (tok k) (tok_sym k)); tauto.
    - elim (B m). exists l, e. split; auto. intros ->. discriminate.
  Qed.
End output.

(** ** The parts of one function *)

Lemma in_split_generics k g args w tg a r :
  bracketed g -> split_lifetimes g args (Some w) = (tg, a, r) -> in_generics k tg -> in_generics k g.
Proof.
  intros B S. destruct (split_lts _ _ _ _ _ _ B S) as (_ & _ & P & W).
  unfold in_generics, preds. rewrite P. intros [H|H].
  - left. apply Exists_exists in H as (p & I & H). apply filter_In in I as [I _].
    apply Exists_exists. eauto.
  - destruct W as [W|W]; rewrite W in H; auto. inversion H.
Qed.

Lemma in_lts_generics k g L :
  (forall x, In x L -> In x (lifetime_params g)) ->
  in_generics k (lifetimes_to_generics L) -> in_generics k g.
Proof.
  intros S H. apply in_lifetimes_bounds in H as (a & c & j & I & -> & J). left.
  apply Exists_exists. exists (GpLifetime a c). split.
  - apply in_lifetime_params. auto.
  - exists j. auto.
Qed.

Lemma in_declosured k g : in_generics k (declosured_generics g) -> in_generics k g.
Proof.
  unfold in_generics, preds. cbn [declosured_generics params where_clause]. intros [H|H].
  - left. apply Exists_exists in H as (p & I & H). apply filter_In in I as [I _].
    apply Exists_exists. eauto.
  - right. destruct (where_clause g) as [w|]; auto.
    match type of H with Exists _ match match filter ?g w with _ => _ end with _ => _ end => set (keep := g) in H end.
    assert (Exists (in_pred k) (filter keep w)) by (destruct (filter keep w); auto).
    apply Exists_exists in H0 as (p & I & J). apply filter_In in I as [I _]. apply Exists_exists. eauto.
Qed.

Lemma in_prepared k b dg di ce sig :
  prepared b = Some (dg, di, ce, sig) -> in_generics k dg -> in_generics k (sg_generics (b_sig b)).
Proof.
  unfold prepared. destruct (b_concretize b).
  - cbn [concretize_args]. intros E. injection E as <- _ _ _. intros [H|H]; inversion H.
  - unfold declosurefy. destruct (distinct_keys _); [|discriminate]. intros E. injection E as <- _ _ _.
    apply in_declosured.
Qed.

(** ** Arguments *)

Lemma in_dyn k l :
  free_key k -> (forall j, k <> KConst j) -> in_ty k (TDyn true l) -> Exists (in_bound k) l.
Proof.
  intros F NC. unfold in_ty. cbn [tokens app]. cbn [In].
  rewrite (each_in (tok k) (tok_sym k)), Exists_map. intros [H|H]; auto. now elim (tok_sym k _ H).
Qed.

Lemma in_boxed k l :
  free_key k -> (forall j, k <> KConst j) -> in_ty k (box_dyn l) -> Exists (in_bound k) l.
Proof.
  intros F NC H. apply in_dyn; auto.
  assert (N : TkId "Box" <> tok k)
    by (intros X; exact (free_written k "Box" F NC ltac:(cbn; tauto) (eq_sym X))).
  unfold in_ty, box_dyn in *. revert H. generalize (TDyn true l). intros t.
  cbn. rewrite !in_app_iff. cbn. rewrite !(nosym (tok k) (tok_sym k)). tauto.
Qed.

Lemma in_ref_dyn k m l :
  free_key k -> (forall j, k <> KConst j) -> in_ty k (ref_dyn m l) -> Exists (in_bound k) l.
Proof.
  intros F NC H. apply in_dyn; auto. revert H. unfold in_ty, ref_dyn. generalize (TDyn true l). intros t.
  destruct m; cbn; rewrite in_app_iff; cbn; rewrite !(nosym (tok k) (tok_sym k)); tauto.
Qed.

Lemma conc_lookup g t e :
  lookup t (conc_types g) = Some e ->
  find_lifetimes t = []
  /\ exists i l, DeriveSpec.declared g i l
       /\ forall k, free_key k -> (forall j, k <> KConst j) -> in_ty k (ce_ty e) -> Exists (in_bound k) l.
Proof.
  intros L. apply lookup_some in L. unfold conc_types in L. apply in_rev in L.
  apply in_flat_map in L as ([i l] & I & J). apply bounded_declared in I. cbn [fst snd] in J.
  unfold save_types in J. destruct l as [|b l]; [destruct J|]. set (bs := b :: l) in *.
  cbn [In] in J.
  assert (X : find_lifetimes t = []
    /\ forall k, free_key k -> (forall j, k <> KConst j) -> in_ty k (ce_ty e) -> Exists (in_bound k) bs).
  { destruct J as [J|[J|[J|[J|[]]]]]; injection J as <- <-; (split; [reflexivity|]); intros k F NC; cbn [ce_ty];
      try (apply in_ref_dyn; auto).
    intros H. apply (in_ref_dyn k false); auto. revert H. unfold in_ty. generalize (ref_dyn false bs). intros u.
    cbn. rewrite in_app_iff. cbn. rewrite !(nosym (tok k) (tok_sym k)). tauto. }
  destruct X as [X1 X2]. split; auto. exists i, bs. auto.
Qed.

Lemma conc_keys g i l t :
  DeriveSpec.declared g i l -> l <> [] ->
  In t [ty_of i; TRef None false (ty_of i); TRef None true (ty_of i); TRef None false (TSlice (ty_of i))] ->
  lookup t (conc_types g) <> None.
Proof.
  intros D N I L. apply bounded_declared in D.
  assert (X : exists e, In (t, e) (save_types i l)).
  { unfold save_types. destruct l as [|b l]; [now elim N|]. cbn [In] in *.
    decompose [or] I; subst; try contradiction; eexists; eauto. }
  destruct X as [e X]. apply (lookup_none _ _ L e). unfold conc_types. apply in_rev. rewrite rev_involutive.
  apply in_flat_map. exists (i, l). auto.
Qed.

Record new_args (x : fn_item) (l : list fnarg) : Prop := NewArgs {
  na_from : forall t', In t' (map snd (typed_args l)) ->
    exists p t, In (FaTyped p t) (sg_inputs (fi_sig x))
      /\ ((t' = t /\ forall i, In i (type_names (sg_generics (fi_sig x))) -> ~ chosen x i -> ~ replaced x i t)
          \/ exists j bs, DeriveSpec.declared (sg_generics (fi_sig x)) j bs
               /\ forall k, free_key k -> (forall j, k <> KConst j) -> in_ty k t' -> Exists (in_bound k) bs);
  na_lts : forall m, In m (flat_map arg_lifetimes (sg_inputs (fi_sig x))) -> In m (flat_map arg_lifetimes l)
}.

Lemma prepared_args b x dg di ce sig :
  b_sig b = fi_sig x -> b_attrs b = fi_attrs x ->
  prepared b = Some (dg, di, ce, sig) -> new_args x di.
Proof.
  intros HS HA. unfold prepared.
  change (b_concretize b) with (existsb is_concretize (b_attrs b)). rewrite HS, HA.
  set (g := sg_generics (fi_sig x)). set (args := sg_inputs (fi_sig x)).
  assert (TA : forall h t', (forall a, In a args -> match a with FaTyped _ _ => True | a => h a = a end) ->
    In t' (map snd (typed_args (map h args))) ->
    exists a p, In a args /\ h a = FaTyped p t').
  { intros h t' _. clear. rewrite in_map_iff. unfold typed_args. intros ([p u] & E & I). cbn in E. subst u.
    apply in_flat_map in I as (a & I & J). apply in_map_iff in I as (a' & E & I).
    destruct a; try contradiction. destruct J as [J|[]]. injection J as -> ->. eauto. }
  destruct (existsb is_concretize (fi_attrs x)) eqn:CO.
  - cbn [concretize_args]. intros E. injection E as _ <- _ _. constructor.
    + intros t' I. apply TA in I as (a & p & I & E); [|intros [] ?; auto].
      destruct a as [| q t]; cbn [concretized_arg] in E; [discriminate|]. injection E as _ E.
      exists q, t. split; auto. destruct (lookup t (conc_types g)) as [e|] eqn:L.
      * right. subst t'. apply conc_lookup in L as [_ (j & bs & D & X)]. eauto.
      * left. split; auto. intros i _ _ R. unfold replaced, concretized in R. rewrite CO in R.
        destruct R as [R (bs & D & N)]. exact (conc_keys _ _ _ _ D N R L).
    + intros m I. apply in_flat_map in I as (a & I & J). apply in_flat_map. exists (concretized_arg g a).
      split; [now apply in_map|]. destruct a as [| q t]; auto. cbn [concretized_arg arg_lifetimes] in *.
      destruct (lookup t (conc_types g)) as [e|] eqn:L; auto. apply conc_lookup in L as [L _].
      rewrite L in J. destruct J.
  - unfold declosurefy. destruct (distinct_keys (fn_types g)) eqn:DK; [|discriminate].
    intros E. injection E as _ <- _ _. constructor.
    + intros t' I. apply TA in I as (a & p & I & E); [|intros [] ?; auto].
      destruct a as [| q t]; cbn [declosured_arg] in E; [discriminate|]. injection E as _ E.
      exists q, t. split; auto. destruct (lookup t (fn_types g)) as [e|] eqn:L.
      * right. subst t'. apply lookup_some, in_fn_types in L as (j & bs & c & _ & -> & D & _).
        exists j, bs. split; auto. intros k F NC. apply in_boxed; auto.
      * left. split; auto. intros i T NCH R. unfold replaced, concretized in R. rewrite CO in R. rewrite R in L.
        apply NCH. split; auto. split; auto. intros CP. apply closure_key in CP.
        fold g in CP. unfold has_key in CP. rewrite L in CP. discriminate.
    + intros m I. apply in_flat_map in I as (a & I & J). apply in_flat_map. exists (declosured_arg g a).
      split; [now apply in_map|]. destruct a as [| q t]; auto. cbn [declosured_arg arg_lifetimes] in *.
      destruct (lookup t (fn_types g)) as [e|] eqn:L; auto.
      apply lookup_some, in_fn_types in L as (j & bs & c & -> & _). destruct J.
Qed.

(** ** Nothing twice *)

Lemma nodup_app {A} (l r : list A) :
  NoDup l -> NoDup r -> (forall a, In a l -> In a r -> False) -> NoDup (l ++ r).
Proof.
  induction l as [|a l IH]; cbn; intros N1 N2 D; auto. inversion N1 as [|? ? M1 M2]; subst. constructor.
  - rewrite in_app_iff. intros [I|I]; auto. exact (D a (or_introl eq_refl) I).
  - apply IH; auto. intros c I J. exact (D c (or_intror I) J).
Qed.

Lemma nodup_map_filter {A B} (h : A -> B) P l : NoDup (map h l) -> NoDup (map h (filter P l)).
Proof.
  induction l as [|a l IH]; cbn; intros N; [constructor|]. inversion N as [|? ? M1 M2]; subst.
  destruct (P a); cbn; auto. constructor; auto. intros I. apply M1.
  apply in_map_iff in I as (c & E & I). apply filter_In in I as [I _]. apply in_map_iff. eauto.
Qed.

Lemma nodup_app_l {A} (l r : list A) : NoDup (l ++ r) -> NoDup l.
Proof.
  induction l as [|a l IH]; cbn; intros N; [constructor|]. inversion N as [|? ? M1 M2]; subst.
  constructor; auto. intros I. apply M1. apply in_or_app. auto.
Qed.
Lemma nodup_app_r {A} (l r : list A) : NoDup (l ++ r) -> NoDup r.
Proof. induction l as [|a l IH]; cbn; intros N; auto. inversion N; auto. Qed.
Lemma nodup_app_disjoint {A} (l r : list A) a : NoDup (l ++ r) -> In a l -> In a r -> False.
Proof.
  induction l as [|c l IH]; cbn; intros N I J; [destruct I|]. inversion N as [|? ? M1 M2]; subst.
  destruct I as [->|I]; auto. apply M1. apply in_or_app. auto.
Qed.

Section scoped.
  Context (b : builder) (f : mock_function) (x : fn_item) (sg : generics).
  Context (H : build b = Some f) (HS : b_sig b = fi_sig x) (HA : b_attrs b = fi_attrs x).
  Context (B : bracketed (sg_generics (fi_sig x))).
  Context (SG : match b_struct_generics b with Some g => g | None => no_generics end = sg).
  Context (BS : bracketed sg).
  Context (SS : mf_is_static f = negb (has_self x)).
  Context (SC : scopable sg x).
  Local Notation C := (mf_cgenerics f).
  Local Notation E := (mf_egenerics f).
  Local Notation L := (lifetimes_to_generics (mf_alifetimes f)).
  Local Notation tg := (mf_type_generics f).
  Local Notation mg := (mf_call_generics f).
  Local Notation own := (sg_generics (fi_sig x)).

  (** Where a lifetime is declared. *)
  Record parts (dg : generics) (di : list fnarg) (sa sr ma mr : list (lifetime * list lifetime)) : Prop := Parts {
    pa_prepared : exists ce sig, prepared b = Some (dg, di, ce, sig);
    pa_bracketed : bracketed dg;
    pa_s : split_lifetimes sg di (Some (mf_owned_output f)) = (tg, sa, sr);
    pa_m : split_lifetimes (supersuperfy_generics (b_levels b) dg) di (Some (mf_owned_output f)) = (mg, ma, mr);
    pa_C : C = merge_generics tg mg;
    pa_E : E = merge_generics (merge_generics C (lifetimes_to_generics sr)) (lifetimes_to_generics mr);
    pa_L : mf_alifetimes f = lt_union sa ma;
    pa_out : mf_output f = fst (output_of (b_levels b) (sg_output (fi_sig x)));
    pa_owned : mf_owned_output f = supersuperfy (b_levels b) (held x);
    pa_args : mf_argty f = map (fun y => supersuperfy (b_levels b) (snd y)) (typed_args di);
    pa_names : List.length (mf_argnames f) = List.length (mf_argty f);
    pa_preds : mf_predty f = map (fun y => referent (supersuperfy (b_levels b) (snd y))) (typed_args di);
    pa_phantom : mf_fn_params f = type_idents E;
    pa_ref : mf_return_ref f = returns_ref (mf_output f);
    pa_refmut : mf_return_refmut f = returns_refmut (mf_output f)
  }.

  Lemma get_parts : exists dg di sa sr ma mr, parts dg di sa sr ma mr.
  Proof.
    destruct (build_built _ _ H) as (dg & di & ce & sig & BT).
    destruct (bt_generics _ _ _ _ _ _ BT) as (sa & sr & ma & mr & S1 & S2 & EC & EE & EL).
    assert (P := bt_prepared _ _ _ _ _ _ BT).
    destruct (prepared_sig _ _ _ _ _ P) as (_ & _ & PB). rewrite HS in PB.
    assert (SG' := bt_sgenerics _ _ _ _ _ _ BT). rewrite SG in SG'. rewrite SG' in S1.
    assert (O := bt_output _ _ _ _ _ _ BT). rewrite HS in O.
    assert (MT : forall n l, moved_args n l = map (fun x => (fst x, supersuperfy n (snd x))) (typed_args l)).
    { intros n l. unfold moved_args, typed_args. induction l as [|[]]; cbn; auto. f_equal. auto. }
    exists dg, di, sa, sr, ma, mr. constructor; auto.
    - eauto.
    - now rewrite <- O.
    - rewrite (bt_owned _ _ _ _ _ _ BT). unfold held. rewrite <- output_stored. now rewrite <- O.
    - rewrite (bt_argty _ _ _ _ _ _ BT), MT, map_map. reflexivity.
    - rewrite (bt_argty _ _ _ _ _ _ BT), (bt_argnames _ _ _ _ _ _ BT). now rewrite !map_length.
    - rewrite (bt_predty _ _ _ _ _ _ BT), MT, map_map. apply map_ext. intros [p t]. cbn [fst snd].
      destruct (supersuperfy (b_levels b) t); reflexivity.
    - apply (bt_fn_params _ _ _ _ _ _ BT).
    - apply (bt_ref _ _ _ _ _ _ BT).
    - apply (bt_refmut _ _ _ _ _ _ BT).
  Qed.

  Context (dg : generics) (di : list fnarg) (sa sr ma mr : list (lifetime * list lifetime)).
  Context (PA : parts dg di sa sr ma mr).

  Definition known (l : lifetime) : Prop := In l (lifetime_names sg) \/ In l (lifetime_names dg).

  Lemma moved_lts : lifetime_params (supersuperfy_generics (b_levels b) dg) = lifetime_params dg.
  Proof.
    unfold lifetime_params. cbn [supersuperfy_generics params].
    induction (params dg) as [|[l c|i c d|i t d] ps IH]; cbn; auto. now rewrite IH.
  Qed.

  Lemma lts_owned : find_lifetimes (mf_owned_output f) = find_lifetimes (held x).
  Proof. rewrite (pa_owned _ _ _ _ _ _ PA). apply moved_lifetimes. Qed.

  Lemma groups :
    sr = filter (fun y => memb (fst y) (find_lifetimes (held x))) (lifetime_params sg)
    /\ sa = filter (fun y => negb (memb (fst y) (find_lifetimes (held x)))
                             && memb (fst y) (flat_map arg_lifetimes di)) (lifetime_params sg)
    /\ mr = filter (fun y => memb (fst y) (find_lifetimes (held x))) (lifetime_params dg)
    /\ ma = filter (fun y => negb (memb (fst y) (find_lifetimes (held x)))
                             && memb (fst y) (flat_map arg_lifetimes di)) (lifetime_params dg).
  Proof.
    destruct (split_lts _ _ _ _ _ _ BS (pa_s _ _ _ _ _ _ PA)) as (R1 & A1 & _).
    destruct (split_lts _ _ _ _ _ _ (super_bracketed _ _ (pa_bracketed _ _ _ _ _ _ PA)) (pa_m _ _ _ _ _ _ PA))
      as (R2 & A2 & _).
    rewrite lts_owned in *. rewrite moved_lts in *. auto.
  Qed.

  Lemma in_lts (P : lifetime -> bool) g l :
    (exists y, In y (filter (fun y => P (fst y)) (lifetime_params g)) /\ KLifetime l = KLifetime (fst y))
    <-> In l (lifetime_names g) /\ P l = true.
  Proof.
    rewrite <- lifetime_params_names, in_map_iff. split.
    - intros (y & I & K). injection K as ->. apply filter_In in I as [I K]. split; eauto.
    - intros ((y & <- & I) & K). exists y. rewrite filter_In. auto.
  Qed.

  Lemma solids : solid tg /\ solid mg /\ solid C /\ solid (merge_generics C (lifetimes_to_generics sr)) /\ solid E.
  Proof.
    assert (S1 := split_solid _ _ _ _ _ _ BS (pa_s _ _ _ _ _ _ PA)).
    assert (S2 := split_solid _ _ _ _ _ _ (super_bracketed _ _ (pa_bracketed _ _ _ _ _ _ PA)) (pa_m _ _ _ _ _ _ PA)).
    destruct (merge_generic _ _ S1 S2) as [S3 _]. rewrite <- (pa_C _ _ _ _ _ _ PA) in S3.
    destruct (merge_generic _ _ S3 (lifetimes_solid sr)) as [S4 _].
    destruct (merge_generic _ _ S4 (lifetimes_solid mr)) as [S5 _]. rewrite <- (pa_E _ _ _ _ _ _ PA) in S5.
    auto.
  Qed.

  Lemma keys_C k : In k (keys C) <-> In k (keys tg) \/ In k (keys mg).
  Proof. rewrite (pa_C _ _ _ _ _ _ PA). apply in_merged; apply solids. Qed.

  Lemma keys_E k :
    In k (keys E)
    <-> In k (keys C) \/ exists l, k = KLifetime l /\ known l /\ In l (find_lifetimes (held x)).
  Proof.
    rewrite (pa_E _ _ _ _ _ _ PA), in_merged, in_merged by (apply solids || apply lifetimes_solid).
    rewrite !lifetimes_keys. destruct groups as (-> & _ & -> & _). split.
    - intros [[K|(y & I & ->)]|(y & I & ->)]; auto; right; exists (fst y); (split; [reflexivity|]).
      + destruct (proj1 (in_lts (fun l => memb l (find_lifetimes (held x))) sg (fst y))) as [N M]; [eauto|].
        split; [left; exact N|now apply memb_in].
      + destruct (proj1 (in_lts (fun l => memb l (find_lifetimes (held x))) dg (fst y))) as [N M]; [eauto|].
        split; [right; exact N|now apply memb_in].
    - intros [K|(l & -> & [N|N] & M)]; auto; apply memb_in in M.
      + left. right. apply (in_lts (fun l => memb l (find_lifetimes (held x)))). auto.
      + right. apply (in_lts (fun l => memb l (find_lifetimes (held x)))). auto.
  Qed.

  Lemma keys_L k :
    In k (keys L)
    <-> exists l, k = KLifetime l /\ known l /\ ~ In l (find_lifetimes (held x))
                  /\ In l (flat_map arg_lifetimes di).
  Proof.
    rewrite lifetimes_keys, (pa_L _ _ _ _ _ _ PA). destruct groups as (_ & -> & _ & ->).
    set (P := fun l => negb (memb l (find_lifetimes (held x))) && memb l (flat_map arg_lifetimes di)).
    assert (X : forall l, P l = true <-> ~ In l (find_lifetimes (held x)) /\ In l (flat_map arg_lifetimes di)).
    { intros l. unfold P. rewrite andb_true_iff, negb_true_iff, <- (memb_in _ (flat_map _ _)), <- memb_in.
      destruct (memb l (find_lifetimes (held x))); intuition discriminate. }
    split.
    - intros (y & I & ->). apply in_union in I. exists (fst y). split; [reflexivity|]. destruct I as [I|I].
      + destruct (proj1 (in_lts P sg (fst y))) as [N M]; [eauto|]. split; [left; exact N|now apply X].
      + destruct (proj1 (in_lts P dg (fst y))) as [N M]; [eauto|]. split; [right; exact N|now apply X].
    - intros (l & -> & [N|N] & M); apply X in M.
      + destruct (proj2 (in_lts P sg l)) as (y & I & K); [auto|]. exists y. rewrite in_union. auto.
      + destruct (proj2 (in_lts P dg l)) as (y & I & K); [auto|]. exists y. rewrite in_union. auto.
  Qed.

  Lemma keys_tg k : In k (keys tg) <-> exists i, k = KType i /\ In i (type_names sg).
  Proof. exact (split_keys _ _ _ _ _ _ k BS (pa_s _ _ _ _ _ _ PA)). Qed.
  Lemma keys_mg k : In k (keys mg) <-> exists i, k = KType i /\ chosen x i.
  Proof.
    rewrite (split_keys _ _ _ _ _ _ k (super_bracketed _ _ (pa_bracketed _ _ _ _ _ _ PA)) (pa_m _ _ _ _ _ _ PA)).
    destruct (pa_prepared _ _ _ _ _ _ PA) as (ce & sig & P).
    destruct (prepared_names _ _ _ _ _ P) as [N _]. rewrite HS, HA in N.
    split; intros (i & -> & I); exists i; (split; [reflexivity|]).
    - apply moved_type_names in I. now apply N.
    - apply moved_type_names. now apply N.
  Qed.

  (** Bounds in the generated lists are bounds of the item. *)
  Lemma in_C k : free_key k -> (forall j, k <> KConst j) ->
    in_generics k C -> in_generics k tg \/ in_generics k mg.
  Proof. intros _ _. rewrite (pa_C _ _ _ _ _ _ PA). apply in_merge. Qed.

  Lemma in_tg k : in_generics k tg -> in_generics k sg.
  Proof. exact (in_split_generics _ _ _ _ _ _ _ BS (pa_s _ _ _ _ _ _ PA)). Qed.
  Lemma in_mg k : free_key k -> (forall j, k <> KConst j) -> in_generics k mg -> in_generics k dg.
  Proof.
    intros F NC I. apply (in_moved_generics k F NC (b_levels b)).
    exact (in_split_generics _ _ _ _ _ _ _ (super_bracketed _ _ (pa_bracketed _ _ _ _ _ _ PA))
             (pa_m _ _ _ _ _ _ PA) I).
  Qed.
  Lemma in_dg k : in_generics k dg -> in_generics k own.
  Proof.
    destruct (pa_prepared _ _ _ _ _ _ PA) as (ce & sig & P). rewrite <- HS.
    exact (in_prepared _ _ _ _ _ _ P).
  Qed.
  Lemma in_E k : free_key k -> (forall j, k <> KConst j) ->
    in_generics k E -> in_generics k sg \/ in_generics k dg.
  Proof.
    intros F NC. rewrite (pa_E _ _ _ _ _ _ PA). destruct groups as (G1 & _ & G2 & _). rewrite G1, G2. intros I.
    apply in_merge in I as [I|I]; [apply in_merge in I as [I|I]|].
    - apply (in_C k F NC) in I as [I|I]; [left; now apply in_tg|right; now apply in_mg].
    - left. revert I. apply in_lts_generics. intros y I. now apply filter_In in I.
    - right. revert I. apply in_lts_generics. intros y I. now apply filter_In in I.
  Qed.
  Lemma in_L k : in_generics k L -> (exists l, k = KLifetime l) /\ (in_generics k sg \/ in_generics k dg).
  Proof.
    intros I. split.
    - apply in_lifetimes_bounds in I as (a & c & j & _ & -> & _). eauto.
    - rewrite (pa_L _ _ _ _ _ _ PA) in I. destruct groups as (_ & G1 & _ & G2). rewrite G1, G2 in I.
      apply in_lifetimes_bounds in I as (a & c & j & I & -> & J).
      apply in_union in I. assert (X : forall g, In (a, c) (lifetime_params g) -> in_generics (KLifetime j) g).
      { intros g K. left. apply Exists_exists. exists (GpLifetime a c). split; [now apply in_lifetime_params|].
        exists j. auto. }
      destruct I as [I|I]; apply filter_In in I as [I _]; auto.
  Qed.

  Lemma consts : no_const E /\ no_const C /\ no_const tg.
  Proof.
    assert (T : no_const tg) by (intros i I; apply keys_tg in I as (j & X & _); discriminate).
    assert (N : no_const C).
    { intros i I. apply keys_C in I as [I|I]; [exact (T i I)|]. apply keys_mg in I as (j & X & _). discriminate. }
    repeat split; auto. intros i I. apply keys_E in I as [I|(l & X & _)]; [exact (N i I)|discriminate].
  Qed.

  Lemma kept : generic_part f <> None <-> kept_apart sg x.
  Proof.
    unfold generic_part, kept_apart.
    assert (M := method_separated b f x H HS HA B).
    assert (G := expectation_separated_in b f x H HS HA B sg SG BS).
    rewrite SS. destruct (is_expectation_generic f), (is_method_generic f), (has_self x);
      cbn; intuition discriminate.
  Qed.

  Lemma kind_mut : kind_of f = KRefMut -> exists o, sg_output (fi_sig x) = Some o /\ borrows true o.
  Proof.
    unfold kind_of. rewrite (pa_ref _ _ _ _ _ _ PA), (pa_refmut _ _ _ _ _ _ PA), (pa_out _ _ _ _ _ _ PA).
    intros K. apply (output_ref (b_levels b)). destruct (returns_ref _); [discriminate|].
    destruct (returns_refmut _); [reflexivity|discriminate].
  Qed.
  Lemma kind_static m o : sg_output (fi_sig x) = Some o -> borrows m o -> kind_of f <> KStatic.
  Proof.
    unfold kind_of. rewrite (pa_ref _ _ _ _ _ _ PA), (pa_refmut _ _ _ _ _ _ PA), (pa_out _ _ _ _ _ _ PA).
    intros O BO. destruct (output_ref (b_levels b) (sg_output (fi_sig x))) as (R1 & R2 & _).
    destruct m.
    - rewrite (proj2 R2) by eauto. destruct (returns_ref _); discriminate.
    - rewrite (proj2 R1) by eauto. discriminate.
  Qed.

  Lemma phantoms i : In i (mf_fn_params f) -> In (KType i) (keys E).
  Proof. rewrite (pa_phantom _ _ _ _ _ _ PA). apply in_type_names. Qed.

  Lemma args_in k : free_key k -> (forall j, k <> KConst j) -> Exists (in_ty k) (mf_argty f) ->
    exists t', In t' (map snd (typed_args di)) /\ in_ty k t'.
  Proof.
    intros F NC. rewrite (pa_args _ _ _ _ _ _ PA), Exists_map. intros X.
    apply Exists_exists in X as ([p t] & I & X). exists t. split.
    - apply in_map_iff. exists (p, t). auto.
    - now apply in_moved in X.
  Qed.
  Lemma preds_in k : free_key k -> (forall j, k <> KConst j) -> Exists (in_ty k) (mf_predty f) ->
    exists t', In t' (map snd (typed_args di)) /\ in_ty k (referent t').
  Proof.
    intros F NC. rewrite (pa_preds _ _ _ _ _ _ PA), Exists_map. intros X.
    apply Exists_exists in X as ([p t] & I & X). exists t. split.
    - apply in_map_iff. exists (p, t). auto.
    - cbn [snd] in X.
      assert (R : referent (supersuperfy (b_levels b) t) = supersuperfy (b_levels b) (referent t))
        by (destruct t; reflexivity).
      rewrite R in X. now apply in_moved in X.
  Qed.
  Lemma in_referent k t : in_ty k (referent t) -> in_ty k t.
  Proof.
    destruct t; auto. unfold in_ty. cbn. intros X. right. rewrite !in_app_iff. auto.
  Qed.

  Lemma declared_in k j bs : DeriveSpec.declared own j bs -> Exists (in_bound k) bs -> in_generics k own.
  Proof.
    intros [(d & I)|(q & I & _)] X; [left|right]; apply Exists_exists.
    - exists (GpType j bs d). auto.
    - exists (WpType q (ty_of j) bs). split; auto. right. exact X.
  Qed.

  Lemma new : new_args x di.
  Proof.
    destruct (pa_prepared _ _ _ _ _ _ PA) as (ce & sig & P). exact (prepared_args _ _ _ _ _ _ HS HA P).
  Qed.

  Lemma known_names l :
    In l (lifetime_names sg ++ lifetime_names own) ->
    (concretized x = true -> ~ In l (lifetime_names sg) -> False) -> known l.
  Proof.
    intros I X. unfold known. apply in_app_iff in I. destruct I as [I|I]; auto.
    destruct (pa_prepared _ _ _ _ _ _ PA) as (ce & sig & P). unfold prepared in P.
    change (b_concretize b) with (existsb is_concretize (b_attrs b)) in P. rewrite HA in P.
    unfold concretized in X. destruct (existsb is_concretize (fi_attrs x)).
    - destruct (in_dec string_dec l (lifetime_names sg)); auto. now elim X.
    - right. unfold declosurefy in P. destruct (distinct_keys _); [|discriminate].
      injection P as <- _ _ _. rewrite HS. now apply declosured_lifetime_names.
  Qed.

  Lemma lifetime_facts l : In l (lifetime_names sg ++ lifetime_names own) -> facts (KLifetime l) f.
  Proof.
    intros I. assert (FIT := sc_lifetimes _ _ SC l I). destruct FIT as [FB FA' FH FO FC].
    destruct FB as [FB1 FB2].
    set (k := KLifetime l) in *.
    assert (F : free_key k) by (intros i X; discriminate).
    assert (NC : forall j, k <> KConst j) by discriminate.
    assert (NO := in_dg k). assert (NM := in_mg k F NC). assert (NT := in_tg k).
    assert (KC : ~ In k (keys C)).
    { intros X. apply keys_C in X as [X|X]; [apply keys_tg in X|apply keys_mg in X];
        destruct X as (i & X & _); discriminate. }
    assert (FS : forall t, In l (find_lifetimes t) -> in_ty k t) by apply found_sound.
    assert (FT : forall t, no_fn_types t = true -> in_ty k t -> In l (find_lifetimes t))
      by (intros t N; now apply found_in_text).
    assert (HE : known l -> in_ty k (held x) -> In k (keys E)).
    { intros K X. apply keys_E. right. exists l. repeat split; auto. apply FT; auto. now apply FH. }
    assert (INO : in_ty k (held x) -> in_output k x) by (apply stored_in; auto).
    assert (ARG : forall t', In t' (map snd (typed_args di)) -> in_ty k t' ->
      exists p, In (FaTyped p t') (sg_inputs (fi_sig x))).
    { intros t' J X. destruct (na_from _ _ new _ J) as (p & t & J' & [[-> _]|(j & bs & D & Y)]); eauto.
      elim FB2. apply (declared_in k j bs D). auto. }
    assert (KA : forall p t, In (FaTyped p t) (sg_inputs (fi_sig x)) -> in_ty k t -> known l).
    { intros p t J X. apply known_names; auto. intros Y Z. destruct (FC Y Z) as [W _]. apply W. exists p, t. auto. }
    assert (KO : in_output k x -> known l).
    { intros J. apply known_names; auto. intros Y Z. destruct (FC Y Z) as [_ W]. auto. }
    assert (HL : known l -> ~ In l (find_lifetimes (held x)) ->
      In l (flat_map arg_lifetimes (sg_inputs (fi_sig x))) -> In k (keys L)).
    { intros K N J. apply keys_L. exists l. repeat split; auto. now apply (na_lts _ _ new). }
    assert (TL : forall p t, In (FaTyped p t) (sg_inputs (fi_sig x)) -> in_ty k t ->
      In l (flat_map arg_lifetimes (sg_inputs (fi_sig x)))).
    { intros p t J X. apply in_flat_map. exists (FaTyped p t). split; auto. cbn. apply FT; auto.
      now destruct (FA' _ _ J X). }
    assert (SE : mf_is_static f = true -> ~ In k (keys E)).
    { intros S X. apply keys_E in X as [X|(l' & E' & _ & X)]; auto. injection E' as <-. apply FS in X.
      destruct (FH X) as [Y _]. rewrite SS, Y in S. discriminate. }
    constructor; auto using consts, phantoms.
    - apply (sc_reserved _ _ SC k). rewrite in_app_iff in I |- *. destruct I; [left|right];
        now apply in_lifetime_names.
    - intros X. elim FB1. auto.
    - intros X. elim FB2. auto.
    - intros X. apply (in_C k F NC) in X as [X|X]; [elim FB1|elim FB2]; auto.
    - intros X. apply (in_E k F NC) in X as [X|X]; [elim FB1|elim FB2]; auto.
    - intros X. apply in_L in X as [_ [X|X]]; [elim FB1|elim FB2]; auto.
    - intros X. apply keys_E. auto.
    - intros i X. discriminate.
    - intros X. apply (args_in k F NC) in X as (t & J & X). destruct (ARG _ J X) as [p J'].
      destruct (FA' _ _ J' X) as (N & _ & R).
      destruct (in_dec string_dec l (find_lifetimes (held x))) as [M|M].
      + left. apply keys_E. right. exists l. repeat split; eauto.
      + right. destruct R as [R|[R1 R2]]; [elim M; apply FT; auto; now apply FH|].
        repeat split; eauto.
        * intros Y. destruct (kind_mut Y) as (o & O & BO). exact (R2 o O BO).
        * destruct (generic_part f) eqn:G; auto. elim R1. apply kept. rewrite G. discriminate.
    - intros X. apply (preds_in k F NC) in X as (t & J & X). assert (X' := in_referent _ _ X).
      destruct (ARG _ J X') as [p J']. destruct (FA' _ _ J' X') as (N & R & _). right.
      apply HL; eauto. intros M. apply FS in M. exact (R M X).
    - rewrite (pa_out _ _ _ _ _ _ PA). intros X. apply (out_in k F NC) in X as [X|(m & o & O & BO & X)].
      + left. apply HE; auto.
      + assert (Y : in_output k x) by (exists o; auto). destruct (FO Y) as [Z|(Z1 & Z2 & a & Z3 & Z4)].
        * left. apply HE; auto.
        * destruct (in_dec string_dec l (find_lifetimes (held x))) as [M|M].
          { left. apply keys_E. right. exists l. repeat split; eauto. }
          right. repeat split.
          { apply HL; auto. apply in_flat_map. exists a. split; auto. destruct a as [r m' c t|p t].
            - destruct r as [[j|]|]; cbn in *; try discriminate. apply String.eqb_eq in Z4. auto.
            - cbn in *. apply FT.
              + apply (FA' p t Z3). unfold mentionsb in Z4. apply existsb_exists in Z4 as ([|j|] & T1 & T2);
                  try discriminate. apply String.eqb_eq in T2. subst j. exact T1.
              + unfold mentionsb in Z4. apply existsb_exists in Z4 as ([|j|] & T1 & T2);
                  try discriminate. apply String.eqb_eq in T2. subst j. exact T1. }
          { exact (kind_static m o O BO). }
          { destruct (generic_part f) eqn:G; auto. elim Z1. apply kept. rewrite G. discriminate. }
          { now rewrite SS, Z2. }
    - rewrite (pa_owned _ _ _ _ _ _ PA). intros X. apply in_moved in X; auto.
    - intros S. split; [|auto]. intros X. elim (SE S X).
    - apply (pa_names _ _ _ _ _ _ PA).
  Qed.

  Lemma reserved_type i :
    In i (type_names sg ++ type_names own) ->
    free_key (KType i) /\ KType i <> KLifetime "__mockall_lt" /\ forall j, KType i <> KConst j.
  Proof.
    intros I. split; [|split; discriminate]. intros j X. injection X as <-.
    destruct (sc_reserved _ _ SC (KType i)) as [_ R].
    - rewrite in_app_iff in *. destruct I; [left|right]; now apply in_type_names.
    - now apply R.
  Qed.

  Lemma declared_facts i :
    In i (type_names sg ++ type_names own) ->
    In (KType i) (keys tg) \/ In (KType i) (keys mg) ->
    (in_generics (KType i) sg -> In (KType i) (keys tg)) ->
    facts (KType i) f.
  Proof.
    intros I D O. destruct (reserved_type i I) as (F & G & NC).
    assert (KC : In (KType i) (keys C)) by (now apply keys_C).
    assert (KE : In (KType i) (keys E)) by (apply keys_E; auto).
    constructor; auto using consts, phantoms.
    - intros X. apply O. now apply in_tg.
    - intros X. apply in_L in X as [[l X] _]. discriminate.
    - intros S. split; auto. intros N _. unfold is_expectation_generic in N.
      apply orb_false_iff in N as [N _]. unfold has_type_params in N.
      apply in_type_names, in_flat_map in KE as (p & J & T). destruct p; try contradiction.
      assert (X : existsb (fun p => match p with GpType _ _ _ => true | _ => false end) (params E) = true)
        by (apply existsb_exists; eexists; split; [exact J|reflexivity]).
      congruence.
    - apply (pa_names _ _ _ _ _ _ PA).
  Qed.

  Lemma removed_facts i :
    In i (type_names own) -> ~ In i (type_names sg) -> ~ chosen x i -> facts (KType i) f.
  Proof.
    intros I NS NCH. destruct (reserved_type i) as (F & G & NC); [apply in_app_iff; auto|].
    assert (T := sc_types _ _ SC i I NCH). destruct T as [TP TW TA TO].
    assert (NG := sc_own _ _ SC i I).
    set (k := KType i) in *.
    assert (ND : forall j bs, DeriveSpec.declared own j bs -> ~ Exists (in_bound k) bs).
    { intros j bs [(d & J)|(q & J & _)] X.
      - rewrite Forall_forall in TP. exact (TP _ J X).
      - destruct (TW _ _ _ J) as [Y _]. exact (Y X). }
    assert (NDG : ~ in_generics k dg).
    { destruct (pa_prepared _ _ _ _ _ _ PA) as (ce & sig & P). unfold prepared in P.
      change (b_concretize b) with (existsb is_concretize (b_attrs b)) in P. rewrite HA in P.
      destruct (existsb is_concretize (fi_attrs x)) eqn:CO.
      - cbn [concretize_args] in P. injection P as <- _ _ _. intros [X|X]; inversion X.
      - unfold declosurefy in P. destruct (distinct_keys _); [|discriminate].
        injection P as <- _ _ _. rewrite HS. unfold in_generics, preds.
        cbn [declosured_generics params where_clause]. intros [X|X].
        + apply Exists_exists in X as (p & J & X). apply filter_In in J as [J _].
          rewrite Forall_forall in TP. exact (TP _ J X).
        + unfold preds in TW. destruct (where_clause own) as [w|]; [|inversion X].
          match type of X with Exists _ match match filter ?g w with _ => _ end with _ => _ end => set (keep := g) in X end.
          assert (Y : Exists (in_pred k) (filter keep w)) by (destruct (filter keep w); auto).
          apply Exists_exists in Y as (p & J & Y). apply filter_In in J as [J K].
          destruct p as [m c|q t c]; cbn [in_pred] in Y; [destruct Y as (j & Y & _); discriminate|].
          destruct (TW _ _ _ J) as [N1 N2]. destruct Y as [Y|Y]; [|exact (N1 Y)].
          rewrite (N2 Y) in K. cbn [keep] in K.
          assert (KW : keyword i = false).
          { destruct (keyword i) eqn:KW; auto. elim (F i eq_refl).
            unfold keyword in KW. apply existsb_exists in KW as (z & Z1 & Z2). apply String.eqb_eq in Z2. subst z.
            cbn in Z1 |- *. tauto. }
          assert (ID : ident_of_ty (ty_of i) = Some i) by (apply ident_of_ty_spec; auto).
          unfold keep in K. rewrite ID in K. apply negb_true_iff in K.
          apply NCH. split; auto. split; auto. intros CP. apply closure_key in CP. congruence. }
    assert (NE : ~ In k (keys C)).
    { intros X. apply keys_C in X as [X|X]; [apply keys_tg in X|apply keys_mg in X];
        destruct X as (j & E' & X); injection E' as <-; auto. }
    assert (NEE : ~ In k (keys E)).
    { intros X. apply keys_E in X as [X|(l & X & _)]; auto. discriminate. }
    assert (NA : forall t', In t' (map snd (typed_args di)) -> ~ in_ty k t').
    { intros t' J X. destruct (na_from _ _ new _ J) as (p & t & J' & [[-> R]|(j & bs & D & Y)]).
      - exact (R i I NCH (TA _ _ J' X)).
      - exact (ND _ _ D (Y k F NC X)). }
    assert (NH : ~ in_ty k (held x)) by (intros X; apply TO; now apply (stored_in k F NC)).
    constructor; auto using consts, phantoms.
    - intros X. elim NG. now apply in_tg.
    - intros X. elim NDG. now apply in_mg.
    - intros X. apply (in_C k F NC) in X as [X|X]; [elim NG; now apply in_tg|elim NDG; now apply in_mg].
    - intros X. apply (in_E k F NC) in X as [X|X]; [now elim NG|now elim NDG].
    - intros X. apply in_L in X as [_ [X|X]]; [now elim NG|now elim NDG].
    - intros X. now elim NE.
    - intros j _ X. now elim NEE.
    - intros X. apply (args_in k F NC) in X as (t & J & X). elim (NA _ J X).
    - intros X. apply (preds_in k F NC) in X as (t & J & X). elim (NA _ J (in_referent _ _ X)).
    - rewrite (pa_out _ _ _ _ _ _ PA). intros X. apply (out_in k F NC) in X as [X|(m & o & O & _ & X)].
      + elim (NH X).
      + elim TO. exists o. auto.
    - rewrite (pa_owned _ _ _ _ _ _ PA). intros X. apply in_moved in X; auto. elim (NH X).
    - intros _. split; auto. intros X. now elim NEE.
    - apply (pa_names _ _ _ _ _ _ PA).
  Qed.

  Lemma all_facts k : In k (keys sg ++ keys own) -> facts k f /\ free_key k /\ forall j, k <> KConst j.
  Proof.
    intros I. destruct k as [l|i|i].
    - split; [|split; [intros i X|]; discriminate]. apply lifetime_facts.
      rewrite in_app_iff in *. rewrite !in_lifetime_names. exact I.
    - assert (J : In i (type_names sg ++ type_names own)) by (rewrite in_app_iff in *; now rewrite !in_type_names).
      destruct (reserved_type i J) as (F & _ & NC). split; [|auto].
      destruct (in_dec string_dec i (type_names sg)) as [S|S].
      + apply declared_facts; auto; [left|intros _]; apply keys_tg; eauto.
      + apply in_app_iff in J as [J|J]; [contradiction|].
        assert (D : chosen x i \/ ~ chosen x i).
        { unfold chosen. destruct (existsb is_concretize (fi_attrs x)); [right; intros (_ & _ & X); discriminate|].
          destruct (has_key (ty_of i) (fn_types own)) eqn:K.
          - right. intros (_ & X & _). apply X. now apply closure_key.
          - left. repeat split; auto. intros X. apply closure_key in X. congruence. }
        destruct D as [D|D]; [|now apply removed_facts].
        apply declared_facts; auto.
        * apply in_app_iff. auto.
        * right. apply keys_mg. eauto.
        * intros X. elim (sc_own _ _ SC i J X).
    - elim (sc_const _ _ SC i I).
  Qed.

  Lemma distinct : NoDup (keys sg) /\ NoDup (keys own)
    /\ forall k, In k (keys sg) -> In k (keys own) -> False.
  Proof.
    assert (D := sc_distinct _ _ SC).
    split; [exact (nodup_app_l _ _ D)|split; [exact (nodup_app_r _ _ D)|]].
    intros k. exact (nodup_app_disjoint _ _ k D).
  Qed.

  Lemma nodup_dg : NoDup (keys dg) /\ forall k, In k (keys dg) -> In k (keys own).
  Proof.
    destruct distinct as (_ & D & _).
    destruct (pa_prepared _ _ _ _ _ _ PA) as (ce & sig & P). unfold prepared in P.
    destruct (b_concretize b).
    - cbn [concretize_args] in P. injection P as <- _ _ _. split; [constructor|intros k []].
    - unfold declosurefy in P. destruct (distinct_keys _); [|discriminate].
      injection P as <- _ _ _. rewrite HS. unfold keys. cbn [declosured_generics params]. split.
      + now apply nodup_map_filter.
      + intros k I. apply in_map_iff in I as (p & <- & I). apply filter_In in I as [I _]. now apply in_map.
  Qed.

  Lemma nodup_tg : NoDup (keys tg).
  Proof.
    destruct (split_lts _ _ _ _ _ _ BS (pa_s _ _ _ _ _ _ PA)) as (_ & _ & P & _).
    unfold keys. rewrite P. apply nodup_map_filter. apply distinct.
  Qed.
  Lemma nodup_mg : NoDup (keys mg).
  Proof.
    destruct (split_lts _ _ _ _ _ _ (super_bracketed _ _ (pa_bracketed _ _ _ _ _ _ PA)) (pa_m _ _ _ _ _ _ PA))
      as (_ & _ & P & _).
    unfold keys. rewrite P. apply nodup_map_filter.
    change (NoDup (keys (supersuperfy_generics (b_levels b) dg))). rewrite moved_keys. apply nodup_dg.
  Qed.

  Lemma nodup_lts g L' :
    NoDup (keys g) -> (exists P, L' = filter P (lifetime_params g)) -> NoDup (map fst L').
  Proof.
    intros N [P ->]. apply filter_nodup_fst. rewrite lifetime_params_names. now apply lifetime_names_nodup.
  Qed.
  Lemma nodup_keys_lts L' : NoDup (map fst L') -> NoDup (keys (lifetimes_to_generics L')).
  Proof.
    rewrite keys_lifetimes. induction L' as [|a L' IH]; cbn; intros N; [constructor|].
    inversion N as [|? ? M1 M2]; subst. constructor; auto. intros I. apply M1.
    apply in_map_iff in I as (c & E' & I). injection E' as E'. apply in_map_iff. eauto.
  Qed.

  Lemma nodup_C : NoDup (keys C).
  Proof. rewrite (pa_C _ _ _ _ _ _ PA). apply merged_nodup; [apply nodup_tg|apply nodup_mg]. Qed.
  Lemma nodup_E : NoDup (keys E).
  Proof.
    rewrite (pa_E _ _ _ _ _ _ PA). destruct groups as (G1 & _ & G2 & _).
    apply merged_nodup; [apply merged_nodup; [apply nodup_C|]|]; apply nodup_keys_lts.
    - apply (nodup_lts sg); [apply distinct|eauto].
    - apply (nodup_lts dg); [apply nodup_dg|eauto].
  Qed.
  Lemma nodup_L : NoDup (keys L).
  Proof.
    apply nodup_keys_lts. rewrite (pa_L _ _ _ _ _ _ PA). destruct groups as (_ & G1 & _ & G2).
    unfold lt_union. rewrite map_app. apply nodup_app.
    - apply (nodup_lts sg); [apply distinct|eauto].
    - apply nodup_map_filter. apply (nodup_lts dg); [apply nodup_dg|eauto].
    - intros l I J. apply in_map_iff in I as ([l1 c1] & <- & I). apply in_map_iff in J as ([l2 c2] & E' & J).
      cbn in E'. subst l2. apply filter_In in J as [J _].
      rewrite G1 in I. rewrite G2 in J. apply filter_In in I as [I _]. apply filter_In in J as [J _].
      apply in_lifetime_params in I. apply in_lifetime_params in J.
      destruct distinct as (_ & _ & D). apply (D (KLifetime l1)).
      + apply in_map_iff. eexists. split; [|exact I]. reflexivity.
      + apply nodup_dg. apply in_map_iff. eexists. split; [|exact J]. reflexivity.
  Qed.
  Lemma disjoint_EL k : In k (keys E) -> In k (keys L) -> False.
  Proof.
    intros I J. apply keys_L in J as (l & -> & _ & N & _).
    apply keys_E in I as [I|(l' & E' & _ & M)].
    - apply keys_C in I as [I|I]; [apply keys_tg in I|apply keys_mg in I];
        destruct I as (i & X & _); discriminate.
    - injection E' as <-. auto.
  Qed.
  Lemma keys_source k : In k (keys E) \/ In k (keys L) -> In k (keys sg ++ keys own).
  Proof.
    assert (K : forall l, known l -> In (KLifetime l) (keys sg ++ keys own)).
    { intros l [X|X]; apply in_lifetime_names in X; apply in_app_iff; [auto|]. right. now apply nodup_dg. }
    intros [I|I].
    - apply keys_E in I as [I|(l & -> & X & _)]; auto. apply in_app_iff.
      apply keys_C in I as [I|I]; [apply keys_tg in I|apply keys_mg in I];
        destruct I as (i & -> & X); [left|right]; apply in_type_names; auto. apply X.
    - apply keys_L in I as (l & -> & X & _). auto.
  Qed.
  Lemma no_guard k : In k (keys E) \/ In k (keys L) -> k <> KLifetime "__mockall_lt".
  Proof. intros I. apply (sc_reserved _ _ SC). now apply keys_source. Qed.

  Lemma uses_nodup u : In u (uses (priv_module f)) -> NoDup (flat_map keys (us_scopes u)).
  Proof.
    assert (NE := nodup_E). assert (NCC := nodup_C). assert (NL := nodup_L).
    assert (CE : forall k, In k (keys C) -> In k (keys E)) by (intros k I; apply keys_E; auto).
    assert (EL := disjoint_EL).
    assert (NCL : NoDup (keys C ++ keys L)) by (apply nodup_app; auto; intros k I; apply EL; auto).
    assert (NEL : NoDup (keys E ++ keys L)) by (apply nodup_app; auto).
    assert (NG : NoDup (keys (with_guard_lt E) ++ keys L)).
    { rewrite guard_keys. apply nodup_app; auto.
      - apply nodup_app; auto; [repeat constructor; intros []|]. intros k I [X|[]].
        apply (no_guard k); auto.
      - intros k I J. apply in_app_iff in I as [I|[I|[]]]; [exact (EL k I J)|].
        apply (no_guard k); auto. }
    assert (NT := nodup_tg).
    assert (NTM : NoDup (keys tg ++ keys (with_guard_lt mg))).
    { rewrite guard_keys. apply nodup_app; auto.
      - apply nodup_app; [apply nodup_mg|repeat constructor; intros []|]. intros k I [X|[]].
        apply (no_guard k); auto. left. apply CE, keys_C. auto.
      - intros k I J. apply in_app_iff in J as [J|[J|[]]].
        + apply keys_tg in I as (i & -> & I). apply keys_mg in J as (j & X & J). injection X as <-.
          destruct distinct as (_ & _ & D). apply (D (KType i)); apply in_type_names; auto. apply J.
        + apply keys_tg in I as (i & X & _). subst k. discriminate. }
    assert (SP : forall l (P : use -> Prop), Forall P l -> forall u, In u l -> P u)
      by (intros l P X; now apply Forall_forall).
    assert (EW : forall w, keys (Generics (lt_token E) (params E) w) = keys E) by reflexivity.
    revert u. apply SP. unfold uses. rewrite !Forall_app.
    unfold common_uses, expectation_uses, matcher_uses, rfunc_uses, kind_uses, expectations_uses,
      generic_uses, static_uses.
    cbn [priv_module gp_common_generics gp_generics gp_lifetimes gp_kind gp_generic gp_context gp_generic_guard].
    repeat split.
    all: try (repeat constructor; cbn [flat_map us_scopes]; rewrite ?app_nil_r; auto; fail).
    - constructor; [cbn [flat_map us_scopes]; rewrite app_nil_r; auto|].
      destruct (kind_of f); repeat constructor; cbn [flat_map us_scopes]; rewrite ?app_nil_r; auto.
    - constructor; [cbn [flat_map us_scopes]; rewrite app_nil_r; auto|].
      destruct (kind_of f); repeat constructor; cbn [flat_map us_scopes]; rewrite ?app_nil_r; auto.
    - destruct (generic_part f); [|constructor].
      repeat constructor; cbn [flat_map us_scopes]; rewrite ?app_nil_r, ?EW; auto.
    - assert (NGE := nodup_app_l _ _ NG).
      destruct (mf_is_static f); [|constructor]. apply Forall_app. split.
      + destruct (is_expectation_generic f); repeat constructor; cbn [flat_map us_scopes]; rewrite ?app_nil_r;
          auto.
      + repeat constructor; cbn [flat_map us_scopes]; rewrite ?app_nil_r; auto.
  Qed.
End scoped.

Theorem build_scoped b f x sg :
  build b = Some f -> b_sig b = fi_sig x -> b_attrs b = fi_attrs x ->
  bracketed (sg_generics (fi_sig x)) ->
  match b_struct_generics b with Some g => g | None => no_generics end = sg -> bracketed sg ->
  mf_is_static f = negb (has_self x) -> scopable sg x ->
  Forall (well_scoped (keys sg ++ keys (sg_generics (fi_sig x)))) (uses (priv_module f)).
Proof.
  intros H HS HA B SG BS SS SC.
  destruct (get_parts b f x sg H HS B SG) as (dg & di & sa & sr & ma & mr & PA).
  apply Forall_forall. intros u I. split.
  - intros k K.
    destruct (all_facts b f x sg H HS HA B SG BS SS SC dg di sa sr ma mr PA k K) as (FA & F & NC).
    exact (facts_closed k F NC f FA u I).
  - exact (uses_nodup b f x sg HS HA BS SS SC dg di sa sr ma mr PA u I).
Qed.
