(** * PropAccept: what the macros accept

    Property C69: what is ordinary is not refused. *)

From Coq Require Import List Bool String Ascii NArith Arith Lia.
From Verif Require Import Ast AstSpec TyEq Rewrite RewriteProofs Derive DeriveSpec AttrProofs ClosureProofs PropClosure
  Names CallSpec Subst SubstProofs Sig SigSpec SigProofs MockFn MockFnSpec MockFnProofs PropOutput Item
  ItemProofs MockItem RefuseSpec Errors OrdinaryProofs PropSubst PipeSpec
  PropPipeline PropRefuse.
Import ListNotations.
Open Scope string_scope.
Open Scope list_scope.

(** ** Lemmas *)

Ltac or_false := repeat match goal with |- (_ || _)%bool = false => apply orb_false_iff; split end.

Definition harmless (t : ty) : Prop := supersuperfy_error t = false /\ find_lifetimes_error t = false.

Lemma ordinary_harmless t : ordinary t = true -> harmless t.
Proof. intros H. split; [now apply (proj1 ordinary_super_ok)|now apply (proj1 ordinary_find_ok)]. Qed.

Lemma dyn_harmless d l : forallb ordinary_fn_bound l = true -> harmless (TDyn d l).
Proof.
  intros H. split; cbn.
  - exact (fn_bounds l fn_bound_super H).
  - exact (fn_bounds l fn_bound_find H).
Qed.

Lemma box_harmless l : forallb ordinary_fn_bound l = true -> harmless (box_dyn l).
Proof.
  intros H. destruct (dyn_harmless true l H) as [A B]. unfold box_dyn. split; cbn in *.
  - now rewrite A.
  - now rewrite B.
Qed.

Lemma lookup_in {A} t (l : list (ty * A)) v : lookup t l = Some v -> exists k, In (k, v) l.
Proof.
  induction l as [|[k w] l IH]; cbn; [discriminate|]. destruct (ty_eqb k t).
  - intros E. injection E as ->. exists k. now left.
  - intros E. apply IH in E as (k' & I). exists k'. now right.
Qed.

Lemma fn_types_harmless g t v : ordinary_generics g -> lookup t (fn_types g) = Some v -> harmless v.
Proof.
  intros G L. apply lookup_in in L as (k & I). unfold fn_types in I.
  apply in_flat_map in I as ([i l] & I & J). cbn in J. unfold save_fn_types in J.
  apply in_map_iff in J as (b & E & _). injection E as _ <-.
  apply box_harmless. eapply bounded_ordinary; eauto.
Qed.

Lemma conc_types_harmless g t e : ordinary_generics g -> lookup t (conc_types g) = Some e -> harmless (ce_ty e).
Proof.
  intros G L. apply lookup_in in L as (k & I). unfold conc_types in I. apply in_rev in I.
  apply in_flat_map in I as ([i l] & I & J). cbn [fst snd] in J.
  pose proof (bounded_ordinary _ _ _ G I) as B.
  unfold save_types in J. destruct l as [|b l]; [contradiction|].
  destruct (dyn_harmless true _ B) as [X Y].
  cbn [supersuperfy_error find_lifetimes_error] in X, Y.
  destruct J as [J|[J|[J|[J|[]]]]]; injection J as _ <-; split;
    cbn [ce_ty ref_dyn supersuperfy_error find_lifetimes_error]; assumption.
Qed.

Lemma declosured_ordinary g : ordinary_generics g -> ordinary_generics (declosured_generics g).
Proof.
  intros [P W]. unfold declosured_generics. split; cbn [params where_clause].
  - intros i b d I. apply filter_In in I as [I _]. now apply (P i b d).
  - destruct (where_clause g) as [w0|]; [|discriminate].
    set (k := filter _ w0). assert (K : forall x, In x k -> In x w0) by (intros x I; now apply filter_In in I as [I _]).
    destruct k as [|x k]; [discriminate|]. intros w E. injection E as <-. intros f t b I.
    apply (W w0 eq_refl f t b). auto.
Qed.

Lemma empty_ordinary : ordinary_generics no_generics.
Proof. split; [intros i b d []|discriminate]. Qed.

(** A function that is ready for the [Builder]. *)
Record ready (b : builder) : Prop := Ready {
  re_args : forall p t, In (FaTyped p t) (sg_inputs (b_sig b)) ->
    exists m i, p = PatIdent false m i false /\ i <> "self" /\ ordinary t = true;
  re_output : forall t, sg_output (b_sig b) = Some t -> ordinary t = true;
  re_generics : ordinary_generics (sg_generics (b_sig b));
  re_closures : b_concretize b = false -> distinct_keys (fn_types (sg_generics (b_sig b))) = true;
  re_objects : b_concretize b = true -> forall i l, In (i, l) (bounded_idents (sg_generics (b_sig b))) ->
    l = [] \/ exists m f p, In (BTrait m f p) l;
  re_static : ~ has_receiver (sg_inputs (b_sig b)) ->
    forall t m, sg_output (b_sig b) = Some t -> ~ borrows m t
}.

Lemma none_in {A} (f : A -> bool) l : (forall x, In x l -> f x = false) -> existsb f l = false.
Proof.
  intros H. destruct (existsb f l) eqn:E; auto. apply existsb_exists in E as (x & I & E).
  now rewrite H in E.
Qed.

Lemma prepared_ready b :
  ready b ->
  exists dg di ce sig, prepared b = Some (dg, di, ce, sig)
    /\ ordinary_generics dg
    /\ forall p t, In (FaTyped p t) di -> (exists m i, p = PatIdent false m i false /\ i <> "self") /\ harmless t.
Proof.
  intros R. unfold prepared. destruct (b_concretize b) eqn:C.
  - eexists _, _, _, _. split; [reflexivity|]. split; [exact empty_ordinary|].
    intros p t I. apply in_map_iff in I as ([r m c u|p' t'] & E & I); [discriminate|].
    destruct (re_args _ R _ _ I) as (m & i & -> & N & O). cbn [concretized_arg] in E. injection E as <- <-.
    split; [exists false, i; split; auto|].
    destruct (lookup t' _) as [e|] eqn:L; [|now apply ordinary_harmless].
    eapply conc_types_harmless; [apply (re_generics _ R)|exact L].
  - unfold declosurefy. rewrite (re_closures _ R C).
    eexists _, _, _, _. split; [reflexivity|]. split; [apply declosured_ordinary, (re_generics _ R)|].
    intros p t I. apply in_map_iff in I as ([r m c u|p' t'] & E & I); [discriminate|].
    destruct (re_args _ R _ _ I) as (m & i & -> & N & O). cbn [declosured_arg] in E. injection E as <- <-.
    split; [exists false, i; split; auto|].
    destruct (lookup t' _) as [e|] eqn:L; [|now apply ordinary_harmless].
    eapply fn_types_harmless; [apply (re_generics _ R)|exact L].
Qed.

Lemma build_ready b : ready b -> build_refused b = false /\ exists f, build b = Some f.
Proof.
  intros R. destruct (prepared_ready b R) as (dg & di & ce & sig & P & G & A).
  assert (B : exists f, build b = Some f).
  { unfold build. rewrite P.
    replace (existsb (fun x => pat_is_self (fst x)) (moved_args (b_levels b) di)) with false.
    - destruct (output_of _ _) as [out bx]. destruct (split_lifetimes _ di _) as [[tg sa] sr].
      destruct (split_lifetimes _ di _) as [[cg ma] mr]. eauto.
    - symmetry. apply none_in. intros [p t] I. unfold moved_args in I.
      apply in_flat_map in I as ([r m c u|p' t'] & I & J); [contradiction|].
      destruct J as [J|[]]. injection J as <- <-. destruct (A _ _ I) as [(m & i & -> & N) _]. cbn.
      now apply String.eqb_neq. }
  split; auto. destruct B as (f & B). unfold build_refused. rewrite P, B.
  assert (O : ordinary (mf_owned_output f) = true).
  { apply build_built in B as (dg' & di' & ce' & sig' & B). 
    rewrite (bt_owned _ _ _ _ _ _ B).
    replace (mf_output f) with (fst (output_of (b_levels b) (sg_output (b_sig b)))).
    - apply ordinary_output. apply (re_output _ R).
    - now rewrite <- (bt_output _ _ _ _ _ _ B). }
  assert (S : forall g, split_lifetimes_error g di (mf_owned_output f) = false).
  { intros g. unfold split_lifetimes_error. rewrite (proj1 ordinary_find_ok _ O), orb_false_r.
    apply andb_false_iff. right. apply none_in. intros [r m c u|p t] I; auto. now apply (A p t). }
  rewrite !S, (generics_super dg G), !orb_false_r. or_false.
  - assert (Q : existsb (fun a => match a with FaTyped p _ => demutify_pat_error p | FaReceiver _ _ _ _ => false end)
                   (sg_inputs (b_sig b)) = false).
    { apply none_in. intros [r m c u|p t] I; auto. destruct (re_args _ R _ _ I) as (m & i & -> & _). reflexivity. }
    destruct (b_concretize b) eqn:C; [|exact Q].
    unfold concretize_error. rewrite Q, orb_false_r. apply none_in. intros [i l] I. cbn [snd].
    destruct (re_objects _ R C i l I) as [->|(m & ff & p & J)]; auto.
    destruct l as [|x l]; auto. apply negb_false_iff. apply existsb_exists. eauto.
  - apply none_in. intros [r m c u|p t] I; auto. now apply (A p t).
  - destruct (sg_output (b_sig b)) as [t|] eqn:E; auto. cbn. apply (proj1 ordinary_super_ok).
    now apply (re_output _ R).
  - destruct (build_error b) eqn:E; auto. apply static_functions_cannot_borrow in E as (_ & N & t & m & T & K).
    now elim (re_static _ R N t m T).
Qed.

(** The signature of a method, adapted. *)
Lemma mockable_inputs name g s :
  sg_inputs (mockable_method name g s)
  = map (fun a => added_arg (deselfify_arg name g (demutify_arg a))) (sg_inputs s).
Proof. unfold mockable_method, add_lifetime_parameters, demutify. cbn. now rewrite !map_map. Qed.

Lemma bounded_mockable name g s :
  bounded_idents (sg_generics (mockable_method name g s)) = bounded_idents (sg_generics s).
Proof.
  unfold mockable_method, bounded_idents. cbn. f_equal.
  - rewrite flat_map_app. rewrite <- app_nil_r. f_equal.
    induction (flat_map added_lifetimes _) as [|a l IH]; auto.
  - destruct (where_clause (sg_generics s)) as [w|]; cbn; auto.
    assert (E : flat_map (fun p => match p with
                            | WpType _ t b => match ident_of_ty t with Some i => [(i, b)] | None => [] end
                            | WpLifetime _ _ => []
                            end) (filter (fun p => match p with
                               | WpType _ t _ => negb (ty_eqb t (ty_of "Self"))
                               | WpLifetime _ _ => true
                               end) w)
              = flat_map (fun p => match p with
                            | WpType _ t b => match ident_of_ty t with Some i => [(i, b)] | None => [] end
                            | WpLifetime _ _ => []
                            end) w).
    { induction w as [|[l b|f t b] w IH]; auto. cbn [filter flat_map].
      destruct (ty_eqb t (ty_of "Self")) eqn:T; cbn [negb].
      - apply ty_eqb_eq in T. subst t. exact IH.
      - cbn [flat_map]. now rewrite IH. }
    rewrite <- E. destruct (filter _ w); reflexivity.
Qed.

Lemma mockable_generics name g s :
  ordinary_generics (sg_generics s) -> ordinary_generics (sg_generics (mockable_method name g s)).
Proof.
  intros [P W]. unfold mockable_method. split; cbn.
  - intros i b d I. apply in_app_or in I as [I|I]; [now apply (P i b d)|].
    apply in_map_iff in I as (l & E & _). discriminate.
  - destruct (where_clause (sg_generics s)) as [w0|]; [|discriminate].
    set (k := filter _ w0). assert (K : forall x, In x k -> In x w0) by (intros x I; now apply filter_In in I as [I _]).
    destruct k as [|x k]; [discriminate|]. intros w E. injection E as <-. intros f t b I.
    apply (W w0 eq_refl f t b). auto.
Qed.

Lemma mockable_output name g s :
  sg_output (mockable_method name g s)
  = option_map (fun t => deanonymize (deselfify name g t)) (deimplify (sg_output s)).
Proof. reflexivity. Qed.

Lemma deimplify_ordinary s t :
  ordinary_sig s -> deimplify (sg_output s) = Some t -> ordinary t = true.
Proof.
  intros (_ & _ & O & _) E. destruct (sg_output s) as [u|]; [|discriminate].
  destruct (O u eq_refl) as [[H|(b & -> & H)] _].
  - destruct u; try discriminate; cbn in E; now injection E as <-.
  - cbn [deimplify] in E. destruct (needs_pin b); injection E as <-; cbn; now rewrite H.
Qed.

Lemma single_distinct g : single_closures g -> distinct_keys (fn_types g) = true.
Proof.
  intros H. destruct (distinct_keys (fn_types g)) eqn:D; auto. exfalso.
  assert (N : declosurefy g [] = None) by (unfold declosurefy; now rewrite D).
  apply two_closure_bounds_are_refused in N as (i & l1 & b1 & l2 & b2 & l3 & E & C1 & C2).
  now apply (H i l1 b1 l2 b2 l3 E C1).
Qed.

Lemma method_ready name g s b :
  name <> "Self" -> supported_params g ->
  ordinary_sig s -> fitting (b_attrs b) s -> b_sig b = mockable_method name g s ->
  mockable_method_error name g s = false /\ ready b.
Proof.
  intros Hn Hg O F S. pose proof O as (OA & OR & OO & OG). split.
  - unfold mockable_method_error. or_false.
    + apply none_in. intros [r m c u|p t] I; auto. destruct (OA _ _ I) as (m & i & -> & _). reflexivity.
    + apply none_in. intros x I. cbn in I. unfold demutify in I. apply in_map_iff in I as (y & E & I).
      destruct y as [[r|] m c u|p t]; cbn in E; subst x.
      * destruct c; auto. apply (proj1 (ordinary_deself_ok g Hg)). eapply OR. exact I.
      * destruct c; auto. apply (proj1 (ordinary_deself_ok g Hg)). eapply OR. exact I.
      * apply (proj1 (ordinary_deself_ok g Hg)). destruct (OA _ _ I) as (? & ? & _ & _ & _ & X & _). exact X.
    + apply none_in. intros x I. cbn in I. unfold demutify in I. rewrite map_map in I.
      apply in_map_iff in I as (y & E & I).
      destruct y as [[r|] m [|] u|p t]; cbn in E; subst x; auto.
      destruct (OA _ _ I) as (m & i & -> & N & R & X & P). cbn [demutify_pat].
      apply placed_add_ok; auto. now apply placed_deself.
    + destruct (deimplify (sg_output s)) as [t|] eqn:E; auto.
      pose proof (deimplify_ordinary _ _ O E) as X.
      rewrite (proj1 (ordinary_deself_ok g Hg) _ X). cbn [orb].
      apply ordinary_deanon. now apply (proj1 (ordinary_deself name g Hn)).
    + unfold sanity_check_error. rewrite mockable_inputs. apply none_in. intros x I.
      apply in_map_iff in I as (y & E & I).
      destruct y as [[r|] m [|] u|p t]; cbn in E; subst x; auto.
      destruct (OA _ _ I) as (m & i & -> & N & R & X & P).
      apply (proj1 (ordinary_deself name g Hn)) in X.
      apply (ordinary_add (demutify_pat (PatIdent false m i false))) in X.
      destruct (fst (add_to_type _ _)); auto.
  - constructor; rewrite S.
    + intros p t I. rewrite mockable_inputs in I. apply in_map_iff in I as (y & E & I).
      destruct y as [[r|] m [|] u|p' t']; cbn in E; try discriminate. injection E as <- <-.
      destruct (OA _ _ I) as (m & i & -> & N & R & X & P). exists false, i. split; [reflexivity|].
      split; auto. apply ordinary_add. now apply (proj1 (ordinary_deself name g Hn)).
    + intros t T. rewrite mockable_output in T.
      destruct (deimplify (sg_output s)) as [u|] eqn:E; [|discriminate]. cbn in T. injection T as <-.
      pose proof (deimplify_ordinary _ _ O E) as X.
      apply ordinary_deanon. now apply (proj1 (ordinary_deself name g Hn)).
    + now apply mockable_generics.
    + intros C. unfold fn_types. rewrite bounded_mockable. apply single_distinct.
      destruct F as [[_ F]|[(a & I & X) _]]; auto. apply is_concretize_spec in X.
      unfold b_concretize in C. now rewrite (existsb_false_in _ _ _ C I) in X.
    + intros C i l I. rewrite bounded_mockable in I.
      destruct F as [[F _]|[_ F]].
      * apply existsb_exists in C as (a & J & X). apply is_concretize_spec in X. now elim (F a J).
      * apply (F i l). now apply bounded_declared.
    + intros N t m T (l & e & -> & L). rewrite mockable_output in T.
      destruct (sg_output s) as [u|] eqn:U; [|discriminate].
      destruct (OO u eq_refl) as [_ ST]. cbn in T.
      assert (W : without_self s).
      { intros r q c v I. apply N. rewrite mockable_inputs.
        destruct (added_arg (deselfify_arg name g (demutify_arg (FaReceiver r q c v)))) as [r' q' c' v'|] eqn:E.
        - exists r', q', c', v'. rewrite <- E. apply in_map_iff. eauto.
        - destruct r, c; discriminate. }
      destruct u as [| | | | | | | | | | |lu mu eu| | | |]; cbn in T; try discriminate.
      * destruct (needs_pin bounds); discriminate.
      * injection T as T1 T2 T3. rewrite (ST W _ _ _ eq_refl) in T1. cbn in T1. congruence.
Qed.

(** A whole mock. *)
Lemma all_ready {A B} (f : A -> option B) l : (forall x, In x l -> exists y, f x = Some y) -> exists r, all_some f l = Some r.
Proof.
  induction l as [|x l IH]; intros H; cbn; [eauto|].
  destruct (H x (or_introl eq_refl)) as (y & ->). destruct IH as (r & ->); eauto.
  intros z I. apply H. now right.
Qed.

Lemma params_phantom g : supported_params g -> phantom_error g = false.
Proof.
  intros H. apply none_in. intros p I. destruct (H p I) as [(l & ->)|(i & b & d & ->)]; auto.
Qed.

Lemma mock_ready hash m :
  supported_params (ms_generics m) ->
  (forall f, In f (ms_methods m) -> ready (method_builder m f)) ->
  (forall x, In x (ms_impls m) ->
     (exists b p, im_trait x = Some (b, p)) /\ (exists s, self_path (im_self x) = Some s)
     /\ (forall s, ~ In (IiOther s) (im_items x))
     /\ forall f ss, In f (impl_fns x) -> ready (trait_builder (ms_name m) (ms_generics m) (ms_vis m) ss f)) ->
  mock_it_refused hash m = false /\ exists g, mock_it hash m = Some g.
Proof.
  intros P M I.
  assert (N : forall x, In x (ms_impls m) ->
            new_trait_refused hash (ms_name m) (ms_generics m) (ms_vis m) x = false
            /\ exists y, new_trait hash (ms_name m) (ms_generics m) x (ms_vis m) = Some y).
  { intros x J. destruct (I x J) as ((b & p & T) & (s & S) & O & R).
    unfold new_trait_refused, new_trait. rewrite T, S.
    replace (existsb _ (im_items x)) with false.
    - destruct (all_ready (fun f => build (trait_builder (ms_name m) (ms_generics m) (ms_vis m) (ss_name hash p) f))
                  (impl_fns x)) as (ms & A).
      { intros f K. apply build_ready. auto. }
      rewrite A. split; [|eauto]. cbn [mt_ss_name]. apply none_in. intros f K. apply build_ready. auto.
    - symmetry. apply none_in. intros [] K; auto. now elim (O tokens). }
  assert (G : exists g, mock_it hash m = Some g).
  { unfold mock_it, from_mockable.
    destruct (all_ready (fun f => build (method_builder m f)) (ms_methods m)) as (ms & ->).
    { intros f K. apply build_ready. auto. }
    destruct (all_ready (fun x => new_trait hash (ms_name m) (ms_generics m) x (ms_vis m)) (ms_impls m)) as (ts & ->).
    { intros x K. now apply N. }
    unfold gen_struct_error. cbn [mi_generics]. rewrite params_phantom by auto. eauto. }
  split; auto. destruct G as (g & G). unfold mock_it_refused. rewrite G. or_false; auto.
  - apply none_in. intros f K. apply build_ready. auto.
  - apply none_in. intros x K. now apply N.
Qed.

Lemma mock_name i : gen_mock_ident i <> "Self".
Proof. unfold gen_mock_ident. discriminate. Qed.

Lemma substituted_ordinary a tr s :
  (forall i u, assoc_get a i = Some u -> ordinary_value u) ->
  ordinary_sig s -> substitute_sig_error a tr s = false /\ ordinary_sig (substitute_sig a tr s).
Proof.
  intros V (A & R & O & G).
  assert (Va : forall i u, assoc_get a i = Some u -> ordinary u = true) by (intros i u E; now apply (V i u)).
  assert (Vp : forall i u, assoc_get a i = Some u -> placed u = true) by (intros i u E; now apply (V i u)).
  split.
  - unfold substitute_sig_error. or_false.
    + apply none_in. intros [r m c t|p t] I; auto. apply (proj1 (ordinary_subst_ok a tr)).
      destruct (A _ _ I) as (m & i & _ & _ & _ & X & _). exact X.
    + destruct (sg_output s) as [t|] eqn:E; auto.
      destruct (O t eq_refl) as [[H|(b & -> & H)] _].
      * now apply (proj1 (ordinary_subst_ok a tr)).
      * cbn. eapply none_map; [|exact H]. apply Forall_forall. intros x _.
        apply (proj2 (proj2 (proj2 (proj2 (proj2 (ordinary_subst_ok a tr)))))).
  - split; [|split; [|split]]; cbn.
    + intros p t I. apply in_map_iff in I as ([r m c u|p' u] & E & I); [discriminate|]. cbn in E.
      injection E as -> <-. destruct (A _ _ I) as (m & i & -> & N & Rn & X & P).
      exists m, i. split; [reflexivity|]. split; [exact N|]. split; [exact Rn|]. split.
      * now apply (proj1 (ordinary_subst a tr Va)).
      * now apply placed_subst.
    + intros r m t I. apply in_map_iff in I as ([r' m' c' u|p' u] & E & I); [|discriminate]. cbn in E.
      injection E as -> -> -> ->. now apply (R r m).
    + intros t E. destruct (sg_output s) as [u|]; [|discriminate]. cbn in E. injection E as <-.
      destruct (O u eq_refl) as [H S]. split.
      * destruct H as [H|(b & -> & H)].
        -- left. now apply (proj1 (ordinary_subst a tr Va)).
        -- right. exists (map (substitute_bound a tr) b). split; auto.
           apply keep_map; auto. apply Forall_forall. intros x _.
           apply (proj2 (proj2 (proj2 (proj2 (proj2 (ordinary_subst a tr Va)))))).
      * intros W l m e E.
        assert (W' : without_self s).
        { intros r q c v I. apply (W r q c v). cbn. apply in_map_iff. exists (FaReceiver r q c v). auto. }
        destruct H as [H|(b & -> & H)]; [|discriminate].
        destruct u; cbn in H, E; try discriminate.
        -- destruct (get_path a p) as [v|] eqn:Gp; [|discriminate]. subst v.
           destruct p as [[|] [|[s0 x] [|[i y] [|]]]]; try discriminate. cbn in Gp.
           destruct (s0 =? "Self"); [|discriminate]. destruct (V i _ Gp) as (_ & _ & X). now apply (X l m e).
        -- injection E as <- <- <-. now apply (S W' lt mut u).
    + exact G.
Qed.

(** ** C69: what is ordinary is accepted *)

Theorem ordinary_traits_are_accepted :
  forall (hash : list pargs -> N) (l : list (ident * option ty)) (t : item_trait),
    supported_params (it_generics t) ->
    (forall n o, In (n, o) l -> exists u, o = Some u /\ ordinary_value u) ->
    (forall i, In i (it_items t) ->
       (exists a s, i = TiFn a s /\ ordinary_sig s /\ fitting a s)
       \/ (exists n u e, i = TiConst n u (Some e))
       \/ (exists n b d u, i = TiType n b d /\ In (n, Some u) l)) ->
    exists m, automock_trait hash l t = Some m.
Proof.
  intros hash l t P L I. set (a := parse_attrs l).
  assert (V : forall i u, assoc_get a i = Some u -> ordinary_value u).
  { intros i u E. apply last_declared_type_counts in E as (l1 & l2 & -> & _).
    destruct (L i (Some u)) as (u' & E & H).
    - apply in_or_app. right. now left.
    - injection E as <-. exact H. }
  assert (G : forall n u, In (n, Some u) l -> exists w, assoc_get a n = Some w).
  { intros n u J. unfold a, parse_attrs.
    assert (X : forall k c, (In (n, Some u) k \/ exists w, assoc_get c n = Some w) ->
       exists w, assoc_get (fold_left (fun a x => match snd x with Some t => assoc_insert a (fst x) t | None => a end) k c) n = Some w).
    { induction k as [|[j o] k IH]; intros c [H|H]; cbn [fold_left]; auto; try contradiction.
      - destruct H as [H|H]; apply IH; auto. right. injection H as -> ->. cbn.
        rewrite assoc_get_insert, String.eqb_refl. eauto.
      - apply IH. right. destruct o; auto. cbn. rewrite assoc_get_insert. destruct (n =? j); eauto. }
    apply X. now left. }
  set (name := gen_mock_ident (it_ident t)).
  assert (E : parse_attrs_error l = false).
  { apply none_in. intros [n o] J. destruct (L n o J) as (u & -> & _). reflexivity. }
  assert (F : from_trait_error a t = false).
  { unfold from_trait_error, substitute_trait_error. fold name. or_false.
    - apply none_in. intros i J. destruct (I i J) as [(x & s & -> & O & _)|[(n & u & e & ->)|(n & b & d & u & -> & K)]]; auto.
      + now apply substituted_ordinary.
      + destruct (G n u K) as (w & ->). reflexivity.
    - apply none_in. intros i J. cbn in J. apply in_map_iff in J as (j & <- & J).
      destruct (I j J) as [(x & s & -> & O & Fi)|[(n & u & e & ->)|(n & b & d & u & -> & K)]]; auto.
      + cbn. apply (substituted_ordinary a (it_ident t)) in O as [_ O]; auto.
        apply (method_ready name (it_generics t) _ 
                 (Builder x None 0 None (mockable_method name (it_generics t) (substitute_sig a (it_ident t) s)) None None None VPublic));
          auto. apply mock_name.
      + cbn. destruct (G n u K) as (w & ->). reflexivity. }
  unfold automock_trait. fold a. rewrite E, F.
  destruct (mock_ready hash (from_trait a t)) as (R & g & M).
  - exact P.
  - intros f [].
  - intros x [<-|[]]. cbn [mockable_trait im_trait im_self im_items].
    split; [eauto|]. split; [cbn; eauto|]. split.
    + intros s J. apply in_map_iff in J as (i & Ei & J). cbn in J. apply in_map_iff in J as (j & <- & J).
      destruct (I j J) as [(x & s' & -> & O & Fi)|[(n & u & e & ->)|(n & b & d & u & -> & K)]]; try discriminate.
      cbn in Ei. destruct (assoc_get a n); discriminate.
    + intros f ss J. apply in_impl_fns in J. cbn in J. apply in_map_iff in J as (i & Ei & J).
      apply in_map_iff in J as (j & <- & J).
      destruct (I j J) as [(x & s' & -> & O & Fi)|[(n & u & e & ->)|(n & b & d & u & -> & K)]]; try discriminate.
      * cbn in Ei. injection Ei as <-. apply (substituted_ordinary a (it_ident t)) in O as [_ O]; auto.
        eapply method_ready; [| |exact O| |reflexivity]; auto. apply mock_name.
      * cbn in Ei. destruct (assoc_get a n); discriminate.
  - rewrite R. cbn. eauto.
Qed.
Print Assumptions ordinary_traits_are_accepted.


(** The methods of an impl block, as [mockable_item_impl] leaves them. *)
Definition items_ready (x : item_impl) : Prop :=
  forall i, In i (im_items x) ->
    (exists f, i = IiFn f /\ ordinary_sig (fi_sig f) /\ fitting (fi_attrs f) (fi_sig f))
    \/ (exists n e, i = IiConst n e) \/ (exists n t, i = IiType n t).

Lemma impl_ready name g vis x :
  name <> "Self" -> supported_params g -> items_ready x ->
  existsb (fun f => mockable_method_error name g (fi_sig f)) (impl_fns x) = false
  /\ (forall s, ~ In (IiOther s) (im_items (mockable_item_impl x name g)))
  /\ forall f ss, In f (impl_fns (mockable_item_impl x name g)) -> ready (trait_builder name g vis ss f).
Proof.
  intros Hn Hg H.
  assert (M : forall f b, In f (impl_fns x) -> b_attrs b = fi_attrs f -> b_sig b = mockable_method name g (fi_sig f) ->
            mockable_method_error name g (fi_sig f) = false /\ ready b).
  { intros f b I A B. apply in_impl_fns in I.
    destruct (H _ I) as [(f' & E & O & F)|[(n & e & E)|(n & e & E)]]; try discriminate.
    injection E as <-. apply method_ready; auto. now rewrite A. }
  split; [|split].
  - apply none_in. intros f I.
    apply (M f (Builder (fi_attrs f) None 0 None (mockable_method name g (fi_sig f)) None None None VPublic)); auto.
  - intros s I. cbn in I. apply in_map_iff in I as (i & E & I).
    destruct (H _ I) as [(f' & -> & O & F)|[(n & e & ->)|(n & e & ->)]]; discriminate.
  - intros f ss I. apply in_impl_fns in I. cbn in I. apply in_map_iff in I as (i & E & I).
    destruct i; try discriminate. cbn in E. injection E as <-. apply (M f0); auto. now apply in_impl_fns.
Qed.

Lemma on_sig_items f x : items_ready x ->
  (forall y, In (IiFn y) (im_items x) -> ordinary_sig (fi_sig y) ->
     ordinary_sig (f (fi_sig y)) /\ sg_generics (f (fi_sig y)) = sg_generics (fi_sig y)) ->
  items_ready (with_impl_items x (map (on_sig f) (im_items x))).
Proof.
  intros H F i I. cbn in I. apply in_map_iff in I as (j & <- & I).
  destruct (H _ I) as [(y & -> & O & Fi)|[(n & e & ->)|(n & e & ->)]]; cbn; eauto.
  destruct (F y I O) as [O' E]. left. eexists. split; [reflexivity|]. split; auto. cbn.
  unfold fitting in *. now rewrite E.
Qed.

Theorem ordinary_impls_are_accepted :
  forall (hash : list pargs -> N) (x : item_impl) (b : bool) (n : ident) (a : pargs),
    supported_params (im_generics x) ->
    im_self x = TPath (Path b [Seg n a]) ->
    (forall l, a = PaAngle l -> List.length l = List.length (params (im_generics x))) ->
    (im_trait x = None \/ exists c i d, im_trait x = Some (false, Path c [Seg i d])) ->
    (forall i, In i (im_items x) ->
       (exists f, i = IiFn f /\ ordinary_sig (fi_sig f) /\ fitting (fi_attrs f) (fi_sig f))
       \/ (exists k e, i = IiConst k e)
       \/ (exists k u, i = IiType k u /\ im_trait x <> None /\ ordinary_value u)) ->
    exists m, automock_impl hash x = Some m.
Proof.
  intros hash x b n a P S A T I.
  assert (R : items_ready x).
  { intros i J. destruct (I i J) as [H|[H|(k & u & -> & _)]]; eauto. }
  pose proof (mock_name n) as Hn.
  unfold automock_impl, from_impl_error, from_impl, impl_name, elided_generics. rewrite S. cbn [path_ident].
  replace (match a with PaAngle l => negb (List.length (params (im_generics x)) =? List.length l)%nat | _ => false end)
    with false
    by (destruct a as [|l|]; auto; rewrite (A l eq_refl), Nat.eqb_refl; reflexivity).
  destruct T as [T|(c & i & d & T)]; rewrite T.
  - assert (M : forall f b, In f (impl_fns x) -> b_attrs b = fi_attrs f ->
              b_sig b = mockable_method (gen_mock_ident n) (im_generics x) (fi_sig f) -> ready b).
    { intros f q J E B. apply in_impl_fns in J.
      destruct (I _ J) as [(f' & Ef & O & F)|[(k & e & Ef)|(k & e & Ef & _)]]; try discriminate.
      injection Ef as <-. eapply method_ready; eauto. now rewrite E. }
    match goal with |- context [unless _ (mock_it hash ?m)] => destruct (mock_ready hash m) as (Q & g & G) end.
    + exact P.
    + intros f J. cbn in J. apply in_map_iff in J as (f0 & <- & J). now apply (M f0).
    + intros y [].
    + rewrite Q, G. cbn [orb].
      destruct (impl_ready (gen_mock_ident n) (im_generics x) VPublic x Hn P R) as (-> & _).
      replace (existsb _ (im_items x)) with false; [cbn; eauto|]. symmetry. apply none_in. intros i J.
      destruct (I _ J) as [(f' & -> & O & F)|[(k & e & ->)|(k & e & -> & N & _)]]; auto. now elim N.
  - cbn [path_ident]. set (ty := impl_types (im_items x)).
    assert (V : forall k u, assoc_get ty k = Some u -> ordinary_value u).
    { intros k u E. apply impl_types_defined in E as (l1 & l2 & E & _).
      assert (J : In (k, u) (types_of x)) by (rewrite E; apply in_or_app; right; now left).
      unfold types_of in J. apply in_flat_map in J as (y & J & K). destruct y; try contradiction.
      destruct K as [K|[]]. injection K as -> ->.
      destruct (I _ J) as [(f' & Ef & O & F)|[(q & e & Ef)|(q & e & Ef & N & W)]]; try discriminate.
      injection Ef as <- <-. exact W. }
    assert (R' : items_ready (substitute_item_impl ty i x)).
    { apply on_sig_items; auto. intros y J O. split; [|reflexivity]. now apply substituted_ordinary. }
    destruct (impl_ready (gen_mock_ident n) (im_generics x) VPublic _ Hn P R') as (E1 & E2 & E3).
    match goal with |- context [unless _ (mock_it hash ?m)] => destruct (mock_ready hash m) as (Q & g & G) end.
    + exact P.
    + intros y [].
    + intros y [<-|[]]. cbn [mockable_item_impl im_trait im_self substitute_item_impl with_impl_items].
      rewrite T, S. split; [eauto|]. split; [cbn; eauto|]. split; [exact E2|exact E3].
    + rewrite Q, G. unfold mockable_item_impl_error. rewrite E1.
      cbn [substitute_item_impl with_impl_items im_self]. rewrite S. cbn [mock_ident_in_type_error orb].
      replace (existsb _ (im_items x)) with false.
      * replace (existsb _ (impl_fns x)) with false; [cbn; eauto|]. symmetry. apply none_in. intros f J.
        apply in_impl_fns in J. destruct (R _ J) as [(f' & Ef & O & F)|[(q & e & Ef)|(q & e & Ef)]]; try discriminate.
        injection Ef as <-. now apply substituted_ordinary.
      * symmetry. apply none_in. intros y J.
        destruct (R _ J) as [(f' & -> & _)|[(q & e & ->)|(q & e & ->)]]; auto.
Qed.
Print Assumptions ordinary_impls_are_accepted.

Theorem ordinary_declarations_are_accepted :
  forall (hash : list pargs -> N) (d : mock_decl),
    supported_params (md_generics d) ->
    (forall f, In f (md_methods d) -> ordinary_sig (fi_sig f) /\ fitting (fi_attrs f) (fi_sig f)) ->
    (forall x, In x (md_impls d) ->
       im_trait x <> None
       /\ (exists b s, im_self x = TPath (Path b [s]))
       /\ forall i, In i (im_items x) ->
            (exists f, i = IiFn f /\ ordinary_sig (fi_sig f) /\ fitting (fi_attrs f) (fi_sig f))
            \/ (exists k e, i = IiConst k e) \/ (exists k u, i = IiType k u)) ->
    exists m, mock_macro hash d = Some m.
Proof.
  intros hash d P M I. pose proof (mock_name (md_name d)) as Hn.
  assert (R : forall f b, In f (md_methods d) -> b_attrs b = fi_attrs f ->
              b_sig b = mockable_method (gen_mock_ident (md_name d)) (md_generics d) (fi_sig f) ->
              mockable_method_error (gen_mock_ident (md_name d)) (md_generics d) (fi_sig f) = false /\ ready b).
  { intros f b J A B. destruct (M f J) as [O F]. apply method_ready; auto. now rewrite A. }
  unfold mock_macro, from_mock_error.
  destruct (mock_ready hash (from_mock d)) as (Q & g & G).
  - exact P.
  - intros f J. cbn in J. apply in_map_iff in J as (f0 & <- & J). now apply (R f0).
  - intros y J. cbn in J. apply in_map_iff in J as (x & <- & J). destruct (I x J) as (T & (b & s & S) & K).
    destruct (impl_ready (gen_mock_ident (md_name d)) (md_generics d) (md_vis d) x Hn P K) as (E1 & E2 & E3).
    cbn [mockable_item_impl im_trait im_self]. rewrite S.
    split; [destruct (im_trait x) as [[]|]; [eauto|now elim T]|].
    split; [destruct s; cbn; eauto|]. split; [exact E2|exact E3].
  - rewrite Q, G. replace (existsb _ (md_methods d)) with false.
    + replace (existsb _ (md_impls d)) with false; [cbn; eauto|]. symmetry. apply none_in. intros x J.
      destruct (I x J) as (T & (b & s & S) & K).
      destruct (impl_ready (gen_mock_ident (md_name d)) (md_generics d) (md_vis d) x Hn P K) as (E1 & _).
      unfold mockable_item_impl_error. rewrite S, E1. reflexivity.
    + symmetry. apply none_in. intros f J.
      apply (R f (Builder (fi_attrs f) None 0 None (mockable_method (gen_mock_ident (md_name d)) (md_generics d) (fi_sig f)) None None None VPublic)); auto.
Qed.
Print Assumptions ordinary_declarations_are_accepted.

Lemma module_fn_ready m f :
  ordinary_sig (fi_sig f) -> without_self (fi_sig f) -> fitting (fi_attrs f) (fi_sig f) ->
  ready (module_builder m (FnItem (fi_attrs f) (fi_vis f) (mockable_fn (fi_sig f)))).
Proof.
  intros O W F. pose proof O as (OA & OR & OO & OG). constructor; cbn [module_builder b_sig fi_sig mockable_fn with_output with_inputs sg_inputs sg_output sg_generics].
  - intros p t I. unfold demutify in I. apply in_map_iff in I as (y & E & I).
    destruct y as [[r|] c q u|p' t']; cbn in E; try discriminate. injection E as <- <-.
    destruct (OA _ _ I) as (c & i & -> & N & R & X & P). exists false, i. auto.
  - intros t E. eapply deimplify_ordinary; eauto.
  - exact OG.
  - intros C. apply single_distinct. destruct F as [[_ F]|[(a & I & X) _]]; auto. apply is_concretize_spec in X.
    unfold b_concretize in C. cbn in C. now rewrite (existsb_false_in _ _ _ C I) in X.
  - intros C i l I. destruct F as [[F _]|[_ F]].
    + apply existsb_exists in C as (a & J & X). apply is_concretize_spec in X. now elim (F a J).
    + apply (F i l). now apply bounded_declared.
  - intros N t c T (l & e & -> & L). destruct (sg_output (fi_sig f)) as [u|] eqn:U; [|discriminate].
    destruct (OO u eq_refl) as [_ ST]. destruct u; cbn in T; try discriminate.
    + destruct (needs_pin bounds); discriminate.
    + injection T as -> -> ->. elim L. now apply (ST W l c e).
Qed.

Lemma foreign_fn_ready m abi f :
  ordinary_sig (fi_sig f) -> without_self (fi_sig f) -> fitting (fi_attrs f) (fi_sig f) ->
  (forall b, sg_output (fi_sig f) <> Some (TImplTrait b)) ->
  ready (module_builder m (foreign_fn abi f)).
Proof.
  intros O W F NI. pose proof O as (OA & OR & OO & OG). constructor; cbn [module_builder b_sig fi_sig foreign_fn sg_inputs sg_output sg_generics].
  - intros p t I. destruct (OA _ _ I) as (c & i & -> & N & R & X & P). exists c, i. auto.
  - intros t E. destruct (OO t E) as [[H|(b & -> & H)] _]; auto. now elim (NI b).
  - exact OG.
  - intros C. apply single_distinct. destruct F as [[_ F]|[(a & I & X) _]]; auto. apply is_concretize_spec in X.
    unfold b_concretize in C. cbn in C. now rewrite (existsb_false_in _ _ _ C I) in X.
  - intros C i l I. destruct F as [[F _]|[_ F]].
    + apply existsb_exists in C as (a & J & X). apply is_concretize_spec in X. now elim (F a J).
    + apply (F i l). now apply bounded_declared.
  - intros N t c T (l & e & -> & L). destruct (OO _ T) as [_ ST]. elim L. now apply (ST W l c e).
Qed.

Definition ordinary_fn (f : fn_item) : Prop :=
  ordinary_sig (fi_sig f) /\ without_self (fi_sig f) /\ fitting (fi_attrs f) (fi_sig f).

Theorem ordinary_modules_are_accepted :
  forall (vis : visibility) (n : ident) (items : list item),
    (forall i, In i items ->
       (exists f u, i = ItFn f u /\ ordinary_fn f)
       \/ (exists abi l, i = ItForeign abi l
             /\ forall y, In y l -> exists f u, y = FiFn f u /\ ordinary_fn f
                                    /\ forall b, sg_output (fi_sig f) <> Some (TImplTrait b))
       \/ (exists s, i = ItCopied s \/ i = ItIgnored s)) ->
    exists g, automock_module vis n (Some items) = Some g.
Proof.
  intros vis n items I. unfold automock_module, from_module. cbn [mm_content mm_mock_ident].
  set (m := gen_mock_module_ident n).
  assert (B : forall i, In i items -> exists c, item_content m (mockable_item i) = Some c).
  { intros i J. destruct (I i J) as [(f & u & -> & O & W & F)|[(abi & l & -> & H)|(s & [->| ->])]]; cbn [mockable_item item_content]; eauto.
    - destruct (build_ready _ (module_fn_ready m f O W F)) as (_ & g & ->). cbn. eauto.
    - apply all_ready. intros y K. destruct (H y K) as (f & u & -> & (O & W & F) & NI). cbn [foreign_content].
      destruct (build_ready _ (foreign_fn_ready m abi f O W F NI)) as (_ & g & ->). cbn. eauto. }
  replace (existsb mockable_item_error items) with false.
  - replace (existsb (item_refused m) (map mockable_item items)) with false.
    + cbn [orb unless]. unfold gen_mod, module_content. cbn [mm_content mm_mock_ident].
      destruct (all_ready (item_content m) (map mockable_item items)) as (c & E).
      * intros x J. apply in_map_iff in J as (i & <- & J). auto.
      * fold m. rewrite E. cbn. eauto.
    + symmetry. apply none_in. intros x J. apply in_map_iff in J as (i & <- & J).
      destruct (I i J) as [(f & u & -> & O & W & F)|[(abi & l & -> & H)|(s & [->| ->])]]; cbn [mockable_item item_refused]; auto.
      * now apply build_ready, module_fn_ready.
      * apply none_in. intros y K. destruct (H y K) as (f & u & -> & (O & W & F) & NI).
        now apply build_ready, foreign_fn_ready.
  - symmetry. apply none_in. intros i J.
    destruct (I i J) as [(f & u & -> & O & W & F)|[(abi & l & -> & H)|(s & [->| ->])]]; auto.
    cbn. apply none_in. intros [r c q v|p t] K; auto. destruct O as (A & _).
    destruct (A _ _ K) as (c & k & -> & _). reflexivity.
Qed.
Print Assumptions ordinary_modules_are_accepted.

(** A trait with an associated type, a constant, a method and a function that
    takes [&dyn Fn2]; refused without the type of [A]. *)
Ltac in_cases H := repeat destruct H as [H|H]; try contradiction; try discriminate.
Lemma ex_single s : params (sg_generics s) = [] -> where_clause (sg_generics s) = None -> single_closures (sg_generics s).
Proof.
  intros P W i l1 b1 l2 b2 l3 E. unfold all_bounds, preds in E. rewrite P, W in E. destruct l1; discriminate.
Qed.
Example ordinary_traits_are_accepted_applies :
  (exists m, automock_trait ex_hash [("A", Some (ty_of "u32"))] ex_trait = Some m)
  /\ automock_trait ex_hash [] ex_trait = None
  /\ automock_trait ex_hash [("A", None)] ex_trait = None.
Proof.
  split; [|split; reflexivity]. apply ordinary_traits_are_accepted.
  - intros p I. cbn in I. in_cases I; subst p; eauto.
  - intros n o [E|[]]. injection E as <- <-. eexists. split; [reflexivity|]. split; [reflexivity|].
    split; [reflexivity|]. discriminate.
  - intros i I. cbn in I. in_cases I; subst i.
    + right; right. do 4 eexists. split; [reflexivity|]. now left.
    + right; left. eauto.
    + left. do 2 eexists. split; [reflexivity|]. split; [|left; split; [intros a []|now apply ex_single]].
      split; [|split; [|split]].
      * intros p t I. cbn in I. in_cases I; injection I as <- <-;
        do 2 eexists; (split; [reflexivity|]); (split; [discriminate|]); repeat split.
      * intros r m t I. cbn in I. in_cases I.
      * intros t E. cbn in E. injection E as <-. split; [now left|]. discriminate.
      * split; [intros ? ? ? []|discriminate].
    + left. do 2 eexists. split; [reflexivity|]. split; [|left; split; [intros a []|now apply ex_single]].
      split; [|split; [|split]].
      * intros p t I. cbn in I. in_cases I; injection I as <- <-;
        do 2 eexists; (split; [reflexivity|]); (split; [discriminate|]); repeat split.
      * intros r m t I. cbn in I. in_cases I.
      * intros t E. cbn in E. injection E as <-. split; [now left|]. discriminate.
      * split; [intros ? ? ? []|discriminate].
Qed.

(** [fn k<F: Fn(u32) -> u8>(&self, f: F) -> &u32]. *)
Definition ex_closure : signature :=
  Signature "k"
    (Generics true [GpType "F" [BTrait false [] (Path false [Seg "Fn" (PaParen [ty_of "u32"] (Some (ty_of "u8")))])] None] None)
    [ex_self_arg; FaTyped (ex_pat false "f") (ty_of "F")]
    (Some (TRef None false (ty_of "u32"))) None.
Lemma ex_closure_ordinary : ordinary_sig ex_closure.
Proof.
  split; [|split; [|split]].
  - intros p t I. cbn in I. in_cases I; injection I as <- <-.
    do 2 eexists; (split; [reflexivity|]); (split; [discriminate|]); repeat split.
  - intros r m t I. cbn in I. in_cases I.
  - intros t E. cbn in E. injection E as <-. split; [now left|].
    intros W. elim (W _ _ _ _ (or_introl eq_refl)).
  - split; [|discriminate]. intros i b d I. cbn in I. in_cases I. injection I as <- <- <-. repeat split.
Qed.
Lemma ex_closure_fitting (c : bool) :
  fitting (if c then [Attribute (path_of "concretize") None ""] else []) ex_closure.
Proof.
  destruct c; [right|left].
  - split.
    + eexists. split; [now left|]. left. exists false, [], PaNone. reflexivity.
    + intros i l [(d & I)|(f & I & _)].
      * cbn in I. in_cases I. injection I as <- <- <-. right. do 3 eexists. now left.
      * contradiction.
  - split; [intros a []|]. intros i l1 b1 l2 b2 l3 E. unfold all_bounds in E. cbn in E.
    destruct (i =? "F"); cbn in E.
    + destruct l1 as [|? [|]]; try discriminate. destruct l2; discriminate.
    + destruct l1; discriminate.
Qed.
Definition ex_block (tr : option (bool * path)) : item_impl :=
  ItemImpl [] false ex_params tr (TPath (Path false [Seg "S" (PaAngle [GaLifetime "a"; GaType (ty_of "T")])]))
    [IiConst "N" "u8 = 1"; IiFn (FnItem [] VPublic ex_closure);
     IiFn (FnItem [Attribute (path_of "concretize") None ""] VPublic ex_closure)].

Lemma ex_block_items tr : forall i, In i (im_items (ex_block tr)) ->
  (exists f, i = IiFn f /\ ordinary_sig (fi_sig f) /\ fitting (fi_attrs f) (fi_sig f)) \/ (exists k e, i = IiConst k e).
Proof.
  intros i I. cbn in I. in_cases I; subst i; [right; eauto| |];
    left; eexists; (split; [reflexivity|]); (split; [exact ex_closure_ordinary|]).
  - exact (ex_closure_fitting false).
  - exact (ex_closure_fitting true).
Qed.
Lemma ex_params_supported : supported_params ex_params.
Proof. intros p I. cbn in I. in_cases I; subst p; eauto. Qed.

Example ordinary_impls_are_accepted_applies :
  (exists m, automock_impl ex_hash (ex_block None) = Some m)
  /\ (exists m, automock_impl ex_hash (ex_block (Some (false, path_of "Tr"))) = Some m)
  /\ automock_impl ex_hash (ex_block (Some (true, path_of "Tr"))) = None.
Proof.
  split; [|split; [|reflexivity]]; eapply ordinary_impls_are_accepted; try reflexivity; try exact ex_params_supported.
  - intros l E. injection E as <-. reflexivity.
  - now left.
  - intros i I. destruct (ex_block_items _ _ I); auto.
  - intros l E. injection E as <-. reflexivity.
  - right. do 3 eexists. reflexivity.
  - intros i I. destruct (ex_block_items _ _ I); auto.
Qed.

Example ordinary_declarations_are_accepted_applies :
  exists m, mock_macro ex_hash
    (MockDecl [] VPublic "S" ex_params [] [FnItem [] VPublic ex_closure]
       [ex_block (Some (false, path_of "Tr"))]) = Some m.
Proof.
  apply ordinary_declarations_are_accepted.
  - exact ex_params_supported.
  - intros f [<-|[]]. split; [exact ex_closure_ordinary|exact (ex_closure_fitting false)].
  - intros x [<-|[]]. split; [discriminate|]. split; [cbn; eauto|].
    intros i I. destruct (ex_block_items _ _ I); auto.
Qed.

Example ordinary_modules_are_accepted_applies :
  exists g, automock_module VPublic "m"
    (Some [ItCopied "use a::b;"; ItIgnored "impl S {}"; ItFn (FnItem [] VPublic ex_s) false;
           ItForeign (Some "C") [FiFn (FnItem [] VInherited ex_s) false]]) = Some g.
Proof.
  assert (O : forall v, ordinary_fn (FnItem [] v ex_s)).
  { intros v. split; [|split].
    - split; [|split; [|split]].
      + intros p t I. cbn in I. in_cases I; injection I as <- <-;
        do 2 eexists; (split; [reflexivity|]); (split; [discriminate|]); repeat split.
      + intros r m t I. cbn in I. in_cases I.
      + intros t E. cbn in E. injection E as <-. split; [now left|]. discriminate.
      + split; [intros ? ? ? []|discriminate].
    - intros r m c t I. cbn in I. in_cases I.
    - left. split; [intros a []|now apply ex_single]. }
  apply ordinary_modules_are_accepted. intros i I. cbn in I. in_cases I; subst i.
  - right; right. eauto.
  - right; right. eauto.
  - left. eauto.
  - right; left. do 2 eexists. split; [reflexivity|]. intros y [<-|[]].
    do 2 eexists. split; [reflexivity|]. split; [apply O|discriminate].
Qed.
