(** * PropRefuse: what the macros refuse

    Property C69. *)

From Coq Require Import List Bool String Ascii NArith Arith Lia.
From Verif Require Import Ast AstSpec TyEq Rewrite RewriteProofs Derive DeriveSpec Names CallSpec Subst
  SubstProofs Sig SigSpec SigProofs MockFn MockFnSpec MockFnProofs PropOutput Item
  ItemProofs MockItem RefuseSpec Errors ClosureProofs.
Import ListNotations.
Open Scope string_scope.
Open Scope list_scope.

(** ** Lemmas *)

Definition is_macro (t : ty) : bool := match t with TMacro _ | TVerbatim _ => true | _ => false end.

Lemma among_error (f : ty -> bool) (h : garg -> bool) a e :
  (forall t, h (GaType t) = f t) -> (forall i t, h (GaAssocType i t) = f t) ->
  type_among e a -> f e = true -> existsb h a = true.
Proof.
  intros H1 H2 [I|(i & I)] F; apply existsb_exists; eexists; (split; [exact I|]).
  - now rewrite H1.
  - now rewrite H2.
Qed.

Lemma segs_deself g l i a e :
  In (Seg i (PaAngle a)) l -> type_among e a -> deselfify_error g e = true ->
  existsb (deselfify_seg_error g) l = true.
Proof.
  intros I A E. apply existsb_exists. exists (Seg i (PaAngle a)). split; auto. cbn.
  apply orb_true_iff. right.
  apply (among_error (deselfify_error g) _ a e); auto.
Qed.

Lemma macro_deself g u t : inside u t -> is_macro u = true -> deselfify_error g t = true.
Proof.
  intros H M. induction H; cbn [deselfify_error]; auto.
  - destruct u; try discriminate; auto.
  - apply existsb_exists. eauto.
  - cbn. eapply segs_deself; eauto.
  - apply existsb_exists. eexists. split; eauto. cbn. eapply segs_deself; eauto.
Qed.

Lemma segs_subst a0 tr l i a e :
  In (Seg i (PaAngle a)) l -> type_among e a -> substitute_error a0 tr e = true ->
  existsb (substitute_seg_error a0 tr) l = true.
Proof.
  intros I A E. apply existsb_exists. exists (Seg i (PaAngle a)). split; auto. cbn.
  apply (among_error (substitute_error a0 tr) _ a e); auto.
Qed.

Lemma not_self_path a b l : self_start l = false -> get_path a (Path b l) = None.
Proof.
  intros S. destruct b, l as [|[s x] [|[i y] [|]]]; auto. cbn in *. now rewrite S.
Qed.

Lemma macro_subst a tr u t : inside u t -> is_macro u = true -> substitute_error a tr t = true.
Proof.
  intros H M. induction H; cbn [substitute_error]; auto.
  - destruct u; try discriminate; auto.
  - apply existsb_exists. eauto.
  - rewrite not_self_path by auto. cbn. eapply segs_subst; eauto.
  - apply existsb_exists. eexists. split; eauto. cbn [substitute_bound_error].
    rewrite not_self_path by auto. cbn. eapply segs_subst; eauto.
Qed.

Lemma macro_free_of (f : ty -> bool) t :
  (forall u, inside u t -> is_macro u = true -> f t = true) -> f t = false -> macro_free t.
Proof.
  intros H F u I s. split; intros ->; specialize (H _ I eq_refl); congruence.
Qed.

Lemma named_of p : demutify_pat_error p = false -> named p.
Proof.
  destruct p as [r m i s| |]; cbn; try discriminate. intros E.
  apply orb_false_iff in E as [-> ->]. now exists m, i.
Qed.

Lemma existsb_false_in {A} (f : A -> bool) l x : existsb f l = false -> In x l -> f x = false.
Proof.
  intros E I. destruct (f x) eqn:F; auto. exfalso.
  assert (existsb f l = true) by (apply existsb_exists; eauto). congruence.
Qed.

Lemma deself_impl n g b : deselfify n g (TImplTrait b) = TImplTrait b.
Proof. reflexivity. Qed.

Lemma no_receiver name g s :
  without_self s -> ~ has_receiver (sg_inputs (mockable_method name g s)).
Proof.
  intros W (r & m & c & t & I). unfold mockable_method, add_lifetime_parameters in I. cbn in I.
  unfold demutify in I. rewrite !map_map in I. apply in_map_iff in I as (x & E & J).
  destruct x as [r' m' c' t'|p' t'].
  - eapply W. exact J.
  - discriminate.
Qed.

(** One method. *)
Lemma method_supported name g s b :
  mockable_method_error name g s = false ->
  b_sig b = mockable_method name g s -> build_refused b = false ->
  supported s.
Proof.
  unfold mockable_method_error. intros E S R.
  apply orb_false_iff in E as [E SC]. apply orb_false_iff in E as [E EO].
  apply orb_false_iff in E as [E EL]. apply orb_false_iff in E as [EP ES]. split.
  - intros p t I. split; [|split; [|split]].
    + apply named_of. apply (existsb_false_in _ _ _ EP I).
    + apply (macro_free_of (deselfify_error g)).
      * intros u. apply macro_deself.
      * cbn [with_inputs sg_inputs] in ES.
        assert (J : In (FaTyped (demutify_pat p) t) (demutify (sg_inputs s))).
        { unfold demutify. change (FaTyped (demutify_pat p) t) with (demutify_arg (FaTyped p t)).
          now apply in_map. }
        apply (existsb_false_in _ _ _ ES J).
    + intros b' ->.
      assert (J : In (FaTyped (demutify_pat p) (TImplTrait b')) (sg_inputs (mockable_method name g s))).
      { unfold mockable_method, add_lifetime_parameters, demutify. cbn. rewrite !map_map.
        apply in_map_iff. exists (FaTyped p (TImplTrait b')). split; auto. }
      apply (existsb_false_in _ _ _ SC) in J. discriminate.
    + assert (X : add_to_type_error (demutify_pat p) (deselfify name g t) = false).
      { unfold add_lifetime_parameters_error in EL. cbn [with_inputs sg_inputs] in EL.
        apply (existsb_false_in _ _ (FaTyped (demutify_pat p) (deselfify name g t)) EL).
        unfold demutify. rewrite map_map. apply in_map_iff. exists (FaTyped p t). auto. }
      split; intros ->; discriminate.
  - intros t O. rewrite O in EO. split.
    + destruct t; cbn [deimplify] in EO;
        try (apply orb_false_iff in EO as [EO _]; apply (macro_free_of (deselfify_error g));
             [intros u; apply macro_deself|exact EO]).
      intros u I v. inversion I; subst; split; discriminate.
    + intros W l m e ->. cbn [deimplify] in EO.
      destruct l as [l|].
      2: { exfalso. unfold build_refused in R.
           destruct (prepared b) as [[[[dg di] ce] sg]|]; [|discriminate].
           destruct (build b) as [f|] eqn:B; [|discriminate].
           repeat (apply orb_false_iff in R as [R ?]).
           assert (X : build_error b = true).
           { apply static_functions_cannot_borrow. split; [eauto|]. rewrite S. split.
             - now apply no_receiver.
             - eexists _, m. split.
               + cbn [mockable_method with_output sg_output with_generics with_inputs
                      add_lifetime_parameters]. rewrite O. reflexivity.
               + eexists _, _. split; [reflexivity|discriminate]. }
           congruence. }
      destruct (String.eqb_spec l "static") as [->|N1]; auto.
      destruct (String.eqb_spec l "_") as [->|N2]; auto. exfalso.
      unfold build_refused in R.
      destruct (prepared b) as [[[[dg di] ce] sg]|]; [|discriminate].
      destruct (build b) as [f|] eqn:B; [|discriminate].
      repeat (apply orb_false_iff in R as [R ?]).
      assert (X : build_error b = true).
      { apply static_functions_cannot_borrow. split; [eauto|]. rewrite S. split.
        - now apply no_receiver.
        - eexists _, m. split.
          + cbn [mockable_method with_output sg_output with_generics with_inputs
                 add_lifetime_parameters]. rewrite O. reflexivity.
          + eexists _, _. split; [reflexivity|]. cbn. unfold deanonymize_lifetime.
            destruct (String.eqb_spec l "_"); congruence. }
      congruence.
Qed.

(** With its associated types replaced. *)
Lemma substituted_supported a tr s :
  substitute_sig_error a tr s = false -> supported (substitute_sig a tr s) -> supported s.
Proof.
  unfold substitute_sig_error. intros E [A O]. apply orb_false_iff in E as [EA EO]. split.
  - intros p t I.
    assert (J : In (FaTyped p (substitute_type a tr t)) (sg_inputs (substitute_sig a tr s))).
    { cbn. apply in_map_iff. exists (FaTyped p t). auto. }
    destruct (A _ _ J) as (N & _ & X & Y & Z). split; [exact N|]. split; [|split; [|split]].
    + apply (macro_free_of (substitute_error a tr)).
      * intros u. apply macro_subst.
      * apply (existsb_false_in _ _ _ EA I).
    + intros b ->. now apply (X (map (substitute_bound a tr) b)).
    + intros ->. now apply Y.
    + intros ->. now apply Z.
  - intros t T. rewrite T in EO. split.
    + apply (macro_free_of (substitute_error a tr)); auto. intros u. apply macro_subst.
    + intros W l m e ->. apply (O (TRef l m (substitute_type a tr e))) with (m := m) (e := substitute_type a tr e).
      * cbn. now rewrite T.
      * intros r q c u I. cbn in I. apply in_map_iff in I as ([r' q' c' u'|p' u'] & X & J); try discriminate.
        eapply W. exact J.
      * reflexivity.
Qed.

Lemma unless_some {A} r (x : option A) y : unless r x = Some y -> r = false /\ x = Some y.
Proof. unfold unless. destruct r; [discriminate|auto]. Qed.

Lemma impl_refused hash n g v x f :
  new_trait_refused hash n g v x = false -> In f (impl_fns x) ->
  exists ss, build_refused (trait_builder n g v ss f) = false.
Proof.
  unfold new_trait_refused. destruct (new_trait hash n g x v) as [t|]; [|discriminate].
  intros E I. exists (mt_ss_name t). exact (existsb_false_in _ _ _ E I).
Qed.

Lemma mock_params hash m r : mock_it hash m = Some r -> supported_params (ms_generics m).
Proof.
  unfold mock_it, from_mockable.
  destruct (all_some _ (ms_methods m)); [|discriminate].
  destruct (all_some _ (ms_impls m)); [|discriminate].
  unfold gen_struct_error. cbn [mi_generics]. destruct (phantom_error (ms_generics m)) eqn:P; [discriminate|].
  intros _ p I. apply (existsb_false_in _ _ _ P) in I.
  destruct p as [l' [|]|i b d|i t d]; try discriminate; eauto 6.
Qed.

Lemma in_impl_fns x f : In f (impl_fns x) <-> In (IiFn f) (im_items x).
Proof.
  unfold impl_fns. rewrite in_flat_map. split.
  - intros (i & I & J). destruct i; cbn in J; try contradiction. destruct J as [->|[]]. exact I.
  - intros I. exists (IiFn f). split; auto. now left.
Qed.

Lemma impl_type_in l n : assoc_get (parse_attrs l) n <> None -> exists u, In (n, Some u) l.
Proof.
  unfold parse_attrs.
  assert (G : forall k a, assoc_get (fold_left (fun a x => match snd x with
                        | Some t => assoc_insert a (fst x) t
                        | None => a
                        end) k a) n <> None -> (exists u, In (n, Some u) k) \/ assoc_get a n <> None).
  { induction k as [|[i [t|]] k IH]; intros a; cbn [fold_left fst snd]; auto.
    - intros H. apply IH in H as [(u & H)|H]; [left; exists u; now right|].
      assert (X : i = n \/ assoc_get a n <> None).
      { destruct (String.eqb_spec i n) as [E|E]; [now left|]. right.
        clear IH. induction a as [|[j u] a IHa]; cbn in H.
        - destruct (String.eqb_spec n i); [congruence|]. now elim H.
        - cbn. destruct (String.eqb_spec i j) as [->|NE]; cbn in H.
          + destruct (String.eqb_spec n j); congruence.
          + destruct (String.eqb_spec n j); auto. }
      destruct X as [->|X]; [left; exists t; now left|now right].
    - intros H. apply IH in H as [(u & H)|H]; [left; exists u; now right|now right]. }
  intros H. apply G in H as [H|H]; auto. now elim H.
Qed.

(** ** C69: what is refused *)

(** A trait for which [automock] generates something has only methods that can
    be mocked, constants with a value, and types that are given in the
    attribute. *)
Theorem unsupported_traits_are_refused :
  forall (hash : list pargs -> N) (l : list (ident * option ty)) (t : item_trait) (m : gen_mock),
    automock_trait hash l t = Some m ->
    (forall n, ~ In (n, None) l)
    /\ supported_params (it_generics t)
    /\ forall i, In i (it_items t) ->
         (exists a s, i = TiFn a s /\ supported s)
         \/ (exists n u e, i = TiConst n u (Some e))
         \/ (exists n b d u, i = TiType n b d /\ In (n, Some u) l).
Proof.
  intros hash l t m H. unfold automock_trait in H. apply unless_some in H as [R G].
  apply orb_false_iff in R as [R M]. apply orb_false_iff in R as [P F]. split; [|split].
  - intros n I. apply (existsb_false_in _ _ _ P) in I. discriminate.
  - apply mock_params in G. exact G.
  - set (a := parse_attrs l) in *. unfold from_trait_error in F.
    apply orb_false_iff in F as [FS FM]. intros i I.
    assert (ES := existsb_false_in _ _ _ FS I). cbv beta in ES.
    assert (I' : In (substitute_trait_item a (it_ident t) i) (it_items (substitute_trait a t))).
    { cbn. now apply in_map. }
    assert (EM := existsb_false_in _ _ _ FM I'). clear FS FM.
    destruct i as [n u [e|]|at_ s|n b d|s]; cbn in ES, EM.
    + right; left; eauto.
    + discriminate.
    + left. exists at_, s. split; auto.
      apply (substituted_supported a (it_ident t)); auto.
      unfold mock_it_refused in M. apply orb_false_iff in M as [M _]. apply orb_false_iff in M as [_ M].
      apply (existsb_false_in _ _ (mockable_trait (substitute_trait a t) (gen_mock_ident (it_ident t)) (it_generics t))) in M;
        [|now left].
      eapply impl_refused in M as (ss & B).
      2: { apply in_impl_fns. cbn [mockable_trait im_items].
           apply (in_map (mockable_trait_item (gen_mock_ident (it_ident t)) (it_generics t))) in I'.
           cbn [substitute_trait_item mockable_trait_item] in I'. exact I'. }
      eapply method_supported; [exact EM| |exact B]. reflexivity.
    + right; right. destruct (assoc_get a n) as [u|] eqn:A; [|discriminate].
      destruct (impl_type_in l n) as (u' & J); [fold a; congruence|]. exists n, b, d, u'. auto.
    + discriminate.
Qed.
Print Assumptions unsupported_traits_are_refused.

(** An impl block for which [automock] generates something is that of a
    structure or trait of the same module, without elided lifetimes, and has
    only methods that can be mocked, constants and, for a trait, types. *)
Theorem unsupported_impls_are_refused :
  forall (hash : list pargs -> N) (x : item_impl) (m : gen_mock),
    automock_impl hash x = Some m ->
    supported_params (im_generics x)
    /\ (exists b i a, (im_self x = TPath (Path b [Seg i a]) \/ exists q n, im_self x = TQPath q n (Path b [Seg i a]))
                      /\ forall l, a = PaAngle l -> List.length l = List.length (params (im_generics x)))
    /\ (forall neg p, im_trait x = Some (neg, p) -> neg = false /\ exists b i a, p = Path b [Seg i a])
    /\ forall i, In i (im_items x) ->
         (exists f, i = IiFn f /\ supported (fi_sig f))
         \/ (exists n e, i = IiConst n e)
         \/ (exists n u, i = IiType n u) /\ im_trait x <> None.
Proof.
  intros hash x m H. unfold automock_impl in H. apply unless_some in H as [R G].
  apply orb_false_iff in R as [F M]. unfold from_impl_error in F.
  apply orb_false_iff in F as [F FI]. apply orb_false_iff in F as [FN FE].
  destruct (impl_name x) as [n|] eqn:N; [|discriminate].
  split; [|split; [|split]].
  - apply mock_params in G. unfold from_impl in G. rewrite N in G.
    destruct (im_trait x) as [[]|]; exact G.
  - unfold impl_name in N. unfold elided_generics in FE.
    destruct (im_self x) as [| | | | | | | |p|q k p| | | | | |]; try discriminate;
      destruct p as [b [|[i a] [|]]]; try discriminate; exists b, i, a; (split; [eauto|]);
      intros l ->; apply negb_false_iff, Nat.eqb_eq in FE; auto.
  - intros neg p T. rewrite T in FI.
    apply orb_false_iff in FI as [FI _]. apply orb_false_iff in FI as [FI _].
    apply orb_false_iff in FI as [FI _]. apply orb_false_iff in FI as [-> FP]. split; auto.
    destruct p as [b [|[i a] [|]]]; try discriminate. eauto.
  - intros i I. unfold mock_it_refused in M. apply orb_false_iff in M as [M _].
    apply orb_false_iff in M as [MM MI]. unfold from_impl in MM, MI. rewrite N in MM, MI.
    destruct (im_trait x) as [[neg p]|] eqn:T.
    + apply orb_false_iff in FI as [FI FB]. apply orb_false_iff in FI as [FI FS].
      apply orb_false_iff in FI as [FI FO]. apply orb_false_iff in FI as [_ FP].
      destruct i as [c e|f|c u|s].
      * right; left; eauto.
      * left. exists f. split; auto.
        set (a := impl_types (im_items x)) in *.
        set (tr := match path_ident p with Some i => i | None => "" end) in *.
        apply (substituted_supported a tr).
        { apply (existsb_false_in _ _ f FS). now apply in_impl_fns. }
        cbn [ms_impls ms_name ms_generics ms_vis existsb] in MI. apply orb_false_iff in MI as [MI _].
        assert (J : In (IiFn (FnItem (fi_attrs f) (fi_vis f) (substitute_sig a tr (fi_sig f))))
                       (im_items (substitute_item_impl a tr x))).
        { unfold substitute_item_impl. cbn [im_items].
          apply (in_map (on_sig (substitute_sig a tr))) in I. exact I. }
        eapply impl_refused in MI as (ss & B).
        2: { apply in_impl_fns. cbn [mockable_item_impl im_items].
             apply (in_map (on_sig (mockable_method (gen_mock_ident n) (im_generics x)))) in J.
             cbn [on_sig fi_attrs fi_vis fi_sig] in J. exact J. }
        unfold mockable_item_impl_error in FB. apply orb_false_iff in FB as [_ FB].
        eapply method_supported; [| |exact B]; [|reflexivity].
        apply (existsb_false_in _ _ (FnItem (fi_attrs f) (fi_vis f) (substitute_sig a tr (fi_sig f))) FB).
        now apply in_impl_fns.
      * right; right. split; [eauto|discriminate].
      * apply (existsb_false_in _ _ _ FO) in I. discriminate.
    + apply orb_false_iff in FI as [FO FB].
      destruct i as [c e|f|c u|s].
      * right; left; eauto.
      * left. exists f. split; auto.
        apply in_impl_fns in I.
        assert (E := existsb_false_in _ _ _ FB I). cbv beta in E.
        apply (in_map (fun f => FnItem (fi_attrs f) (fi_vis f)
                 (mockable_method (gen_mock_ident n) (im_generics x) (fi_sig f)))) in I.
        apply (existsb_false_in _ _ _ MM) in I.
        eapply method_supported; [exact E| |exact I]. reflexivity.
      * apply (existsb_false_in _ _ _ FO) in I. discriminate.
      * apply (existsb_false_in _ _ _ FO) in I. discriminate.
Qed.
Print Assumptions unsupported_impls_are_refused.

(** A [mock!] for which something is generated has only methods that can be
    mocked, and only blocks of traits, for types of the same module, without
    macros. *)
Theorem unsupported_declarations_are_refused :
  forall (hash : list pargs -> N) (d : mock_decl) (m : gen_mock),
    mock_macro hash d = Some m ->
    supported_params (md_generics d)
    /\ (forall f, In f (md_methods d) -> supported (fi_sig f))
    /\ forall x, In x (md_impls d) ->
         im_trait x <> None
         /\ (exists b s, im_self x = TPath (Path b [s]) \/ exists q n, im_self x = TQPath q n (Path b [s]))
         /\ (forall s, ~ In (IiOther s) (im_items x))
         /\ forall f, In (IiFn f) (im_items x) -> supported (fi_sig f).
Proof.
  intros hash d m H. unfold mock_macro in H. apply unless_some in H as [R G].
  apply orb_false_iff in R as [F M]. unfold from_mock_error in F. apply orb_false_iff in F as [FM FI].
  split; [|split].
  - apply mock_params in G. exact G.
  - intros f I. assert (E := existsb_false_in _ _ _ FM I). cbv beta in E.
    unfold mock_it_refused in M. apply orb_false_iff in M as [M _]. apply orb_false_iff in M as [M _].
    apply (in_map (fun f => FnItem (fi_attrs f) (fi_vis f)
             (mockable_method (gen_mock_ident (md_name d)) (md_generics d) (fi_sig f)))) in I.
    apply (existsb_false_in _ _ _ M) in I.
    eapply method_supported; [exact E| |exact I]. reflexivity.
  - intros x I. assert (E := existsb_false_in _ _ _ FI I). cbv beta in E.
    unfold mockable_item_impl_error in E. apply orb_false_iff in E as [ES EM].
    unfold mock_it_refused in M. apply orb_false_iff in M as [M _]. apply orb_false_iff in M as [_ M].
    apply (in_map (fun x => mockable_item_impl x (gen_mock_ident (md_name d)) (md_generics d))) in I.
    apply (existsb_false_in _ _ _ M) in I. split; [|split; [|split]].
    + intros T. unfold new_trait_refused, new_trait in I. cbn [mockable_item_impl im_trait] in I.
      rewrite T in I. discriminate.
    + unfold mock_ident_in_type_error in ES.
      destruct (im_self x) as [| | | | | | | |p|q k p| | | | | |]; try discriminate;
        destruct p as [b [|s [|]]]; try discriminate; eauto 6.
    + intros s J. unfold new_trait_refused, new_trait in I.
      destruct (im_trait _) as [[]|]; [|discriminate]. destruct (self_path _); [|discriminate].
      replace (existsb (fun i => match i with IiOther _ => true | _ => false end)
        (im_items (mockable_item_impl x (gen_mock_ident (md_name d)) (md_generics d)))) with true in I;
        [discriminate|]. symmetry. apply existsb_exists. exists (IiOther s). split; auto.
      cbn [mockable_item_impl im_items].
      apply (in_map (on_sig (mockable_method (gen_mock_ident (md_name d)) (md_generics d)))) in J. exact J.
    + intros f J. apply in_impl_fns in J. assert (E := existsb_false_in _ _ _ EM J). cbv beta in E.
      eapply impl_refused in I as (ss & B).
      2: { apply in_impl_fns. cbn [mockable_item_impl im_items]. apply in_impl_fns in J.
           apply (in_map (on_sig (mockable_method (gen_mock_ident (md_name d)) (md_generics d)))) in J. exact J. }
      eapply method_supported; [exact E| |exact B]. reflexivity.
Qed.
Print Assumptions unsupported_declarations_are_refused.

(** ** Modules *)

Lemma refused_static b :
  build_refused b = false -> without_self (b_sig b) ->
  forall l m e, sg_output (b_sig b) = Some (TRef l m e) -> l = Some "static".
Proof.
  intros R W l m e O. unfold build_refused in R.
  destruct (prepared b) as [[[[dg di] ce] sg]|]; [|discriminate].
  destruct (build b) as [f|] eqn:B; [|discriminate].
  repeat (apply orb_false_iff in R as [R ?]).
  destruct (match l with Some k => k =? "static" | None => false end) eqn:L.
  - destruct l as [k|]; [|discriminate]. apply String.eqb_eq in L. now subst.
  - exfalso. assert (X : build_error b = true); [|congruence].
    apply static_functions_cannot_borrow. split; [eauto|]. split.
    + intros (r & q & c & t & I). eapply W. exact I.
    + exists (TRef l m e), m. split; auto. exists l, e. split; auto. intros ->. discriminate.
Qed.

Lemma refused_patterns b p t :
  build_refused b = false -> In (FaTyped p t) (sg_inputs (b_sig b)) -> named p.
Proof.
  intros R I. unfold build_refused in R.
  destruct (prepared b) as [[[[dg di] ce] sg]|]; [|discriminate].
  destruct (build b) as [f|] eqn:B; [|discriminate].
  repeat (apply orb_false_iff in R as [R ?]). apply named_of.
  destruct (b_concretize b).
  - unfold concretize_error in R. apply orb_false_iff in R as [_ R]. exact (existsb_false_in _ _ _ R I).
  - exact (existsb_false_in _ _ _ R I).
Qed.

Lemma end_error p e : end_of_path p e -> supersuperfy_error e = true -> supersuperfy_path_error p = true.
Proof.
  intros H E.
  assert (L : forall b l x, supersuperfy_path_error (Path b (l ++ [x])) = supersuperfy_seg_error x).
  { intros b l x. cbn [supersuperfy_path_error]. induction l as [|y [|z l] IH]; cbn [app]; auto. }
  destruct H as [b l i a e A|b l i a o e [A|A]]; rewrite L; cbn [supersuperfy_seg_error supersuperfy_pargs_error].
  - apply (among_error supersuperfy_error _ a e); auto.
  - apply orb_true_iff. left. apply existsb_exists. eauto.
  - subst. rewrite E. apply orb_true_r.
Qed.

Lemma macro_met u t : met u t -> is_macro u = true -> supersuperfy_error t = true.
Proof.
  intros H M. induction H; cbn [supersuperfy_error]; auto.
  - destruct u; try discriminate; auto.
  - apply existsb_exists. eauto.
  - apply orb_true_iff. right. apply existsb_exists. eauto.
  - rewrite IHmet by auto. reflexivity.
  - eapply end_error; eauto.
  - rewrite IHmet by auto. reflexivity.
  - apply orb_true_iff. right. eapply end_error; eauto.
  - apply existsb_exists. eexists. split; eauto. cbn. eapply end_error; eauto.
Qed.

Lemma no_macro_of t : supersuperfy_error t = false -> no_macro_met t.
Proof.
  intros F u I s. split; intros ->; pose proof (macro_met _ _ I eq_refl); congruence.
Qed.

Lemma refused_types b :
  build_refused b = false ->
  (forall p t, In (FaTyped p t) (sg_inputs (b_sig b)) -> no_macro_met t) /\
  (forall t, sg_output (b_sig b) = Some t -> no_macro_met t).
Proof.
  intros R. unfold build_refused in R.
  destruct (prepared b) as [[[[dg di] ce] sg]|] eqn:P; [|discriminate].
  destruct (build b) as [f|] eqn:B; [|discriminate].
  do 6 (apply orb_false_iff in R as [R ?]). split.
  - intros p t I. apply no_macro_of.
    assert (K : forall q t', In (FaTyped q t') di -> supersuperfy_error t' = false).
    { intros q t' J. match goal with X : existsb _ di = false |- _ => exact (existsb_false_in _ _ _ X J) end. }
    unfold prepared in P. destruct (b_concretize b).
    + unfold concretize_args in P. injection P as _ <- _ _.
      apply (in_map (concretized_arg (sg_generics (b_sig b)))) in I. cbn [concretized_arg] in I.
      destruct (lookup t _) as [e|] eqn:L; [|exact (K _ _ I)].
      apply lookup_some in L. unfold conc_types in L. apply in_rev in L.
      apply in_flat_map in L as ((i & l) & _ & L). cbn [fst snd] in L. unfold save_types in L.
      destruct l as [|x l]; [contradiction|].
      destruct L as [L|[L|[L|[L|[]]]]]; injection L as <- _; reflexivity.
    + destruct (declosurefy _ _) as [[[x y] z]|] eqn:D; [|discriminate]. injection P as <- <- <- _.
      unfold declosurefy in D. destruct (distinct_keys _); [|discriminate]. injection D as _ <- _.
      apply (in_map (declosured_arg (sg_generics (b_sig b)))) in I. cbn [declosured_arg] in I.
      destruct (lookup t _) as [e|] eqn:L; [|exact (K _ _ I)].
      apply lookup_some, in_fn_types in L as (i & l & bd & -> & _). reflexivity.
  - intros t O. apply no_macro_of.
    match goal with X : opt_error _ _ = false |- _ => rewrite O in X; exact X end.
Qed.

(** What the functions of a mocked module are like. *)
Definition supported_fn (s : signature) : Prop :=
  (forall p t, In (FaTyped p t) (sg_inputs s) -> named p /\ no_macro_met t)
  /\ (forall t, sg_output s = Some t -> no_macro_met t)
  /\ (without_self s -> forall l m e, sg_output s = Some (TRef l m e) -> l = Some "static").

(** A module for which [automock] generates something is written out, and its
    functions can be mocked. *)
Theorem unsupported_modules_are_refused :
  forall (vis : visibility) (n : ident) (content : option (list item)) (g : gen_module),
    automock_module vis n content = Some g ->
    exists items,
      content = Some items
      /\ forall i, In i items ->
           (exists f u, i = ItFn f u /\ supported_fn (fi_sig f))
           \/ (exists abi l, i = ItForeign abi l
                 /\ forall y, In y l -> exists f u, y = FiFn f u /\ supported_fn (fi_sig f))
           \/ (exists s, i = ItCopied s \/ i = ItIgnored s).
Proof.
  intros vis n [items|] g H; [|discriminate]. exists items. split; auto.
  unfold automock_module in H. apply unless_some in H as [R G].
  apply orb_false_iff in R as [RM RB]. cbn [from_module mm_content mm_mock_ident] in RB.
  intros i I. assert (EM := existsb_false_in _ _ _ RM I).
  assert (I' := in_map mockable_item _ _ I).
  assert (EB := existsb_false_in _ _ _ RB I'). 
  assert (C : item_content (gen_mock_module_ident n) (mockable_item i) <> None).
  { intros C. unfold gen_mod, module_content in G. cbn [from_module mm_content mm_mock_ident] in G.
    replace (all_some (item_content (gen_mock_module_ident n)) (map mockable_item items)) with (@None (list (list content))) in G;
      [discriminate|]. symmetry. clear - I C. induction items as [|y l IH]; [contradiction|]. cbn [map all_some].
    destruct I as [->|I]; [now rewrite C|]. rewrite (IH I). now destruct (item_content _ (mockable_item y)). }
  destruct i as [f u|abi l|s|s|s|s]; cbn [mockable_item item_refused mockable_item_error item_content] in *.
  - left. exists f, u. split; auto. destruct (refused_types _ EB) as [TI TO].
    cbn [module_builder b_sig fi_sig sg_inputs sg_output with_inputs] in TI, TO. split; [|split].
    + intros p t J. split; [apply named_of; exact (existsb_false_in _ _ _ EM J)|].
      apply (in_map demutify_arg) in J. exact (TI _ _ J).
    + intros t O. destruct t; try (apply TO; cbn; rewrite O; reflexivity).
      intros v M s. inversion M. split; discriminate.
    + intros W l m e O. eapply refused_static in EB; cbn [module_builder b_sig fi_sig] in *.
      * exact EB.
      * intros r q c t J. cbn in J. unfold demutify in J. apply in_map_iff in J as (x & X & J).
        destruct x as [[?|] ? ? ?|p' t']; try discriminate; eapply W; exact J.
      * cbn. rewrite O. reflexivity.
  - right; left. exists abi, l. split; auto. intros y J. assert (E := existsb_false_in _ _ _ EB J).
    destruct y as [f u|s]; [|discriminate]. exists f, u. split; auto. destruct (refused_types _ E) as [TI TO].
    cbn in TI, TO. split; [|split; [exact TO|]].
    + intros p t K. split; [apply (refused_patterns _ p t E); exact K|exact (TI _ _ K)].
    + intros W l' m e O. apply (refused_static _ E) with (m := m) (e := e); auto.
  - right; right; eauto.
  - right; right; eauto.
  - now elim C.
  - now elim C.
Qed.
Print Assumptions unsupported_modules_are_refused.

(** But [impl Trait] arguments of the functions of a module are not refused. *)
Theorem module_impl_arguments_refuted :
  exists (items : list item) (f : fn_item) (p : pat) (b : list bound) (g : gen_module),
    In (ItFn f false) items
    /\ In (FaTyped p (TImplTrait b)) (sg_inputs (fi_sig f))
    /\ automock_module VPublic "m" (Some items) = Some g
    /\ exists c, In (GiPrivmod c) (gd_body g) /\ In (p, TImplTrait b) (gp_args c).
Proof.
  set (b := [BTrait false [] (path_of "Tr")]).
  set (p := PatIdent false false "x" false).
  set (f := FnItem [] VPublic (Signature "f" no_generics [FaTyped p (TImplTrait b)] None None)).
  exists [ItFn f false], f, p, b.
  destruct (automock_module VPublic "m" (Some [ItFn f false])) as [g|] eqn:E; [|vm_compute in E; discriminate].
  exists g. split; [now left|]. split; [now left|]. split; auto.
  vm_compute in E. injection E as <-.
  eexists. split; [left; reflexivity|]. left. reflexivity.
Qed.
Print Assumptions module_impl_arguments_refuted.

(** Each of these differs from an accepted trait, impl block, declaration or
    module in one place. *)
Definition rx_hash (l : list pargs) : N := N.of_nat (List.length l).
Definition rx_self : fnarg := FaReceiver (Some None) false false (TRef None false (ty_of "Self")).
Definition rx_arg (t : ty) : fnarg := FaTyped (PatIdent false false "x" false) t.
Definition rx_trait (l : list trait_item) : item_trait := ItemTrait [] VPublic false "Tr" no_generics l.
Definition rx_fn (args : list fnarg) (o : option ty) : signature := Signature "f" no_generics args o None.
Definition rx_impl (p : bool) (b : bool) (g : generics) (l : list impl_item) : item_impl :=
  ItemImpl [] false g (if p then Some (b, path_of "Tr") else None)
    (TPath (Path false [Seg "S" (PaAngle [GaType (ty_of "T")])])) l.
Definition rx_params : generics := Generics true [GpType "T" [] None] None.
Definition accepts {A} (x : option A) : bool := match x with Some _ => true | None => false end.

Example unsupported_traits_are_refused_applies :
  let try_ l := accepts (automock_trait rx_hash [] (rx_trait l)) in
  try_ [TiFn [] (rx_fn [rx_self; rx_arg (ty_of "u32")] (Some (TRef None false (ty_of "u32"))))] = true
  /\ try_ [TiFn [] (rx_fn [rx_self; rx_arg (TMacro "m!()")] None)] = false
  /\ try_ [TiFn [] (rx_fn [rx_self; rx_arg (TImplTrait [BTrait false [] (path_of "A")])] None)] = false
  /\ try_ [TiFn [] (rx_fn [rx_self; FaTyped (PatOther "(a, b)") (TTuple [ty_of "A"; ty_of "B"])] None)] = false
  /\ try_ [TiFn [] (rx_fn [rx_arg (ty_of "u32")] (Some (TRef None false (ty_of "u32"))))] = false
  /\ try_ [TiFn [] (rx_fn [rx_arg (ty_of "u32")] (Some (TRef (Some "static") false (ty_of "u32"))))] = true
  /\ try_ [TiConst "N" "u8" None] = false
  /\ try_ [TiConst "N" "u8" (Some "1")] = true
  /\ try_ [TiType "A" [] None] = false
  /\ try_ [TiOther "m!();"] = false
  /\ accepts (automock_trait rx_hash [] (ItemTrait [] VPublic false "Tr" (Generics true [GpConst "N" (ty_of "u8") None] None) [])) = false.
Proof. repeat split. Qed.

Example unsupported_impls_are_refused_applies :
  let f t := IiFn (FnItem [] VPublic (rx_fn [rx_self; rx_arg t] None)) in
  let try_ p b g l := accepts (automock_impl rx_hash (rx_impl p b g l)) in
  try_ false false rx_params [f (ty_of "u32"); IiConst "N" "u8 = 1"] = true
  /\ try_ false false rx_params [f (TVerbatim "?")] = false
  /\ try_ false false no_generics [f (ty_of "u32")] = false
  /\ try_ false false rx_params [f (ty_of "u32"); IiType "A" (ty_of "u8")] = false
  /\ try_ true false rx_params [f (ty_of "u32"); IiType "A" (ty_of "u8")] = true
  /\ try_ true true rx_params [f (ty_of "u32"); IiType "A" (ty_of "u8")] = false
  /\ try_ true false rx_params [IiOther "m!();"] = false.
Proof. repeat split. Qed.

Example unsupported_declarations_are_refused_applies :
  let f t := FnItem [] VPublic (rx_fn [rx_self; rx_arg t] None) in
  let try_ m i := accepts (mock_macro rx_hash (MockDecl [] VPublic "S" rx_params [] m i)) in
  try_ [f (ty_of "u32")] [rx_impl true false rx_params [IiFn (f (ty_of "u32"))]] = true
  /\ try_ [f TNever] [] = false
  /\ try_ [] [rx_impl false false rx_params [IiFn (f (ty_of "u32"))]] = false
  /\ try_ [] [rx_impl true false rx_params [IiFn (f (TPtr true (TMacro "m!()")))]] = false
  /\ try_ [] [rx_impl true false rx_params [IiOther "m!();"]] = false.
Proof. repeat split. Qed.

Example unsupported_modules_are_refused_applies :
  let f t := FnItem [] VPublic (rx_fn [rx_arg t] None) in
  let try_ l := accepts (automock_module VPublic "m" l) in
  try_ (Some [ItFn (f (ty_of "u32")) false; ItCopied "use a;"; ItForeign (Some "C") [FiFn (f (ty_of "u8")) false]]) = true
  /\ try_ None = false
  /\ try_ (Some [ItFn (f (TMacro "m!()")) false]) = false
  /\ try_ (Some [ItFn (f (ty_of "u32")) false; ItForeign (Some "C") [FiOther "static X: u8;"]]) = false
  /\ try_ (Some [ItNested "mod n {}"]) = false
  /\ try_ (Some [ItOther "m!();"]) = false.
Proof. repeat split. Qed.
