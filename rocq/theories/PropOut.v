(** * PropOut: [#[automock]] is short for [mock!] (C87) *)

From Coq Require Import List Bool String NArith Arith Lia.
From Verif Require Import Ast AstSpec TyEq Rewrite Derive DeriveSpec Names Subst SubstProofs PropSubst Sig MockFn Item
  ItemProofs MockItem Errors BodySpec PipeSpec PropPipeline PropBody AttrProofs EndSpec EndProofs PropEnd Front FrontSpec PropFront.
Import ListNotations.
Open Scope string_scope.
Open Scope list_scope.

Lemma args_named g : type_args g = param_args g.
Proof.
  unfold type_args, param_args. destruct (params g) as [|p ps]; [reflexivity|].
  unfold lifetimes_first. f_equal. f_equal. f_equal.
  all: apply filter_ext; intros []; reflexivity.
Qed.

Lemma where_same g : with_where g (where_clause g) = g.
Proof. destruct g; reflexivity. Qed.

Lemma sig_substituted a tr s : substitute_sig_error a tr s = false -> plain_sig s ->
  substitute_sig a tr s = sig_out (assoc_get a) tr s.
Proof.
  intros E [P1 P2]. unfold substitute_sig_error in E. apply orb_false_iff in E as [E1 E2].
  unfold substitute_sig, with_output, with_inputs, sig_out. cbn. f_equal.
  - apply map_ext_in. intros [r m c u|p u] I; auto. cbn [substitute_arg]. f_equal.
    apply (proj1 (substituted a tr)); [|eauto].
    destruct (substitute_error a tr u) eqn:X; auto.
    assert (Y : existsb (fun x => match x with
       | FaTyped _ t0 => substitute_error a tr t0
       | FaReceiver _ _ _ _ => false end) (sg_inputs s) = true).
    { apply existsb_exists. exists (FaTyped p u). auto. }
    congruence.
  - destruct (sg_output s) as [u|] eqn:O; auto. cbn. f_equal. apply (proj1 (substituted a tr)); auto.
Qed.

(** Only what the macros make of the declarations counts. *)
Lemma same_mockable hash d m g : from_mock d = m -> from_mock_error d = false ->
  mock_it_refused hash m = false -> mock_it hash m = Some g -> mock_macro hash d = Some g.
Proof. intros <- E R G. unfold mock_macro. now rewrite E, R. Qed.

Lemma existsb_no {A} (f : A -> bool) l x : existsb f l = false -> In x l -> f x = false.
Proof.
  intros E I. destruct (f x) eqn:X; auto. rewrite <- E. symmetry. apply existsb_exists. eauto.
Qed.
Lemma existsb_not {A} (f : A -> bool) l : (forall x, In x l -> f x = false) -> existsb f l = false.
Proof.
  intros H. destruct (existsb f l) eqn:E; auto. apply existsb_exists in E as (x & I & X). now rewrite (H x I) in X.
Qed.

(** ** Traits *)

Definition out_item (i : trait_item) : raw_impl_item :=
  match i with
  | TiFn at_ s => RaBare (FnItem at_ VInherited s)
  | TiConst n t (Some e) => RaConst n (t ++ " = " ++ e)
  | TiType n _ (Some t) => RaType n t
  | _ => RaOther ""
  end.
Definition out_impl (i : trait_item) : impl_item :=
  match i with
  | TiFn at_ s => IiFn (FnItem at_ VInherited s)
  | TiConst n t (Some e) => IiConst n (t ++ " = " ++ e)
  | TiType n _ (Some t) => IiType n t
  | _ => IiOther ""
  end.

(** For every trait that [#[automock]] accepts there is a call of [mock!] that makes the same
    mock. *)
Theorem automocked_traits_can_be_written_out :
  forall hash l t k g,
  do_automock hash (map type_attr l) (RmTrait t) = Expands k (GMock g) ->
  (forall at_ s, In (TiFn at_ s) (it_items t) -> plain_sig s) ->
  exists types r, defined l types /\ trait_out types t r /\ do_mock hash r = Expands None (GMock g).
Proof.
  intros hash l t k g H P. unfold do_automock in H. rewrite attrs_read, attrs_no_error in H.
  cbn [mock_item_of] in H. set (l' := map _ l) in H.
  destruct (automock_trait hash l' t) as [m|] eqn:M; cbn in H; [|discriminate]. injection H as <- <-.
  unfold automock_trait in M. apply unless_some in M as [E G].
  apply orb_false_iff in E as [E R]. apply orb_false_iff in E as [_ E].
  set (a := parse_attrs l') in *. unfold from_trait_error in E. apply orb_false_iff in E as [SE IE].
  set (its := it_items (substitute_trait a t)) in *. set (name := gen_mock_ident (it_ident t)) in *.
  set (gs := it_generics t) in *. set (p := Path false [Seg (it_ident t) (param_args gs)]).
  set (at_ := format formatter (it_attrs t)).
  set (x := RawImpl (it_attrs t) (it_unsafe t) gs (Some (false, p)) (TPath p) (map out_item its)).
  set (r := RawMock (at_ ++ [derive_debug]) (it_vis t) (it_ident t) gs (where_clause gs) [] [RmImpl x]).
  set (y := ItemImpl (it_attrs t) (it_unsafe t) gs (Some (false, p)) (TPath p) (map out_impl its)).
  set (d := MockDecl (at_ ++ [derive_debug]) (it_vis t) (it_ident t) gs [] [] [y]).
  exists (assoc_get a), r. split; [|split].
  - unfold a, l'. intros n u. rewrite (attrs_defined (map (fun x0 => (fst x0, Some (snd x0))) l) n u).
    rewrite flat_map_concat_map, map_map. cbn. rewrite <- flat_map_concat_map.
    replace (flat_map (fun x0 : ident * ty => [(fst x0, snd x0)]) l) with l; [reflexivity|].
    clear. induction l as [|[i u] l IH]; cbn; congruence.
  - split; [|split; [reflexivity|split; [reflexivity|split; [reflexivity|split; [reflexivity|split; [reflexivity|split; [reflexivity|]]]]]]].
    + exists at_, derive_debug. split; [reflexivity|]. split; [split; reflexivity|]. split; [apply format_subseq|].
      intros b W. unfold at_. rewrite (format_spec formatter (it_attrs t) b W). unfold copied, formatter. cbn.
      split.
      * intros (I & N & _ & _ & U). split; [exact I|]. split; [exact N|]. intros i [<-|[]] X. specialize (U X). discriminate.
      * intros (I & N & U). split; [exact I|]. split; [exact N|]. split; [auto|]. split; [auto|].
        intros X. now destruct (U "must_use" (or_introl eq_refl)).
    + exists x. split; [reflexivity|]. repeat (split; [reflexivity|]). cbn [ri_items x].
      unfold its, substitute_trait, with_items. cbn [it_items]. rewrite map_map. apply F2_map. intros i I.
      assert (Ei := existsb_no _ _ i SE I). cbv beta in Ei. 
      assert (Fi := existsb_no _ _ (substitute_trait_item a (it_ident t) i) IE). cbv beta in Fi.
      assert (J : In (substitute_trait_item a (it_ident t) i) its).
      { unfold its, substitute_trait, with_items. cbn. apply in_map_iff. eauto. }
      specialize (Fi J). destruct i as [n u e|b s|n b e|s]; cbn [substitute_trait_item] in Fi |- *.
      * destruct e as [e|]; [|discriminate]. constructor.
      * cbn [out_item]. rewrite (sig_substituted a (it_ident t) s Ei (P b s I)). constructor.
      * destruct (assoc_get a n) as [u|] eqn:T; [|discriminate]. cbn [out_item]. now constructor.
      * discriminate.
  - apply mock_reads_its_grammar. split; [reflexivity|]. exists d, m. split; [|split; [|reflexivity]].
    + constructor; try reflexivity.
      * constructor.
      * constructor; [|constructor]. exists x. split; [reflexivity|]. constructor; try reflexivity.
        cbn [ri_items im_items x y]. apply F2_map2. intros i J. assert (Fi := existsb_no _ _ i IE J). 
        destruct i as [n u [e|]|b s|n b [e|]|s]; cbn in Fi |- *; try discriminate; constructor.
    + apply (same_mockable hash d (from_trait a t) m); auto.
      * unfold from_mock, from_trait, d. cbn [md_attrs md_consts md_generics md_methods md_name md_vis md_impls map].
        f_equal. f_equal. unfold mockable_item_impl, mockable_trait, y, substitute_trait, with_items.
        cbn [im_attrs im_unsafe im_generics im_trait im_self im_items it_attrs it_unsafe it_ident it_generics it_items].
        fold gs name. f_equal.
        -- rewrite args_named. reflexivity.
        -- cbn. rewrite args_named. reflexivity.
        -- rewrite map_map. apply map_ext_in. intros i J. assert (Fi := existsb_no _ _ i IE J).
           destruct i as [n u [e|]|b s|n b [e|]|s]; cbn in Fi |- *; try discriminate; reflexivity.
      * unfold from_mock_error, d. cbn [md_name md_generics md_methods md_impls existsb]. rewrite orb_false_r.
        cbn. unfold mockable_item_impl_error. cbn. apply existsb_not. intros f J.
        unfold impl_fns in J. apply in_flat_map in J as (i & J & K). cbn in J. apply in_map_iff in J as (z & <- & J).
        assert (Fi := existsb_no _ _ z IE J). destruct z as [n u [e|]|b s|n b [e|]|s]; cbn in Fi, K; try contradiction.
        destruct K as [<-|[]]. exact Fi.
Qed.
Print Assumptions automocked_traits_can_be_written_out.

Definition out_types : list (ident * ty) := [("A", TRef (Some "static") false (ty_of "str"))].
Example automocked_traits_can_be_written_out_applies :
  expands (do_automock PropItems.ex_hash (map type_attr out_types) (RmTrait en_trait)) = true
  /\ (forall at_ s, In (TiFn at_ s) (it_items en_trait) -> plain_sig s)
  /\ exists at_ s, In (TiFn at_ s) (it_items en_trait) /\ sig_out (assoc_get out_types) "Tr" s <> s.
Proof.
  split; [vm_compute; reflexivity|]. split.
  - intros at_ s I. cbn in I. repeat (destruct I as [I|I]; [try discriminate; injection I as <- <-|]); try contradiction;
      (split; [intros p u J; cbn in J; repeat (destruct J as [J|J]; [try discriminate; injection J as <- <-; reflexivity|]); contradiction
              |intros u J; cbn in J; first [discriminate|injection J as <-; reflexivity]]).
  - exists [], en_h. split; [cbn; auto|discriminate].
Qed.

(** ** Impl blocks *)

Definition put_raw (a : list (ident * ty)) (tr : ident) (i : raw_impl_item) : raw_impl_item :=
  match i with
  | RaFn f => RaFn (FnItem (fi_attrs f) (fi_vis f) (substitute_sig a tr (fi_sig f)))
  | i => i
  end.
Definition unbody (i : raw_impl_item) : raw_impl_item :=
  match i with RaFn f => RaBare f | i => i end.

Lemma as_impl_put a tr i : on_sig (substitute_sig a tr) (as_impl_item i) = as_impl_item (put_raw a tr i).
Proof. destruct i; reflexivity. Qed.

(** For every impl block that [#[automock]] accepts there is a call of [mock!] that makes the same
    mock. *)
Theorem automocked_impls_can_be_written_out :
  forall hash a x k g,
  do_automock hash a (RmImpl x) = Expands k (GMock g) ->
  (ri_trait x <> None -> forall f, In (RaFn f) (ri_items x) -> plain_sig (fi_sig f)) ->
  exists r, impl_out x r /\ do_mock hash r = Expands None (GMock g).
Proof.
  intros hash at_ x k g H P.
  destruct (automock_keeps_the_item _ _ _ _ _ H) as (_ & (l & ->) & _).
  unfold do_automock in H. rewrite attrs_read, attrs_no_error in H. cbn [mock_item_of] in H.
  destruct (automock_impl hash (as_impl x)) as [m|] eqn:M; cbn in H; [|discriminate]. injection H as <- <-.
  assert (NO : forall i s, In i (ri_items x) -> as_impl_item i <> IiOther s).
  { intros i s I X. rewrite (other_refused hash (as_impl x) s) in M; [discriminate|].
    cbn. apply in_map_iff. eauto. }
  unfold automock_impl in M. apply unless_some in M as [E G]. apply orb_false_iff in E as [E R].
  unfold from_impl_error in E. apply orb_false_iff in E as [E1 E]. apply orb_false_iff in E1 as [E1 _].
  destruct (impl_name (as_impl x)) as [n|] eqn:NM; [|discriminate].
  assert (SN : self_name (ri_self x) = n).
  { unfold impl_name in NM. cbn in NM. destruct (ri_self x); try discriminate;
      destruct p as [b [|[j args] [|]]]; cbn in NM; try discriminate; injection NM as <-; reflexivity. }
  set (gs := ri_generics x). change (im_generics (as_impl x)) with gs in E.
  set (name := gen_mock_ident n) in *. change (im_trait (as_impl x)) with (ri_trait x) in E.
  unfold impl_out. destruct (ri_trait x) as [[b p]|] eqn:T.
  - apply orb_false_iff in E as [E IE]. apply orb_false_iff in E as [E SE]. apply orb_false_iff in E as [E _].
    apply orb_false_iff in E as [_ E]. destruct (path_ident p) as [tr|] eqn:PI; [|discriminate].
    set (a := impl_types (im_items (as_impl x))) in *.
    set (y := RawImpl (ri_attrs x) (ri_unsafe x) gs (Some (b, p)) (ri_self x) (map (put_raw a tr) (ri_items x))).
    set (r := RawMock (ri_attrs x ++ [derive_debug]) VPublic n gs (where_clause gs) [] [RmImpl y]).
    set (z := substitute_item_impl a tr (as_impl x)) in *.
    set (d := MockDecl (ri_attrs x ++ [derive_debug]) VPublic n gs [] [] [z]).
    exists r. split.
    + split; [exists derive_debug; split; [reflexivity|split; reflexivity]|].
      split; [reflexivity|]. split; [now rewrite SN|]. split; [reflexivity|]. split; [reflexivity|].
      split; [reflexivity|]. split; [reflexivity|]. exists y, (assoc_get a). split; [reflexivity|]. split.
      * assert (D := impl_types_defined (as_impl x)). replace (raw_types x) with (types_of (as_impl x)); [exact D|].
        unfold types_of, raw_types, as_impl. cbn [im_items]. rewrite flat_map_concat_map, map_map.
        rewrite flat_map_concat_map. f_equal. apply map_ext. intros []; reflexivity.
      * repeat (split; [reflexivity|]). cbn [ri_items y]. apply F2_map. intros i I. specialize (NO i).
        assert (PN : path_name p = tr).
        { destruct p as [c [|[j args] [|]]]; cbn in PI; try discriminate. now injection PI as <-. }
        rewrite PN. destruct i as [[ats v s]|c e|c u|f|s|s]; cbn [put_raw fi_attrs fi_vis fi_sig]; try constructor;
          try (now destruct (NO _ I eq_refl)).
        rewrite (sig_substituted a tr s); [constructor| |].
        -- apply (existsb_no _ _ (FnItem ats v s) SE). unfold impl_fns. apply in_flat_map.
           exists (IiFn (FnItem ats v s)). split; [|cbn; auto]. cbn. apply in_map_iff. exists (RaFn (FnItem ats v s)). auto.
        -- apply (P ltac:(discriminate) (FnItem ats v s) I).
    + apply mock_reads_its_grammar. split; [reflexivity|]. exists d, m. split; [|split; [|reflexivity]].
      * constructor; try reflexivity; [constructor|]. constructor; [|constructor]. exists y. split; [reflexivity|].
        constructor; try reflexivity; [exact T|]. cbn [y ri_items]. unfold z, substitute_item_impl, with_impl_items, as_impl.
        cbn [im_items]. rewrite map_map. apply F2_map2. intros i I. rewrite as_impl_put.
        specialize (NO i). destruct i; cbn; try constructor; now destruct (NO _ I eq_refl).
      * apply (same_mockable hash d (from_impl (as_impl x)) m); auto.
        -- unfold from_impl. rewrite NM. cbn [im_trait as_impl]. rewrite T. rewrite PI. fold a. reflexivity.
        -- unfold from_mock_error, d. cbn [md_name md_generics md_methods md_impls existsb]. rewrite orb_false_r.
           exact IE.
  - apply orb_false_iff in E as [IE ME].
    set (r := RawMock (ri_attrs x ++ [derive_debug]) VPublic n gs (where_clause gs) (map unbody (ri_items x)) []).
    set (d := MockDecl (ri_attrs x ++ [derive_debug]) VPublic n gs
                (flat_map (fun i => match i with IiConst c e => [(c, e)] | _ => [] end) (im_items (as_impl x)))
                (impl_fns (as_impl x)) []).
    assert (KI : forall i, In i (ri_items x) -> inherent_item_out i (unbody i)).
    { intros i I. specialize (NO i). destruct i as [f|c e|c u|f|s|s]; cbn [unbody]; try constructor;
        try (now destruct (NO _ I eq_refl)). exfalso.
      assert (X := existsb_no _ _ (IiType c u) IE). cbn in X. enough (true = false) by discriminate. apply X.
      apply in_map_iff. exists (RaType c u). auto. }
    exists r. split.
    + split; [exists derive_debug; split; [reflexivity|split; reflexivity]|].
      split; [reflexivity|]. split; [now rewrite SN|]. split; [reflexivity|]. split; [reflexivity|].
      split; [reflexivity|]. split; [reflexivity|]. cbn [rm_braces r]. now apply F2_map.
    + apply mock_reads_its_grammar. split; [reflexivity|]. exists d, m. split; [|split; [|reflexivity]].
      * constructor; try reflexivity.
        -- cbn. apply Forall_forall. intros j J. apply in_map_iff in J as (i & <- & J).
           destruct (KI i J); exact Logic.I.
        -- cbn [md_consts d as_impl im_items rm_braces r]. rewrite !flat_map_concat_map, !map_map. f_equal.
           apply map_ext. intros []; reflexivity.
        -- cbn [md_methods d rm_braces r]. unfold impl_fns. cbn [as_impl im_items].
           rewrite !flat_map_concat_map, !map_map. f_equal. apply map_ext_in. intros i I.
           destruct (KI i I); reflexivity.
        -- constructor.
      * apply (same_mockable hash d (from_impl (as_impl x)) m); auto.
        -- unfold from_impl. rewrite NM. cbn [im_trait as_impl]. rewrite T. reflexivity.
        -- unfold from_mock_error, d. cbn [md_name md_generics md_methods md_impls existsb]. rewrite orb_false_r.
           exact ME.
Qed.
Print Assumptions automocked_impls_can_be_written_out.

(** [impl It for S { type A = u32; fn h(&self) -> Self::A {..} }] *)
Definition out_block : raw_impl :=
  RawImpl [] false no_generics (Some (false, path_of "It")) (ty_of "S")
    [RaType "A" (ty_of "u32"); RaFn (FnItem [] VInherited en_h)].

Example automocked_impls_can_be_written_out_applies :
  expands (do_automock PropItems.ex_hash [] (RmImpl out_block)) = true
  /\ expands (do_automock PropItems.ex_hash [] (RmImpl fr_inherent)) = true
  /\ forall f, In (RaFn f) (ri_items out_block) -> plain_sig (fi_sig f).
Proof.
  split; [vm_compute; reflexivity|]. split; [vm_compute; reflexivity|].
  intros f I. cbn in I. destruct I as [I|[I|[]]]; [discriminate|]. injection I as <-. split.
  - intros p u J. cbn in J. destruct J as [J|[]]; discriminate.
  - intros u J. cbn in J. injection J as <-. reflexivity.
Qed.
