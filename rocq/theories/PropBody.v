(** * PropBody: the bodies of mock functions (C68) *)

From Coq Require Import List Bool Ascii String NArith Arith Lia.
From Verif Require Import Ast AstSpec Rewrite Derive DeriveSpec Names Subst Sig MockFn MockFnSpec MockFnProofs
  AttrProofs PropCalls PropOutput PropItems GenProofs Item ItemProofs MockItem ItemSpec GenSpec BodySpec.
Import ListNotations.
Open Scope string_scope.
Open Scope list_scope.

Lemma prepared_shown b dg di ce sig :
  prepared b = Some (dg, di, ce, sig) ->
  existsb (fun x => pat_is_self (fst x)) (typed_args di) = false ->
  Forall2 (fun a p => without_mut p = without_mut (fst a)) (typed_args (sg_inputs sig)) (map fst (typed_args di))
  /\ List.length ce = List.length (typed_args di).
Proof.
  unfold prepared. destruct (b_concretize b).
  - cbn [concretize_args]. intros E. injection E as <- <- <- <-. cbn [with_inputs sg_inputs].
    set (g := sg_generics (b_sig b)).
    induction (sg_inputs (b_sig b)) as [|a l IH]; [split; constructor|].
    destruct a as [r m c t|p t]; [exact IH|]. cbn [map flat_map]. intros S.
    assert (T : exists q u, concretized_input g (FaTyped p t) = FaTyped q u /\ without_mut q = without_mut p).
    { unfold concretized_input. destruct (match lookup t (conc_types g) with Some e => ce_mut e | None => false end);
        eexists; eexists; (split; [reflexivity|]); destruct p as [? [|] ? ?| |]; reflexivity. }
    destruct T as (q & u & T & Q). rewrite T.
    change (typed_args (FaTyped q u :: map (concretized_input g) l))
      with ((q, u) :: typed_args (map (concretized_input g) l)).
    change (typed_args (concretized_arg g (FaTyped p t) :: map (concretized_arg g) l))
      with ((demutify_pat p, match lookup t (conc_types g) with Some e => ce_ty e | None => t end)
            :: typed_args (map (concretized_arg g) l)) in *.
    cbn [map existsb fst] in S |- *. apply orb_false_iff in S as [S1 S2].
    destruct (IH S2) as [IH1 IH2]. split.
    + constructor; auto. cbn [fst]. rewrite Q. destruct p as [? [|] ? ?| |]; reflexivity.
    + unfold concretized_call at 1. rewrite S1. rewrite app_length. cbn [List.length]. rewrite IH2.
      destruct (lookup t (conc_types g)) as [e|]; [|reflexivity].
      destruct t; try destruct (ce_mut e); try reflexivity; destruct t; reflexivity.
  - destruct (declosurefy _ _) as [[[g' i'] c']|] eqn:D; [|discriminate].
    unfold declosurefy in D. destruct (distinct_keys _); [|discriminate].
    injection D as <- <- <-. intros E. injection E as <- <- <- <-.
    set (g := sg_generics (b_sig b)).
    induction (sg_inputs (b_sig b)) as [|a l IH]; [split; constructor|].
    destruct a as [r m c t|p t]; [exact IH|]. cbn [map flat_map]. intros S.
    change (typed_args (FaTyped p t :: l)) with ((p, t) :: typed_args l).
    change (typed_args (declosured_arg g (FaTyped p t) :: map (declosured_arg g) l))
      with ((demutify_pat p, match lookup t (fn_types g) with Some e => e | None => t end)
            :: typed_args (map (declosured_arg g) l)) in *.
    cbn [map existsb fst] in S |- *. apply orb_false_iff in S as [S1 S2].
    destruct (IH S2) as [IH1 IH2]. split.
    + constructor; auto. cbn [fst]. destruct p as [? [|] ? ?| |]; reflexivity.
    + unfold declosured_call at 1. rewrite S1. rewrite app_length. cbn [List.length]. rewrite IH2.
      destruct (has_key t (fn_types g)); reflexivity.
Qed.

Lemma kept_attrs l : attributes_kept l (format (AttrFormatter true true true) l).
Proof.
  split.
  - unfold format. induction l as [|a l IH]; [constructor|]. cbn [filter].
    destruct (attr_kept _ a); constructor; exact IH.
  - intros a W. unfold format. rewrite filter_In, attr_kept_spec by exact W. unfold copied. cbn. tauto.
Qed.

Lemma made_body b f md :
  build b = Some f ->
  call_body match b_trait b with Some _ => true | None => false end
            match b_struct b with
            | Some s => s
            | None => match b_parent b with Some i => i | None => "FIXME" end
            end (b_attrs b) (call_fn f md)
  /\ module_body (b_struct b) (call_fn f md) (priv_module f).
Proof.
  intros H. destruct (mock_functions_keep_their_arguments _ _ H) as (_ & N & _ & O & AB).
  destruct (expectation_kinds _ _ H) as (K1 & K2 & K3).
  assert (MI : mf_mod_ident f = match b_parent b with Some i => i | None => "FIXME" end).
  { revert H. unfold build. destruct (prepared b) as [[[[dg di] ce] sig]|]; [|discriminate].
    destruct (existsb _ _); [discriminate|]. destruct (output_of _ _) as [o bx].
    destruct (split_lifetimes _ _ _) as [[? ?] ?]. destruct (split_lifetimes _ _ _) as [[? ?] ?].
    intros E. now injection E as <-. }
  assert (KR : kind_of f = KRefMut <-> mf_return_refmut f = true).
  { unfold kind_of. destruct (mf_return_ref f) eqn:E1; destruct (mf_return_refmut f) eqn:E2;
      split; try discriminate; auto. exfalso.
    assert (X : kind_of f = KRef) by (unfold kind_of; now rewrite E1).
    apply K1 in X as (t & X1 & l & e & -> & X2).
    apply build_built in H as (dg & di & ce & sig & B).
    assert (Y := output_ref (b_levels b) (sg_output (b_sig b))). rewrite <- (bt_output _ _ _ _ _ _ B) in Y.
    cbn [fst] in Y. destruct Y as (_ & Y & _). rewrite <- (bt_refmut _ _ _ _ _ _ B) in Y.
    apply Y in E2 as (t & Y1 & l' & e' & -> & _). congruence. }
  assert (KS : kind_of f = KRef <-> mf_return_ref f = true).
  { unfold kind_of. destruct (mf_return_ref f); [tauto|]. destruct (mf_return_refmut f); split; discriminate. }
  apply build_built in H as (dg & di & ce & sig & B).
  assert (P := bt_prepared _ _ _ _ _ _ B). assert (NS := bt_no_self _ _ _ _ _ _ B).
  rewrite moved_typed in NS.
  assert (NS' : existsb (fun x => pat_is_self (fst x)) (typed_args di) = false).
  { rewrite <- NS. clear. induction (typed_args di) as [|x l IH]; auto. cbn. now rewrite IH. }
  destruct (prepared_shown _ _ _ _ _ P NS') as [SH LN].
  assert (AN : mf_argnames f = map fst (typed_args di)).
  { rewrite (bt_argnames _ _ _ _ _ _ B), moved_typed, map_map. reflexivity. }
  assert (AT : List.length (mf_argty f) = List.length (typed_args di)).
  { rewrite (bt_argty _ _ _ _ _ _ B), moved_typed, !map_length. reflexivity. }
  assert (CL : List.length (combine (mf_argnames f) (mf_argty f)) = List.length (typed_args di)).
  { rewrite combine_length, AN, AT, map_length. apply Nat.min_id. }
  split; [split; [|split; [|split; [|split; [|split; [|split; [|split]]]]]]|split; [|split; [|split; [|split; [|split; [|split]]]]]].
  - cbn [call_fn gc_desc gc_sig]. unfold desc_name, mf_name. rewrite (bt_struct _ _ _ _ _ _ B), MI.
    destruct (b_struct b); reflexivity.
  - cbn [call_fn gc_shown gc_sig]. rewrite (bt_sig _ _ _ _ _ _ B), AN. exact SH.
  - cbn [call_fn gc_attrs]. rewrite (bt_attrs _ _ _ _ _ _ B). apply kept_attrs.
  - cbn [call_fn gc_mut gc_sig]. rewrite <- KR, K2. unfold returns_borrow. now rewrite O.
  - cbn [call_fn gc_deref gc_sig]. unfold returns_object. rewrite O. destruct (mf_boxed f) eqn:X.
    + destruct K3 as [K3 _]. destruct (K3 eq_refl) as (l & m & d & bs & E & S).
      destruct m.
      * assert (Y : kind_of f = KRefMut) by (apply K2; eexists; split; [exact E|]; exists l, (TDyn d bs); auto).
        unfold kind_of in Y. destruct (mf_return_ref f); [discriminate|].
        destruct (mf_return_refmut f); [|discriminate]. split; [discriminate|].
        intros (l' & d' & b' & E' & _). congruence.
      * assert (Y : kind_of f = KRef) by (apply K1; eexists; split; [exact E|]; exists l, (TDyn d bs); auto).
        apply KS in Y. rewrite Y. split; auto. intros _. exists l, d, bs. auto.
    + split; [discriminate|]. intros (l & d & bs & E & S).
      assert (false = true) by (apply K3; eauto 8). discriminate.
  - cbn [call_fn gc_deref gc_sig]. unfold returns_object. rewrite O. destruct (mf_boxed f) eqn:X.
    + destruct K3 as [K3 _]. destruct (K3 eq_refl) as (l & m & d & bs & E & S).
      destruct m.
      * assert (Y : kind_of f = KRefMut) by (apply K2; eexists; split; [exact E|]; exists l, (TDyn d bs); auto).
        unfold kind_of in Y. destruct (mf_return_ref f); [discriminate|].
        destruct (mf_return_refmut f); [|discriminate]. split; auto.
        intros _. exists l, d, bs. auto.
      * assert (Y : kind_of f = KRef) by (apply K1; eexists; split; [exact E|]; exists l, (TDyn d bs); auto).
        apply KS in Y. rewrite Y. split; [discriminate|].
        intros (l' & d' & b' & E' & _). congruence.
    + split; [discriminate|]. intros (l & d & bs & E & S).
      assert (false = true) by (apply K3; eauto 8). discriminate.
  - cbn [call_fn gc_no_mangle gc_sig]. unfold no_mangle. destruct (sg_abi (mf_sig f)) as [[n|]|].
    + rewrite negb_true_iff, String.eqb_neq. split.
      * intros X. exists (Some n). split; auto. congruence.
      * intros (o & E & X) ->. congruence.
    + split; auto. intros _. exists None. split; auto. discriminate.
    + split; [discriminate|]. intros (o & E & _). discriminate.
  - cbn [call_fn gc_dead_code gc_vis]. rewrite (bt_trait _ _ _ _ _ _ B). destruct (b_trait b).
    + split; [discriminate|]. intros [X _]. discriminate.
    + destruct (mf_call_vis f); cbn; split; auto; try discriminate; intros [_ X]; discriminate.
  - reflexivity.
  - cbn [priv_module gp_funcname call_fn gc_sig]. unfold funcname, mf_name.
    rewrite (bt_struct _ _ _ _ _ _ B). reflexivity.
  - cbn [priv_module gp_kind call_fn gc_sig]. rewrite K1. unfold returns_borrow. now rewrite O.
  - cbn [priv_module gp_kind call_fn gc_sig]. rewrite K2. unfold returns_borrow. now rewrite O.
  - cbn [priv_module gp_args call_fn gc_shown].
    assert (Y : forall (l : list pat) (k : list ty), List.length l = List.length k -> map fst (combine l k) = l).
    { clear. induction l as [|x l IH]; intros [|y k] E; try discriminate; auto. cbn. f_equal. apply IH. now injection E. }
    apply Y. now rewrite AT, AN, map_length.
  - cbn [priv_module gp_args call_fn gc_args]. now rewrite CL, (bt_calls _ _ _ _ _ _ B).
  - cbn [priv_module gp_args gp_predty]. now rewrite CL, (bt_predty _ _ _ _ _ _ B), moved_typed, !map_length.
Qed.

(** ** C68: the bodies of the mock functions *)

(** The methods of a mock, and of the traits that it implements. *)
Theorem methods_call_their_expectations : forall hash m g,
  mock_it hash m = Some g ->
  Forall2 (fun x c => call_body false (ms_name m) (fi_attrs x) c) (ms_methods m) (gm_calls g)
  /\ Forall2 (module_body (Some (ms_name m))) (gm_calls g) (gm_privmods g)
  /\ Forall2 (fun x i => Forall2 (fun y c => call_body true (ms_name m) (fi_attrs y) c) (impl_fns x) (gt_calls i))
       (ms_impls m) (gm_trait_impls g)
  /\ (same_fns m ->
      forall i, In i (gm_trait_impls g) ->
        exists s, In s (gm_substructs g)
          /\ Forall2 (module_body (Some (ms_name m))) (gt_calls i) (gs_privmods s)).
Proof.
  intros hash m g H. apply mock_it_built in H as (s & M & -> & F & T).
  cbn [gen_struct gm_calls gm_privmods gm_trait_impls gm_substructs].
  assert (FT : forall x t, new_trait hash (ms_name m) (ms_generics m) x (ms_vis m) = Some t ->
    forall md, Forall2 (fun y c => call_body true (ms_name m) (fi_attrs y) c) (impl_fns x)
                 (map (fun f => call_fn f (Some md)) (mt_methods t))
      /\ Forall2 (module_body (Some (ms_name m))) (map (fun f => call_fn f (Some md)) (mt_methods t))
                 (map priv_module (mt_methods t))).
  { intros x t N md. apply new_trait_fns in N.
    induction N as [|y f l k B _ [IH1 IH2]]; [split; constructor|]. cbn [map].
    destruct (made_body _ _ (Some md) B) as [B1 B2]. split; constructor; auto. }
  split; [|split; [|split]].
  - clear T FT. induction F as [|x f l k B _ IH]; [constructor|]. cbn [map]. constructor; auto.
    destruct (made_body _ _ (Some (mi_modname s)) B) as [B1 _]. exact B1.
  - clear T FT. induction F as [|x f l k B _ IH]; [constructor|]. cbn [map]. constructor; auto.
    destruct (made_body _ _ (Some (mi_modname s)) B) as [_ B2]. exact B2.
  - induction T as [|x t l k B _ IH]; [constructor|]. cbn [map]. constructor; auto.
    cbn [trait_impl gt_calls]. apply (FT _ _ B).
  - intros U i I. apply in_map_iff in I as (t & <- & I).
    destruct (Forall2_in_r _ _ _ _ T I) as (x & Ix & N).
    destruct (same_substruct _ _ _ _ _ U T Ix N I) as (t' & It' & EM & ES).
    exists (substruct s t'). split; [now apply in_map|].
    cbn [trait_impl gt_calls substruct gs_privmods]. rewrite EM. apply (FT _ _ N).
Qed.
Print Assumptions methods_call_their_expectations.

(** The functions of a mocked module. *)
Theorem functions_call_their_expectations : forall vis n items g,
  gen_mod (from_module vis n items) = Some g ->
  Forall2 (fun a c => call_body false ("mock_" ++ unraw n) a c) (fn_attrs items) (module_calls (gd_body g))
  /\ Forall2 (module_body None) (module_calls (gd_body g)) (module_privmods (gd_body g)).
Proof.
  intros vis n items g. unfold gen_mod, module_content, from_module.
  cbn [mm_content mm_mock_ident mm_vis]. change (gen_mock_module_ident n) with ("mock_" ++ unraw n)%string.
  set (mi := ("mock_" ++ unraw n)%string).
  destruct (all_some (item_content mi) (map mockable_item items)) as [cs|] eqn:A; [|discriminate].
  cbn [option_map]. intros E. injection E as <-. cbn [gd_body].
  apply all_some_spec in A.
  assert (P : forall x f u, build (module_builder mi x) = Some f ->
     Forall2 (fun a c => call_body false mi a c) [fi_attrs x] (module_calls (gen_content (CoFn f u)))
     /\ Forall2 (module_body None) (module_calls (gen_content (CoFn f u))) (module_privmods (gen_content (CoFn f u)))).
  { intros x f u B. destruct (made_body _ _ None B) as [B1 B2]. cbn. split; constructor; auto. }
  assert (Q : forall i c, item_content mi (mockable_item i) = Some c ->
     Forall2 (fun a c => call_body false mi a c) (fn_attrs [i]) (module_calls (flat_map gen_content c))
     /\ Forall2 (module_body None) (module_calls (flat_map gen_content c)) (module_privmods (flat_map gen_content c))).
  { intros [x u|abi xs|s|s|s|s] c H; cbn [mockable_item item_content] in H; try discriminate.
    - destruct (build _) as [f|] eqn:B; [|discriminate]. injection H as <-.
      cbn [flat_map fn_attrs]. rewrite !app_nil_r. apply (P _ _ u B).
    - apply all_some_spec in H. unfold fn_attrs. cbn [flat_map]. rewrite app_nil_r.
      induction H as [|y d ys ds H _ [IH1 IH2]]; [split; constructor|]. cbn [flat_map].
      destruct y as [x u|t]; cbn [foreign_content] in H; [|discriminate].
      destruct (build _) as [f|] eqn:B; [|discriminate]. injection H as <-.
      destruct (P _ _ true B) as [P1 P2]. unfold module_calls, module_privmods in *.
      rewrite !flat_map_app. split; apply Forall2_app; auto.
    - injection H as <-. split; constructor.
    - injection H as <-. split; constructor. }
  clear P. revert cs A. induction items as [|i items IH]; intros cs A.
  - inversion A. split; constructor.
  - cbn [map] in A. inversion A as [|? c ? cs' HA A']. subst. destruct (IH _ A') as [IH1 IH2].
    destruct (Q _ _ HA) as [Q1 Q2]. unfold fn_attrs in Q1. cbn [flat_map] in Q1. rewrite app_nil_r in Q1.
    cbn [List.concat]. unfold fn_attrs, module_calls, module_privmods in *. cbn [flat_map].
    rewrite flat_map_app, !flat_map_app. split; apply Forall2_app; auto.
Qed.
Print Assumptions functions_call_their_expectations.

(** ** Examples *)

(** [mock! { Foo { #[must_use] #[allow] #[instrument] fn r(&mut self, x: u32, y: u8) -> &mut dyn Tr;
      fn s(&self) -> &T; } impl Tr for Foo { fn o(&self) -> &dyn Tr; } }] *)
Definition bd_attr (i : ident) : attribute := Attribute (path_of i) None "".
Definition bd_dyn (m : bool) : ty := TRef None m (TDyn true [BTrait false [] (path_of "Tr")]).
Definition bd_struct : mockable_struct :=
  MockableStruct [] [] no_generics
    [ex_fn [bd_attr "must_use"; bd_attr "allow"; bd_attr "instrument"] "r"
       [ex_mut; FaTyped (PatIdent false false "x" false) (ty_of "u32");
        FaTyped (PatIdent false false "y" false) (ty_of "u8")] (Some (bd_dyn true));
     ex_fn [] "s" [ex_self] (Some (TRef None false (ty_of "T")))]
    "MockFoo" VPublic
    [ItemImpl [] false no_generics (Some (false, path_of "Tr")) (ty_of "MockFoo")
       [IiFn (ex_fn [] "o" [ex_self] (Some (bd_dyn false)))]].

Example methods_call_their_expectations_applies :
  mock_it ex_hash bd_struct = Some (ex_gen bd_struct) /\ same_fns bd_struct
  /\ map (fun c => (gc_desc c, gc_shown c, gc_mut c, gc_deref c, map apath (gc_attrs c)))
         (gm_calls (ex_gen bd_struct) ++ flat_map gt_calls (gm_trait_impls (ex_gen bd_struct)))
     = [("MockFoo::r", [PatIdent false false "x" false; PatIdent false false "y" false], true, DerefMut,
         [path_of "must_use"; path_of "allow"]);
        ("MockFoo::s", [], false, DerefNone, []); ("MockFoo::o", [], false, DerefRef, [])].
Proof.
  split; [reflexivity|]. split; [|reflexivity].
  intros x y bx b' p [<-|[]] [<-|[]] _ _. reflexivity.
Qed.

Example functions_call_their_expectations_applies :
  option_map (fun g => map (fun c => (gc_desc c, gc_no_mangle c)) (module_calls (gd_body g)))
    (gen_mod (from_module VPublic "m"
       [ItFn (ex_fn [] "f" [] None) false; ItCopied "use a;";
        ItForeign (Some "C") [FiFn (ex_fn [] "g" [] None) false]]))
  = Some [("mock_m::f", false); ("mock_m::g", true)].
Proof. reflexivity. Qed.

(** ** C50: the attributes of a mock *)

Lemma format_spec f l a :
  segs (apath a) <> [] -> (In a (format f l) <-> In a l /\ copied f a).
Proof. intros W. unfold format. now rewrite filter_In, attr_kept_spec. Qed.

Lemma format_subseq f l : subseq (format f l) l.
Proof.
  unfold format. induction l as [|a l IH]; [constructor|]. cbn [filter].
  destruct (attr_kept f a); constructor; exact IH.
Qed.

(** The attributes of a struct and of its trait implementations are repeated on
    the mock and on its trait implementations; [must_use] is not repeated on
    implementations, [async_trait] is not repeated on the struct. *)
Theorem attributes_of_mocks : forall hash m g,
  mock_it hash m = Some g ->
  attributes_without ["async_trait"] (ms_attrs m) (gm_attrs g)
  /\ Forall2 (fun x i => attributes_without ["must_use"] (im_attrs x) (gt_attrs i)
                /\ attributes_without ["must_use"; "async_trait"; "doc"] (im_attrs x) (gt_inherent_attrs i))
       (ms_impls m) (gm_trait_impls g).
Proof.
  intros hash m g H. apply mock_it_built in H as (s & M & -> & _ & _).
  cbn [gen_struct gm_attrs gm_trait_impls]. split.
  - rewrite (mo_attrs _ _ _ M). split; [apply format_subseq|]. intros a W.
    rewrite format_spec by exact W. unfold copied. cbn. split.
    + intros (I & N & _ & A & _). split; auto. split; auto. intros i [<-|[]] X. discriminate (A X).
    + intros (I & N & A). split; auto. split; auto. split; [auto|]. split; [|auto].
      intros X. elim (A "async_trait"); auto.
  - assert (T := mo_traits _ _ _ M). induction T as [|x t l k B _ IH]; [constructor|].
    cbn [map]. constructor; auto. cbn [trait_impl gt_attrs gt_inherent_attrs].
    rewrite (tm_attrs _ _ _ B). unfold bare_attrs. split; (split; [apply format_subseq|]); intros a W;
      rewrite format_spec by exact W; unfold copied; cbn; split.
    + intros (I & N & _ & _ & A). split; auto. split; auto. intros i [<-|[]] X. discriminate (A X).
    + intros (I & N & A). split; auto. split; auto. split; [auto|]. split; [auto|].
      intros X. elim (A "must_use"); auto.
    + intros (I & N & D & A & U). split; auto. split; auto.
      intros i [<-|[<-|[<-|[]]]] X; [discriminate (U X)|discriminate (A X)|discriminate (D X)].
    + intros (I & N & A). split; auto. split; auto.
      split; [|split]; intros X; exfalso;
        [apply (A "doc")|apply (A "async_trait")|apply (A "must_use")]; auto.
Qed.
Print Assumptions attributes_of_mocks.

Theorem attributes_of_automocks : forall hash a t g,
  mock_it hash (from_trait a t) = Some g ->
  attributes_without ["must_use"; "async_trait"] (it_attrs t) (gm_attrs g)
  /\ exists i, gm_trait_impls g = [i] /\ attributes_without ["must_use"] (it_attrs t) (gt_attrs i).
Proof.
  intros hash a t g H. destruct (attributes_of_mocks _ _ _ H) as [(S & A) F]. split.
  - apply mock_it_built in H as (s & M & -> & _ & _). cbn [gen_struct gm_attrs] in *.
    rewrite (mo_attrs _ _ _ M) in *. cbn [from_trait ms_attrs substitute_trait with_items it_attrs] in *.
    assert (E : forall f l l', format f (l ++ l') = format f l ++ format f l').
    { intros. unfold format. apply filter_app. }
    rewrite E in *. change (format _ [derive_debug]) with (@nil attribute) in *. rewrite app_nil_r in *.
    split.
    + clear. unfold format. induction (it_attrs t) as [|x l IH]; [constructor|]. cbn [filter].
      destruct (attr_kept formatter x); cbn [filter]; [destruct (attr_kept _ x)|]; constructor; exact IH.
    + intros b W. rewrite (A b W). rewrite in_app_iff, format_spec by exact W. unfold copied. cbn. split.
      * intros ([(I & N & _ & _ & U)|[<-|[]]] & N' & X).
        -- split; auto. split; auto. intros i [<-|[<-|[]]] Y; [discriminate (U Y)|]. apply (X "async_trait"); auto.
        -- exfalso. apply N'. left. exists "derive". split; [exists false, [], PaNone; reflexivity|]. cbn. auto.
      * intros (I & N & X).
        assert (MU : ~ named b "must_use") by (apply X; auto).
        assert (AT : ~ named b "async_trait") by (apply X; auto).
        split; [left; tauto|]. split; [exact N|]. intros i [<-|[]]. exact AT.
  - inversion F as [|x i xs is_ B K EX EI]. subst. inversion K. subst. exists i. split; auto. apply B.
Qed.
Print Assumptions attributes_of_automocks.

Example attributes_of_automocks_applies :
  let t := ItemTrait [bd_attr "must_use"; bd_attr "async_trait"; ex_cfg "unix"; bd_attr "inline"]
             VPublic false "Tr" no_generics [TiFn [] (fi_sig (ex_fn [] "o" [ex_self] None))] in
  option_map (fun g => (gm_attrs g, map gt_attrs (gm_trait_impls g))) (mock_it ex_hash (from_trait [] t))
  = Some ([ex_cfg "unix"], [[bd_attr "async_trait"; ex_cfg "unix"]]).
Proof. reflexivity. Qed.
