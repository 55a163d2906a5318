(** * PropExpectTypes: the types of generated expectations (C67) *)

From Coq Require Import List Bool Ascii String NArith Arith Lia.
From Verif Require Import Ast AstSpec Rewrite Derive DeriveSpec Names Subst Sig MockFn MockFnProofs
  GenProofs PropItems Item ItemProofs MockItem ItemSpec GenSpec.
Import ListNotations.
Open Scope string_scope.
Open Scope list_scope.

(** Everything about the expectations of a method has the same type: the call
    that the mocked method makes, the field that holds them and the [expect_]
    function that sets them.  The expectations of a generic method are kept per
    types chosen for the parameters, and a call finds those that were set for the
    same types. *)
Theorem expectations_have_their_types : forall hash m g x,
  mock_it hash m = Some g -> well_formed m -> In x (ms_methods m) ->
  plain_method x \/ documented m x ->
  exists p c,
    In p (gm_privmods g) /\ gp_name p = inner_mod_ident (fn_name x)
    /\ In c (gm_calls g) /\ call_name c = fn_name x
    /\ typed_module (ms_generics m) x p /\ typed_call p c
    /\ if has_self x
       then exists f e, In f (gm_fields g) /\ In e (gm_expects g)
              /\ gc_store c = OwnField (gf_name f) /\ ge_store e = OwnField (gf_name f)
              /\ typed_field (gm_modname g) p f /\ typed_expect (gm_modname g) p e
              /\ bounded x p e /\ keyed p c e
       else exists k, In k (gm_contexts g) /\ gc_store c = StaticIn (gx_mod k)
              /\ typed_context (gm_modname g) p k /\ keyed_static p c.
Proof.
  intros hash m g x H [[P1 P2] B] I D. apply mock_it_built in H as (s & M & -> & F & _).
  destruct (Forall2_in_l _ _ _ _ F I) as (f & If & Bf).
  assert (Hm := made_method _ _ _ Bf).
  assert (N := Hm). destruct N as (N & _ & _ & SS & _).
  assert (BX : bracketed (sg_generics (fi_sig x))) by (unfold bracketed; apply P1; auto).
  assert (P : pieces m x f) by (eapply make_pieces; eauto; reflexivity).
  assert (K : keypieces m x f) by (eapply make_keypieces; eauto; reflexivity).
  exists (priv_module f), (call_fn f (Some (mi_modname s))).
  cbn [gen_struct gm_privmods gm_calls gm_fields gm_expects gm_contexts gm_modname].
  split; [now apply in_map|]. split; [cbn; now rewrite N|].
  split; [apply in_map_iff; eauto|]. split; [apply (name_of _ _ _ _ Hm)|].
  split; [apply (pi_module _ _ _ P)|]. split; [apply (pi_call _ _ _ P D)|].
  destruct (has_self x) eqn:S.
  - exists (field_definition f (mi_modname s)), (expect_fn f (mi_modname s) None).
    assert (NS : not_static f = true) by (unfold not_static; now rewrite SS).
    split. { apply in_app_iff. right. apply in_app_iff. left. unfold field_definitions.
             apply in_map_iff. exists f. split; auto. apply filter_In. auto. }
    split. { apply in_map_iff. exists f. split; auto. apply filter_In. auto. }
    split. { rewrite (store_of _ _ _ _ Hm), S. cbn. now rewrite N. }
    split. { cbn. unfold object_store. destruct Hm as (_ & _ & TR & _). now rewrite TR. }
    split; [apply (pi_field _ _ _ P S)|]. split; [apply (pi_expect _ _ _ P S D)|].
    split; [apply (kp_bounded _ _ _ K S)|apply (kp_keyed _ _ _ K D S)].
  - exists (context_fn f (Some (mi_modname s))).
    split. { apply in_map_iff. exists f. split; auto. apply filter_In. split; auto. }
    split. { rewrite (store_of _ _ _ _ Hm), S. cbn. now rewrite N. }
    split; [apply (pi_context _ _ _ P S)|].
    apply (kp_static _ _ _ K); auto. destruct D as [(D & _)|D]; auto. congruence.
Qed.
Print Assumptions expectations_have_their_types.

(** The same for the methods of an implemented trait.  If the trait is
    implemented for particular arguments of the struct, such as
    [impl Tr for Foo<u32>], the type that [expect_] returns has these arguments. *)
Theorem trait_expectations_have_their_types : forall hash m g x y,
  mock_it hash m = Some g -> well_formed m -> same_fns m ->
  In x (ms_impls m) -> In y (impl_fns x) ->
  plain_method y \/ documented m y -> fitting_self m x ->
  exists i ss p c,
    In i (gm_trait_impls g) /\ (exists b, im_trait x = Some (b, gt_path i))
    /\ self_path (im_self x) = Some (gt_self i)
    /\ In ss (gm_substructs g)
    /\ In p (gs_privmods ss) /\ gp_name p = inner_mod_ident (fn_name y)
    /\ In c (gt_calls i) /\ call_name c = fn_name y
    /\ typed_module (ms_generics m) y p /\ typed_call p c
    /\ if has_self y
       then exists s f e, In f (gs_fields ss) /\ In e (gt_expects i)
              /\ In s (gm_fields g) /\ gf_ty s = FtSub (gs_name ss) (type_args (ms_generics m))
              /\ gc_store c = SubField (gf_name s) (gf_name f)
              /\ ge_store e = SubField (gf_name s) (gf_name f)
              /\ typed_field (gs_modname ss) p f
              /\ typed_impl_expect (ms_generics m) (gt_self i) (gs_modname ss) p e
              /\ bounded y p e /\ keyed p c e
       else exists k, In k (gt_contexts i) /\ gc_store c = StaticIn (gx_mod k)
              /\ typed_context (gs_modname ss) p k /\ keyed_static p c.
Proof.
  intros hash m g x y H [[P1 P2] B] U Ix Iy D FS. apply mock_it_built in H as (s & M & -> & _ & F).
  destruct (Forall2_in_l _ _ _ _ F Ix) as (t & It & Nt).
  assert (Tt := new_trait_made _ _ _ _ _ _ Nt). assert (Ft := new_trait_fns _ _ _ _ _ _ Nt).
  destruct (same_substruct _ _ _ _ _ U F Ix Nt It) as (t' & It' & EM & ES).
  destruct (Forall2_in_l _ _ _ _ Ft Iy) as (f & If & Bf).
  assert (Hm := made_trait _ _ _ _ _ _ Bf).
  assert (N := Hm). destruct N as (N & _ & TR & SS & _).
  assert (BX : bracketed (sg_generics (fi_sig y))) by (unfold bracketed; exact (P2 _ _ Ix Iy)).
  assert (P : pieces m y f) by (eapply make_pieces; eauto; reflexivity).
  assert (K : keypieces m y f) by (eapply make_keypieces; eauto; reflexivity).
  set (md := submod_ident (mi_modname s) (mt_ss_name t)).
  exists (trait_impl t md), (substruct s t'), (priv_module f), (call_fn f (Some md)).
  cbn [gen_struct gm_trait_impls gm_substructs gm_fields trait_impl gt_path gt_self gt_calls
       gt_expects gt_contexts substruct gs_privmods gs_fields gs_modname gs_name].
  rewrite ES, EM. fold md.
  split; [apply in_map_iff; exists t; auto|]. split; [apply (tm_path _ _ _ Tt)|].
  split; [apply (tm_self _ _ _ Tt)|].
  split; [apply in_map_iff; exists t'; auto|].
  split; [now apply in_map|]. split; [cbn; now rewrite N|].
  split; [apply in_map_iff; eauto|]. split; [apply (name_of _ _ _ _ Hm)|].
  split; [apply (pi_module _ _ _ P)|]. split; [apply (pi_call _ _ _ P D)|].
  destruct (has_self y) eqn:S.
  - set (sf := GenField (bare_attrs (mt_attrs t')) (field_ident (mt_ss_name t'))
                 (FtSub (substruct_ident (mi_name s) (mt_ss_name t')) (type_args (mi_generics s)))).
    exists sf, (field_definition f md),
      (expect_fn f md (if is_method_generic f then None else Some (seg_args (mt_self t)))).
    assert (NS : not_static f = true) by (unfold not_static; now rewrite SS).
    split. { apply in_app_iff. left. unfold field_definitions.
             apply in_map_iff. exists f. split; auto. apply filter_In. auto. }
    split. { apply in_map_iff. exists f. split; auto. apply filter_In. auto. }
    split. { apply in_app_iff. left. apply in_map_iff. exists t'. split; auto. apply filter_In.
             split; auto. unfold all_static. destruct (forallb _ _) eqn:A; auto.
             rewrite EM in A. eapply forallb_forall in A; [|exact If]. unfold not_static in NS.
             rewrite A in NS. discriminate. }
    split. { cbn. rewrite (mo_generics _ _ _ M), ES. reflexivity. }
    split. { rewrite (store_of _ _ _ _ Hm), S. cbn. now rewrite N, ES. }
    split. { cbn. unfold object_store. now rewrite TR, ES. }
    split; [apply (pi_field _ _ _ P S)|].
    split. { destruct (FS _ (tm_self _ _ _ Tt)) as (FS1 & FS2 & ts & FS3 & FS4).
             eapply (pi_impl_expect _ _ _ P S D); eauto. }
    split; [apply (kp_bounded _ _ _ K S)|apply (kp_keyed _ _ _ K D S)].
  - exists (context_fn f (Some md)).
    split. { apply in_map_iff. exists f. split; auto. apply filter_In. split; auto. }
    split. { rewrite (store_of _ _ _ _ Hm), S. cbn. now rewrite N. }
    split; [apply (pi_context _ _ _ P S)|].
    apply (kp_static _ _ _ K); auto. destruct D as [(D & _)|D]; auto. congruence.
Qed.
Print Assumptions trait_expectations_have_their_types.

(** ** Examples *)

(** [mock! { pub Foo<T> { fn get<'a, Q: Debug>(&self, k: &'a Q) -> &T where Q: super::Tag;
    fn mk<U>(u: U) -> T; } impl Tr for Foo<u32> { fn a(&self) -> u32; } }] *)
Definition et_bound (l : list ident) : bound := BTrait false [] (Path false (map seg_of l)).
Definition et_get : fn_item :=
  FnItem [] VInherited
    (Signature "get"
       (Generics true [GpLifetime "a" []; GpType "Q" [et_bound ["Debug"]] None]
          (Some [WpType None (ty_of "Q") [et_bound ["super"; "Tag"]]]))
       [ex_self; FaTyped (PatIdent false false "k" false) (TRef (Some "a") false (ty_of "Q"))]
       (Some (TRef None false (ty_of "T"))) None).
Definition et_mk : fn_item :=
  FnItem [] VInherited
    (Signature "mk" (Generics true [GpType "U" [] None] None)
       [FaTyped (PatIdent false false "u" false) (ty_of "U")] (Some (ty_of "T")) None).
Definition et_a : fn_item := ex_fn [] "a" [ex_self] (Some (ty_of "u32")).
Definition et_impl : item_impl :=
  ItemImpl [] false no_generics (Some (false, ex_tr))
    (TPath (Path false [Seg "MockFoo" (PaAngle [GaType (ty_of "u32")])])) [IiFn et_a].
Definition et_struct : mockable_struct :=
  MockableStruct [] [] ex_generics [et_get; et_mk] "MockFoo" VPublic [et_impl].

Lemma et_well_formed : well_formed et_struct.
Proof.
  split; [|discriminate]. split.
  - intros f [<-|[<-|[]]]; discriminate.
  - intros x f [<-|[]] [<-|[]]. reflexivity.
Qed.

Lemma et_documented x : In x [et_get; et_mk] -> documented et_struct x.
Proof.
  intros I. split; [reflexivity|]. intros l t L O.
  destruct I as [<-|[<-|[]]]; cbn in L; destruct L as [<-|[]] || destruct L.
  cbn in O. injection O as <-. intros M. cbn in M. unfold mentions in M. cbn in M.
  repeat (destruct M as [M|M]; [discriminate|]). exact M.
Qed.

Example expectations_have_their_types_applies :
  mock_it ex_hash et_struct = Some (ex_gen et_struct) /\ well_formed et_struct
  /\ (forall x, In x (ms_methods et_struct) -> documented et_struct x)
  /\ chosen et_get "Q" /\ kept_where et_get (WpType None (ty_of "Q") [et_bound ["super"; "Tag"]])
  /\ map (fun p => (type_names (gp_generics p), option_map gk_key (gp_generic p)))
         (gm_privmods (ex_gen et_struct))
     = [(["T"; "Q"], Some [GaType (TTuple [ty_of "T"; ty_of "Q"])]);
        (["T"; "U"], Some [GaType (TTuple [ty_of "T"; ty_of "U"])])]
  /\ map ge_where (gm_expects (ex_gen et_struct))
     = [Some [WpType None (ty_of "Q") [et_bound ["super"; "super"; "super"; "Tag"]];
              shared (ty_of "T")]]
  /\ map gc_turbofish (gm_calls (ex_gen et_struct))
     = [PaAngle [GaType (ty_of "T"); GaType (ty_of "Q")];
        PaAngle [GaType (ty_of "T"); GaType (ty_of "U")]].
Proof.
  split; [reflexivity|]. split; [exact et_well_formed|]. split; [exact et_documented|].
  assert (NC : forall i, ~ closure_param (sg_generics (fi_sig et_get)) i).
  { intros i H. apply ClosureProofs.closure_key in H. cbn in H. discriminate. }
  split; [|split; [|repeat split; reflexivity]].
  - split; [left; reflexivity|]. split; auto.
  - split; [left; reflexivity|]. intros i C. elim (NC i C).
Qed.

Example trait_expectations_have_their_types_applies :
  mock_it ex_hash et_struct = Some (ex_gen et_struct) /\ well_formed et_struct /\ same_fns et_struct
  /\ plain_method et_a /\ fitting_self et_struct et_impl
  /\ map ge_args (flat_map gt_expects (gm_trait_impls (ex_gen et_struct)))
     = [PaAngle [GaType (ty_of "u32")]]
  /\ flat_map gs_fields (gm_substructs (ex_gen et_struct))
     = [GenField [] "a" (FtExpectations ["__mock_MockFoo_Tr"; "__a"] false (PaAngle [GaType (ty_of "T")]));
        GenField [] "_t0" (FtPhantomType "T")].
Proof.
  split; [reflexivity|]. split; [exact et_well_formed|].
  split. { intros x y bx b' p [<-|[]] [<-|[]] _ _. reflexivity. }
  split; [repeat split; reflexivity|].
  split. { intros s E. cbn in E. injection E as <-. split; [reflexivity|]. split.
           - cbn. constructor; [intros []|constructor].
           - exists [ty_of "u32"]. split; [reflexivity|]. right. reflexivity. }
  split; reflexivity.
Qed.

(** ** Undocumented cases *)

(** If a generic method returns a type with a lifetime of its own, [expect_]
    names the lifetime without declaring it, and its return type and the call in
    it disagree:
    [fn get<'a, Q>(&'a self, q: Q) -> Bar<'a>]. *)
Definition et_bar : fn_item :=
  FnItem [] VInherited
    (Signature "get" (Generics true [GpLifetime "a" []; GpType "Q" [] None] None)
       [FaReceiver (Some (Some "a")) false false (TRef (Some "a") false (ty_of "Self"));
        FaTyped (PatIdent false false "q" false) (ty_of "Q")]
       (Some (TPath (Path false [Seg "Bar" (PaAngle [GaLifetime "a"])]))) None).

Theorem generic_returned_lifetimes_refuted : exists m g x,
  mock_it ex_hash m = Some g /\ well_formed m /\ In x (ms_methods m) /\ has_self x = true
  /\ (exists e l, In e (gm_expects g) /\ In (GaLifetime l) (angle_args (ge_turbofish e))
        /\ l <> "static" /\ ~ In l (lifetime_names (gm_generics g))
        /\ ~ In l (lifetime_names (Generics true (ge_params e) None)))
  /\ forall p e, In p (gm_privmods g) -> In e (gm_expects g) -> ~ typed_expect (gm_modname g) p e.
Proof.
  set (m := MockableStruct [] [] no_generics [et_bar] "MockFoo" VPublic []).
  exists m, (ex_gen m), et_bar. split; [reflexivity|].
  split. { split; [split|]; [intros f [<-|[]]; discriminate|intros x f []|reflexivity]. }
  split; [left; reflexivity|]. split; [reflexivity|]. split.
  - eexists. exists "a". split; [left; reflexivity|]. split; [left; reflexivity|].
    split; [discriminate|]. split; [intros []|]. cbn. intros H. destruct H.
  - intros p e [<-|[]] [<-|[]] (_ & T). cbn in T. destruct T as [_ T]. discriminate T.
Qed.
Print Assumptions generic_returned_lifetimes_refuted.

(** If a trait is implemented for a struct with a lifetime parameter and the
    method returns a type with it, the type returned by [expect_] has too many
    arguments: [impl<'a> Tr for Foo<'a> { fn a(&self) -> &'a u32; }]. *)
Definition et_lt : generics := Generics true [GpLifetime "a" []] None.
Definition et_lt_impl : item_impl :=
  ItemImpl [] false et_lt (Some (false, ex_tr))
    (TPath (Path false [Seg "MockFoo" (PaAngle [GaLifetime "a"])]))
    [IiFn (ex_fn [] "a" [ex_self] (Some (TPath (Path false [Seg "Bar" (PaAngle [GaLifetime "a"])]))))].

Theorem trait_lifetimes_refuted : exists m g x y p e,
  mock_it ex_hash m = Some g /\ well_formed m /\ same_fns m
  /\ In x (ms_impls m) /\ In y (impl_fns x) /\ plain_method y
  /\ In p (flat_map gs_privmods (gm_substructs g)) /\ In e (flat_map gt_expects (gm_trait_impls g))
  /\ List.length (params (gp_generics p)) = 1 /\ List.length (angle_args (ge_args e)) = 2.
Proof.
  set (m := MockableStruct [] [] et_lt [] "MockFoo" VPublic [et_lt_impl]).
  exists m, (ex_gen m), et_lt_impl. eexists. eexists. eexists. split; [reflexivity|].
  split. { split; [split|]; [intros f []|intros x f [<-|[]] [<-|[]]; reflexivity|discriminate]. }
  split. { intros x y bx b' p [<-|[]] [<-|[]] _ _. reflexivity. }
  split; [left; reflexivity|]. split; [left; reflexivity|]. split; [repeat split; reflexivity|].
  split; [left; reflexivity|]. split; [left; reflexivity|]. split; reflexivity.
Qed.
Print Assumptions trait_lifetimes_refuted.
