(** * PropPipeline: what the macros make of traits, impl blocks and mock!

    Property C65. *)

From Coq Require Import List Bool String Ascii NArith Arith Lia.
From Verif Require Import Ast AstSpec TyEq Rewrite RewriteProofs Derive DeriveSpec Names CallSpec Subst
  SubstProofs Sig SigSpec SigProofs PropSig MockFn MockFnProofs PropCalls PropSubst Item ItemSpec
  ItemProofs MockItem PipeSpec PipeProofs.
Import ListNotations.
Open Scope string_scope.
Open Scope list_scope.

(** ** Lemmas *)

Lemma filter_all {A} (f : A -> bool) l : Forall (fun x => f x = true) l -> filter f l = l.
Proof. induction 1; cbn; auto. rewrite H. now f_equal. Qed.
Lemma filter_none {A} (f : A -> bool) l : Forall (fun x => f x = false) l -> filter f l = [].
Proof. induction 1; cbn; auto. now rewrite H. Qed.

Lemma type_args_applied i g : applied_to i g (Seg i (type_args g)).
Proof.
  unfold applied_to, type_args. destruct (params g) as [|p ps]; [reflexivity|].
  intros (a & b & -> & A & B). do 2 f_equal.
  assert (LA : Forall (fun q => is_lifetime_param q = true) a).
  { eapply Forall_impl; [|exact A]. intros q (x & y & ->). reflexivity. }
  assert (LB : Forall (fun q => is_lifetime_param q = false) b).
  { eapply Forall_impl; [|exact B]. intros [l c|j c d|j t d] H; auto. exfalso. eapply H. reflexivity. }
  rewrite !filter_app, (filter_all _ a LA), (filter_none _ b LB).
  rewrite (filter_none _ a), (filter_all _ b).
  - rewrite app_nil_r. reflexivity.
  - eapply Forall_impl; [|exact LB]. intros q H. now rewrite H.
  - eapply Forall_impl; [|exact LA]. intros q H. now rewrite H.
Qed.

Lemma substitute_projected a tr s :
  substitute_sig_error a tr s = false -> projected (assoc_get a) tr s (substitute_sig a tr s).
Proof.
  unfold substitute_sig_error, substitute_sig, projected. cbn. intros E.
  apply existsb_orb in E as [E1 E2]. repeat split.
  - apply existsb_false_F in E1. induction E1 as [|x l H E1 IH]; cbn; constructor; auto.
    destruct x as [r m c t|p t]; cbn; auto. split; auto. intros P.
    now apply (proj1 (substituted a tr)).
  - destruct (sg_output s) as [t|]; cbn; auto. intros P. now apply (proj1 (substituted a tr)).
Qed.

Lemma adapted_mocks name g s c :
  mockable_method_error name g s = false -> kept (mockable_method name g s) (gc_sig c) ->
  mocks name g s c.
Proof. intros E K. exists (mockable_method name g s). split; auto. now apply signatures_are_adapted. Qed.

Lemma method_self name g s : takes_self (mockable_method name g s) = takes_self s.
Proof.
  unfold mockable_method, add_lifetime_parameters, takes_self. cbn.
  unfold demutify. rewrite !map_map. induction (sg_inputs s) as [|a l IH]; auto. cbn. rewrite IH.
  f_equal. destruct a as [[r|] m [|] t|p t]; reflexivity.
Qed.

Lemma substitute_self a tr s : takes_self (substitute_sig a tr s) = takes_self s.
Proof.
  unfold takes_self, substitute_sig. cbn. induction (sg_inputs s) as [|x l IH]; auto. cbn. rewrite IH.
  destruct x; reflexivity.
Qed.

Lemma method_ident name g s : sg_ident (mockable_method name g s) = sg_ident s.
Proof. reflexivity. Qed.

Lemma Forall2_r {A B} (R : A -> B -> Prop) (P : B -> Prop) l m :
  Forall2 R l m -> (forall x y, R x y -> P y) -> Forall P m.
Proof. induction 1; intros H1; constructor; eauto. Qed.

(** Functions made from functions. *)
Lemma expect_names_of {A} (h : A -> fn_item) (k : A -> signature) (v : A -> visibility) l :
  (forall x, takes_self (fi_sig (h x)) = takes_self (k x)) ->
  (forall x, sg_ident (fi_sig (h x)) = sg_ident (k x)) ->
  map (fun f => "expect_" ++ unraw_name (sg_ident (fi_sig f)))%string
      (filter (fun f => takes_self (fi_sig f)) (map h l))
  = expect_names (map k l)
  /\ map (fun f => unraw_name (sg_ident (fi_sig f)) ++ "_context")%string
         (filter (fun f => negb (takes_self (fi_sig f))) (map h l))
     = context_names (map k l).
Proof.
  intros S I. unfold expect_names, context_names. split.
  - induction l as [|x l IH]; auto. cbn [map filter]. rewrite S.
    destruct (takes_self (k x)); cbn [map filter negb]; rewrite IH, ?I; auto.
  - induction l as [|x l IH]; auto. cbn [map filter]. rewrite S.
    destruct (takes_self (k x)); cbn [map filter negb]; rewrite IH, ?I; auto.
Qed.

Lemma map_pairs {A B C} (f : A -> B) (g : A -> C) (l : list A) (c : C) m :
  map (fun e => (f e, g e)) l = map (fun x => (x, c)) m ->
  map f l = m /\ Forall (fun e => g e = c) l.
Proof.
  revert m. induction l as [|x l IH]; intros [|y m] H; try discriminate; auto.
  cbn in H. injection H as H1 H2 H. destruct (IH _ H) as [IH1 IH2]. subst. split; cbn; auto.
Qed.

(** ** C65: automock of a trait *)

(** The mock of a trait [T] is a structure [MockT] with the trait's visibility and
    parameters and with [Debug].  It implements the trait, with the trait's
    safety, constants and types, and each method mocks the method of the trait.
    There is an [expect_] function for each method with [self] and a context for
    each other, visible like the trait; there is nothing else. *)
Theorem automock_of_a_trait :
  forall (hash : list pargs -> N) (a : list (ident * ty)) (t : item_trait) (m : gen_mock),
    from_trait_error a t = false ->
    mock_it hash (from_trait a t) = Some m ->
    let name := ("Mock" ++ unraw_name (it_ident t))%string in
    gm_name m = name /\ gm_vis m = it_vis t /\ gm_generics m = it_generics t /\ gm_debug m = true
    /\ gm_calls m = [] /\ gm_consts m = [] /\ gm_expects m = [] /\ gm_contexts m = []
    /\ exists i s,
         gm_trait_impls m = [i]
         /\ gt_path i = Path false [s] /\ applied_to (it_ident t) (it_generics t) s
         /\ applied_to name (it_generics t) (gt_self i)
         /\ gt_unsafe i = it_unsafe t /\ gt_generics i = it_generics t
         /\ gt_consts i = flat_map (fun x => match x with
                                             | TiConst n u (Some e) => [(n, (u ++ " = " ++ e)%string)]
                                             | _ => []
                                             end) (it_items t)
         /\ (forall n b d, In (TiType n b d) (it_items t) -> exists u, assoc_get a n = Some u)
         /\ gt_types i = flat_map (fun x => match x with
                                            | TiType n _ _ => match assoc_get a n with
                                                              | Some u => [(n, u)]
                                                              | None => []
                                                              end
                                            | _ => []
                                            end) (it_items t)
         /\ Forall2 (mocks_method (assoc_get a) (it_ident t) name (it_generics t))
                    (trait_sigs t) (gt_calls i)
         /\ Forall (fun c => gc_vis c = VInherited) (gt_calls i)
         /\ map ge_name (gt_expects i) = expect_names (trait_sigs t)
         /\ map gx_name (gt_contexts i) = context_names (trait_sigs t)
         /\ Forall (fun e => ge_vis e = it_vis t) (gt_expects i)
         /\ Forall (fun e => gx_vis e = it_vis t) (gt_contexts i).
Proof.
  intros hash a t m E H name. unfold from_trait_error in E. apply existsb_orb in E as [ES EM].
  apply mock_it_made in H. destruct H as [Kn Kv Kg Kc Kd Kcl Ke Kx Ki].
  cbn [from_trait ms_name ms_vis ms_generics ms_consts ms_attrs ms_methods ms_impls substitute_trait
       with_items it_ident it_vis it_generics it_attrs] in *.
  split; [exact Kn|]. split; [exact Kv|]. split; [exact Kg|].
  split. { rewrite Kd. unfold derives_debug. rewrite existsb_app. cbn. apply orb_true_r. }
  split. { inversion Kcl. reflexivity. }
  split; [exact Kc|].
  split. { cbn in Ke. now apply map_eq_nil in Ke. }
  split. { cbn in Kx. now apply map_eq_nil in Kx. }
  inversion Ki as [|x i xs is I K EX EI]. subst. inversion K. subst. clear K Ki.
  destruct I as [Ip Is Iu Ig Ic It Il Ie Ix].
  assert (FN : impl_fns (mockable_trait (substitute_trait a t) (gen_mock_ident (it_ident t)) (it_generics t))
    = map (fun x => FnItem (fst x) VInherited
                      (mockable_method name (it_generics t) (substitute_sig a (it_ident t) (snd x))))
          (flat_map (fun i => match i with TiFn at_ s => [(at_, s)] | _ => [] end) (it_items t))).
  { unfold impl_fns, mockable_trait, substitute_trait. cbn [im_items it_items with_items].
    rewrite map_map. induction (it_items t) as [|y l IH]; auto. cbn [map flat_map].
    rewrite IH, map_app. f_equal. destruct y as [n u d|at_ s|n b d|s]; auto.
    cbn. destruct (assoc_get a n); reflexivity. }
  rewrite FN in Il, Ie, Ix. clear FN.
  assert (SG : trait_sigs t
    = map snd (flat_map (fun i => match i with TiFn at_ s => [(at_, s)] | _ => [] end) (it_items t))).
  { unfold trait_sigs. clear. induction (it_items t) as [|y l IH]; [reflexivity|]. cbn [flat_map].
    rewrite map_app, IH. destruct y; reflexivity. }
  exists i. eexists. split; [reflexivity|].
  destruct Ip as (bang & Ip). cbn [mockable_trait im_trait it_ident it_generics] in Ip.
  injection Ip as _ Ip. split; [symmetry; exact Ip|]. split; [apply type_args_applied|].
  cbn in Is. injection Is as Is. rewrite <- Is. split; [apply type_args_applied|].
  split; [exact Iu|]. split; [exact Ig|]. split; [|split; [|split; [|split; [|split]]]].
  - rewrite Ic. unfold mockable_trait, substitute_trait, with_items.
    cbn [im_items it_items]. rewrite map_map.
    clear - EM. cbn [it_items] in EM. revert EM. unfold substitute_trait, with_items. cbn [it_items].
    induction (it_items t) as [|y l IH]; auto. cbn [map flat_map existsb]. intros EM.
    apply existsb_orb in EM as [E1 E2]. rewrite (IH E2). f_equal.
    destruct y as [n u d|at_ s|n b d|s]; auto.
    + cbn in *. destruct d; [reflexivity|discriminate].
    + cbn. destruct (assoc_get a n); reflexivity.
  - intros n b d I. unfold substitute_trait_error in ES. apply existsb_false_F in ES.
    rewrite Forall_forall in ES. specialize (ES _ I). cbn in ES.
    destruct (assoc_get a n); [eauto|discriminate].
  - rewrite It. unfold mockable_trait, substitute_trait, with_items.
    cbn [im_items it_items]. rewrite map_map.
    clear - ES. unfold substitute_trait_error in ES. revert ES.
    induction (it_items t) as [|y l IH]; auto. cbn [map flat_map existsb]. intros EM.
    apply existsb_orb in EM as [E1 E2]. rewrite (IH E2). f_equal.
    destruct y as [n u d|at_ s|n b d|s]; auto. cbn in *.
    destruct (assoc_get a n); [reflexivity|discriminate].
  - rewrite SG. unfold substitute_trait_error in ES. unfold substitute_trait, with_items in EM.
    cbn [it_items] in EM. clear - Il ES EM.
    revert Il. generalize (gt_calls i). revert ES EM.
    induction (it_items t) as [|y l IH].
    + cbn. intros _ _ cs F. inversion F. constructor.
    + cbn [existsb map flat_map]. intros ES EM. apply existsb_orb in ES as [ES1 ES2].
      apply existsb_orb in EM as [EM1 EM2].
      destruct y as [n u d|at_ s|n b d|s]; try exact (IH ES2 EM2).
      cbn [app map fst snd]. intros cs F. inversion F as [|? ? ? ? [H _] F']. subst.
      constructor; [|exact (IH ES2 EM2 _ F')].
      exists (substitute_sig a (it_ident t) s). split; [now apply substitute_projected|].
      apply adapted_mocks; [exact EM1|exact H].
  - eapply Forall2_r; [exact Il|]. now intros ? ? [_ H].
  - rewrite SG. set (fs := flat_map _ (it_items t)) in *.
    destruct (@expect_names_of (list attribute * signature)
      (fun x => FnItem (fst x) VInherited
         (mockable_method name (it_generics t) (substitute_sig a (it_ident t) (snd x))))
      snd (fun _ => VInherited) fs) as [N1 N2].
    { intros x. cbn [fi_sig]. rewrite method_self. apply substitute_self. }
    { reflexivity. }
    rewrite <- N1, <- N2.
    assert (Ie' := Ie). assert (Ix' := Ix).
    rewrite <- (map_map (fun f => "expect_" ++ unraw_name (sg_ident (fi_sig f)))%string
                        (fun n => (n, it_vis t))) in Ie'.
    rewrite <- (map_map (fun f => unraw_name (sg_ident (fi_sig f)) ++ "_context")%string
                        (fun n => (n, it_vis t))) in Ix'.
    apply map_pairs in Ie' as [-> V1]. apply map_pairs in Ix' as [-> V2].
    split; [reflexivity|]. split; [reflexivity|]. auto.
Qed.
Print Assumptions automock_of_a_trait.

(** [pub unsafe trait Tr<'a, T> { type A; const N: u8 = 1;
      fn f(&self, mut x: Self::A) -> Vec<Self::A>; fn s(x: &dyn Fn2) -> T; }]
    with [type A = u32]. *)
Definition ex_hash (l : list pargs) : N := N.of_nat (List.length l).
Definition ex_pat (m : bool) (i : ident) : pat := PatIdent false m i false.
Definition ex_self_arg : fnarg := FaReceiver (Some None) false false (TRef None false (ty_of "Self")).
Definition ex_params : generics := Generics true [GpLifetime "a" []; GpType "T" [] None] None.
Definition ex_assoc : ty := TPath (Path false [seg_of "Self"; seg_of "A"]).
Definition ex_f (v : bool) : signature :=
  Signature "f" no_generics [ex_self_arg; FaTyped (ex_pat v "x") ex_assoc]
    (Some (TPath (Path false [Seg "Vec" (PaAngle [GaType ex_assoc])]))) None.
Definition ex_s : signature :=
  Signature "s" no_generics
    [FaTyped (ex_pat false "x") (TRef None false (TDyn true [BTrait false [] (path_of "Fn2")]))]
    (Some (ty_of "T")) None.
Definition ex_trait : item_trait :=
  ItemTrait [] VPublic true "Tr" ex_params
    [TiType "A" [] None; TiConst "N" "u8" (Some "1"); TiFn [] (ex_f true); TiFn [] ex_s].
Definition ex_names (m : gen_mock) :=
  (map (fun i => (gt_path i, gt_self i, map (fun c => (sg_ident (gc_sig c), sg_output (gc_sig c))) (gt_calls i)))
     (gm_trait_impls m),
   map (fun i => (map ge_name (gt_expects i), map gx_name (gt_contexts i), gt_types i)) (gm_trait_impls m),
   map (fun c => sg_ident (gc_sig c)) (gm_calls m), map ge_name (gm_expects m), map gx_name (gm_contexts m)).

Definition ex_pargs : pargs := PaAngle [GaLifetime "a"; GaType (ty_of "T")].
Definition ex_vec : ty := TPath (Path false [Seg "Vec" (PaAngle [GaType (ty_of "u32")])]).
Example automock_of_a_trait_applies :
  from_trait_error [("A", ty_of "u32")] ex_trait = false
  /\ option_map ex_names (mock_it ex_hash (from_trait [("A", ty_of "u32")] ex_trait))
     = Some ([(Path false [Seg "Tr" ex_pargs], Seg "MockTr" ex_pargs,
               [("f", Some ex_vec); ("s", Some (ty_of "T"))])],
             [(["expect_f"], ["s_context"], [("A", ty_of "u32")])], [], [], []).
Proof. split; reflexivity. Qed.

(** ** Impl blocks *)

Lemma impl_types_defined x : defined (types_of x) (assoc_get (impl_types (im_items x))).
Proof.
  assert (T : impl_types (im_items x) = parse_attrs (map (fun p => (fst p, Some (snd p))) (types_of x))).
  { unfold impl_types, parse_attrs, types_of.
    match goal with |- fold_left ?f ?l _ = fold_left ?g ?m _ =>
      cut (forall a, fold_left f l a = fold_left g m a); [auto|] end.
    induction (im_items x) as [|y l IH]; intros a; [reflexivity|].
    cbn [fold_left flat_map]. rewrite map_app, fold_left_app.
    destruct y; cbn [map fold_left fst snd]; apply IH. }
  intros n t. rewrite T, last_declared_type_counts. split.
  - intros (l1 & l2 & E & N). apply map_eq_app in E as (k1 & k2 & E & E1 & E2).
    destruct k2 as [|[j u] k2]; [discriminate|]. cbn in E2. injection E2 as -> -> E2.
    exists k1, k2. split; auto. intros v I. apply (N v). rewrite <- E2.
    change (n, Some v) with ((fun p : ident * ty => (fst p, Some (snd p))) (n, v)). now apply in_map.
  - intros (l1 & l2 & E & N). rewrite E, map_app. cbn [map fst snd].
    eexists. eexists. split; [reflexivity|]. intros u I. apply in_map_iff in I as ([j v] & I & J).
    cbn in I. injection I as -> ->. exact (N _ J).
Qed.

Lemma impl_fns_on f x b c :
  impl_fns (ItemImpl (im_attrs x) (im_unsafe x) (im_generics x) b c (map (on_sig f) (im_items x)))
  = map (fun y => FnItem (fi_attrs y) (fi_vis y) (f (fi_sig y))) (methods_of x).
Proof.
  unfold impl_fns, methods_of. cbn [im_items]. induction (im_items x) as [|y l IH]; [reflexivity|].
  cbn [map flat_map]. rewrite map_app, IH. destruct y; reflexivity.
Qed.

Lemma implements_made vis name g (R : ident -> generics -> signature -> gen_call -> Prop) x y i f b :
  y = ItemImpl (im_attrs x) (im_unsafe x) (im_generics x) (im_trait x) b (map (on_sig f) (im_items x)) ->
  impl_made vis y i ->
  (forall s, takes_self (f s) = takes_self s) ->
  (forall s, sg_ident (f s) = sg_ident s) ->
  (forall s c, In s (map fi_sig (methods_of x)) -> kept (f s) (gc_sig c) -> R name g s c) ->
  implements vis name g R x i /\ self_path b = Some (gt_self i).
Proof.
  intros -> [Ip Is Iu Ig Ic It Il Ie Ix] S N K. rewrite impl_fns_on in Il, Ie, Ix.
  cbn [im_trait im_self im_unsafe im_generics im_items] in *. split; [|exact Is].
  unfold implements. split; [exact Ip|]. split; [exact Iu|]. split; [exact Ig|].
  split. { rewrite Ic. unfold consts_of. clear. induction (im_items x) as [|y l IH]; [reflexivity|].
           cbn [map flat_map]. rewrite IH. destruct y; reflexivity. }
  split. { rewrite It. unfold types_of. clear. induction (im_items x) as [|y l IH]; [reflexivity|].
           cbn [map flat_map]. rewrite IH. destruct y; reflexivity. }
  split. { clear - Il K. revert Il K. generalize (gt_calls i).
           induction (methods_of x) as [|y l IH]; intros cs F K; inversion F; subst; cbn; constructor.
           - apply K; [now left|]. now destruct H1.
           - apply IH; auto. intros s c I. apply K. now right. }
  split. { eapply Forall2_r; [exact Il|]. now intros ? ? [_ H]. }
  destruct (@expect_names_of fn_item (fun y => FnItem (fi_attrs y) (fi_vis y) (f (fi_sig y)))
              fi_sig fi_vis (methods_of x)) as [N1 N2].
  { intros y. apply S. } { intros y. apply N. }
  rewrite <- N1, <- N2.
  rewrite <- (map_map (fun f => "expect_" ++ unraw_name (sg_ident (fi_sig f)))%string
                      (fun n => (n, vis))) in Ie.
  rewrite <- (map_map (fun f => unraw_name (sg_ident (fi_sig f)) ++ "_context")%string
                      (fun n => (n, vis))) in Ix.
  apply map_pairs in Ie as [-> V1]. apply map_pairs in Ix as [-> V2]. auto.
Qed.

Lemma expect_fns_of (f : signature -> signature) l :
  (forall s, takes_self (f s) = takes_self s) ->
  (forall s, sg_ident (f s) = sg_ident s) ->
  expect_fns (map (fun y => FnItem (fi_attrs y) (fi_vis y) (f (fi_sig y))) l) = expect_fns l
  /\ context_fns (map (fun y => FnItem (fi_attrs y) (fi_vis y) (f (fi_sig y))) l) = context_fns l.
Proof.
  intros S N. unfold expect_fns, context_fns. split.
  - induction l as [|x l IH]; auto. cbn [map filter fi_sig]. rewrite S.
    destruct (takes_self (fi_sig x)); cbn [map filter negb fi_sig fi_vis]; rewrite IH, ?N; auto.
  - induction l as [|x l IH]; auto. cbn [map filter fi_sig]. rewrite S.
    destruct (takes_self (fi_sig x)); cbn [map filter negb fi_sig fi_vis]; rewrite IH, ?N; auto.
Qed.

Lemma calls_made (f : signature -> signature) (R : signature -> gen_call -> Prop) l cs :
  Forall2 (fun y c => kept (fi_sig y) (gc_sig c) /\ gc_vis c = fi_vis y)
    (map (fun y => FnItem (fi_attrs y) (fi_vis y) (f (fi_sig y))) l) cs ->
  (forall y c, In y l -> kept (f (fi_sig y)) (gc_sig c) -> R (fi_sig y) c) ->
  Forall2 (fun y c => R (fi_sig y) c /\ gc_vis c = fi_vis y) l cs.
Proof.
  revert cs. induction l as [|y l IH]; intros cs F K; inversion F; subst; constructor.
  - destruct H1 as [H1 H2]. split; [|exact H2]. apply K; [now left|exact H1].
  - apply IH; auto. intros z c I. apply K. now right.
Qed.

(** The mock of [impl S<...> {...}] is a public structure [MockS] with the
    parameters of the block, its constants, and a mock of each of its methods;
    the methods, [expect_] functions and contexts have the methods' visibility.
    It implements no trait. *)
Theorem automock_of_an_inherent_impl :
  forall (hash : list pargs -> N) (x : item_impl) (m : gen_mock) (lead : bool) (n : ident) (args : pargs),
    from_impl_error x = false ->
    im_trait x = None ->
    im_self x = TPath (Path lead [Seg n args]) ->
    mock_it hash (from_impl x) = Some m ->
    let name := ("Mock" ++ unraw_name n)%string in
    gm_name m = name /\ gm_vis m = VPublic /\ gm_generics m = im_generics x /\ gm_debug m = true
    /\ gm_consts m = consts_of x
    /\ Forall2 (fun f c => mocks name (im_generics x) (fi_sig f) c /\ gc_vis c = fi_vis f)
               (methods_of x) (gm_calls m)
    /\ map (fun e => (ge_name e, ge_vis e)) (gm_expects m) = expect_fns (methods_of x)
    /\ map (fun e => (gx_name e, gx_vis e)) (gm_contexts m) = context_fns (methods_of x)
    /\ gm_trait_impls m = [].
Proof.
  intros hash x m lead n args E T S H name. unfold from_impl_error, from_impl, impl_name in *.
  rewrite T, S in *. cbn [path_ident] in *. fold name in E, H |- *.
  change (gen_mock_ident n) with name in E, H.
  apply existsb_orb in E as [_ E]. apply existsb_orb in E as [_ E].
  apply mock_it_made in H. destruct H as [Kn Kv Kg Kc Kd Kcl Ke Kx Ki].
  cbn [ms_name ms_vis ms_generics ms_consts ms_attrs ms_methods ms_impls] in *.
  split; [exact Kn|]. split; [exact Kv|]. split; [exact Kg|].
  split. { rewrite Kd. unfold derives_debug. rewrite existsb_app. cbn. apply orb_true_r. }
  split; [exact Kc|]. change (impl_fns x) with (methods_of x) in *.
  split. { apply (calls_made _ _ _ _ Kcl). intros f c I K. apply adapted_mocks; [|exact K].
           apply existsb_false_F in E. rewrite Forall_forall in E. exact (E _ I). }
  destruct (expect_fns_of (mockable_method name (im_generics x)) (methods_of x)
              (method_self _ _) (method_ident _ _)) as [N1 N2].
  split; [rewrite Ke; exact N1|]. split; [rewrite Kx; exact N2|]. now inversion Ki.
Qed.
Print Assumptions automock_of_an_inherent_impl.

(** [impl<'a, T> Foo<'a, T> { const N; pub fn f(&self, x: u32); fn s(..) -> T }] *)
Definition ex_foo : ty := TPath (Path false [Seg "Foo" ex_pargs]).
Definition ex_g : signature :=
  Signature "g" no_generics [ex_self_arg; FaTyped (ex_pat true "x") (ty_of "Self")] None None.
Definition ex_inherent : item_impl :=
  ItemImpl [] false ex_params None ex_foo
    [IiConst "N" "u8 = 1"; IiFn (FnItem [] VPublic ex_g); IiFn (FnItem [] VInherited ex_s)].
Example automock_of_an_inherent_impl_applies :
  from_impl_error ex_inherent = false /\ im_trait ex_inherent = None
  /\ option_map ex_names (mock_it ex_hash (from_impl ex_inherent))
     = Some ([], [], ["g"; "s"], ["expect_g"], ["s_context"]).
Proof. repeat split; reflexivity. Qed.

(** The mock of [impl T for S<...> {...}] is a public structure [MockS] that
    implements [T], with the associated types of the block in its methods. *)
Theorem automock_of_a_trait_impl :
  forall (hash : list pargs -> N) (x : item_impl) (m : gen_mock) (lead : bool) (n : ident) (args : pargs)
         (bang : bool) (p : path),
    from_impl_error x = false ->
    im_trait x = Some (bang, p) ->
    im_self x = TPath (Path lead [Seg n args]) ->
    mock_it hash (from_impl x) = Some m ->
    let name := ("Mock" ++ unraw_name n)%string in
    gm_name m = name /\ gm_vis m = VPublic /\ gm_generics m = im_generics x /\ gm_debug m = true
    /\ gm_calls m = [] /\ gm_consts m = [] /\ gm_expects m = [] /\ gm_contexts m = []
    /\ exists types tlead tr targs i,
         p = Path tlead [Seg tr targs]
         /\ gm_trait_impls m = [i]
         /\ gt_self i = Seg name args
         /\ defined (types_of x) types
         /\ implements VPublic name (im_generics x) (mocks_method types tr) x i.
Proof.
  intros hash x m lead n args bang p E T S H name. unfold from_impl_error, from_impl, impl_name in *.
  rewrite T, S in *. cbn [path_ident] in *. change (gen_mock_ident n) with name in E, H.
  apply existsb_orb in E as [_ E]. apply existsb_orb in E as [E EM].
  apply existsb_orb in E as [E ES]. apply existsb_orb in E as [E _].
  apply existsb_orb in E as [_ EP].
  destruct p as [tlead ss]. destruct (path_ident (Path tlead ss)) as [tr|] eqn:P; [|discriminate].
  cbn in P. destruct ss as [|[tr' targs] [|]]; try discriminate. injection P as ->.
  apply mock_it_made in H. destruct H as [Kn Kv Kg Kc Kd Kcl Ke Kx Ki].
  cbn [ms_name ms_vis ms_generics ms_consts ms_attrs ms_methods ms_impls] in *.
  split; [exact Kn|]. split; [exact Kv|]. split; [exact Kg|].
  split. { rewrite Kd. unfold derives_debug. rewrite existsb_app. cbn. apply orb_true_r. }
  split. { now inversion Kcl. }
  split; [exact Kc|].
  split. { cbn in Ke. now apply map_eq_nil in Ke. }
  split. { cbn in Kx. now apply map_eq_nil in Kx. }
  inversion Ki as [|x' i xs is I K EX EI]. subst. inversion K. subst. clear K Ki.
  set (a := impl_types (im_items x)) in *.
  exists (assoc_get a), tlead, tr, targs, i.
  split; [reflexivity|]. split; [reflexivity|].
  unfold mockable_item_impl_error in EM. apply existsb_orb in EM as [_ EM].
  assert (EM' : forall s, In s (map fi_sig (methods_of x)) ->
            mockable_method_error name (im_generics x) (substitute_sig a tr s) = false).
  { intros s I'. apply in_map_iff in I' as (f & <- & I').
    unfold substitute_item_impl, with_impl_items in EM. rewrite impl_fns_on in EM.
    apply existsb_false_F in EM. rewrite Forall_forall in EM.
    specialize (EM (FnItem (fi_attrs f) (fi_vis f) (substitute_sig a tr (fi_sig f)))). apply EM.
    apply in_map_iff. exists f. auto. }
  destruct (implements_made VPublic name (im_generics x) (mocks_method (assoc_get a) tr) x _ i
              (fun s => mockable_method name (im_generics x) (substitute_sig a tr s))
              (mock_ident_in_type (im_self x)) eq_refl) as [J1 J2].
  - unfold mockable_item_impl, substitute_item_impl, with_impl_items in I.
    cbn [im_attrs im_unsafe im_generics im_trait im_self im_items] in I.
    rewrite map_map in I.
    replace (map (on_sig (fun s => mockable_method name (im_generics x) (substitute_sig a tr s))) (im_items x))
      with (map (fun y => on_sig (mockable_method name (im_generics x)) (on_sig (substitute_sig a tr) y))
                (im_items x)); [exact I|].
    apply map_ext. now intros [].
  - intros s. rewrite method_self. apply substitute_self.
  - reflexivity.
  - intros s c I' K. exists (substitute_sig a tr s). split.
    + apply substitute_projected. apply in_map_iff in I' as (f & <- & I').
      apply existsb_false_F in ES. rewrite Forall_forall in ES. exact (ES _ I').
    + apply adapted_mocks; [now apply EM'|exact K].
  - rewrite S in J2. cbn in J2. injection J2 as J2.
    split; [symmetry; exact J2|]. split; [apply impl_types_defined|exact J1].
Qed.
Print Assumptions automock_of_a_trait_impl.

(** [impl<'a, T> Tr for Foo<'a, T> { type A = u32; fn f(&self, mut x: Self::A) -> Vec<Self::A>; ... }] *)
Definition ex_block : item_impl :=
  ItemImpl [] false ex_params (Some (false, path_of "Tr")) ex_foo
    [IiType "A" (ty_of "u32"); IiFn (FnItem [] VInherited (ex_f true)); IiFn (FnItem [] VInherited ex_s)].
Example automock_of_a_trait_impl_applies :
  from_impl_error ex_block = false
  /\ option_map ex_names (mock_it ex_hash (from_impl ex_block))
     = Some ([(path_of "Tr", Seg "MockFoo" ex_pargs, [("f", Some ex_vec); ("s", Some (ty_of "T"))])],
             [(["expect_f"], ["s_context"], [("A", ty_of "u32")])], [], [], []).
Proof. split; reflexivity. Qed.

(** The text of a derive. *)
Lemma app_string_assoc a b d : ((a ++ b) ++ d = a ++ (b ++ d))%string.
Proof. induction a; cbn; congruence. Qed.
Lemma app_string_nil a : (a ++ "" = a)%string.
Proof. induction a; cbn; congruence. Qed.
Lemma without_spaces_spec s : without_spaces s = squeezed s.
Proof.
  unfold squeezed. induction s as [|c s IH]; [reflexivity|]. cbn [list_ascii_of_string filter].
  destruct (Ascii.eqb_spec c " ") as [->|N]; cbn [negb].
  - cbn [without_spaces]. exact IH.
  - cbn [string_of_list_ascii]. rewrite <- IH. clear IH.
    destruct c as [[] [] [] [] [] [] [] []]; try reflexivity. elim N. reflexivity.
Qed.
Definition no_comma (x : string) : Prop := ~ In ","%char (list_ascii_of_string x).
Lemma no_comma_app a b : no_comma (a ++ b) -> no_comma a /\ no_comma b.
Proof.
  unfold no_comma. induction a as [|c a IH]; cbn; [auto|]. intros N. split.
  - intros [X|X]; apply N; auto. right. clear - X. induction a; cbn in *; [contradiction|]. destruct X; auto.
  - intros X. apply N. right. clear - X. induction a; cbn in *; auto.
Qed.
Lemma split_commas_comma cur r : split_commas cur (String "," r) = cur :: split_commas "" r.
Proof. reflexivity. Qed.
Lemma split_commas_other cur c r : c <> ","%char -> split_commas cur (String c r) = split_commas (cur ++ String c "") r.
Proof. intros N. cbn [split_commas]. destruct c as [[] [] [] [] [] [] [] []]; try reflexivity. elim N. reflexivity. Qed.
Definition ends_entry (r : string) : Prop := r = "" \/ exists r', r = ("," ++ r')%string.
Lemma split_commas_in x t : no_comma x -> forall cur,
  In x (split_commas cur t) <->
  (exists a r, (cur ++ a = x)%string /\ t = (a ++ r)%string /\ ends_entry r)
  \/ (exists l r, t = (l ++ "," ++ x ++ r)%string /\ ends_entry r).
Proof.
  intros NX. induction t as [|c t IH]; intros cur.
  - cbn. split.
    + intros [<-|[]]. left. exists "", "". rewrite app_string_nil. repeat split. now left.
    + intros [(a & r & <- & E & _)|(l & r & E & _)].
      * destruct a; [|discriminate]. rewrite app_string_nil. auto.
      * destruct l; discriminate.
  - destruct (Ascii.eqb_spec c ",") as [->|N].
    + rewrite split_commas_comma. cbn [In]. rewrite IH. split.
      * intros [<-|[(a & r & <- & -> & E)|(l & r & -> & E)]].
        -- left. exists "", (String "," t). rewrite app_string_nil. repeat split. right. now exists t.
        -- right. exists "", r. cbn. split; auto.
        -- right. exists (String "," l), r. cbn. split; auto.
      * intros [(a & r & E1 & E2 & E)|(l & r & E2 & E)].
        -- destruct a as [|c a].
           ++ left. rewrite app_string_nil in E1. exact E1.
           ++ cbn in E2. injection E2 as <- _. exfalso. subst x. destruct (no_comma_app _ _ NX) as [_ Q]. apply Q. cbn. auto.
        -- destruct l as [|c l]; cbn in E2.
           ++ injection E2 as ->. right. left. exists x, r. auto.
           ++ injection E2 as <- ->. right. right. exists l, r. auto.
    + rewrite (split_commas_other _ _ _ N), IH. split.
      * intros [(a & r & <- & -> & E)|(l & r & -> & E)].
        -- left. exists (String c a), r. rewrite app_string_assoc. cbn. auto.
        -- right. exists (String c l), r. cbn. auto.
      * intros [(a & r & E1 & E2 & E)|(l & r & E2 & E)].
        -- destruct a as [|c' a]; cbn in E2.
           ++ destruct E as [->|(r' & ->)]; [discriminate|]. cbn in E2. injection E2 as -> _. elim N. reflexivity.
           ++ injection E2 as <- ->. left. exists a, r. rewrite app_string_assoc. cbn. auto.
        -- destruct l as [|c' l]; cbn in E2.
           ++ injection E2 as -> _. elim N. reflexivity.
           ++ injection E2 as <- ->. right. exists l, r. auto.
Qed.
Lemma split_commas_listed x t : no_comma x -> In x (split_commas "" t) <-> listed x t.
Proof.
  intros NX. rewrite (split_commas_in x t NX). unfold listed. split.
  - intros [(a & r & <- & -> & E)|(l & r & -> & E)].
    + exists "", r. cbn. auto.
    + exists (l ++ ",")%string, r. rewrite app_string_assoc. split; [reflexivity|]. split; [right; now exists l|exact E].
  - intros (l & r & -> & [->|(l' & ->)] & E).
    + left. exists x, r. cbn. auto.
    + right. exists l', r. rewrite app_string_assoc. cbn. auto.
Qed.
Lemma derives_debug_spec l : derives_debug l = true <-> derives "Debug" l.
Proof.
  unfold derives_debug, derives. rewrite existsb_exists.
  assert (NC : no_comma "Debug") by (unfold no_comma; cbn; intros X; repeat (destruct X as [X|X]; [discriminate|]); exact X).
  split.
  - intros (a & I & X). apply andb_prop in X as [X Y]. destruct (alist a) as [s|] eqn:A; [|discriminate].
    exists a, s. split; [exact I|]. split.
    + destruct (apath a) as [[|] [|[i []] [|]]]; try discriminate.
      unfold is_ident in X. apply String.eqb_eq in X. now rewrite <- X.
    + split; [exact A|]. apply existsb_exists in Y as (z & J & Y). apply String.eqb_eq in Y. subst z.
      rewrite without_spaces_spec in J. apply split_commas_listed in J; [exact J|exact NC].
  - intros (a & s & I & P & A & L). exists a. split; [exact I|]. rewrite P, A. cbn [is_ident path_of].
    apply andb_true_intro. split; [reflexivity|]. apply existsb_exists. exists "Debug". split; [|reflexivity].
    rewrite without_spaces_spec. apply split_commas_listed; auto.
Qed.

(** [#[derive(Clone, Debug)]] does, [#[derive(DebugX)]] does not. *)
Example derives_applies :
  derives "Debug" [Attribute (path_of "derive") (Some "Clone, Debug") ""] /\
  ~ derives "Debug" [Attribute (path_of "derive") (Some "DebugX") ""].
Proof.
  split.
  - eexists _, _. split; [left; reflexivity|]. split; [reflexivity|]. split; [reflexivity|].
    exists "Clone,", "". split; [reflexivity|]. split; [right; now exists "Clone"|now left].
  - intros H. apply derives_debug_spec in H. discriminate.
Qed.

(** [mock!] declares a structure with the given name after [Mock], visibility,
    parameters and constants, mocks the given methods, and implements the given
    blocks; it has [Debug] if and only if that is derived. *)
Theorem mock_of_a_declaration :
  forall (hash : list pargs -> N) (d : mock_decl) (m : gen_mock),
    from_mock_error d = false ->
    mock_it hash (from_mock d) = Some m ->
    let name := ("Mock" ++ unraw_name (md_name d))%string in
    gm_name m = name /\ gm_vis m = md_vis d /\ gm_generics m = md_generics d
    /\ gm_consts m = md_consts d
    /\ (gm_debug m = true <-> derives "Debug" (md_attrs d))
    /\ Forall2 (fun f c => mocks name (md_generics d) (fi_sig f) c /\ gc_vis c = fi_vis f)
               (md_methods d) (gm_calls m)
    /\ map (fun e => (ge_name e, ge_vis e)) (gm_expects m) = expect_fns (md_methods d)
    /\ map (fun e => (gx_name e, gx_vis e)) (gm_contexts m) = context_fns (md_methods d)
    /\ Forall2 (fun x i =>
         implements (md_vis d) name (md_generics d) mocks x i
         /\ exists lead n args q pos,
              (im_self x = TPath (Path lead [Seg n args]) \/ im_self x = TQPath q pos (Path lead [Seg n args]))
              /\ gt_self i = Seg ("Mock" ++ unraw_name n)%string args)
         (md_impls d) (gm_trait_impls m).
Proof.
  intros hash d m E H name. unfold from_mock_error in E. change (gen_mock_ident (md_name d)) with name in E.
  apply existsb_orb in E as [E1 E2].
  apply mock_it_made in H. destruct H as [Kn Kv Kg Kc Kd Kcl Ke Kx Ki].
  cbn [from_mock ms_name ms_vis ms_generics ms_consts ms_attrs ms_methods ms_impls] in *.
  change (gen_mock_ident (md_name d)) with name in *.
  split; [exact Kn|]. split; [exact Kv|]. split; [exact Kg|]. split; [exact Kc|].
  split; [rewrite Kd; apply derives_debug_spec|].
  split. { apply (calls_made _ _ _ _ Kcl). intros f c I K. apply adapted_mocks; [|exact K].
           apply existsb_false_F in E1. rewrite Forall_forall in E1. exact (E1 _ I). }
  destruct (expect_fns_of (mockable_method name (md_generics d)) (md_methods d)
              (method_self _ _) (method_ident _ _)) as [N1 N2].
  split; [rewrite Ke; exact N1|]. split; [rewrite Kx; exact N2|].
  clear - Ki E2. revert Ki E2. generalize (gm_trait_impls m).
  induction (md_impls d) as [|x l IH]; intros is F E; inversion F as [|? i ? js I F']; subst; constructor.
  - cbn [existsb] in E. apply existsb_orb in E as [E _].
    unfold mockable_item_impl_error in E. apply existsb_orb in E as [ES EM].
    destruct (implements_made (md_vis d) name (md_generics d) mocks x _ i _ _ eq_refl I) as [J1 J2].
    + apply method_self.
    + reflexivity.
    + intros s c I' K. apply adapted_mocks; [|exact K]. apply in_map_iff in I' as (f & <- & I').
      apply existsb_false_F in EM. rewrite Forall_forall in EM. exact (EM _ I').
    + split; [exact J1|].
      destruct (im_self x); try discriminate ES; destruct p as [lead ss].
      all: destruct ss as [|[n args] [|]]; try discriminate.
      all: cbn in J2; injection J2 as J2; exists lead, n, args.
      * exists (TTuple []), 0%nat. auto.
      * eexists. eexists. split; [right; reflexivity|auto].
  - apply IH; auto. cbn [existsb] in E. now apply existsb_orb in E as [_ E].
Qed.
Print Assumptions mock_of_a_declaration.

(** [mock! { #[derive(Debug)] pub(crate) Foo<'a, T> { pub fn g(..); fn s(..) } impl Tr for Foo<'a, T> {..} }] *)
Definition ex_decl : mock_decl :=
  MockDecl [derive_debug] (VRestricted false (path_of "crate")) "Foo" ex_params []
    [FnItem [] VPublic ex_g; FnItem [] VInherited ex_s] [ex_block].
Example mock_of_a_declaration_applies :
  from_mock_error ex_decl = false
  /\ option_map ex_names (mock_it ex_hash (from_mock ex_decl))
     = Some ([(path_of "Tr", Seg "MockFoo" ex_pargs,
               [("f", Some (TPath (Path false [Seg "Vec" (PaAngle [GaType
                  (TPath (Path false [Seg "MockFoo" ex_pargs; seg_of "A"]))])])));
                ("s", Some (ty_of "T"))])],
             [(["expect_f"], ["s_context"], [("A", ty_of "u32")])], ["g"; "s"], ["expect_g"], ["s_context"])
  /\ option_map gm_debug (mock_it ex_hash (from_mock ex_decl)) = Some true.
Proof. repeat split; reflexivity. Qed.
