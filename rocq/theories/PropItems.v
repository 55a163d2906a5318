(** * PropItems: generated mock structures (C51, C52, C58-C61) *)

From Coq Require Import List Bool Ascii String NArith Arith Lia.
From Verif Require Import Ast AstSpec TyEq Rewrite Derive DeriveSpec Names Subst Sig MockFn MockFnSpec
  Item MockFnProofs NameProofs ItemProofs MockItem ItemSpec.
Import ListNotations.
Open Scope string_scope.
Open Scope list_scope.

(** ** Examples *)

(** [mock! { pub Foo<T> { #[cfg(unix)] fn a(&self, x: u32) -> u32; fn s() -> T; }
    #[cfg(windows)] impl Tr for Foo<T> { fn a(&self); }
    impl m::Tr<u8> for Foo<T> { fn a(&mut self); fn new() -> u8; } }] *)
Definition ex_self : fnarg := FaReceiver (Some None) false false (TRef None false (ty_of "Self")).
Definition ex_mut : fnarg := FaReceiver (Some None) true false (TRef None true (ty_of "Self")).
Definition ex_cfg (s : string) : attribute := Attribute (path_of "cfg") (Some s) "".
Definition ex_fn (a : list attribute) (n : ident) (l : list fnarg) (o : option ty) : fn_item :=
  FnItem a VInherited (Signature n no_generics l o None).
Definition ex_generics : generics := Generics true [GpType "T" [] None] None.
Definition ex_impl (a : list attribute) (p : path) (l : list fn_item) : item_impl :=
  ItemImpl a false ex_generics (Some (false, p))
    (TPath (Path false [Seg "MockFoo" (PaAngle [GaType (ty_of "T")])])) (map IiFn l).
Definition ex_methods : list fn_item :=
  [ex_fn [ex_cfg "unix"] "a" [ex_self; FaTyped (PatIdent false false "x" false) (ty_of "u32")]
         (Some (ty_of "u32"));
   ex_fn [] "s" [] (Some (ty_of "T"))].
Definition ex_tr : path := path_of "Tr".
Definition ex_mtr : path := Path false [seg_of "m"; Seg "Tr" (PaAngle [GaType (ty_of "u8")])].
Definition ex_struct (impls : list item_impl) : mockable_struct :=
  MockableStruct [ex_cfg "test"] [] ex_generics ex_methods "MockFoo" VPublic impls.
Definition ex_mock : mockable_struct :=
  ex_struct [ex_impl [ex_cfg "windows"] ex_tr [ex_fn [] "a" [ex_self] None];
             ex_impl [] ex_mtr [ex_fn [] "a" [ex_mut] None; ex_fn [] "new" [] (Some (ty_of "u8"))]].
Definition ex_hash (l : list pargs) : N := N.of_nat (List.length l).

Definition ex_gen (m : mockable_struct) : gen_mock :=
  match mock_it ex_hash m with
  | Some g => g
  | None => GenMock [] [] VPublic "" no_generics "" [] [] [] false [] [] [] [] [] [] false []
  end.

Ltac no_text := intros; intros E;
  repeat match type of E with
         | _ = (?u ++ _)%string => destruct u; cbn in E; try discriminate; injection E as ? E
         end.

(** ** C51, C60: stores *)

Lemma calls_inv hash m s o c :
  mocked hash m s -> In (o, c) (calls_of (gen_struct s)) ->
  (o = None /\ exists x f, In x (ms_methods m) /\ In f (mi_methods s) /\ made None x f
                           /\ c = call_fn f (Some (mi_modname s)))
  \/ (exists x t y f, In x (ms_impls m) /\ In t (mi_traits s) /\ trait_made hash x t
        /\ o = Some (mt_path t) /\ In y (impl_fns x) /\ In f (mt_methods t)
        /\ made (Some (mt_ss_name t)) y f
        /\ c = call_fn f (Some (submod_ident (mi_modname s) (mt_ss_name t)))).
Proof.
  intros M I. unfold calls_of in I. apply in_app_iff in I as [I|I].
  - left. apply in_map_iff in I as (c' & E & I). injection E as <- ->. split; auto.
    cbn in I. apply in_map_iff in I as (f & <- & I).
    destruct (Forall2_in_r _ _ _ _ (mo_methods _ _ _ M) I) as (x & Ix & Hx). eauto 8.
  - right. apply in_flat_map in I as (ti & It & I). cbn in It.
    apply in_map_iff in It as (t & <- & It).
    apply in_map_iff in I as (c' & E & I). injection E as <- ->. cbn in I.
    apply in_map_iff in I as (f & <- & I).
    destruct (Forall2_in_r _ _ _ _ (mo_traits _ _ _ M) It) as (x & Ix & Hx).
    destruct (Forall2_in_r _ _ _ _ (tm_methods _ _ _ Hx) I) as (y & Iy & Hy).
    exists x, t, y, f. auto 12.
Qed.

Lemma store_of f md tr x :
  made tr x f ->
  gc_store (call_fn f (Some md))
  = if has_self x
    then match tr with
         | Some t => SubField (field_ident t) (fn_name x)
         | None => OwnField (fn_name x)
         end
    else StaticIn [md; inner_mod_ident (fn_name x)].
Proof.
  intros (N & _ & T & S & _). cbn. rewrite S, N. unfold object_store. rewrite T, N.
  destruct (has_self x), tr; reflexivity.
Qed.

Lemma name_of f md tr x : made tr x f -> call_name (call_fn f (Some md)) = fn_name x.
Proof. intros (N & _). exact N. Qed.

Lemma unraw_simple i : simple_name i -> unraw i = i.
Proof.
  intros (_ & _ & _ & R). unfold unraw. destruct i as [|a [|b i]]; auto.
  - destruct a as [[] [] [] [] [] [] [] []]; auto.
  - destruct (Ascii.ascii_dec a "r"%char) as [->|]; [destruct (Ascii.ascii_dec b "#"%char) as [->|]|].
    + elim (R i). reflexivity.
    + destruct b as [[] [] [] [] [] [] [] []]; auto. elim n. reflexivity.
    + destruct a as [[] [] [] [] [] [] [] []]; auto. elim n. reflexivity.
Qed.

Lemma simple_good i : simple_name i -> good i.
Proof.
  intros (A & B & C & _). repeat split; auto. intros [u E]. exact (C u E).
Qed.

Lemma raw_prefix (a b : string) :
  a <> "" -> unraw (a ++ b)%string <> (unraw a ++ b)%string -> a = "r".
Proof.
  intros N. destruct a as [|x [|y a]]; [elim N; auto| |].
  - destruct (Ascii.ascii_dec x "r"%char) as [->|E]; auto. intros H. exfalso. apply H.
    destruct x as [[] [] [] [] [] [] [] []]; try reflexivity. elim E. reflexivity.
  - intros H. exfalso. apply H.
    destruct x as [[] [] [] [] [] [] [] []]; try reflexivity.
    destruct y as [[] [] [] [] [] [] [] []]; reflexivity.
Qed.

(** The name of a sub-structure is not raw. *)
Lemma ss_unraw hash p : simple_path p -> unraw (ss_name hash p) = ss_name hash p.
Proof.
  intros (N & F & _). unfold ss_name, join_path_segments.
  destruct (segs p) as [|s l] eqn:S; [contradiction|]. cbn [map] in *.
  inversion F as [|? ? Hi Hl]; subst.
  assert (G : forall r, (r = "" \/ exists r', r = String "_" r') ->
              unraw (seg_id s ++ r)%string = (seg_id s ++ r)%string).
  { intros r R. destruct (string_dec (unraw (seg_id s ++ r)%string) (unraw (seg_id s) ++ r)%string) as [E|E].
    - rewrite E, (unraw_simple _ Hi). reflexivity.
    - apply raw_prefix in E; [|apply Hi]. rewrite E. destruct R as [->|[r' ->]]; reflexivity. }
  rewrite joined by (apply Hi).
  assert (T : forall l' r, (r = "" \/ exists r', r = String "_" r') ->
              exists r', (tail_of l' ++ r = r')%string /\ (r' = "" \/ exists r'', r' = String "_" r'')).
  { intros l' r R. destruct l' as [|k l']; cbn; [eauto|]. eexists. split; [reflexivity|]. eauto. }
  destruct (hash_path_arguments hash p) as [h|].
  - rewrite <- append_assoc. destruct (T (map seg_id l) ("_" ++ show_N h)%string) as (r & -> & R).
    { right. eexists. reflexivity. }
    apply G. exact R.
  - destruct (T (map seg_id l) "" (or_introl eq_refl)) as (r & E & R).
    rewrite append_nil in E. rewrite E. apply G. exact R.
Qed.

Lemma written_args p : snd (trait_key p) = args_of p.
Proof. apply filter_ext. intros [|[|]|]; reflexivity. Qed.

Lemma ss_name_distinct hash p q :
  (hash (snd (trait_key p)) = hash (snd (trait_key q)) -> snd (trait_key p) = snd (trait_key q)) ->
  simple_path p -> simple_path q -> ss_name hash p = ss_name hash q -> trait_key p = trait_key q.
Proof.
  rewrite !written_args. intros HI (N & F & L) (N' & F' & L') E.
  destruct (ss_name_inj hash p q HI) as [A B]; auto.
  - eapply Forall_impl; [|exact F]. apply simple_good.
  - eapply Forall_impl; [|exact F']. apply simple_good.
  - apply injective_projections; [exact A|]. rewrite !written_args. exact B.
Qed.

Lemma inner_inj a b : inner_mod_ident a = inner_mod_ident b -> unraw a = unraw b.
Proof. unfold inner_mod_ident. apply append_inj_l. Qed.

(** Two methods of a mock that differ in their trait or name have different
    sets of expectations. *)
Theorem methods_have_their_own_expectations :
  forall (hash : list pargs -> N) (m : mockable_struct) (g : gen_mock) o1 c1 o2 c2,
    mock_it hash m = Some g ->
    (forall p, In (Some p) [o1; o2] -> simple_path p) ->
    (forall p q, o1 = Some p -> o2 = Some q ->
       hash (snd (trait_key p)) = hash (snd (trait_key q)) -> snd (trait_key p) = snd (trait_key q)) ->
    In (o1, c1) (calls_of g) -> In (o2, c2) (calls_of g) ->
    (option_map trait_key o1, unraw (call_name c1))
      <> (option_map trait_key o2, unraw (call_name c2)) ->
    gc_store c1 <> gc_store c2.
Proof.
  intros hash m g o1 c1 o2 c2 H SP HI I1 I2 D.
  apply mock_it_mocked in H as (s & M & ->).
  assert (FI : forall p q, o1 = Some p -> o2 = Some q -> simple_path p -> simple_path q ->
    field_ident (ss_name hash p) = field_ident (ss_name hash q) -> trait_key p = trait_key q).
  { intros p q O1 O2 P Q E. unfold field_ident in E. apply append_inj_r in E.
    rewrite !ss_unraw in E by assumption. eapply ss_name_distinct; eauto. }
  assert (MI : forall md p q, o1 = Some p -> o2 = Some q -> simple_path p -> simple_path q ->
    submod_ident md (ss_name hash p) = submod_ident md (ss_name hash q) -> trait_key p = trait_key q).
  { intros md p q O1 O2 P Q E. unfold submod_ident in E. apply append_inj_l in E.
    apply (append_inj_l "_") in E.
    rewrite !ss_unraw in E by assumption. eapply ss_name_distinct; eauto. }
  assert (MN : forall ss, mi_modname s <> submod_ident (mi_modname s) ss).
  { intros ss E. rewrite (mo_modname _ _ _ M) in E. unfold submod_ident in E.
    assert (X : unraw (gen_mod_ident (ms_name m) None) = gen_mod_ident (ms_name m) None)
      by reflexivity.
    rewrite X in E. apply (f_equal String.length) in E. rewrite append_length in E. cbn in E. lia. }
  destruct (calls_inv _ _ _ _ _ M I1)
    as [(-> & x1 & f1 & _ & _ & H1 & ->)|(i1 & t1 & x1 & f1 & _ & _ & T1 & -> & _ & _ & H1 & ->)];
  destruct (calls_inv _ _ _ _ _ M I2)
    as [(-> & x2 & f2 & _ & _ & H2 & ->)|(i2 & t2 & x2 & f2 & _ & _ & T2 & -> & _ & _ & H2 & ->)];
  rewrite (name_of _ _ _ _ H1), (name_of _ _ _ _ H2) in D;
  rewrite (store_of _ _ _ _ H1), (store_of _ _ _ _ H2);
  destruct (has_self x1), (has_self x2); intros E; try discriminate.
  - injection E as E. apply D. rewrite E. reflexivity.
  - injection E as E. apply D. rewrite E. reflexivity.
  - injection E as E _. exact (MN _ E).
  - injection E as E _. symmetry in E. exact (MN _ E).
  - injection E as E1 E2. apply D. rewrite E2. cbn. do 2 f_equal.
    rewrite (tm_ss _ _ _ T1), (tm_ss _ _ _ T2) in E1. apply FI in E1; auto; apply SP; cbn; auto.
  - injection E as E1 E2. apply D. rewrite E2. cbn. do 2 f_equal.
    rewrite (tm_ss _ _ _ T1), (tm_ss _ _ _ T2) in E1. apply MI in E1; auto; apply SP; cbn; auto.
Qed.
Print Assumptions methods_have_their_own_expectations.

Lemma ex_tr_simple : simple_path ex_tr.
Proof.
  split; [discriminate|]. split; [|cbn; no_text].
  repeat constructor; try discriminate; no_text.
Qed.
Lemma ex_mtr_simple : simple_path ex_mtr.
Proof.
  split; [discriminate|]. split; [|cbn; no_text].
  repeat constructor; try discriminate; no_text.
Qed.

Example methods_have_their_own_expectations_applies :
  mock_it ex_hash ex_mock = Some (ex_gen ex_mock)
  /\ simple_path ex_tr /\ simple_path ex_mtr
  /\ ex_hash (snd (trait_key ex_tr)) <> ex_hash (snd (trait_key ex_mtr))
  /\ map (fun x => (option_map trait_key (fst x), call_name (snd x), gc_store (snd x)))
         (calls_of (ex_gen ex_mock))
     = [(None, "a", OwnField "a");
        (None, "s", StaticIn ["__mock_MockFoo"; "__s"]);
        (Some (trait_key ex_tr), "a", SubField "Tr_expectations" "a");
        (Some (trait_key ex_mtr), "a", SubField "m__Tr_1_expectations" "a");
        (Some (trait_key ex_mtr), "new", StaticIn ["__mock_MockFoo_m__Tr_1"; "__new"])].
Proof.
  split; [reflexivity|]. split; [exact ex_tr_simple|]. split; [exact ex_mtr_simple|].
  split; [discriminate|reflexivity].
Qed.

(** Without the conditions on names: [a__b::Tr] and [a::b::Tr] share their
    expectations, as do [Tr_1] and [Tr<u8>] if that is the hash, and [a<u8>::Tr] and [a::Tr<u8>]. *)
Definition shared (p q : path) : Prop :=
  trait_key p <> trait_key q
  /\ exists m g c1 c2,
       mock_it ex_hash m = Some g
       /\ In (Some p, c1) (calls_of g) /\ In (Some q, c2) (calls_of g)
       /\ gc_store c1 = gc_store c2.

Theorem methods_have_their_own_expectations_refuted :
  shared (Path false (map seg_of ["a__b"; "Tr"])) (Path false (map seg_of ["a"; "b"; "Tr"]))
  /\ shared (path_of "Tr_1") (Path false [Seg "Tr" (PaAngle [GaType (ty_of "u8")])]).
Proof.
  split; (split; [discriminate|]).
  - set (x := ex_struct [ex_impl [] (Path false (map seg_of ["a__b"; "Tr"])) [ex_fn [] "a" [ex_self] None];
               ex_impl [] (Path false (map seg_of ["a"; "b"; "Tr"])) [ex_fn [] "a" [ex_self] None]]).
    exists x, (ex_gen x). do 2 eexists. split; [reflexivity|].
    split; [do 2 right; left; reflexivity|]. split; [do 3 right; left; reflexivity|]. reflexivity.
  - set (x := ex_struct [ex_impl [] (path_of "Tr_1") [ex_fn [] "a" [ex_self] None];
               ex_impl [] (Path false [Seg "Tr" (PaAngle [GaType (ty_of "u8")])])
                       [ex_fn [] "a" [ex_self] None]]).
    exists x, (ex_gen x). do 2 eexists. split; [reflexivity|].
    split; [do 2 right; left; reflexivity|]. split; [do 3 right; left; reflexivity|]. reflexivity.
Qed.
Print Assumptions methods_have_their_own_expectations_refuted.

(** The [expect_] function of a method adds to the set that calls of the method
    look in, and so does the context of a static method. *)
Definition expects_match (calls : list gen_call) (es : list gen_expect) (xs : list gen_context)
  : Prop :=
  map (fun e => (ge_name e, ge_store e)) es
  = map (fun c => (expect_ident (call_name c), gc_store c))
        (filter (fun c => in_object (gc_store c)) calls)
  /\ map (fun x => (gx_name x, StaticIn (gx_mod x))) xs
     = map (fun c => (context_ident (call_name c), gc_store c))
           (filter (fun c => negb (in_object (gc_store c))) calls).

Theorem expectations_are_set_where_calls_look :
  forall (hash : list pargs -> N) (m : mockable_struct) (g : gen_mock),
    mock_it hash m = Some g ->
    expects_match (gm_calls g) (gm_expects g) (gm_contexts g)
    /\ forall t, In t (gm_trait_impls g) ->
         expects_match (gt_calls t) (gt_expects t) (gt_contexts t).
Proof.
  intros hash m g H. apply mock_it_mocked in H as (s & M & ->).
  assert (G : forall (l : list mock_function) md sa,
    expects_match (map (fun f => call_fn f (Some md)) l)
                  (map (fun f => expect_fn f md (sa f)) (filter not_static l))
                  (map (fun f => context_fn f (Some md)) (filter mf_is_static l))).
  { intros l md sa. unfold expects_match. split.
    - induction l as [|f l IH]; cbn; auto. unfold not_static at 1.
      assert (O : in_object (object_store f) = true) by (unfold object_store; destruct (mf_trait f); auto).
      destruct (mf_is_static f) eqn:S; cbn; rewrite ?O; cbn; auto. rewrite S.
      f_equal; auto.
    - induction l as [|f l IH]; cbn; auto.
      assert (O : in_object (object_store f) = true) by (unfold object_store; destruct (mf_trait f); auto).
      destruct (mf_is_static f) eqn:S; cbn; rewrite ?O; cbn; auto. rewrite S.
      f_equal; auto. }
  split.
  - apply (G (mi_methods s) (mi_modname s) (fun _ => None)).
  - intros t I. cbn in I. apply in_map_iff in I as (mt & <- & _).
    apply (G (mt_methods mt) _ (fun f => if is_method_generic f then None
                                         else Some (seg_args (mt_self mt)))).
Qed.
Print Assumptions expectations_are_set_where_calls_look.

(** ... and that set exists. *)
Lemma has_type_made md (fs : list mock_function) f x tr :
  In f fs -> made tr x f -> bracketed (sg_generics (fi_sig x)) -> mf_is_static f = false ->
  has_type md (map priv_module fs) (gf_ty (field_definition f md)).
Proof.
  intros I (_ & _ & _ & _ & G) B S. exists (priv_module f). eexists. eexists.
  split; [apply in_map; exact I|]. split; [reflexivity|].
  intros MG. cbn [priv_module gp_generic]. unfold generic_part.
  rewrite MG, (G B MG), orb_true_r. discriminate.
Qed.

Lemma same_methods hash m s t t' :
  mocked hash m s -> uniform m -> In t (mi_traits s) -> In t' (mi_traits s) ->
  same_trait t t' = true ->
  map (fun f => (mf_name f, mf_is_static f)) (mt_methods t)
  = map (fun f => (mf_name f, mf_is_static f)) (mt_methods t')
  /\ mt_ss_name t = mt_ss_name t'.
Proof.
  intros M U I I' E. apply same_trait_eq in E as [E _].
  destruct (Forall2_in_r _ _ _ _ (mo_traits _ _ _ M) I) as (x & Ix & Hx).
  destruct (Forall2_in_r _ _ _ _ (mo_traits _ _ _ M) I') as (x' & Ix' & Hx').
  destruct (tm_path _ _ _ Hx) as [b P]. destruct (tm_path _ _ _ Hx') as [b' P'].
  split; [|rewrite (tm_ss _ _ _ Hx), (tm_ss _ _ _ Hx'), E; reflexivity].
  rewrite <- E in P'. assert (Q := U _ _ _ _ _ Ix Ix' P P').
  assert (G : forall z w, trait_made hash z w ->
    map (fun f => (mf_name f, mf_is_static f)) (mt_methods w)
    = map (fun q => (fst q, negb (snd q)))
          (map (fun f => (fn_name f, has_self f)) (impl_fns z))).
  { intros z w Hw. rewrite map_map. symmetry. eapply Forall2_map; [exact (tm_methods _ _ _ Hw)|].
    intros a c (N & _ & _ & S & _). cbn. now rewrite N, S. }
  rewrite (G _ _ Hx), (G _ _ Hx'), Q. reflexivity.
Qed.

Lemma twin l l' (f : mock_function) :
  map (fun f => (mf_name f, mf_is_static f)) l = map (fun f => (mf_name f, mf_is_static f)) l' ->
  In f l -> exists f', In f' l' /\ mf_name f' = mf_name f /\ mf_is_static f' = mf_is_static f.
Proof.
  intros E I. assert (X : In (mf_name f, mf_is_static f)
    (map (fun f => (mf_name f, mf_is_static f)) l')).
  { rewrite <- E. apply (in_map (fun f => (mf_name f, mf_is_static f))). exact I. }
  apply in_map_iff in X as (f' & E' & I'). injection E' as E1 E2. eauto.
Qed.

Lemma not_all_static l f : In f l -> mf_is_static f = false -> negb (all_static l) = true.
Proof.
  intros I S. unfold all_static. destruct (forallb mf_is_static l) eqn:E; auto.
  rewrite forallb_forall in E. rewrite (E _ I) in S. discriminate.
Qed.

Theorem expectations_of_calls_exist :
  forall (hash : list pargs -> N) (m : mockable_struct) (g : gen_mock) o c,
    mock_it hash m = Some g -> parsed m -> uniform m ->
    In (o, c) (calls_of g) -> declared g (gc_store c).
Proof.
  intros hash m g o c H [P1 P2] U I. apply mock_it_mocked in H as (s & M & ->).
  destruct (calls_inv _ _ _ _ _ M I)
    as [(-> & x & f & Ix & If & Hf & ->)|(i & t & x & f & Ii & It & T & -> & Ix & If & Hf & ->)];
    rewrite (store_of _ _ _ _ Hf); assert (HM := Hf); destruct Hf as (N & Hf).
  - destruct (has_self x) eqn:S.
    + assert (SF : mf_is_static f = false) by (destruct Hf as (_ & _ & S' & _); rewrite S'; auto).
      eapply (DeclOwn _ _ _ (gf_ty (field_definition f (mi_modname s)))).
      * cbn [gen_struct gm_fields]. apply in_app_iff. right. apply in_app_iff. left.
        unfold field_definitions. rewrite <- N.
        change (GenField ?a (mf_name f) (gf_ty (field_definition f (mi_modname s))))
          with (GenField a (mf_name f) (gf_ty (field_definition f (mi_modname s)))).
        apply in_map_iff. exists f. split; [reflexivity|].
        apply filter_In. split; auto. unfold not_static. now rewrite SF.
      * cbn [gen_struct gm_modname gm_privmods].
        eapply has_type_made; eauto. unfold bracketed. apply P1; auto.
    + assert (X := DeclStatic (gen_struct s) (priv_module f)).
      cbn [gen_struct gm_privmods gm_modname priv_module gp_name] in X. rewrite <- N. apply X.
      apply in_map. exact If.
  - destruct (unique_covers _ _ It) as (t' & It' & E).
    assert (It2 := unique_in _ _ It').
    destruct (same_methods _ _ _ _ _ M U It It2 E) as [SM SS].
    destruct (twin _ _ _ SM If) as (f' & If' & N' & S').
    destruct (Forall2_in_r _ _ _ _ (mo_traits _ _ _ M) It2) as (i' & Ii' & T').
    destruct (Forall2_in_r _ _ _ _ (tm_methods _ _ _ T') If') as (x' & Ix' & Hf').
    destruct (has_self x) eqn:S.
    + assert (SF : mf_is_static f' = false)
        by (destruct Hf as (_ & _ & S2 & _); rewrite S', S2; auto).
      eapply (DeclSub _ _ _ _ _ (substruct s t') _ _
                (gf_ty (field_definition f' (submod_ident (mi_modname s) (mt_ss_name t'))))).
      * cbn [gen_struct gm_fields]. apply in_app_iff. left. apply in_map_iff. exists t'.
        split; [rewrite SS; reflexivity|]. apply filter_In. split; auto.
        eapply not_all_static; eauto.
      * cbn [gen_struct gm_substructs]. apply in_map. exact It'.
      * reflexivity.
      * cbn [substruct gs_fields]. apply in_app_iff. left. apply in_map_iff. exists f'.
        split; [rewrite <- N, <- N'; reflexivity|]. apply filter_In. split; auto.
        unfold not_static. now rewrite SF.
      * cbn [substruct gs_modname gs_privmods]. eapply has_type_made; eauto.
        unfold bracketed. eapply P2; eauto.
    + assert (X := DeclSubStatic (gen_struct s) (substruct s t') (priv_module f')).
      cbn [substruct gs_privmods gs_modname priv_module gp_name] in X.
      rewrite <- N, SS, <- N'. apply X.
      * cbn [gen_struct gm_substructs]. apply in_map. exact It'.
      * apply in_map. exact If'.
Qed.
Print Assumptions expectations_of_calls_exist.

Lemma ex_parsed : parsed ex_mock.
Proof.
  split.
  - intros f [<-|[<-|[]]] _; reflexivity.
  - intros x f [<-|[<-|[]]] I _; cbn in I.
    + destruct I as [<-|[]]; reflexivity.
    + destruct I as [<-|[<-|[]]]; reflexivity.
Qed.
Lemma ex_uniform : uniform ex_mock.
Proof.
  intros x y bx b' p [<-|[<-|[]]] [<-|[<-|[]]] E E'; cbn in E, E'; try reflexivity;
    injection E as _ <-; discriminate.
Qed.

Example expectations_of_calls_exist_applies :
  mock_it ex_hash ex_mock = Some (ex_gen ex_mock) /\ parsed ex_mock /\ uniform ex_mock
  /\ map (fun e => (ge_name e, ge_store e)) (gm_expects (ex_gen ex_mock)) = [("expect_a", OwnField "a")]
  /\ map (fun x => (gx_name x, gx_mod x)) (gm_contexts (ex_gen ex_mock))
     = [("s_context", ["__mock_MockFoo"; "__s"])].
Proof.
  split; [reflexivity|]. split; [exact ex_parsed|]. split; [exact ex_uniform|]. split; reflexivity.
Qed.

(** If a mock implements one trait for two types, with different functions, the
    functions that only the second has use a field that doesn't exist. *)
Theorem expectations_of_calls_exist_refuted :
  exists m g o c,
    mock_it ex_hash m = Some g /\ parsed m /\ In (o, c) (calls_of g)
    /\ in_object (gc_store c) = true /\ ~ declared g (gc_store c) /\ ~ validated g (gc_store c).
Proof.
  set (x := ex_struct [ex_impl [] ex_tr [ex_fn [] "a" [ex_self] None];
              ex_impl [] ex_tr [ex_fn [] "b" [ex_self] None]]).
  exists x, (ex_gen x). do 2 eexists. split; [reflexivity|].
  split. { split.
    - intros f [<-|[<-|[]]] _; reflexivity.
    - intros y f [<-|[<-|[]]] I _; destruct I as [<-|[]]; reflexivity. }
  split; [do 3 right; left; reflexivity|].
  split; [reflexivity|].
  assert (G : forall a t ss, In (GenField a "b" t) (gs_fields ss) -> ~ In ss (gm_substructs (ex_gen x))).
  { intros a t ss I [<-|[]]. cbn in I. destruct I as [I|[I|[]]]; discriminate. }
  split; intros D.
  - inversion D as [| ? ? ? ? ss a' n t A B C I T E| |]. eapply G; eauto.
  - inversion D as [| ? ? ? ? ? ss a'' n A B C E I].
    destruct C as [<-|[]]. cbn in I. destruct I as [I|[]]. discriminate.
Qed.
Print Assumptions expectations_of_calls_exist_refuted.

(** ** C59: checkpoint *)

(** [checkpoint()] validates the expectations of every method with a [self]
    argument, of the structure itself and of every trait, and no others. *)
Theorem checkpoint_covers_every_method :
  forall (hash : list pargs -> N) (m : mockable_struct) (g : gen_mock) o c,
    mock_it hash m = Some g -> uniform m ->
    In (o, c) (calls_of g) ->
    in_object (gc_store c) = true -> validated g (gc_store c).
Proof.
  intros hash m g o c H U I OB. apply mock_it_mocked in H as (s & M & ->).
  destruct (calls_inv _ _ _ _ _ M I)
    as [(-> & x & f & Ix & If & Hf & ->)|(i & t & x & f & Ii & It & T & -> & Ix & If & Hf & ->)];
    rewrite (store_of _ _ _ _ Hf) in *; assert (HM := Hf); destruct Hf as (N & Hf);
    destruct (has_self x) eqn:S; try discriminate.
  - assert (SF : mf_is_static f = false) by (destruct Hf as (_ & _ & S' & _); rewrite S'; auto).
    apply (ValOwn _ (plain_attrs (mf_attrs f))). cbn [gen_struct gm_checkpoint].
    apply in_app_iff. right. apply in_map_iff. exists (checkpoint_of f).
    unfold checkpoint_of. rewrite SF. cbn. split; [rewrite N; reflexivity|].
    unfold checkpoints. apply in_map_iff. exists f. unfold checkpoint_of. rewrite SF.
    split; auto. apply filter_In. split; auto. unfold not_static. now rewrite SF.
  - destruct (unique_covers _ _ It) as (t' & It' & E).
    assert (It2 := unique_in _ _ It').
    destruct (same_methods _ _ _ _ _ M U It It2 E) as [SM SS].
    destruct (twin _ _ _ SM If) as (f' & If' & N' & S').
    assert (SF : mf_is_static f' = false)
      by (destruct Hf as (_ & _ & S2 & _); rewrite S', S2; auto).
    apply (ValSub _ (bare_attrs (mt_attrs t')) _ (bare_attrs (mt_attrs t'))
             (substruct_ident (mi_name s) (mt_ss_name t')) (type_args (mi_generics s))
             (substruct s t') (plain_attrs (mf_attrs f'))).
    + cbn [gen_struct gm_checkpoint]. apply in_app_iff. left. apply in_map_iff. exists t'.
      split; [rewrite SS; reflexivity|]. apply filter_In. split; auto. eapply not_all_static; eauto.
    + cbn [gen_struct gm_fields]. apply in_app_iff. left. apply in_map_iff. exists t'.
      split; [rewrite SS; reflexivity|]. apply filter_In. split; auto. eapply not_all_static; eauto.
    + cbn [gen_struct gm_substructs]. apply in_map. exact It'.
    + reflexivity.
    + cbn [substruct gs_checkpoint]. unfold checkpoints. apply in_map_iff. exists f'.
      unfold checkpoint_of. rewrite SF. split; [rewrite N', N; reflexivity|].
      apply filter_In. split; auto. unfold not_static. now rewrite SF.
Qed.
Print Assumptions checkpoint_covers_every_method.

Theorem checkpoint_covers_only_methods :
  forall (hash : list pargs -> N) (m : mockable_struct) (g : gen_mock) st,
    mock_it hash m = Some g -> validated g st ->
    in_object st = true /\ exists o c, In (o, c) (calls_of g) /\ gc_store c = st.
Proof.
  intros hash m g st H V. apply mock_it_mocked in H as (s & M & ->).
  destruct V as [a n I|a f a' sub args ss a'' n _ IF IS E I]; (split; [reflexivity|]).
  - cbn [gen_struct gm_checkpoint] in I. apply in_app_iff in I as [I|I].
    { apply in_map_iff in I as (t & E & _). discriminate. }
    apply in_map_iff in I as (k & E & I). injection E as <- E.
    apply in_map_iff in I as (f & <- & I). apply filter_In in I as [I S].
    unfold not_static in S. destruct (mf_is_static f) eqn:SF; [discriminate|].
    destruct (Forall2_in_r _ _ _ _ (mo_methods _ _ _ M) I) as (x & Ix & Hx).
    exists None, (call_fn f (Some (mi_modname s))). split.
    + unfold calls_of. apply in_app_iff. left. apply in_map_iff. eexists. split; [reflexivity|].
      cbn. apply (in_map (fun f => call_fn f (Some (mi_modname s)))). exact I.
    + destruct Hx as (_ & _ & T & _). cbn in *. rewrite SF in *. unfold object_store. rewrite T.
      exact E.
  - cbn [gen_struct gm_substructs] in IS. apply in_map_iff in IS as (t & <- & It).
    assert (It2 := unique_in _ _ It).
    cbn [substruct gs_checkpoint] in I. apply in_map_iff in I as (fn & E' & I).
    apply filter_In in I as [I S]. unfold not_static in S.
    unfold checkpoint_of in E'. destruct (mf_is_static fn) eqn:SF; [discriminate|].
    injection E' as _ E'.
    assert (F : f = field_ident (mt_ss_name t)).
    { cbn [gen_struct gm_fields] in IF. apply in_app_iff in IF as [IF|IF];
        [|apply in_app_iff in IF as [IF|IF]].
      - apply in_map_iff in IF as (t2 & E2 & _). injection E2 as _ <- E2 _.
        cbn [substruct gs_name] in E. rewrite <- E in E2. unfold substruct_ident in E2.
        apply append_inj_l in E2. apply (append_inj_l "_") in E2.
        unfold field_ident. rewrite E2. reflexivity.
      - apply in_map_iff in IF as (f2 & E2 & _). discriminate.
      - exfalso. unfold phantom_fields in IF. revert IF. generalize 0%nat as k.
        induction (params (mi_generics s)) as [|q l IH]; intros k IF; [exact IF|].
        destruct q; cbn in IF.
        + destruct IF as [IF|IF]; [discriminate|]. exact (IH _ IF).
        + destruct IF as [IF|IF]; [discriminate|]. exact (IH _ IF).
        + exact (IH _ IF). }
    destruct (Forall2_in_r _ _ _ _ (mo_traits _ _ _ M) It2) as (x & Ix & Hx).
    destruct (Forall2_in_r _ _ _ _ (tm_methods _ _ _ Hx) I) as (y & Iy & Hy).
    exists (Some (mt_path t)), (call_fn fn (Some (submod_ident (mi_modname s) (mt_ss_name t)))). split.
    + unfold calls_of. apply in_app_iff. right. apply in_flat_map.
      exists (trait_impl t (submod_ident (mi_modname s) (mt_ss_name t))). split.
      * cbn [gen_struct gm_trait_impls].
        apply (in_map (fun t => trait_impl t (submod_ident (mi_modname s) (mt_ss_name t)))). exact It2.
      * apply in_map_iff. eexists. split; [reflexivity|]. cbn [trait_impl gt_calls].
        apply (in_map (fun f => call_fn f (Some (submod_ident (mi_modname s) (mt_ss_name t))))). exact I.
    + destruct Hy as (_ & _ & T & _). cbn. rewrite SF. unfold object_store. rewrite T, E', F. reflexivity.
Qed.
Print Assumptions checkpoint_covers_only_methods.

Example checkpoint_covers_every_method_applies :
  mock_it ex_hash ex_mock = Some (ex_gen ex_mock) /\ uniform ex_mock
  /\ validated (ex_gen ex_mock) (OwnField "a")
  /\ validated (ex_gen ex_mock) (SubField "Tr_expectations" "a")
  /\ ~ validated (ex_gen ex_mock) (SubField "m__Tr_1_expectations" "new").
Proof.
  assert (H : mock_it ex_hash ex_mock = Some (ex_gen ex_mock)) by reflexivity.
  split; [exact H|]. split; [exact ex_uniform|]. split; [|split].
  - eapply ValOwn. do 2 right. left. reflexivity.
  - eapply ValSub; [left; reflexivity|left; reflexivity|left; reflexivity|reflexivity|left; reflexivity].
  - intros V. destruct (checkpoint_covers_only_methods _ _ _ _ H V) as (_ & o & c & I & E).
    cbn in I. destruct I as [I|[I|[I|[I|[I|[]]]]]]; injection I as <- <-; discriminate.
Qed.

(** ** C58: [default()] *)

Lemma phantom_inits_match l n :
  existsb (fun p => match p with
                    | GpLifetime _ (_ :: _) => true
                    | GpConst _ _ _ => true
                    | _ => false
                    end) l = false ->
  map (fun f => (gf_attrs f, gf_name f)) (phantom_fields_from n l)
  = map (fun n => ([], phantom_ident n)) (seq n (List.length l)).
Proof.
  revert n. induction l as [|p l IH]; intros n H; auto.
  cbn [existsb] in H. apply orb_false_iff in H as [H1 H2].
  destruct p as [lt [|]|i b d|i t d]; try discriminate; cbn; rewrite IH; auto.
Qed.

Lemma inits_match md l :
  map (fun f => (gf_attrs f, gf_name f)) (field_definitions md l) = default_inits l.
Proof. unfold field_definitions, default_inits. rewrite map_map. reflexivity. Qed.

(** The generated [Default] initialises exactly the fields of the structure, in
    order, and each under the same attributes; the same for sub-structures. *)
Theorem default_initialises_the_fields :
  forall (hash : list pargs -> N) (m : mockable_struct) (g : gen_mock),
    mock_it hash m = Some g ->
    map (fun f => (gf_attrs f, gf_name f)) (gm_fields g) = gm_inits g
    /\ forall ss, In ss (gm_substructs g) ->
         map (fun f => (gf_attrs f, gf_name f)) (gs_fields ss) = gs_inits ss.
Proof.
  intros hash m g H. apply mock_it_mocked in H as (s & M & ->).
  assert (P := mo_phantom _ _ _ M). rewrite <- (mo_generics _ _ _ M) in P. unfold phantom_error in P.
  split.
  - cbn [gen_struct gm_fields gm_inits]. rewrite !map_app, map_map, inits_match. cbn.
    do 2 f_equal. apply phantom_inits_match. exact P.
  - intros ss I. cbn in I. apply in_map_iff in I as (t & <- & _).
    cbn [substruct gs_fields gs_inits]. rewrite map_app, inits_match. f_equal.
    apply phantom_inits_match. exact P.
Qed.
Print Assumptions default_initialises_the_fields.

(** Every type parameter and lifetime of the structure is used by a field. *)
Theorem every_parameter_is_used :
  forall (hash : list pargs -> N) (m : mockable_struct) (g : gen_mock) p,
    mock_it hash m = Some g -> In p (params (ms_generics m)) ->
    let used fs := exists f, In f fs /\
                     match p with
                     | GpLifetime l _ => gf_ty f = FtPhantomLifetime l
                     | GpType i _ _ => gf_ty f = FtPhantomType i
                     | GpConst _ _ _ => False
                     end in
    used (gm_fields g) /\ forall ss, In ss (gm_substructs g) -> used (gs_fields ss).
Proof.
  intros hash m g p H I used. apply mock_it_mocked in H as (s & M & ->).
  assert (P := mo_phantom _ _ _ M). rewrite <- (mo_generics _ _ _ M) in P, I. unfold phantom_error in P.
  assert (G : used (phantom_fields (mi_generics s))).
  { unfold used, phantom_fields. generalize 0%nat as n. revert I P.
    induction (params (mi_generics s)) as [|q l IH]; [intros []|].
    intros [->|I] P n; cbn [existsb] in P; apply orb_false_iff in P as [P1 P2].
    - destruct p as [lt [|]|i b d|i t d]; try discriminate; cbn; eexists; (split; [left; reflexivity|reflexivity]).
    - destruct (IH I P2 (S n)) as (f & If & E).
      destruct q as [lt [|]|i b d|i t d]; try discriminate; cbn; exists f; auto. }
  destruct G as (f & If & E). split.
  - exists f. split; auto. cbn [gen_struct gm_fields]. apply in_app_iff. right.
    apply in_app_iff. right. exact If.
  - intros ss Is. cbn in Is. apply in_map_iff in Is as (t & <- & _).
    exists f. split; auto. cbn [substruct gs_fields]. apply in_app_iff. right. exact If.
Qed.
Print Assumptions every_parameter_is_used.

Example default_initialises_the_fields_applies :
  mock_it ex_hash ex_mock = Some (ex_gen ex_mock)
  /\ gm_inits (ex_gen ex_mock)
     = [([ex_cfg "windows"], "Tr_expectations"); ([], "m__Tr_1_expectations");
        ([ex_cfg "unix"], "a"); ([], "_t0")]
  /\ map gs_inits (gm_substructs (ex_gen ex_mock)) = [[([], "a"); ([], "_t0")]; [([], "a"); ([], "_t0")]].
Proof. repeat split. Qed.

(** ** C52: [new()] *)

Theorem new_is_generated :
  forall (hash : list pargs -> N) (m : mockable_struct) (g : gen_mock),
    mock_it hash m = Some g ->
    (gm_new g = true <->
     (forall f, In f (ms_methods m) -> fn_name f <> "new")
     /\ forall x f, In x (ms_impls m) -> In f (impl_fns x) -> fn_name f <> "new").
Proof.
  intros hash m g H. apply mock_it_mocked in H as (s & M & ->). cbn. rewrite (mo_new _ _ _ M).
  unfold has_new. rewrite negb_orb, andb_true_iff, !negb_true_iff.
  split.
  - intros [A B]. split.
    + intros f I E. assert (X : existsb named_new (ms_methods m) = true).
      { apply existsb_exists. exists f. split; auto. apply String.eqb_eq. exact E. }
      congruence.
    + intros x f Ix I E.
      assert (X : existsb (fun x => existsb named_new (impl_fns x)) (ms_impls m) = true).
      { apply existsb_exists. exists x. split; auto. apply existsb_exists. exists f. split; auto.
        apply String.eqb_eq. exact E. }
      congruence.
  - intros [A B]. split.
    + destruct (existsb _ _) eqn:E; auto. apply existsb_exists in E as (f & I & E).
      apply String.eqb_eq in E. elim (A f I E).
    + destruct (existsb _ _) eqn:E; auto. apply existsb_exists in E as (x & Ix & E).
      apply existsb_exists in E as (f & I & E). apply String.eqb_eq in E. elim (B x f Ix I E).
Qed.
Print Assumptions new_is_generated.

(** A trait with a method [new] counts. *)
Example new_is_generated_applies :
  mock_it ex_hash ex_mock = Some (ex_gen ex_mock) /\ gm_new (ex_gen ex_mock) = false
  /\ gm_new (ex_gen (ex_struct [])) = true /\ mock_it ex_hash (ex_struct []) = Some (ex_gen (ex_struct [])).
Proof. repeat split. Qed.

(** ** C61: conditional compilation *)

Lemma kept_cfgs f l : cfgs (format f l) = cfgs l.
Proof.
  unfold cfgs, format. induction l as [|a l IH]; auto. cbn [filter].
  destruct (is_ident (apath a) "cfg") eqn:E.
  - assert (K : attr_kept f a = true).
    { destruct a as [[[] ss] o r]; [discriminate|]. destruct ss as [|[i []] []]; try discriminate.
      cbn [is_ident apath] in E. apply String.eqb_eq in E. subst i. reflexivity. }
    rewrite K. cbn [filter]. rewrite E, IH. reflexivity.
  - destruct (attr_kept f a); cbn [filter]; rewrite ?E; auto.
Qed.

(** Everything that is generated for a method of the structure itself carries
    the [cfg] attributes of the method. *)
Theorem methods_are_compiled_conditionally :
  forall (hash : list pargs -> N) (m : mockable_struct) (g : gen_mock),
    mock_it hash m = Some g ->
    let all := map (fun x => (fn_name x, cfgs (fi_attrs x))) (ms_methods m) in
    let objects := map (fun x => (fn_name x, cfgs (fi_attrs x))) (filter has_self (ms_methods m)) in
    let statics := map (fun x => (fn_name x, cfgs (fi_attrs x)))
                       (filter (fun x => negb (has_self x)) (ms_methods m)) in
    let rename (r : ident -> ident) := map (fun x : ident * list attribute => (r (fst x), snd x)) in
    map (fun c => (call_name c, cfgs (gc_attrs c))) (gm_calls g) = all
    /\ map (fun p => (gp_name p, cfgs (gp_attrs p))) (gm_privmods g) = rename inner_mod_ident all
    /\ map (fun e => (ge_name e, cfgs (ge_attrs e))) (gm_expects g) = rename expect_ident objects
    /\ map (fun x => (gx_name x, cfgs (gx_attrs x))) (gm_contexts g) = rename context_ident statics
    /\ (forall n c, In (n, c) objects <->
          exists a md ge args, In (GenField a n (FtExpectations md ge args)) (gm_fields g)
                               /\ cfgs a = c)
    /\ (forall n c, In (n, c) objects <->
          exists a, In (CheckStore a (OwnField n)) (gm_checkpoint g) /\ cfgs a = c).
Proof.
  intros hash m g H all objects statics rename. apply mock_it_mocked in H as (s & M & ->).
  assert (F := mo_methods _ _ _ M).
  assert (FO : Forall2 (made None) (filter has_self (ms_methods m)) (filter not_static (mi_methods s))).
  { eapply Forall2_filter; [exact F|]. intros x f (_ & _ & _ & S & _). unfold not_static.
    rewrite S. now rewrite negb_involutive. }
  assert (FS : Forall2 (made None) (filter (fun x => negb (has_self x)) (ms_methods m))
                 (filter mf_is_static (mi_methods s))).
  { eapply Forall2_filter; [exact F|]. intros x f (_ & _ & _ & S & _). congruence. }
  assert (KC : forall f' x f, made None x f -> cfgs (format f' (mf_attrs f)) = cfgs (fi_attrs x)).
  { intros f' x f (_ & A & _). rewrite kept_cfgs, A. reflexivity. }
  assert (OBJ : forall n c, In (n, c) objects <->
    exists f, In f (filter not_static (mi_methods s)) /\ mf_name f = n
              /\ cfgs (plain_attrs (mf_attrs f)) = c).
  { intros n c. unfold objects. rewrite in_map_iff. split.
    - intros (x & E & I). injection E as <- <-.
      destruct (Forall2_in_l _ _ _ _ FO I) as (f & If & Hf). exists f. split; auto.
      split; [apply Hf|]. eapply KC. exact Hf.
    - intros (f & If & <- & <-). destruct (Forall2_in_r _ _ _ _ FO If) as (x & Ix & Hf).
      exists x. split; auto. f_equal; [symmetry; apply Hf|]. symmetry. eapply KC. exact Hf. }
  repeat split.
  - cbn. rewrite map_map. symmetry. eapply Forall2_map; [exact F|].
    intros x f Hf. f_equal; [symmetry; apply Hf|]. cbn. symmetry. eapply KC. exact Hf.
  - cbn. unfold rename, all. rewrite !map_map. symmetry. eapply Forall2_map; [exact F|].
    intros x f Hf. cbn -[inner_mod_ident expect_ident context_ident cfgs plain_attrs].
    rewrite (proj1 Hf). f_equal. symmetry. eapply KC. exact Hf.
  - cbn. unfold rename, objects. rewrite !map_map. symmetry. eapply Forall2_map; [exact FO|].
    intros x f Hf. cbn -[inner_mod_ident expect_ident context_ident cfgs plain_attrs].
    rewrite (proj1 Hf). f_equal. symmetry. eapply KC. exact Hf.
  - cbn. unfold rename, statics. rewrite !map_map. symmetry. eapply Forall2_map; [exact FS|].
    intros x f Hf. cbn -[inner_mod_ident expect_ident context_ident cfgs plain_attrs].
    rewrite (proj1 Hf). f_equal. symmetry. eapply KC. exact Hf.
  - intros I. apply OBJ in I as (f & If & <- & <-). do 4 eexists. split; [|reflexivity].
    cbn [gen_struct gm_fields]. apply in_app_iff. right. apply in_app_iff. left.
    unfold field_definitions. apply in_map_iff. exists f. split; [reflexivity|exact If].
  - intros (a & md & ge & args & I & <-). apply OBJ. cbn [gen_struct gm_fields] in I.
    apply in_app_iff in I as [I|I]; [|apply in_app_iff in I as [I|I]].
    + apply in_map_iff in I as (t & E & _). discriminate.
    + apply in_map_iff in I as (f & E & If). exists f.
      unfold field_definition in E. injection E as <- <- _ _ _. auto.
    + exfalso. unfold phantom_fields in I. revert I. generalize 0%nat as k.
      induction (params (mi_generics s)) as [|q l IH]; intros k I; [exact I|].
      destruct q; cbn in I.
      * destruct I as [I|I]; [discriminate|]. exact (IH _ I).
      * destruct I as [I|I]; [discriminate|]. exact (IH _ I).
      * exact (IH _ I).
  - intros I. apply OBJ in I as (f & If & <- & <-). eexists. split; [|reflexivity].
    cbn [gen_struct gm_checkpoint]. apply in_app_iff. right. apply in_map_iff.
    exists (checkpoint_of f). unfold checkpoint_of.
    assert (S : mf_is_static f = false).
    { apply filter_In in If as [_ S]. unfold not_static in S. destruct (mf_is_static f); auto. }
    rewrite S. split; [reflexivity|]. unfold checkpoints. apply in_map_iff. exists f.
    unfold checkpoint_of. rewrite S. auto.
  - intros (a & I & <-). apply OBJ. cbn [gen_struct gm_checkpoint] in I.
    apply in_app_iff in I as [I|I]; apply in_map_iff in I as (k & E & I); [discriminate|].
    injection E as <- E. apply in_map_iff in I as (f & <- & If). cbn [fst snd checkpoint_of] in *.
    assert (S : mf_is_static f = false).
    { apply filter_In in If as [_ S]. unfold not_static in S. destruct (mf_is_static f); auto. }
    rewrite S in E. injection E as <-. exists f. auto.
Qed.
Print Assumptions methods_are_compiled_conditionally.

(** The same for the methods of a trait inside of what is generated for it. *)
Theorem trait_methods_are_compiled_conditionally :
  forall (hash : list pargs -> N) (m : mockable_struct) (g : gen_mock),
    mock_it hash m = Some g ->
    let named := map (fun x => (fn_name x, cfgs (fi_attrs x))) in
    Forall2 (fun x t =>
      map (fun c => (call_name c, cfgs (gc_attrs c))) (gt_calls t) = named (impl_fns x)
      /\ map (fun e => (ge_name e, cfgs (ge_attrs e))) (gt_expects t)
         = map (fun y => (expect_ident (fst y), snd y)) (named (filter has_self (impl_fns x)))
      /\ map (fun y => (gx_name y, cfgs (gx_attrs y))) (gt_contexts t)
         = map (fun y => (context_ident (fst y), snd y))
               (named (filter (fun y => negb (has_self y)) (impl_fns x)))
      /\ cfgs (gt_attrs t) = cfgs (im_attrs x)
      /\ cfgs (gt_inherent_attrs t) = cfgs (im_attrs x)) (ms_impls m) (gm_trait_impls g).
Proof.
  intros hash m g H named. apply mock_it_mocked in H as (s & M & ->).
  cbn [gen_struct gm_trait_impls]. assert (F := mo_traits _ _ _ M).
  induction F as [|x t l l' Ht F IH]; cbn [map]; constructor; auto.
  assert (FM := tm_methods _ _ _ Ht).
  assert (FO : Forall2 (made (Some (mt_ss_name t))) (filter has_self (impl_fns x))
                 (filter not_static (mt_methods t))).
  { eapply Forall2_filter; [exact FM|]. intros y f (_ & _ & _ & S & _). unfold not_static.
    rewrite S. now rewrite negb_involutive. }
  assert (FS : Forall2 (made (Some (mt_ss_name t))) (filter (fun y => negb (has_self y)) (impl_fns x))
                 (filter mf_is_static (mt_methods t))).
  { eapply Forall2_filter; [exact FM|]. intros y f (_ & _ & _ & S & _). congruence. }
  assert (KC : forall f' y f tr, made tr y f -> cfgs (format f' (mf_attrs f)) = cfgs (fi_attrs y)).
  { intros f' y f tr (_ & A & _). rewrite kept_cfgs, A. reflexivity. }
  unfold named. repeat split.
  - cbn. rewrite map_map. symmetry. eapply Forall2_map; [exact FM|].
    intros y f Hf. f_equal; [symmetry; apply Hf|]. cbn. symmetry. eapply KC. exact Hf.
  - cbn. rewrite !map_map. symmetry. eapply Forall2_map; [exact FO|].
    intros y f Hf. cbn -[inner_mod_ident expect_ident context_ident cfgs plain_attrs].
    rewrite (proj1 Hf). f_equal. symmetry. eapply KC. exact Hf.
  - cbn. rewrite !map_map. symmetry. eapply Forall2_map; [exact FS|].
    intros y f Hf. cbn -[inner_mod_ident expect_ident context_ident cfgs plain_attrs].
    rewrite (proj1 Hf). f_equal. symmetry. eapply KC. exact Hf.
  - cbn. rewrite kept_cfgs, (tm_attrs _ _ _ Ht). reflexivity.
  - cbn. unfold bare_attrs. rewrite kept_cfgs, (tm_attrs _ _ _ Ht). reflexivity.
Qed.
Print Assumptions trait_methods_are_compiled_conditionally.

(** The sub-structure of a trait exists under the same conditions as each
    implementation that uses it, and as its field. *)
Theorem substructures_are_compiled_conditionally :
  forall (hash : list pargs -> N) (m : mockable_struct) (g : gen_mock) x b p f,
    mock_it hash m = Some g ->
    In x (ms_impls m) -> im_trait x = Some (b, p) -> In f (impl_fns x) ->
    exists ss,
      In ss (gm_substructs g)
      /\ gs_name ss = substruct_ident (ms_name m) (ss_name hash p)
      /\ cfgs (gs_mod_attrs ss) = cfgs (im_attrs x)
      /\ cfgs (gs_struct_attrs ss) = cfgs (im_attrs x)
      /\ cfgs (gs_impl_attrs ss) = cfgs (im_attrs x)
      /\ (forall a fd args, In (GenField a fd (FtSub (gs_name ss) args)) (gm_fields g) ->
            fd = field_ident (ss_name hash p) ->
            exists y, In y (ms_impls m) /\ cfgs a = cfgs (im_attrs y)
                      /\ In (CheckSub a fd) (gm_checkpoint g)).
Proof.
  intros hash m g x b p f H Ix T If. apply mock_it_mocked in H as (s & M & ->).
  destruct (Forall2_in_l _ _ _ _ (mo_traits _ _ _ M) Ix) as (t & It & Ht).
  destruct (tm_path _ _ _ Ht) as [b' P]. rewrite T in P. injection P as <- P.
  destruct (unique_covers _ _ It) as (t' & It' & E). apply same_trait_eq in E as [E1 E2].
  destruct (Forall2_in_r _ _ _ _ (mo_traits _ _ _ M) (unique_in _ _ It')) as (x' & Ix' & Ht').
  assert (C : cfgs (bare_attrs (mt_attrs t')) = cfgs (im_attrs x)).
  { rewrite <- E2. unfold bare_attrs. rewrite kept_cfgs, (tm_attrs _ _ _ Ht). reflexivity. }
  exists (substruct s t'). split; [|split; [|split; [|split; [|split]]]]; auto.
  - cbn [gen_struct gm_substructs]. apply in_map. exact It'.
  - cbn. rewrite (mo_name _ _ _ M), (tm_ss _ _ _ Ht'), <- E1, P. reflexivity.
  - intros a fd args I _. cbn [gen_struct gm_fields] in I.
    apply in_app_iff in I as [I|I]; [|apply in_app_iff in I as [I|I]].
    + apply in_map_iff in I as (t2 & E & I2). injection E as <- <- _ _.
      apply filter_In in I2 as [I2 A2].
      destruct (Forall2_in_r _ _ _ _ (mo_traits _ _ _ M) (unique_in _ _ I2)) as (y & Iy & Hy).
      exists y. split; auto. split.
      * unfold bare_attrs. rewrite kept_cfgs, (tm_attrs _ _ _ Hy). reflexivity.
      * cbn [gen_struct gm_checkpoint]. apply in_app_iff. left. apply in_map_iff. exists t2.
        split; auto. apply filter_In. auto.
    + apply in_map_iff in I as (f2 & E & _). discriminate.
    + exfalso. unfold phantom_fields in I. revert I. generalize 0%nat as k.
      induction (params (mi_generics s)) as [|q l IH]; intros k I; [exact I|].
      destruct q; cbn in I.
      * destruct I as [I|I]; [discriminate|]. exact (IH _ I).
      * destruct I as [I|I]; [discriminate|]. exact (IH _ I).
      * exact (IH _ I).
Qed.
Print Assumptions substructures_are_compiled_conditionally.

Example methods_are_compiled_conditionally_applies :
  mock_it ex_hash ex_mock = Some (ex_gen ex_mock)
  /\ map (fun e => (ge_name e, cfgs (ge_attrs e))) (gm_expects (ex_gen ex_mock))
     = [("expect_a", [ex_cfg "unix"])]
  /\ map (fun x => (gs_name x, cfgs (gs_impl_attrs x))) (gm_substructs (ex_gen ex_mock))
     = [("MockFoo_Tr", [ex_cfg "windows"]); ("MockFoo_m__Tr_1", [])].
Proof. repeat split. Qed.

(** A condition on the structure itself is only put on the structure: not on
    the blocks that implement its functions. *)
Theorem structures_are_compiled_conditionally_refuted :
  exists m g,
    mock_it ex_hash m = Some g /\ cfgs (gm_attrs g) = cfgs (ms_attrs m) /\ cfgs (ms_attrs m) <> []
    /\ cfgs (gm_impl_attrs g) = [] /\ gm_calls g <> [].
Proof. exists ex_mock, (ex_gen ex_mock). repeat split; discriminate. Qed.
Print Assumptions structures_are_compiled_conditionally_refuted.
