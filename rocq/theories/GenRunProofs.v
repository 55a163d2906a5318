(** * GenRunProofs: tests of the generated code are tests of Mock.v *)

From Coq Require Import List Bool String NArith Arith Permutation.
From Verif Require Import Base Times Expect Mock.
From Verif Require Import Ast AstSpec TyEq Rewrite Derive DeriveSpec
  Names Sig MockFn MockFnSpec MockFnProofs PropOutput Item ItemProofs
  NameProofs MockItem ItemSpec PropItems GenSpec GenProofs GenRun GenRunSpec GenRunLists GenRunObj GenRunDesc.
Import ListNotations.
Open Scope string_scope.
Open Scope list_scope.

Local Arguments inner_mod_ident : simpl never.
Local Arguments gen_mod_ident : simpl never.
Local Arguments expect_ident : simpl never.
Local Arguments context_ident : simpl never.
Local Arguments submod_ident : simpl never.
Local Arguments substruct_ident : simpl never.
Local Arguments field_ident : simpl never.

Lemma Forall2_filter {A B} (R : A -> B -> Prop) p q l k :
  Forall2 R l k -> (forall a b, In a l -> R a b -> p a = q b) -> Forall2 R (filter p l) (filter q k).
Proof.
  intros F H. induction F as [|a b l k X F IH]; cbn; auto.
  rewrite <- (H a b) by (cbn; auto). destruct (p a); [constructor|]; auto; apply IH; intros; apply H; cbn; auto.
Qed.

Lemma Forall2_nth_error_r {A B} (R : A -> B -> Prop) l k i b :
  Forall2 R l k -> nth_error k i = Some b -> exists a, nth_error l i = Some a /\ R a b.
Proof.
  intros F. revert i. induction F as [|x y l k H F IH]; intros [|i] E; try discriminate; cbn in *; auto.
  injection E as <-. eauto.
Qed.

Section Proofs.
Context {V U : Type}.
Context (hash : list pargs -> N) (m : mockable_struct) (s : mock_struct).
Context (M : mocked hash m s).
Context (FM : Forall2 (fun x f => build (method_builder m x) = Some f) (ms_methods m) (mi_methods s)).
Context (FT : Forall2 (fun x t => new_trait hash (ms_name m) (ms_generics m) x (ms_vis m) = Some t)
                      (ms_impls m) (mi_traits s)).
Context (WF : well_formed m) (SF : same_fns m) (DN : distinct_names (gen_struct s)).
Context (G : mock_it hash m = Some (gen_struct s)).
Context (te : types V).

Local Notation g := (gen_struct s).

(** ** The functions of the input and the cells *)

Definition link (x : option path * fn_item) (c : cell) : Prop :=
  fst c = module_of hash m (fst x) (fn_name (snd x))
  /\ mf_name (snd c) = fn_name (snd x)
  /\ mf_is_static (snd c) = negb (has_self (snd x))
  /\ described hash m te x (dm te c).

Lemma linked b f tr x p :
  build b = Some f -> b_sig b = fi_sig x -> b_attrs b = fi_attrs x ->
  b_struct b = Some (ms_name m) -> b_struct_generics b = Some (ms_generics m) ->
  bracketed (sg_generics (fi_sig x)) ->
  mf_name f = fn_name x -> mf_is_static f = negb (has_self x) ->
  p = module_of hash m tr (fn_name x) -> link (tr, x) (p, f).
Proof.
  intros H HS HA HT HG B N S ->. unfold link. cbn [fst snd]. repeat split; auto.
  - cbn. unfold funcname. destruct (build_built _ _ H) as (dg & di & ce & sig & BT).
    rewrite (bt_struct _ _ _ _ _ _ BT), HT, N. reflexivity.
  - cbn. unfold desc_name. destruct (build_built _ _ H) as (dg & di & ce & sig & BT).
    rewrite (bt_struct _ _ _ _ _ _ BT), HT, N. reflexivity.
  - rewrite dm_static. exact S.
  - cbn. destruct (expectation_kinds _ _ H) as (K & _). rewrite HS in K. intros E. apply K.
    destruct (kind_of f); try discriminate; reflexivity.
  - cbn. destruct (expectation_kinds _ _ H) as (K & _). rewrite HS in K. intros E. apply K in E.
    rewrite E. reflexivity.
  - cbn. destruct (expectation_kinds _ _ H) as (_ & K & _). rewrite HS in K. intros E. apply K.
    destruct (kind_of f); try discriminate; reflexivity.
  - cbn. destruct (expectation_kinds _ _ H) as (_ & K & _). rewrite HS in K. intros E. apply K in E.
    rewrite E. reflexivity.
  - cbn. rewrite S. destruct (has_self x); cbn [negb]; intros E.
    + left. now apply (method_separated b f x).
    + apply (expectation_separated b f x H HS HA B (ms_generics m) HG (proj2 WF)) in E.
      destruct E as [E|E]; auto.
  - cbn. rewrite S. destruct (has_self x); cbn [negb]; intros E.
    + apply (method_separated b f x); auto. destruct E as [E|[E _]]; [exact E|discriminate].
    + apply (expectation_separated b f x H HS HA B (ms_generics m) HG (proj2 WF)).
      destruct E as [E|[_ E]]; auto.
Qed.

Lemma own_link : Forall2 link (map (pair None) (ms_methods m)) (own_cells s).
Proof.
  unfold own_cells. assert (W := proj1 (proj1 WF)).
  assert (E := mo_modname _ _ _ M). revert W FM. generalize (ms_methods m) (mi_methods s). clear - E WF.
  intros l k W F. induction F as [|x f l k H F IH]; cbn [map]; constructor.
  - destruct (made_method _ _ _ H) as (N & _ & _ & S & _).
    apply (linked (method_builder m x)); auto.
    + intros L. apply W; cbn; auto.
    + cbn. rewrite E, N. reflexivity.
  - apply IH. intros; apply W; cbn; auto.
Qed.

Lemma tmod_path t : mt_ss_name t = ss_name hash (mt_path t) ->
  tmod s t = gen_mod_ident (ms_name m) (Some (ss_name hash (mt_path t))).
Proof.
  intros E. unfold tmod. rewrite (mo_modname _ _ _ M), E.
  unfold submod_ident, gen_mod_ident. cbn [unraw append]. reflexivity.
Qed.

Definition implements (x : path * list fn_item) (t : mock_trait) : Prop :=
  mt_path t = fst x /\ mt_ss_name t = ss_name hash (mt_path t)
  /\ exists i, In i (ms_impls m) /\ impl_fns i = snd x
       /\ new_trait hash (ms_name m) (ms_generics m) i (ms_vis m) = Some t.

Lemma trait_link x t :
  implements x t -> Forall2 link (map (pair (Some (fst x))) (snd x)) (tcells s t).
Proof.
  intros (P & SS & i & I & <- & NT). unfold tcells.
  assert (F := new_trait_fns _ _ _ _ _ _ NT).
  assert (W := proj2 (proj1 WF)). specialize (W i).
  assert (W' : forall y, In y (impl_fns i) -> bracketed (sg_generics (fi_sig y)))
    by (intros y J; exact (W y I J)).
  assert (E := tmod_path t SS). rewrite P in E. clear W NT I. revert W' F.
  generalize (impl_fns i) (mt_methods t). intros l k W F.
  induction F as [|y f l k H F IH]; cbn [map]; constructor.
  - destruct (made_trait _ _ _ _ _ _ H) as (N & _ & _ & S & _).
    eapply linked; [exact H|reflexivity|reflexivity|reflexivity|reflexivity| | | |]; auto.
    + apply W; cbn; auto.
    + cbn. rewrite E, N. reflexivity.
  - apply IH. intros; apply W; cbn; auto.
Qed.

Lemma firsts l : forall ts seen,
  Forall2 (fun x t => new_trait hash (ms_name m) (ms_generics m) x (ms_vis m) = Some t) l ts ->
  (forall x, In x l -> In x (ms_impls m)) ->
  (forall t, In t seen -> mt_ss_name t = ss_name hash (mt_path t)) ->
  NoDup (map (tmod s) (seen ++ unique_from seen ts)) ->
  Forall2 implements (first_impls (map mt_path seen) l) (unique_from seen ts).
Proof.
  induction l as [|x l IH]; intros ts seen F I SE N; inversion F as [|? t ? ts' NT F']; subst; cbn; auto.
  assert (TM := new_trait_made _ _ _ _ _ _ NT).
  destruct (tm_path _ _ _ TM) as (b & TP). rewrite TP.
  cbn [unique_from] in N.
  assert (EX : existsb (path_eqb (mt_path t)) (map mt_path seen) = existsb (same_trait t) seen).
  { destruct (existsb (same_trait t) seen) eqn:E.
    - apply existsb_exists in E as (t' & It & E). apply same_trait_eq in E as [E _].
      apply existsb_exists. exists (mt_path t'). split; [now apply in_map|]. now apply path_eqb_eq.
    - destruct (existsb (path_eqb (mt_path t)) (map mt_path seen)) eqn:E2; auto. exfalso.
      apply existsb_exists in E2 as (p & Ip & E2). apply path_eqb_eq in E2. subst p.
      apply in_map_iff in Ip as (t' & E3 & It). rewrite map_app in N. cbn [map] in N.
      apply (NoDup_app_disj _ _ (tmod s t') N).
      + now apply in_map.
      + left. unfold tmod. rewrite (SE t' It), (tm_ss _ _ _ TM), E3. reflexivity. }
  rewrite EX. destruct (existsb (same_trait t) seen) eqn:E.
  - apply IH; auto. intros; apply I; cbn; auto.
  - constructor.
    + split; [reflexivity|split; [exact (tm_ss _ _ _ TM)|]]. exists x. cbn. repeat split; auto.
      apply I. cbn. auto.
    + change (mt_path t :: map mt_path seen) with (map mt_path (t :: seen)). apply IH; auto.
      * intros; apply I; cbn; auto.
      * intros t' [<-|It]; auto. exact (tm_ss _ _ _ TM).
      * eapply Permutation_NoDup; [|exact N]. apply Permutation_map. cbn.
        symmetry. apply Permutation_middle.
Qed.

Lemma traits_implement : Forall2 implements (traits_of m) (subs s).
Proof.
  apply (firsts (ms_impls m) (mi_traits s) []); auto.
  - intros t [].
  - destruct DN as (_ & N & _). cbn [gen_struct gm_modname gm_substructs] in N.
    inversion N as [|? ? _ N2]; subst. rewrite map_map in N2. exact N2.
Qed.

Lemma all_link : Forall2 link (all_fns m) (cells s).
Proof.
  unfold all_fns, cells. apply Forall2_app; [|exact own_link].
  assert (F := traits_implement). induction F as [|x t l k H F IH]; cbn [flat_map]; auto.
  apply Forall2_app; auto. now apply trait_link.
Qed.

Lemma object_link : Forall2 link (object_fns m) (ocells s).
Proof.
  apply Forall2_filter; [exact all_link|]. intros a b _ (_ & _ & S & _). unfold not_static.
  rewrite S. now rewrite negb_involutive.
Qed.

Lemma static_link : Forall2 link (static_fns m) (scells s).
Proof. apply Forall2_filter; [exact all_link|]. intros a b _ (_ & _ & S & _). now rewrite S. Qed.

(** ** Facts about the structure *)

Lemma is_good : good s.
Proof.
  constructor; auto.
  - now apply (default_initialises_the_fields hash m).
  - now apply (default_initialises_the_fields hash m).
  - intros f I. destruct (Forall2_in_r _ _ _ _ FM I) as (x & _ & H). apply (made_method _ _ _ H).
  - intros t f It I. destruct (Forall2_in_r _ _ _ _ FT It) as (x & _ & H).
    destruct (Forall2_in_r _ _ _ _ (new_trait_fns _ _ _ _ _ _ H) I) as (y & _ & H2).
    apply (made_trait _ _ _ _ _ _ H2).
  - intros p f I. apply cell_cases in I as [(t & It & If & _)|(If & _)].
    + destruct (Forall2_in_r _ _ _ _ FT (subs_in s t It)) as (x & Ix & H).
      destruct (Forall2_in_r _ _ _ _ (new_trait_fns _ _ _ _ _ _ H) If) as (y & Iy & H2).
      apply (method_generic_expectation _ _ H2). cbn. exact (proj2 (proj1 WF) x y Ix Iy).
    + destruct (Forall2_in_r _ _ _ _ FM If) as (x & Ix & H).
      apply (method_generic_expectation _ _ H). cbn. exact (proj1 (proj1 WF) x Ix).
Qed.

(** ** The declarations for Mock.v *)

Definition sd : sdecl V :=
  SDecl (map (fun t => map (dm te) (tcells s t)) (subs s)) (map (dm te) (own_cells s)).
Definition st : list (mdecl V) := map (dm te) (scells s).

Lemma link_described l k :
  Forall2 link l k -> Forall2 (described hash m te) l (map (dm te) k).
Proof. intros F. induction F as [|x c l k H F IH]; cbn; constructor; auto. apply H. Qed.

Lemma Forall2_map_l {A B C} (R : B -> C -> Prop) (f : A -> B) l k :
  Forall2 R (map f l) k -> Forall2 (fun a c => R (f a) c) l k.
Proof.
  revert k. induction l as [|a l IH]; intros k F; inversion F; subst; constructor; auto.
Qed.

Lemma is_described : described_mock hash m te sd st.
Proof.
  split; [|split].
  - cbn. assert (F := traits_implement). induction F as [|x t l k H F IH]; cbn [map]; constructor; auto.
    apply (Forall2_map_l (described hash m te) (pair (Some (fst x)))).
    apply link_described. now apply trait_link.
  - cbn. apply (Forall2_map_l (described hash m te) (pair None)). apply link_described. exact own_link.
  - apply link_described. exact static_link.
Qed.

Lemma sd_fields : struct_fields sd = map (dm te) (ocells s).
Proof.
  unfold struct_fields, ocells, cells. rewrite filter_app, map_app. cbn [sd sd_traits sd_methods].
  assert (X : forall l, filter nonstatic (map (dm te) l) = map (dm te) (filter (fun c => not_static (snd c)) l)).
  { intros l. rewrite filter_map. f_equal. apply filter_ext. intros c. unfold nonstatic.
    rewrite dm_static. reflexivity. }
  f_equal; [|apply X]. generalize (subs s). intros L. induction L as [|t L IH]; cbn [map filter flat_map]; auto.
  rewrite filter_app, map_app, <- X, <- IH.
  destruct (Mock.all_static (map (dm te) (tcells s t))) eqn:E; cbn [negb map List.concat]; auto.
  assert (F : filter nonstatic (map (dm te) (tcells s t)) = []).
  { unfold Mock.all_static in E. rewrite forallb_forall in E.
    destruct (filter nonstatic _) as [|d r] eqn:F; auto.
    assert (I : In d (filter nonstatic (map (dm te) (tcells s t)))) by (rewrite F; cbn; auto).
    apply filter_In in I as [I J]. unfold nonstatic in J. rewrite (E d I) in J. discriminate. }
  now rewrite F.
Qed.

Lemma sd_new : object_new (U := U) sd = map (fld te (slot0 s)) (ocells s).
Proof.
  unfold object_new. rewrite sd_fields, map_map. apply map_ext_in. intros [p f] I.
  unfold fld. f_equal. cbn [fst]. rewrite (slot0_object s is_good p f I).
  apply ocell_in in I as [_ I]. cbn in I. unfold not_static in I. apply negb_true_iff in I.
  unfold slot_new, new_slot, dm. cbn. rewrite I. reflexivity.
Qed.

(** ** Static functions *)

Definition mu0 (p : list ident) : smutex V U :=
  SMutex false match find_mod g p with
               | Some q => if gp_generic_guard q then SGeneric [] else SPlain []
               | None => SPlain []
               end.

Lemma mod_stats md l :
  (forall f, In f l -> In (mcell md f) (cells s)) ->
  all_some (fun x => x) (flat_map (mod_stat md) (map priv_module l))
  = Some (map (fun c => (fst c, mu0 (fst c))) (filter (fun c => mf_is_static (snd c)) (map (mcell md) l))).
Proof.
  induction l as [|f l IH]; intros H; [reflexivity|]. cbn [map flat_map filter snd mcell].
  assert (E : find_mod g [md; inner_mod_ident (mf_name f)] = Some (priv_module f)).
  { apply (cell_mod s is_good [md; inner_mod_ident (mf_name f)] f). apply H. cbn. auto. }
  unfold mod_stat at 1. cbn [priv_module gp_context gp_generic_guard gp_generic gp_name].
  unfold generic_part. destruct (mf_is_static f) eqn:S; cbn [app orb andb].
  - rewrite andb_true_r. cbn [map fst mcell]. unfold mu0 at 1. rewrite E. cbn [priv_module gp_generic_guard].
    assert (X := IH (fun f' I => H f' (or_intror I))).
    destruct (is_expectation_generic f); cbn [all_some]; rewrite X; reflexivity.
  - apply IH. intros; apply H; cbn; auto.
Qed.

Lemma new_stats_named : new_stats g = Some (map (fun c => (fst c, mu0 (fst c))) (scells s)).
Proof.
  unfold new_stats. cbn [gen_struct gm_substructs gm_privmods gm_modname]. fold (subs s).
  unfold scells, cells. rewrite filter_app, map_app. apply all_some_app.
  - assert (H : forall t, In t (subs s) -> forall f, In f (mt_methods t) -> In (mcell (tmod s t) f) (cells s)).
    { intros t It f If. now apply sub_cell. }
    revert H. generalize (subs s). intros L H. induction L as [|t L IH]; [reflexivity|].
    cbn [map flat_map]. rewrite filter_app, map_app. apply all_some_app.
    + cbn [substruct gs_modname gs_privmods]. unfold tcells. apply mod_stats. intros f If. apply H; cbn; auto.
    + apply IH. intros; apply H; cbn; auto.
  - apply mod_stats. intros f If. now apply own_cell.
Qed.

Lemma mu0_slot c : In c (scells s) -> mu0 (fst c) = smutex_new (dm te c).
Proof.
  intros I. apply filter_In in I as [I S]. destruct c as [p f]. cbn [fst snd] in *.
  unfold mu0. rewrite (cell_mod s is_good p f I). unfold smutex_new, slot_new, dm. cbn. rewrite S. reflexivity.
Qed.

(** ** Resolving names *)

Lemma link_path tr n x c :
  link x c -> fst x = tr -> same_name (fn_name (snd x)) n = true -> fst c = module_of hash m tr n.
Proof.
  intros (P & _) <- E. rewrite P. unfold module_of. unfold same_name in E. apply String.eqb_eq in E.
  now rewrite E.
Qed.

Lemma same_trait_path_eq a b : same_trait_path a b = true <-> a = b.
Proof.
  destruct a as [a|], b as [b|]; cbn; try (split; congruence). rewrite path_eqb_eq. split; congruence.
Qed.

Lemma position_link tr n l k :
  Forall2 link l k ->
  (exists x, In x l /\ fst x = tr /\ same_name (fn_name (snd x)) n = true) ->
  exists p f, nth_error k (position tr n l) = Some (p, f) /\ p = module_of hash m tr n.
Proof.
  intros F. induction F as [|[t y] [p f] l k H F IH]; intros (x & I & T & N); [destruct I|].
  cbn [position]. destruct (same_trait_path t tr && same_name (fn_name y) n) eqn:E.
  - apply andb_true_iff in E as [E1 E2]. apply same_trait_path_eq in E1.
    exists p, f. split; [reflexivity|]. exact (link_path tr n _ _ H E1 E2).
  - destruct IH as (q & h & IH).
    + exists x. destruct I as [<-|I]; auto. cbn [fst snd] in T, N. exfalso.
      apply same_trait_path_eq in T. rewrite T, N in E. discriminate.
    + exists q, h. exact IH.
Qed.

Lemma first_impls_covers l : forall seen x b p,
  In x l -> im_trait x = Some (b, p) ->
  (In p seen \/ exists fs, In (p, fs) (first_impls seen l)).
Proof.
  induction l as [|y l IH]; intros seen x b p I T; [destruct I|]. cbn [first_impls].
  destruct I as [->|I].
  - rewrite T. destruct (existsb (path_eqb p) seen) eqn:E.
    + left. apply existsb_exists in E as (q & I & E). apply path_eqb_eq in E. now subst.
    + right. exists (impl_fns x). cbn. auto.
  - destruct (im_trait y) as [[b' q]|]; [|exact (IH seen x b p I T)].
    destruct (existsb (path_eqb q) seen); [exact (IH seen x b p I T)|].
    destruct (IH (q :: seen) x b p I T) as [[->|J]|[fs J]]; auto.
    + right. exists (impl_fns y). cbn. auto.
    + right. exists fs. cbn. auto.
Qed.

Lemma first_impls_in l : forall seen p fs,
  In (p, fs) (first_impls seen l) ->
  exists x b, In x l /\ im_trait x = Some (b, p) /\ impl_fns x = fs.
Proof.
  induction l as [|y l IH]; intros seen p fs I; [destruct I|]. cbn [first_impls] in I.
  destruct (im_trait y) as [[b' q]|] eqn:T.
  - destruct (existsb (path_eqb q) seen).
    + destruct (IH _ _ _ I) as (x & b & J & K). exists x, b. cbn. auto.
    + destruct I as [E|I].
      * injection E as <- <-. exists y, b'. cbn. auto.
      * destruct (IH _ _ _ I) as (x & b & J & K). exists x, b. cbn. auto.
  - destruct (IH _ _ _ I) as (x & b & J & K). exists x, b. cbn. auto.
Qed.

Lemma declared_in who self n :
  declares m who self n ->
  exists x, In x (all_fns m) /\ fst x = trait_at m who /\ same_name (fn_name (snd x)) n = true
            /\ has_self (snd x) = self.
Proof.
  intros (x & I & N & S). destruct who as [i|]; cbn [fns_at trait_at] in *.
  - destruct (nth_error (ms_impls m) i) as [y|] eqn:E; [|destruct I].
    apply nth_error_In in E.
    destruct (Forall2_in_l _ _ _ _ FT E) as (t & It & NT).
    destruct (tm_path _ _ _ (new_trait_made _ _ _ _ _ _ NT)) as (b & TP). rewrite TP. cbn [option_map snd].
    destruct (first_impls_covers (ms_impls m) [] y b _ E TP) as [[]|(fs & J)].
    destruct (first_impls_in _ _ _ _ J) as (z & b' & Iz & TZ & <-).
    rewrite (SF z y b' b _ Iz E TZ TP) in J.
    exists (Some (mt_path t), x). cbn. repeat split; auto.
    unfold all_fns. apply in_app_iff. left. apply in_flat_map. exists (mt_path t, impl_fns y).
    split; auto. cbn. now apply in_map.
  - exists (None, x). cbn. repeat split; auto. unfold all_fns. apply in_app_iff. right. now apply in_map.
Qed.

Lemma object_position who n :
  declares m who true n ->
  exists p f, nth_error (ocells s) (position (trait_at m who) n (object_fns m)) = Some (p, f)
              /\ p = module_of hash m (trait_at m who) n.
Proof.
  intros H. apply declared_in in H as (x & I & T & N & S). apply position_link; [exact object_link|].
  exists x. repeat split; auto. apply filter_In. auto.
Qed.

Lemma static_position who n :
  declares m who false n ->
  exists p f, nth_error (scells s) (position (trait_at m who) n (static_fns m)) = Some (p, f)
              /\ p = module_of hash m (trait_at m who) n.
Proof.
  intros H. apply declared_in in H as (x & I & T & N & S). apply position_link; [exact static_link|].
  exists x. repeat split; auto. apply filter_In. split; auto. now rewrite S.
Qed.

(** The functions of a block. *)
Record block (who : option nat) (md : ident) (fs : list mock_function) : Prop := Block {
  bk_calls : calls_in g who = map (fun f => call_fn f (Some md)) fs;
  bk_expects : exists sa, expects_in g who = map (fun f => expect_fn f md (sa f)) (filter not_static fs);
  bk_contexts : contexts_in g who = map (fun f => context_fn f (Some md)) (filter mf_is_static fs);
  bk_fns : Forall2 (fun x f => mf_name f = fn_name x /\ mf_is_static f = negb (has_self x)) (fns_at m who) fs;
  bk_cells : forall f, In f fs -> In (mcell md f) (cells s);
  bk_mod : fs <> [] -> forall n, module_of hash m (trait_at m who) n = [md; inner_mod_ident n]
}.

Lemma a_block who : exists md fs, block who md fs.
Proof.
  destruct who as [i|].
  - destruct (nth_error (mi_traits s) i) as [t|] eqn:E.
    + destruct (Forall2_nth_error_r _ _ _ _ _ FT E) as (x & Ex & NT).
      exists (tmod s t), (mt_methods t). assert (TM := new_trait_made _ _ _ _ _ _ NT).
      assert (It := nth_error_In _ _ E). assert (Ix := nth_error_In _ _ Ex).
      destruct (same_substruct hash m _ x t SF FT Ix NT It) as (t' & It' & Em & Es).
      assert (ET : tmod s t' = tmod s t) by (unfold tmod; now rewrite Es).
      constructor.
      * cbn [calls_in gen_struct gm_trait_impls]. rewrite nth_error_map, E. reflexivity.
      * exists (fun f => if is_method_generic f then None else Some (seg_args (mt_self t))).
        cbn [expects_in gen_struct gm_trait_impls]. rewrite nth_error_map, E. reflexivity.
      * cbn [contexts_in gen_struct gm_trait_impls]. rewrite nth_error_map, E. reflexivity.
      * cbn [fns_at]. rewrite Ex. eapply Forall2_imp; [exact (tm_methods _ _ _ TM)|].
        intros y f _ (N & _ & _ & S & _). auto.
      * intros f If. rewrite <- ET. apply sub_cell; auto. now rewrite Em.
      * intros _ n. cbn [trait_at]. rewrite Ex. destruct (tm_path _ _ _ TM) as (b & ->). cbn [option_map snd module_of].
        rewrite (tmod_path t (tm_ss _ _ _ TM)). reflexivity.
    + exists "", []. assert (E2 : nth_error (ms_impls m) i = None).
      { destruct (nth_error (ms_impls m) i) as [x|] eqn:E2; auto.
        destruct (Forall2_nth _ _ _ _ _ FT E2) as (t & Et & _). congruence. }
      constructor; cbn [calls_in expects_in contexts_in gen_struct gm_trait_impls fns_at];
        rewrite ?nth_error_map, ?E, ?E2; cbn; auto.
      * exists (fun _ => None). reflexivity.
      * intros f [].
      * congruence.
  - exists (mi_modname s), (mi_methods s). constructor; cbn [calls_in expects_in contexts_in gen_struct fns_at]; auto.
    + exists (fun _ => None). reflexivity.
    + eapply Forall2_imp; [exact (mo_methods _ _ _ M)|]. intros y f _ (N & _ & _ & S & _). auto.
    + intros f If. now apply own_cell.
    + intros _ n. cbn. now rewrite (mo_modname _ _ _ M).
Qed.

Lemma one_ref p f : In (p, f) (cells s) -> mf_return_ref f = true -> mf_return_refmut f = false.
Proof.
  assert (X : forall b, build b = Some f -> mf_return_ref f = true -> mf_return_refmut f = false).
  { intros b H. destruct (build_built _ _ H) as (dg & di & ce & sig & BT).
    rewrite (bt_ref _ _ _ _ _ _ BT), (bt_refmut _ _ _ _ _ _ BT).
    unfold returns_ref, returns_refmut. destruct (mf_output f) as [| | | | | | | | | | |lt mt e| | | |]; try discriminate.
    destruct mt; [rewrite andb_false_r; discriminate|]. intros _. apply andb_false_r. }
  intros I. apply cell_cases in I as [(t & It & If & _)|(If & _)].
  - destruct (Forall2_in_r _ _ _ _ FT (subs_in s t It)) as (x & Ix & H).
    destruct (Forall2_in_r _ _ _ _ (new_trait_fns _ _ _ _ _ _ H) If) as (y & Iy & H2).
    exact (X _ H2).
  - destruct (Forall2_in_r _ _ _ _ FM If) as (x & Ix & H). exact (X _ H).
Qed.

Lemma call_is_there p f md : In (p, f) (cells s) -> call_exists (call_fn f md) (priv_module f) = true.
Proof.
  intros I. unfold call_exists. cbn [call_fn gc_mut priv_module gp_kind]. unfold kind_of.
  assert (X := one_ref p f I). destruct (mf_return_ref f); [rewrite X; auto|].
  now destruct (mf_return_refmut f).
Qed.

(** The function that a name in a block means. *)
Record resolves (who : option nat) (self : bool) (n : ident) (md : ident) (f : mock_function) : Prop := Resolves {
  rs_call : find_by (fun x => unraw (sg_ident (gc_sig x))) (unraw n) (calls_in g who)
            = Some (call_fn f (Some md));
  rs_static : mf_is_static f = negb self;
  rs_cell : In (mcell md f) (cells s);
  rs_mod : module_of hash m (trait_at m who) n = fst (mcell md f);
  rs_expect : self = true -> exists sa,
    find_by ge_name (expect_ident n) (expects_in g who) = Some (expect_fn f md sa);
  rs_context : self = false ->
    find_by gx_name (context_ident n) (contexts_in g who) = Some (context_fn f (Some md))
}.

Lemma find_map {A} (name : A -> ident) (mk : mock_function -> A) i fs f :
  In f fs -> name (mk f) = i -> (forall f', In f' fs -> name (mk f') = i -> f' = f) ->
  find_by name i (map mk fs) = Some (mk f).
Proof.
  intros I N U'. destruct (find_by name i (map mk fs)) as [a|] eqn:E.
  - apply find_by_in in E as [E1 E2]. apply in_map_iff in E1 as (f' & <- & I').
    now rewrite (U' f' I' E2).
  - exfalso. apply (proj1 (find_by_none _ _ _) E (mk f)); auto. now apply in_map.
Qed.

Lemma resolve who self n : declares m who self n -> exists md f, resolves who self n md f.
Proof.
  intros (x & I & N & S). unfold same_name in N. apply String.eqb_eq in N.
  destruct (a_block who) as (md & fs & BK).
  destruct (Forall2_in_l _ _ _ _ (bk_fns _ _ _ BK) I) as (f & If & Nf & Sf).
  assert (UN : unraw (mf_name f) = unraw n) by (now rewrite Nf).
  assert (ONE : forall f', In f' fs -> unraw (mf_name f') = unraw n -> f' = f).
  { intros f' I' E. apply (cell_eq s is_good (fst (mcell md f))).
    - replace (fst (mcell md f)) with (fst (mcell md f')); [now apply (bk_cells _ _ _ BK)|].
      cbn. unfold inner_mod_ident. now rewrite E, UN.
    - now apply (bk_cells _ _ _ BK). }
  exists md, f. rewrite S in Sf. constructor; auto.
  - rewrite (bk_calls _ _ _ BK).
    apply (find_map (fun x => unraw (sg_ident (gc_sig x))) (fun f => call_fn f (Some md))); auto.
  - now apply (bk_cells _ _ _ BK).
  - rewrite (bk_mod _ _ _ BK) by (intros ->; destruct If). cbn. unfold inner_mod_ident. now rewrite UN.
  - intros ->. destruct (bk_expects _ _ _ BK) as (sa & ->). exists (sa f).
    apply (find_map ge_name (fun f => expect_fn f md (sa f))).
    + apply filter_In. split; auto. unfold not_static. now rewrite Sf.
    + cbn. unfold expect_ident. now rewrite UN.
    + intros f' I' E. apply filter_In in I' as [I' _]. apply ONE; auto.
      cbn in E. unfold expect_ident in E. now apply append_inj_l in E.
  - intros ->. rewrite (bk_contexts _ _ _ BK).
    apply (find_map gx_name (fun f => context_fn f (Some md))).
    + apply filter_In. auto.
    + cbn. unfold context_ident. now rewrite UN.
    + intros f' I' E. apply filter_In in I' as [I' _]. apply ONE; auto.
      cbn in E. unfold context_ident in E. now apply append_inj_r in E.
Qed.

Lemma resolve_object who n :
  declares m who true n ->
  exists md f p, resolves who true n md f /\ p = fst (mcell md f) /\ In (p, f) (ocells s)
    /\ nth_error (ocells s) (position (trait_at m who) n (object_fns m)) = Some (p, f).
Proof.
  intros H. destruct (resolve _ _ _ H) as (md & f & R). destruct (object_position _ _ H) as (p & f' & E & P).
  rewrite (rs_mod _ _ _ _ _ R) in P.
  assert (I := nth_error_In _ _ E). assert (I2 := I). apply ocell_in in I2 as [I2 _].
  assert (f' = f). { subst p. exact (cell_eq s is_good _ _ _ I2 (rs_cell _ _ _ _ _ R)). }
  subst f'. exists md, f, p. auto.
Qed.

Lemma resolve_static who n :
  declares m who false n ->
  exists md f p, resolves who false n md f /\ p = fst (mcell md f) /\ In (p, f) (scells s)
    /\ nth_error (scells s) (position (trait_at m who) n (static_fns m)) = Some (p, f).
Proof.
  intros H. destruct (resolve _ _ _ H) as (md & f & R). destruct (static_position _ _ H) as (p & f' & E & P).
  rewrite (rs_mod _ _ _ _ _ R) in P.
  assert (I := nth_error_In _ _ E). assert (I2 := I). apply filter_In in I2 as [I2 _].
  assert (f' = f). { subst p. exact (cell_eq s is_good _ _ _ I2 (rs_cell _ _ _ _ _ R)). }
  subst f'. exists md, f, p. auto.
Qed.

(** ** Simulation *)

Definition orel (a : option (gobj V U)) (b : object V U) : Prop :=
  match a with
  | None => b = []
  | Some o => exists x, o = render s x /\ b = map (fld te x) (ocells s)
  end.

Record sim (y : gsys V U) (Y : sys V U) : Prop := Sim {
  si_world : gy_world y = y_world Y;
  si_seqs : gy_seqs y = y_seqs Y;
  si_objs : Forall2 orel (gy_objs y) (y_objs Y);
  si_stats : exists mu, gy_stats y = map (fun x => (fst x, mu (fst x))) (scells s)
                        /\ y_stats Y = map (fun x => (dm te x, mu (fst x))) (scells s)
}.

Lemma scells_nodup : NoDup (map fst (scells s)).
Proof. apply NoDup_filter_map. exact (paths_nodup s is_good). Qed.
Lemma ocells_nodup : NoDup (map fst (ocells s)).
Proof. apply NoDup_filter_map. exact (paths_nodup s is_good). Qed.

Lemma set_nth_same {A} (l : list A) i a : nth_error l i = Some a -> set_nth l i a = l.
Proof.
  revert i. induction l as [|b l IH]; intros [|i] E; try discriminate; cbn in *.
  - now injection E as ->.
  - now rewrite IH.
Qed.

Lemma fld_set (x : list ident -> slot V U) p f i y :
  nth_error (ocells s) i = Some (p, f) ->
  set_nth (map (fld te x) (ocells s)) i (Field (dm te (p, f)) y)
  = map (fld te (at_path x p y)) (ocells s).
Proof.
  intros E. refine (eq_trans _ (set_nth_map (ocells s) _ (fun c z => fld te z c) i p f x y _ ocells_nodup E)).
  - f_equal. unfold fld. cbn [fst]. now rewrite at_same.
  - intros [q h] a b EQ. unfold fld. cbn in *. now rewrite EQ.
Qed.

Lemma stat_set (mu : list ident -> smutex V U) p f i y :
  nth_error (scells s) i = Some (p, f) ->
  set_nth (map (fun x => (dm te x, mu (fst x))) (scells s)) i (dm te (p, f), y)
  = map (fun x => (dm te x, at_path mu p y (fst x))) (scells s).
Proof.
  intros E.
  refine (eq_trans _ (set_nth_map (scells s) _ (fun c z => (dm te c, z (fst c))) i p f mu y _ scells_nodup E)).
  - f_equal. cbn [fst]. now rewrite at_same.
  - intros [q h] a b EQ. cbn in *. now rewrite EQ.
Qed.

(** The type of a store does not matter for what it does. *)
Lemma call_any_generic c p q b b' sl k args wr w :
  slot_call (U := U) c (mod_decl te p q b) sl k args wr w = slot_call c (mod_decl te p q b') sl k args wr w.
Proof. reflexivity. Qed.

Lemma sim_objs y Y i a b :
  sim y Y -> orel a b -> sim (gset_objs y (set_nth (gy_objs y) i a)) (set_objs Y (set_nth (y_objs Y) i b)).
Proof. intros [A B C D] R. constructor; auto. cbn. apply Forall2_set_nth; auto. Qed.

Lemma init_sim u : exists y, ginit g u = Some y /\ sim y (init u st).
Proof.
  unfold ginit. rewrite new_stats_named. eexists. split; [reflexivity|]. constructor; cbn; auto.
  exists mu0. split; auto. unfold st. rewrite map_map. apply map_ext_in. intros c I. now rewrite mu0_slot.
Qed.

Lemma step_sim c sh y Y o :
  sim y Y -> named m o ->
  exists y', gstep g te c sh y o = Some (y', snd (step c sh Y (to_op m sd o)))
             /\ sim y' (fst (step c sh Y (to_op m sd o))).
Proof.
  intros SI NM. destruct SI as [W Q O (mu & ST1 & ST2)].
  assert (SI : sim y Y) by (constructor; eauto).
  destruct o as [|i who n k l|i who n k args wr|i|i|who n k l|who n k args|who n|who n|t|b|uf];
    cbn [named] in NM; cbn [gstep to_op step].
  - (* new *)
    rewrite (object_new_named s is_good), sd_new. eexists. split; [reflexivity|]. constructor; cbn; eauto.
    apply Forall2_app; auto. constructor; auto. exists (slot0 s). auto.
  - (* expect *)
    destruct (resolve_object _ _ NM) as (md & f & p & R & P & I & NE).
    destruct (rs_expect _ _ _ _ _ R eq_refl) as (sa & ->).
    destruct (nth_error (gy_objs y) i) as [ob|] eqn:EO.
    2: { rewrite (Forall2_nth_none _ _ _ _ O EO). exists y. auto. }
    destruct (Forall2_nth _ _ _ _ _ O EO) as (OB & EO2 & RO). rewrite EO2.
    destruct ob as [ob|]; cbn [orel] in RO.
    2: { subst OB. exists y. destruct (position _ _ _); auto. }
    destruct RO as (x & -> & ->). cbn [expect_fn ge_store ge_mod].
    rewrite (cell_get s is_good x p f I). assert (I2 := I). apply ocell_in in I2 as [I2 _].
    rewrite (cell_mod s is_good p f I2).
    change [md; inner_mod_ident (mf_name f)] with (fst (mcell md f)). rewrite <- P, path_eq_refl.
    rewrite (map_nth_error (fld te x) _ _ NE). cbn [fld f_decl f_slot fst].
    rewrite W, Q.
    change (slot_expect c (mod_decl te p (priv_module f) (generic_slot (x p))))
      with (slot_expect (U := U) c (dm te (p, f))).
    destruct (slot_expect c (dm te (p, f)) (x p) k (w_thread (y_world Y)) l (y_seqs Y)) as [[s' t'] r].
    eexists. split; [reflexivity|]. constructor; cbn; eauto.
    apply Forall2_set_nth; auto. cbn. exists (at_path x p s').
    rewrite (cell_put s is_good x p f s' I). split; auto. now apply fld_set.
  - (* call *)
    destruct (resolve_object _ _ NM) as (md & f & p & R & P & I & NE).
    rewrite (rs_call _ _ _ _ _ R).
    assert (SO : gc_store (call_fn f (Some md)) = object_store f).
    { cbn. now rewrite (rs_static _ _ _ _ _ R). }
    rewrite SO.
    assert (CG := fun x => cell_get (V := V) (U := U) s is_good x p f I).
    assert (CP := fun x z => cell_put (V := V) (U := U) s is_good x p f z I).
    assert (NS : match object_store f with StaticIn _ => False | _ => True end).
    { unfold object_store. now destruct (mf_trait f). }
    assert (I2 := I). apply ocell_in in I2 as [I2 _].
    destruct (object_store f) as [a|a b|a]; [| |destruct NS].
    all: destruct (nth_error (gy_objs y) i) as [ob|] eqn:EO;
      [|rewrite (Forall2_nth_none _ _ _ _ O EO); exists y; now auto].
    all: destruct (Forall2_nth _ _ _ _ _ O EO) as (OB & EO2 & RO); rewrite EO2.
    all: destruct ob as [ob|]; cbn [orel] in RO;
      [|subst OB; exists y; destruct (position _ _ _); now auto].
    all: destruct RO as (x & -> & ->).
    all: rewrite CG, (cell_mod s is_good p f I2), (call_is_there p f _ I2).
    all: rewrite (map_nth_error (fld te x) _ _ NE); unfold field_call; cbn [fld f_decl f_slot fst]; rewrite W.
    all: change (slot_call c (mod_decl te p (priv_module f) (generic_slot (x p))))
      with (slot_call (U := U) c (dm te (p, f))).
    all: destruct (slot_call c (dm te (p, f)) (x p) k args wr (y_world Y)) as [[s' w'] r].
    all: eexists; split; [destruct r as [[v|]| |]; reflexivity|].
    all: constructor; cbn [gy_world gy_seqs gy_objs gy_stats y_world y_seqs y_objs y_stats fst]; eauto.
    all: apply Forall2_set_nth; auto; cbn [orel]; exists (at_path x p s'); rewrite CP; split; auto.
    all: now apply fld_set.
  - (* checkpoint *)
    destruct (nth_error (gy_objs y) i) as [ob|] eqn:EO.
    2: { rewrite (Forall2_nth_none _ _ _ _ O EO). exists y. auto. }
    destruct (Forall2_nth _ _ _ _ _ O EO) as (OB & EO2 & RO). rewrite EO2.
    destruct ob as [ob|]; cbn [orel] in RO.
    2: { subst OB. cbn. exists y. split; auto. constructor; cbn; eauto. now rewrite set_nth_same. }
    destruct RO as (x & -> & ->). rewrite (object_check_named s is_good), W.
    rewrite (check_object te c sh (w_panicking (y_world Y)) (ocells s) x ocells_nodup). cbn [fst snd].
    eexists. split; [reflexivity|]. apply sim_objs; auto. cbn. eexists. eauto.
  - (* drop *)
    destruct (nth_error (gy_objs y) i) as [ob|] eqn:EO.
    2: { rewrite (Forall2_nth_none _ _ _ _ O EO). exists y. auto. }
    destruct (Forall2_nth _ _ _ _ _ O EO) as (OB & EO2 & RO). rewrite EO2.
    destruct ob as [ob|]; cbn [orel] in RO.
    2: { subst OB. cbn. exists y. split; auto. constructor; cbn; eauto. now rewrite set_nth_same. }
    destruct RO as (x & -> & ->). rewrite (object_drop_named s is_good), W.
    eexists. split; [reflexivity|]. apply sim_objs; auto. reflexivity.
  - (* context().expect() *)
    destruct (resolve_static _ _ NM) as (md & f & p & R & P & I & NE).
    assert (I2 := I). apply filter_In in I2 as [I2 _].
    unfold context_at. rewrite (rs_context _ _ _ _ _ R eq_refl).
    change (gx_mod (context_fn f (Some md))) with (fst (mcell md f)). rewrite <- P.
    rewrite (cell_mod s is_good p f I2), ST1, (get_stat_map mu _ _ _ I), W, Q, ST2.
    rewrite (map_nth_error (fun x => (dm te x, mu (fst x))) _ _ NE). cbn [fst].
    change (context_expect c (mod_decl te p (priv_module f) (generic_slot (sm_slot (mu p)))))
      with (context_expect (U := U) c (dm te (p, f))).
    destruct (context_expect c (dm te (p, f)) (mu p) k l (y_seqs Y) (y_world Y)) as [[s' t'] r].
    eexists. split; [reflexivity|]. constructor; cbn; eauto.
    exists (at_path mu p s'). split; [apply put_stat_map; exact scells_nodup|]. now apply stat_set.
  - (* static call *)
    destruct (resolve_static _ _ NM) as (md & f & p & R & P & I & NE).
    assert (I2 := I). apply filter_In in I2 as [I2 _].
    rewrite (rs_call _ _ _ _ _ R).
    assert (SO : gc_store (call_fn f (Some md)) = StaticIn p).
    { cbn. rewrite (rs_static _ _ _ _ _ R), P. reflexivity. }
    rewrite SO, (cell_mod s is_good p f I2), ST1, (get_stat_map mu _ _ _ I), (call_is_there p f _ I2), W, ST2.
    rewrite (map_nth_error (fun x => (dm te x, mu (fst x))) _ _ NE). cbn [fst].
    assert (SC : gstatic_call c (mod_decl te p (priv_module f) (generic_slot (sm_slot (mu p))))
              (no_match te p (call_fn f (Some md)) args) (mu p) k args (y_world Y)
      = static_call c (dm te (p, f)) (mu p) k args (y_world Y)) by reflexivity.
    rewrite SC. clear SC.
    destruct (static_call c (dm te (p, f)) (mu p) k args (y_world Y)) as [[s' w'] r].
    eexists. split; [reflexivity|]. constructor; cbn; eauto.
    exists (at_path mu p s'). split; [apply put_stat_map; exact scells_nodup|]. now apply stat_set.
  - (* context.checkpoint() *)
    destruct (resolve_static _ _ NM) as (md & f & p & R & P & I & NE).
    assert (I2 := I). apply filter_In in I2 as [I2 _].
    unfold context_at. rewrite (rs_context _ _ _ _ _ R eq_refl).
    change (gx_mod (context_fn f (Some md))) with (fst (mcell md f)). rewrite <- P.
    rewrite (cell_mod s is_good p f I2), ST1, (get_stat_map mu _ _ _ I), W, ST2.
    rewrite (map_nth_error (fun x => (dm te x, mu (fst x))) _ _ NE). cbn [fst].
    change (static_checkpoint c (mod_decl te p (priv_module f) (generic_slot (sm_slot (mu p)))))
      with (static_checkpoint (U := U) c (dm te (p, f))).
    destruct (static_checkpoint c (dm te (p, f)) sh (mu p) (w_panicking (y_world Y))) as [s' r].
    eexists. split; [reflexivity|]. constructor; cbn; eauto.
    exists (at_path mu p s'). split; [apply put_stat_map; exact scells_nodup|]. now apply stat_set.
  - (* drop of the context *)
    destruct (resolve_static _ _ NM) as (md & f & p & R & P & I & NE).
    assert (I2 := I). apply filter_In in I2 as [I2 _].
    unfold context_at. rewrite (rs_context _ _ _ _ _ R eq_refl).
    change (gx_mod (context_fn f (Some md))) with (fst (mcell md f)). rewrite <- P.
    rewrite (cell_mod s is_good p f I2), ST1, (get_stat_map mu _ _ _ I), W, ST2.
    rewrite (map_nth_error (fun x => (dm te x, mu (fst x))) _ _ NE). cbn [fst].
    change (context_drop c (mod_decl te p (priv_module f) (generic_slot (sm_slot (mu p)))))
      with (context_drop (U := U) c (dm te (p, f))).
    destruct (context_drop c (dm te (p, f)) sh (mu p) (w_panicking (y_world Y))) as [s' r].
    eexists. split; [reflexivity|]. constructor; cbn; eauto.
    exists (at_path mu p s'). split; [apply put_stat_map; exact scells_nodup|]. now apply stat_set.
  - eexists. split; [reflexivity|]. constructor; cbn; eauto. now rewrite W.
  - eexists. split; [reflexivity|]. constructor; cbn; eauto. now rewrite W.
  - eexists. split; [reflexivity|]. constructor; cbn; eauto. now rewrite W.
Qed.

Lemma run_sim c sh l : forall y Y,
  sim y Y -> Forall (named m) l ->
  exists y', grun g te c sh y l = Some (y', snd (run c sh Y (map (to_op m sd) l)))
             /\ sim y' (fst (run c sh Y (map (to_op m sd) l))).
Proof.
  induction l as [|o l IH]; intros y Y S F; cbn [map run grun].
  - exists y. auto.
  - inversion F as [|? ? F1 F2]; subst. destruct (step_sim c sh y Y o S F1) as (y1 & E1 & S1). rewrite E1.
    destruct (step c sh Y (to_op m sd o)) as [Y1 r]. cbn [fst snd] in *.
    destruct (IH y1 Y1 S1 F2) as (y2 & E2 & S2). rewrite E2.
    destruct (run c sh Y1 (map (to_op m sd) l)) as [Y2 rs]. cbn [fst snd] in *. exists y2. auto.
Qed.

(** The declaration at the position of a function is that of the function. *)
Lemma declared_is who x :
  In x (fns_at m who) -> In (trait_at m who, x) (all_fns m).
Proof.
  intros I. destruct who as [i|]; cbn [fns_at trait_at] in *.
  - destruct (nth_error (ms_impls m) i) as [y|] eqn:E; [|destruct I].
    apply nth_error_In in E.
    destruct (Forall2_in_l _ _ _ _ FT E) as (t & It & NT).
    destruct (tm_path _ _ _ (new_trait_made _ _ _ _ _ _ NT)) as (b & TP). rewrite TP. cbn [option_map snd].
    destruct (first_impls_covers (ms_impls m) [] y b _ E TP) as [[]|(fs & J)].
    destruct (first_impls_in _ _ _ _ J) as (z & b' & Iz & TZ & <-).
    rewrite (SF z y b' b _ Iz E TZ TP) in J.
    unfold all_fns. apply in_app_iff. left. apply in_flat_map. exists (mt_path t, impl_fns y).
    split; auto. cbn. now apply in_map.
  - unfold all_fns. apply in_app_iff. right. now apply in_map.
Qed.

Lemma located (self : bool) who x n l k :
  Forall2 link l k -> (forall y, In y (all_fns m) -> has_self (snd y) = self -> In y l) ->
  (forall c, In c k -> In c (cells s)) ->
  In x (fns_at m who) -> same_name (fn_name x) n = true -> has_self x = self ->
  exists d, nth_error (map (dm te) k) (position (trait_at m who) n l) = Some d
            /\ described hash m te (trait_at m who, x) d.
Proof.
  intros F SUB CS I N S. assert (J := SUB _ (declared_is who x I) S).
  destruct (position_link (trait_at m who) n l k F) as (p & f & E & P).
  { exists (trait_at m who, x). auto. }
  exists (dm te (p, f)). split; [now apply map_nth_error|].
  destruct (Forall2_in_l _ _ _ _ F J) as ([p' f'] & Ic & L).
  assert (P' := link_path (trait_at m who) n _ _ L eq_refl N). cbn [fst] in P'.
  assert (f' = f).
  { apply (cell_eq s is_good p).
    - rewrite P, <- P'. now apply CS.
    - apply CS. exact (nth_error_In _ _ E). }
  subst f'. rewrite P, <- P'. apply L.
Qed.

Lemma declaration who x n :
  In x (fns_at m who) -> same_name (fn_name x) n = true ->
  exists d, nth_error (if has_self x then struct_fields sd else st)
                      (position (trait_at m who) n (if has_self x then object_fns m else static_fns m)) = Some d
            /\ described hash m te (trait_at m who, x) d.
Proof.
  intros I N. destruct (has_self x) eqn:S.
  - rewrite sd_fields. apply (located true); auto.
    + exact object_link.
    + intros y J E. apply filter_In. auto.
    + intros c J. now apply filter_In in J.
  - apply (located false); auto.
    + exact static_link.
    + intros y J E. apply filter_In. split; auto. now rewrite E.
    + intros c J. now apply filter_In in J.
Qed.

(** A name that was not declared does not compile. *)
Lemma undeclared who (n : ident) :
  (~ declares m who true n -> find_by ge_name (expect_ident n) (expects_in g who) = None)
  /\ (~ declares m who false n -> find_by gx_name (context_ident n) (contexts_in g who) = None)
  /\ forall x, find_by (fun x => unraw (sg_ident (gc_sig x))) (unraw n) (calls_in g who) = Some x ->
       (~ declares m who true n -> exists p, gc_store x = StaticIn p)
       /\ (~ declares m who false n -> match gc_store x with StaticIn _ => False | _ => True end).
Proof.
  destruct (a_block who) as (md & fs & BK).
  assert (X : forall f, In f fs -> unraw (mf_name f) = unraw n -> declares m who (not_static f) n).
  { intros f I E. destruct (Forall2_in_r _ _ _ _ (bk_fns _ _ _ BK) I) as (x & Ix & N & S).
    exists x. split; auto. split; [unfold same_name; rewrite <- N, E; apply String.eqb_refl|].
    unfold not_static. rewrite S. now rewrite negb_involutive. }
  split; [|split].
  - intros D. destruct (bk_expects _ _ _ BK) as (sa & ->). apply find_by_none. intros a I E.
    apply in_map_iff in I as (f & <- & I). apply filter_In in I as [I S]. apply D. rewrite <- S. apply X; auto.
    cbn in E. unfold expect_ident in E. now apply append_inj_l in E.
  - intros D. rewrite (bk_contexts _ _ _ BK). apply find_by_none. intros a I E.
    apply in_map_iff in I as (f & <- & I). apply filter_In in I as [I S]. apply D.
    replace false with (not_static f) by (unfold not_static; now rewrite S). apply X; auto.
    cbn in E. unfold context_ident in E. now apply append_inj_r in E.
  - intros a E. apply find_by_in in E as [I E]. rewrite (bk_calls _ _ _ BK) in I.
    apply in_map_iff in I as (f & <- & I). specialize (X f I E). unfold not_static in X.
    cbn [call_fn gc_store]. split; intros D.
    + destruct (mf_is_static f); [eauto|]. now elim D.
    + destruct (mf_is_static f); [now elim D|]. unfold object_store. now destruct (mf_trait f).
Qed.

Lemma undeclared_step c sh (y : gsys V U) (o : uop V U) : ~ named m o -> gstep g te c sh y o = None.
Proof.
  intros N. destruct o as [|i who n k l|i who n k args wr|i|i|who n k l|who n k args|who n|who n|t|b|uf];
    cbn [named] in N; try (now elim N); destruct (undeclared who n) as (UE & UC & UX); cbn [gstep].
  - now rewrite (UE N).
  - destruct (find_by _ _ (calls_in g who)) as [x|]; auto. destruct (UX x eq_refl) as [UX1 _].
    destruct (UX1 N) as (p & ->). reflexivity.
  - unfold context_at. now rewrite (UC N).
  - destruct (find_by _ _ (calls_in g who)) as [x|]; auto. destruct (UX x eq_refl) as [_ UX2]. specialize (UX2 N).
    destruct (gc_store x); auto. destruct UX2.
  - unfold context_at. now rewrite (UC N).
  - unfold context_at. now rewrite (UC N).
Qed.

End Proofs.
