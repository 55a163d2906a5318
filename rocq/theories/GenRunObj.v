(** * GenRunObj: the objects of the generated code

    The state of an object of the generated code is a slot for each private
    module: [render] makes the object of it, [ocells] lists them in the order of
    Mock.v. *)

From Coq Require Import List Bool String NArith Arith.
From Verif Require Import Base Times Expect Mock.
From Verif Require Import Ast AstSpec TyEq Rewrite Derive DeriveSpec Names Sig MockFn MockFnSpec Item ItemProofs
  NameProofs MockItem ItemSpec GenSpec GenRun GenRunSpec GenRunLists.
Import ListNotations.
Open Scope string_scope.
Open Scope list_scope.

Local Arguments inner_mod_ident : simpl never.
Local Arguments expect_ident : simpl never.
Local Arguments context_ident : simpl never.
Local Arguments submod_ident : simpl never.
Local Arguments substruct_ident : simpl never.
Local Arguments field_ident : simpl never.

Section Obj.
Context {V U : Type}.
Context (s : mock_struct).

Definition tmod (t : mock_trait) : ident := submod_ident (mi_modname s) (mt_ss_name t).
Definition cell : Type := (list ident * mock_function)%type.
Definition mcell (md : ident) (f : mock_function) : cell := ([md; inner_mod_ident (mf_name f)], f).
Definition tcells (t : mock_trait) : list cell := map (mcell (tmod t)) (mt_methods t).
Definition own_cells : list cell := map (mcell (mi_modname s)) (mi_methods s).
Definition subs : list mock_trait := unique_traits (mi_traits s).
Definition objects : list mock_trait := filter (fun t => negb (all_static (mt_methods t))) subs.
Definition cells : list cell := flat_map tcells subs ++ own_cells.
Definition ocells : list cell := filter (fun c => not_static (snd c)) cells.
Definition scells : list cell := filter (fun c => mf_is_static (snd c)) cells.

(** Facts about the structure. *)
Record good : Prop := Good {
  gd_names : distinct_names (gen_struct s);
  gd_inits : map (fun f => (gf_attrs f, gf_name f)) (gm_fields (gen_struct s)) = gm_inits (gen_struct s);
  gd_sub_inits : forall ss, In ss (gm_substructs (gen_struct s)) ->
    map (fun f => (gf_attrs f, gf_name f)) (gs_fields ss) = gs_inits ss;
  gd_own : forall f, In f (mi_methods s) -> mf_trait f = None;
  gd_sub : forall t f, In t (mi_traits s) -> In f (mt_methods t) -> mf_trait f = Some (mt_ss_name t);
  gd_generic : forall p f, In (p, f) cells ->
    is_method_generic f = true -> is_expectation_generic f = true
}.
Context (D : good).

(** ** Modules *)

Lemma subs_in t : In t subs -> In t (mi_traits s).
Proof. apply unique_in. Qed.

Lemma mods_nodup : NoDup (mi_modname s :: map tmod subs).
Proof.
  destruct (gd_names D) as (_ & N & _). cbn [gen_struct gm_modname gm_substructs] in N.
  rewrite map_map in N. exact N.
Qed.

Lemma own_inner_nodup : NoDup (map (fun f => inner_mod_ident (mf_name f)) (mi_methods s)).
Proof.
  destruct (gd_names D) as (_ & _ & N & _). cbn [gen_struct gm_privmods] in N.
  rewrite map_map in N. exact N.
Qed.

Lemma sub_inner_nodup t : In t subs -> NoDup (map (fun f => inner_mod_ident (mf_name f)) (mt_methods t)).
Proof.
  intros I. destruct (gd_names D) as (_ & _ & _ & N).
  destruct (N (substruct s t)) as [_ N2]; [cbn; now apply in_map|].
  cbn [substruct gs_privmods] in N2. rewrite map_map in N2. exact N2.
Qed.

Lemma mcell_nodup md l :
  NoDup (map (fun f => inner_mod_ident (mf_name f)) l) -> NoDup (map fst (map (mcell md) l)).
Proof.
  intros N. rewrite map_map. cbn. eapply NoDup_map_factor; [|exact N].
  intros x y _ _ E. cbn in E. congruence.
Qed.

Lemma paths_nodup : NoDup (map fst cells).
Proof.
  assert (M := mods_nodup). inversion M as [|? ? M1 M2]; subst.
  unfold cells. rewrite map_app, map_flat_map. apply NoDup_app_intro.
  - assert (S := sub_inner_nodup). revert M2 S. clear. generalize subs as l.
    induction l as [|t l IH]; cbn [map flat_map]; [constructor|]. intros M S.
    inversion M as [|? ? M1 M2]; subst. apply NoDup_app_intro.
    + apply mcell_nodup. apply S. cbn. auto.
    + apply IH; auto. intros; apply S; cbn; auto.
    + intros p I J. apply in_flat_map in J as (t' & J1 & J2). unfold tcells in I, J2.
      rewrite map_map in I, J2. apply in_map_iff in I as (f & <- & _).
      apply in_map_iff in J2 as (f' & E & _). cbn in E. injection E as E _. apply M1.
      rewrite <- E. now apply in_map.
  - apply mcell_nodup. exact own_inner_nodup.
  - intros p I J. apply in_flat_map in I as (t & I1 & I2). unfold tcells in I2. unfold own_cells in J.
    rewrite map_map in I2, J. apply in_map_iff in I2 as (f & <- & _).
    apply in_map_iff in J as (f' & E & _). cbn in E. injection E as E _. apply M1.
    rewrite E. now apply in_map.
Qed.

Lemma cell_eq p f f' : In (p, f) cells -> In (p, f') cells -> f = f'.
Proof.
  intros I J. assert (E : (p, f) = (p, f')); [|now injection E].
  eapply NoDup_map_eq; [exact paths_nodup|exact I|exact J|reflexivity].
Qed.

Lemma own_cell f : In f (mi_methods s) -> In (mcell (mi_modname s) f) cells.
Proof. intros I. apply in_app_iff. right. now apply in_map. Qed.

Lemma sub_cell t f : In t subs -> In f (mt_methods t) -> In (mcell (tmod t) f) cells.
Proof.
  intros I J. apply in_app_iff. left. apply in_flat_map. exists t. split; auto. now apply in_map.
Qed.

Lemma cell_cases p f :
  In (p, f) cells ->
  ((exists t, In t subs /\ In f (mt_methods t) /\ (p, f) = mcell (tmod t) f)
   \/ In f (mi_methods s) /\ (p, f) = mcell (mi_modname s) f).
Proof.
  intros I. apply in_app_iff in I as [I|I].
  - left. apply in_flat_map in I as (t & I & J). apply in_map_iff in J as (f' & E & J).
    assert (f' = f) by (unfold mcell in E; congruence). subst f'. exists t. auto.
  - right. apply in_map_iff in I as (f' & E & J).
    assert (f' = f) by (unfold mcell in E; congruence). subst f'. auto.
Qed.

Lemma cell_mod p f : In (p, f) cells -> find_mod (gen_struct s) p = Some (priv_module f).
Proof.
  intros I. apply cell_cases in I as [(t & It & If & E)|(If & E)]; injection E as ->.
  - assert (M := mods_nodup). inversion M as [|? ? M1 M2]; subst.
    cbn [find_mod gen_struct gm_modname gm_substructs]. fold subs.
    destruct (String.eqb_spec (mi_modname s) (tmod t)) as [E|E].
    { elim M1. rewrite E. now apply in_map. }
    change (tmod t) with (gs_modname (substruct s t)) at 1.
    rewrite find_by_unique.
    + cbn [substruct gs_privmods].
      change (inner_mod_ident (mf_name f)) with (gp_name (priv_module f)). apply find_by_unique.
      * rewrite map_map. apply sub_inner_nodup. exact It.
      * now apply in_map.
    + rewrite map_map. exact M2.
    + now apply in_map.
  - cbn [find_mod gen_struct gm_modname gm_privmods]. rewrite String.eqb_refl.
    change (inner_mod_ident (mf_name f)) with (gp_name (priv_module f)). apply find_by_unique.
    + rewrite map_map. exact own_inner_nodup.
    + now apply in_map.
Qed.

(** ** Objects *)

Definition phantoms : list (ident * gval V U) :=
  map (fun f => (gf_name f, GvPhantom)) (phantom_fields (mi_generics s)).
Definition sval (st : list ident -> slot V U) (c : cell) : gval V U := GvStore (fst c) (st (fst c)).
Definition rfields (md : ident) (st : list ident -> slot V U) (l : list mock_function)
  : list (ident * gval V U) :=
  map (fun f => (mf_name f, sval st (mcell md f))) (filter not_static l).
Definition rsub (st : list ident -> slot V U) (t : mock_trait) : list (ident * gval V U) :=
  rfields (tmod t) st (mt_methods t) ++ phantoms.
Definition rsubs (st : list ident -> slot V U) : gobj V U :=
  map (fun t => (field_ident (mt_ss_name t),
                 OvSub (substruct_ident (mi_name s) (mt_ss_name t)) (rsub st t))) objects.
Definition rown (st : list ident -> slot V U) : gobj V U :=
  map (fun f => (mf_name f, OvField (sval st (mcell (mi_modname s) f))))
      (filter not_static (mi_methods s)).
Definition rphantoms : gobj V U := map (fun x => (fst x, OvField (snd x))) phantoms.
Definition render (st : list ident -> slot V U) : gobj V U := rsubs st ++ rown st ++ rphantoms.

Lemma ocells_eq :
  ocells = flat_map (fun t => map (mcell (tmod t)) (filter not_static (mt_methods t))) objects
           ++ map (mcell (mi_modname s)) (filter not_static (mi_methods s)).
Proof.
  unfold ocells, cells. rewrite filter_app, filter_flat_map. f_equal.
  - unfold objects. induction subs as [|t l IH]; cbn; auto.
    rewrite IH. unfold tcells at 1. rewrite filter_map.
    change (filter (fun x => not_static (snd (mcell (tmod t) x))) (mt_methods t))
      with (filter not_static (mt_methods t)).
    destruct (all_static (mt_methods t)) eqn:E; cbn; auto.
    assert (F : filter not_static (mt_methods t) = []).
    { unfold all_static in E. rewrite forallb_forall in E.
      destruct (filter not_static (mt_methods t)) as [|f r] eqn:F; auto.
      assert (I : In f (filter not_static (mt_methods t))) by (rewrite F; cbn; auto).
      apply filter_In in I as [I J]. unfold not_static in J. rewrite (E f I) in J. discriminate. }
    now rewrite F.
  - unfold own_cells. now rewrite filter_map.
Qed.

Lemma ocell_in c : In c ocells <-> In c cells /\ not_static (snd c) = true.
Proof. apply filter_In. Qed.

Lemma objects_in t : In t objects -> In t subs.
Proof. intros I. now apply filter_In in I. Qed.

Lemma object_of t f : In t subs -> In f (mt_methods t) -> not_static f = true -> In t objects.
Proof.
  intros It If N. apply filter_In. split; auto. unfold all_static.
  destruct (forallb mf_is_static (mt_methods t)) eqn:E; auto.
  rewrite forallb_forall in E. unfold not_static in N. rewrite (E f If) in N. discriminate.
Qed.

(** The names of the fields. *)
Lemma rsubs_names st : map fst (rsubs st) = map (fun t => field_ident (mt_ss_name t)) objects.
Proof. unfold rsubs. now rewrite map_map. Qed.
Lemma rown_names st : map fst (rown st) = map mf_name (filter not_static (mi_methods s)).
Proof. unfold rown. now rewrite map_map. Qed.
Lemma rfields_names md st l : map fst (rfields md st l) = map mf_name (filter not_static l).
Proof. unfold rfields. now rewrite map_map. Qed.

Lemma fields_nodup :
  NoDup (map (fun t => field_ident (mt_ss_name t)) objects
         ++ map mf_name (filter not_static (mi_methods s))
         ++ map gf_name (phantom_fields (mi_generics s))).
Proof.
  destruct (gd_names D) as (N & _). cbn [gen_struct gm_fields] in N.
  rewrite !map_app, map_map in N. unfold field_definitions in N. rewrite map_map in N. exact N.
Qed.

Lemma sub_fields_nodup t :
  In t subs ->
  NoDup (map mf_name (filter not_static (mt_methods t)) ++ map gf_name (phantom_fields (mi_generics s))).
Proof.
  intros I. destruct (gd_names D) as (_ & _ & _ & N).
  destruct (N (substruct s t)) as [N1 _]; [cbn; now apply in_map|].
  cbn [substruct gs_fields] in N1. rewrite map_app in N1. unfold field_definitions in N1.
  rewrite map_map in N1. exact N1.
Qed.

Lemma mcell_inj md f f' : fst (mcell md f) = fst (mcell md f') ->
  inner_mod_ident (mf_name f) = inner_mod_ident (mf_name f').
Proof. cbn. congruence. Qed.

(** Reading and writing one field. *)
Lemma rfields_look md st l f :
  NoDup (map mf_name (filter not_static l)) -> In f l -> not_static f = true ->
  look (mf_name f) (rfields md st l) = Some (sval st (mcell md f)).
Proof.
  intros N I S. unfold rfields.
  apply (look_map mf_name (fun f => sval st (mcell md f))); auto. apply filter_In. auto.
Qed.

Lemma rfields_put md st l f x :
  NoDup (map mf_name (filter not_static l)) ->
  NoDup (map (fun f => inner_mod_ident (mf_name f)) l) -> In f l -> not_static f = true ->
  put (mf_name f) (GvStore (fst (mcell md f)) x) (rfields md st l)
  = rfields md (at_path st (fst (mcell md f)) x) l.
Proof.
  intros N N2 I S. unfold rfields.
  apply (put_map mf_name (fun f => sval st (mcell md f))); auto.
  - apply filter_In. auto.
  - unfold sval. now rewrite at_same.
  - intros y J NE. unfold sval. rewrite at_other; auto. intros E. apply mcell_inj in E. apply NE.
    apply filter_In in J as [J _].
    eapply (NoDup_map_eq (fun f => inner_mod_ident (mf_name f))); eauto.
Qed.

Lemma rfields_other md st p x l :
  (forall f, In f l -> fst (mcell md f) <> p) -> rfields md (at_path st p x) l = rfields md st l.
Proof.
  intros H. unfold rfields. apply map_ext_in. intros f I. apply filter_In in I as [I _].
  f_equal. unfold sval. rewrite at_other; auto.
Qed.

Lemma own_not_sub t f f' : In t subs -> fst (mcell (tmod t) f) <> fst (mcell (mi_modname s) f').
Proof.
  intros I E. cbn in E. assert (M := mods_nodup). inversion M as [|? ? M1 M2]; subst. apply M1.
  injection E as E _. rewrite <- E. now apply in_map.
Qed.

Lemma sub_not_sub t t' f f' :
  In t subs -> In t' subs -> fst (mcell (tmod t) f) = fst (mcell (tmod t') f') -> t = t'.
Proof.
  intros I J E. cbn in E. assert (M := mods_nodup). inversion M as [|? ? M1 M2]; subst.
  eapply (NoDup_map_eq tmod); eauto. congruence.
Qed.

Lemma rsubs_other st p x :
  (forall t f, In t objects -> In f (mt_methods t) -> fst (mcell (tmod t) f) <> p) ->
  rsubs (at_path st p x) = rsubs st.
Proof.
  intros H. unfold rsubs. apply map_ext_in. intros t I. do 2 f_equal. unfold rsub. f_equal.
  apply rfields_other. intros f J. apply H; auto.
Qed.

Lemma rown_other st p x :
  (forall f, In f (mi_methods s) -> fst (mcell (mi_modname s) f) <> p) ->
  rown (at_path st p x) = rown st.
Proof.
  intros H. unfold rown. apply map_ext_in. intros f I. apply filter_In in I as [I _].
  do 2 f_equal. unfold sval. rewrite at_other; auto.
Qed.

Lemma own_names : NoDup (map mf_name (filter not_static (mi_methods s))).
Proof. exact (NoDup_app_l _ _ (NoDup_app_r _ _ fields_nodup)). Qed.

Lemma sub_names t : In t subs -> NoDup (map mf_name (filter not_static (mt_methods t))).
Proof. intros I. exact (NoDup_app_l _ _ (sub_fields_nodup t I)). Qed.

Lemma own_name_in f st : In f (mi_methods s) -> not_static f = true -> In (mf_name f) (map fst (rown st)).
Proof. intros I S. rewrite rown_names. apply in_map. apply filter_In. auto. Qed.

Lemma own_name_not_sub f st :
  In f (mi_methods s) -> not_static f = true -> ~ In (mf_name f) (map fst (rsubs st)).
Proof.
  intros I S J. rewrite rsubs_names in J.
  eapply (NoDup_app_disj _ _ _ fields_nodup J). apply in_app_iff. left. apply in_map.
  apply filter_In. auto.
Qed.

(** [self.f] *)
Lemma own_look st f :
  In f (mi_methods s) -> not_static f = true ->
  look (mf_name f) (render st) = Some (OvField (sval st (mcell (mi_modname s) f))).
Proof.
  intros I S. unfold render. rewrite look_app_r by (apply own_name_not_sub; auto).
  rewrite look_app_l by (apply own_name_in; auto). unfold rown.
  apply (look_map mf_name (fun f => OvField (sval st (mcell (mi_modname s) f)))).
  - exact own_names.
  - apply filter_In. auto.
Qed.

Lemma own_put st f x :
  In f (mi_methods s) -> not_static f = true ->
  put (mf_name f) (OvField (GvStore (fst (mcell (mi_modname s) f)) x)) (render st)
  = render (at_path st (fst (mcell (mi_modname s) f)) x).
Proof.
  intros I S. unfold render. rewrite put_app_r by (apply own_name_not_sub; auto).
  rewrite put_app_l by (apply own_name_in; auto). f_equal; [|f_equal].
  - symmetry. apply rsubs_other. intros t f' It _. apply own_not_sub. now apply objects_in.
  - unfold rown.
    apply (put_map mf_name (fun f => OvField (sval st (mcell (mi_modname s) f)))).
    + exact own_names.
    + apply filter_In. auto.
    + unfold sval. now rewrite at_same.
    + intros y J NE. unfold sval. rewrite at_other; auto. intros E. apply mcell_inj in E. apply NE.
      apply filter_In in J as [J _].
      eapply (NoDup_map_eq (fun f => inner_mod_ident (mf_name f))); eauto using own_inner_nodup.
Qed.

(** [self.t_expectations] *)
Lemma field_names : NoDup (map (fun t => field_ident (mt_ss_name t)) objects).
Proof. exact (NoDup_app_l _ _ fields_nodup). Qed.

Lemma sub_look st t :
  In t objects ->
  look (field_ident (mt_ss_name t)) (render st)
  = Some (OvSub (substruct_ident (mi_name s) (mt_ss_name t)) (rsub st t)).
Proof.
  intros I. unfold render. rewrite look_app_l.
  - unfold rsubs.
    apply (look_map (fun t => field_ident (mt_ss_name t))
             (fun t => OvSub (substruct_ident (mi_name s) (mt_ss_name t)) (rsub st t))); auto.
    exact field_names.
  - rewrite rsubs_names. apply in_map_iff. eauto.
Qed.

(** States that agree outside of one trait. *)
Lemma sub_put st st' t :
  In t objects ->
  (forall t' f, In t' subs -> t' <> t ->
     st' (fst (mcell (tmod t') f)) = st (fst (mcell (tmod t') f))) ->
  (forall f, st' (fst (mcell (mi_modname s) f)) = st (fst (mcell (mi_modname s) f))) ->
  put (field_ident (mt_ss_name t)) (OvSub (substruct_ident (mi_name s) (mt_ss_name t)) (rsub st' t))
      (render st)
  = render st'.
Proof.
  intros I H1 H2. unfold render. rewrite put_app_l by (rewrite rsubs_names; apply in_map_iff; eauto).
  f_equal.
  - unfold rsubs.
    apply (put_map (fun t => field_ident (mt_ss_name t))
             (fun t => OvSub (substruct_ident (mi_name s) (mt_ss_name t)) (rsub st t))); auto.
    + exact field_names.
    + intros t' J NE. f_equal. unfold rsub. f_equal. unfold rfields. apply map_ext_in. intros f _.
      f_equal. unfold sval. f_equal. apply H1; auto. now apply objects_in.
  - f_equal. unfold rown. apply map_ext_in. intros f _. f_equal. unfold sval. now rewrite H2.
Qed.

Lemma rsub_look st t f :
  In t subs -> In f (mt_methods t) -> not_static f = true ->
  look (mf_name f) (rsub st t) = Some (sval st (mcell (tmod t) f)).
Proof.
  intros It If S. unfold rsub. rewrite look_app_l.
  - apply rfields_look; auto. now apply sub_names.
  - rewrite rfields_names. apply in_map. apply filter_In. auto.
Qed.

Lemma rsub_put st t f x :
  In t subs -> In f (mt_methods t) -> not_static f = true ->
  put (mf_name f) (GvStore (fst (mcell (tmod t) f)) x) (rsub st t)
  = rsub (at_path st (fst (mcell (tmod t) f)) x) t.
Proof.
  intros It If S. unfold rsub. rewrite put_app_l.
  - f_equal. apply rfields_put; auto using sub_names, sub_inner_nodup.
  - rewrite rfields_names. apply in_map. apply filter_In. auto.
Qed.

(** Where the functions of a cell find its expectations. *)
Lemma cell_get st p f :
  In (p, f) ocells -> get_store (render st) (object_store f) = Some (p, st p).
Proof.
  intros I. apply ocell_in in I as [I S]. cbn in S.
  apply cell_cases in I as [(t & It & If & E)|(If & E)]; injection E as ->; unfold object_store.
  - rewrite (gd_sub D t f) by (auto using subs_in). cbn [get_store].
    rewrite sub_look by (eapply object_of; eauto). rewrite rsub_look by auto. reflexivity.
  - rewrite (gd_own D f If). cbn [get_store]. rewrite own_look by auto. reflexivity.
Qed.

Lemma cell_put st p f x :
  In (p, f) ocells -> put_store (render st) (object_store f) p x = render (at_path st p x).
Proof.
  intros I. apply ocell_in in I as [I S]. cbn in S.
  apply cell_cases in I as [(t & It & If & E)|(If & E)]; injection E as ->; unfold object_store.
  - assert (Io := object_of t f It If S).
    rewrite (gd_sub D t f) by (auto using subs_in). cbn [put_store].
    rewrite sub_look by exact Io. change [tmod t; inner_mod_ident (mf_name f)]
      with (fst (mcell (tmod t) f)). rewrite rsub_put by auto. apply sub_put; auto.
    + intros t' f' It' NE. rewrite at_other; auto. intros E. apply NE. eapply sub_not_sub; eauto.
    + intros f'. rewrite at_other; auto. intros E. symmetry in E. revert E. now apply own_not_sub.
  - rewrite (gd_own D f If). cbn [put_store]. now apply own_put.
Qed.

(** ** Making an object *)

Definition slot0 (p : list ident) : slot V U :=
  match find_mod (gen_struct s) p with
  | Some q => match gp_generic q with Some _ => SGeneric [] | None => SPlain [] end
  | None => SPlain []
  end.

Definition new_slot (f : mock_function) : slot V U :=
  if is_method_generic f then SGeneric [] else SPlain [].

Lemma slot0_object p f : In (p, f) ocells -> slot0 p = new_slot f.
Proof.
  intros I. apply ocell_in in I as [I S]. cbn in S. unfold slot0, new_slot.
  rewrite (cell_mod _ _ I). cbn. unfold generic_part. unfold not_static in S.
  apply negb_true_iff in S. rewrite S. cbn. assert (E := gd_generic D _ _ I).
  destruct (is_method_generic f).
  - now rewrite (E eq_refl).
  - now rewrite andb_false_r.
Qed.

Lemma field_val md f :
  In (mcell md f) cells -> not_static f = true ->
  new_val (gen_struct s) (gf_ty (field_definition f md)) = Some (sval slot0 (mcell md f)).
Proof.
  intros I S. cbn [field_definition gf_ty new_val].
  change [md; inner_mod_ident (mf_name f)] with (fst (mcell md f)).
  rewrite (cell_mod (fst (mcell md f)) f I). unfold sval.
  rewrite (slot0_object (fst (mcell md f)) f) by (apply ocell_in; auto). unfold new_slot.
  destruct (is_method_generic f) eqn:E; auto.
  cbn [priv_module gp_generic]. unfold generic_part. rewrite (gd_generic D _ _ I E), E, orb_true_r. reflexivity.
Qed.

Lemma inits_ok (fields : list gen_field) inits :
  map (fun f => (gf_attrs f, gf_name f)) fields = inits ->
  forallb (initialised inits) fields && forallb (known fields) inits = true.
Proof.
  intros <-. apply andb_true_iff. split; apply forallb_forall.
  - intros f I. unfold initialised. apply existsb_exists. exists (gf_attrs f, gf_name f). split.
    + now apply in_map_iff; exists f.
    + apply String.eqb_refl.
  - intros i I. apply in_map_iff in I as (f & <- & I). unfold known. apply existsb_exists. exists f.
    split; auto. apply String.eqb_refl.
Qed.

Lemma phantom_vals n l :
  all_some (fun f => option_map (pair (gf_name f)) (new_val (V := V) (U := U) (gen_struct s) (gf_ty f)))
           (phantom_fields_from n l)
  = Some (map (fun f => (gf_name f, GvPhantom)) (phantom_fields_from n l)).
Proof.
  apply all_some_map. intros f I. revert n I. induction l as [|[a b|i b d|i t d] l IH]; intros n I; cbn in I.
  - destruct I.
  - destruct I as [<-|I]; [reflexivity|eauto].
  - destruct I as [<-|I]; [reflexivity|eauto].
  - eauto.
Qed.

Lemma phantom_ovals n l :
  all_some (fun f => option_map (pair (gf_name f)) (new_oval (V := V) (U := U) (gen_struct s) (gf_ty f)))
           (phantom_fields_from n l)
  = Some (map (fun x => (fst x, OvField (snd x)))
            (map (fun f => (gf_name f, GvPhantom)) (phantom_fields_from n l))).
Proof.
  rewrite map_map. apply all_some_map. intros f I. revert n I.
  induction l as [|[a b|i b d|i t d] l IH]; intros n I; cbn in I.
  - destruct I.
  - destruct I as [<-|I]; [reflexivity|eauto].
  - destruct I as [<-|I]; [reflexivity|eauto].
  - eauto.
Qed.

Lemma sub_new t : In t subs -> new_sub (gen_struct s) (substruct s t) = Some (rsub slot0 t).
Proof.
  intros I. unfold new_sub, new_fields. rewrite inits_ok.
  2: { apply (gd_sub_inits D). cbn. now apply in_map. }
  cbn [substruct gs_fields]. unfold rsub. apply all_some_app.
  - apply all_some_on_map. intros f J. apply filter_In in J as [J S]. fold (tmod t).
    rewrite field_val by (auto; apply sub_cell; auto). reflexivity.
  - apply phantom_vals.
Qed.

Lemma sub_structs_nodup : NoDup (map gs_name (map (substruct s) subs)).
Proof.
  assert (M := mods_nodup). inversion M as [|? ? M1 M2]; subst. rewrite map_map.
  eapply NoDup_map_factor; [|exact M2]. intros t t' _ _ E. cbn in E. unfold substruct_ident in E.
  apply append_inj_l in E. unfold tmod, submod_ident. f_equal. exact E.
Qed.

Lemma find_sub t :
  In t subs ->
  find_by gs_name (substruct_ident (mi_name s) (mt_ss_name t)) (gm_substructs (gen_struct s))
  = Some (substruct s t).
Proof.
  intros I. change (substruct_ident (mi_name s) (mt_ss_name t)) with (gs_name (substruct s t)).
  apply find_by_unique; [exact sub_structs_nodup|]. cbn. now apply in_map.
Qed.

Lemma object_new_named : new_obj (gen_struct s) = Some (render slot0).
Proof.
  unfold new_obj, new_fields. rewrite inits_ok by (apply (gd_inits D)).
  cbn [gen_struct gm_fields]. fold subs. fold objects. unfold render. apply all_some_app; [|apply all_some_app].
  - apply all_some_on_map. intros t I. cbn [gf_ty gf_name new_oval].
    rewrite find_sub by (now apply objects_in). rewrite sub_new by (now apply objects_in). reflexivity.
  - apply all_some_on_map. intros f I. apply filter_In in I as [I S].
    assert (E := field_val (mi_modname s) f (own_cell f I) S).
    unfold new_oval. cbn [field_definition gf_ty gf_name] in E |- *. rewrite E. reflexivity.
  - apply phantom_ovals.
Qed.

(** ** Declarations *)

Definition dm (te : types V) (c : cell) : mdecl V :=
  mod_decl te (fst c) (priv_module (snd c))
    (if mf_is_static (snd c) then is_expectation_generic (snd c) else is_method_generic (snd c)).
Definition fld (te : types V) (st : list ident -> slot V U) (c : cell) : field V U :=
  Field (dm te c) (st (fst c)).

Lemma dm_static te c : md_static (dm te c) = mf_is_static (snd c).
Proof. cbn. now destruct (mf_is_static (snd c)). Qed.

(** ** [checkpoint] *)

Fixpoint check_cells (te : types V) c sh p (l : list cell) (st : list ident -> slot V U)
  : (list ident -> slot V U) * res unit :=
  match l with
  | [] => (st, Ret tt)
  | x :: r =>
      let (s', e) := slot_checkpoint c (dm te x) sh (st (fst x)) p in
      match e with
      | Ret _ => check_cells te c sh p r (at_path st (fst x) s')
      | e => (at_path st (fst x) s', e)
      end
  end.

Lemma check_cells_other te c sh p l : forall st q,
  ~ In q (map fst l) -> fst (check_cells te c sh p l st) q = st q.
Proof.
  induction l as [|x l IH]; intros st q N; cbn; auto.
  assert (X : at_path st (fst x) (slot_clear (st (fst x))) q = st q).
  { apply at_other. intros ->. apply N. cbn. auto. }
  destruct (slot_drop c (dm te x) sh (st (fst x)) p); cbn; auto.
  rewrite IH; auto. intros I. apply N. cbn. auto.
Qed.

Lemma check_cells_app te c sh p l k st :
  check_cells te c sh p (l ++ k) st
  = let (st', e) := check_cells te c sh p l st in
    match e with
    | Ret _ => check_cells te c sh p k st'
    | e => (st', e)
    end.
Proof.
  revert st. induction l as [|x l IH]; intros st; cbn; auto.
  destruct (slot_drop c (dm te x) sh (st (fst x)) p); cbn; auto.
Qed.

Lemma check_object te c sh p l : forall st,
  NoDup (map fst l) ->
  object_checkpoint c sh (map (fld te st) l) p
  = (map (fld te (fst (check_cells te c sh p l st))) l, snd (check_cells te c sh p l st)).
Proof.
  induction l as [|x l IH]; intros st N; cbn; auto. inversion N as [|? ? N1 N2]; subst.
  assert (X : forall y, map (fld te (at_path st (fst x) y)) l = map (fld te st) l).
  { intros y. apply map_ext_in. intros z I. unfold fld. rewrite at_other; auto.
    intros E. apply N1. rewrite <- E. now apply in_map. }
  assert (Y : forall y, fld te (at_path st (fst x) y) x = Field (dm te x) y).
  { intros y. unfold fld. now rewrite at_same. }
  destruct (slot_drop c (dm te x) sh (st (fst x)) p) eqn:E; cbn [fst snd].
  - set (s' := slot_clear (st (fst x))) in *.
    assert (Z : fld te (fst (check_cells te c sh p l (at_path st (fst x) s'))) x = Field (dm te x) s').
    { unfold fld. rewrite check_cells_other by exact N1. now rewrite at_same. }
    rewrite Z, <- (X s'), (IH _ N2). reflexivity.
  - now rewrite X, Y.
  - now rewrite X, Y.
Qed.

Lemma gval_check te c sh p x st :
  In x cells ->
  gval_checkpoint (gen_struct s) te c sh p (sval st x)
  = Some (GvStore (fst x) (slot_clear (st (fst x))), slot_drop c (dm te x) sh (st (fst x)) p).
Proof.
  intros I. destruct x as [q f]. unfold sval, gval_checkpoint. cbn [fst]. rewrite (cell_mod _ _ I).
  unfold slot_checkpoint. reflexivity.
Qed.

(** A trait's structure. *)
Lemma sub_check te c sh p t l : forall st,
  In t subs -> (forall f, In f l -> In f (mt_methods t) /\ not_static f = true) ->
  statements (sub_statement (gen_struct s) te c sh p) (map checkpoint_of l) (rsub st t)
  = Some (rsub (fst (check_cells te c sh p (map (mcell (tmod t)) l) st)) t,
          snd (check_cells te c sh p (map (mcell (tmod t)) l) st)).
Proof.
  induction l as [|f l IH]; intros st It H; [reflexivity|].
  destruct (H f) as [If S]; [cbn; auto|].
  cbn [map statements]. unfold sub_statement at 1, checkpoint_of at 1. cbn [snd].
  assert (NS : mf_is_static f = false) by (unfold not_static in S; now apply negb_true_iff).
  rewrite NS, rsub_look, gval_check by (auto; apply sub_cell; auto).
  cbn [check_cells]. unfold slot_checkpoint. rewrite rsub_put by auto.
  destruct (slot_drop c (dm te (mcell (tmod t) f)) sh (st (fst (mcell (tmod t) f))) p); auto.
  apply IH; auto. intros; apply H; cbn; auto.
Qed.

Lemma check_agrees te c sh p t l st t' f :
  In t subs -> In t' subs -> t' <> t ->
  fst (check_cells te c sh p (map (mcell (tmod t)) l) st) (fst (mcell (tmod t') f))
  = st (fst (mcell (tmod t') f)).
Proof.
  intros It It' NE. apply check_cells_other. rewrite map_map. intros I.
  apply in_map_iff in I as (f' & E & _). apply NE. symmetry. eapply sub_not_sub; eauto.
Qed.

Lemma check_agrees_own te c sh p t l st f :
  In t subs ->
  fst (check_cells te c sh p (map (mcell (tmod t)) l) st) (fst (mcell (mi_modname s) f))
  = st (fst (mcell (mi_modname s) f)).
Proof.
  intros It. apply check_cells_other. rewrite map_map. intros I.
  apply in_map_iff in I as (f' & E & _). revert E. now apply own_not_sub.
Qed.

Lemma subs_check te c sh p l : forall st,
  (forall t, In t l -> In t objects) ->
  statements (statement (gen_struct s) te c sh p)
    (map (fun t => CheckSub (bare_attrs (mt_attrs t)) (field_ident (mt_ss_name t))) l) (render st)
  = let r := check_cells te c sh p
               (flat_map (fun t => map (mcell (tmod t)) (filter not_static (mt_methods t))) l) st in
    Some (render (fst r), snd r).
Proof.
  induction l as [|t l IH]; intros st H; [reflexivity|].
  assert (Io : In t objects) by (apply H; cbn; auto). assert (It := objects_in t Io).
  cbn [map statements flat_map]. unfold statement at 1. rewrite sub_look by exact Io.
  rewrite find_sub by exact It. cbn [substruct gs_checkpoint]. unfold checkpoints.
  rewrite sub_check; auto.
  2: { intros f J. now apply filter_In in J. }
  rewrite sub_put; auto.
  2: { intros t' f It' NE. now apply check_agrees. }
  2: { intros f. now apply check_agrees_own. }
  rewrite check_cells_app. destruct (check_cells te c sh p _ st) as [st' [u| |]]; cbn [fst snd]; auto.
  apply IH. intros; apply H; cbn; auto.
Qed.

Lemma own_check te c sh p l : forall st,
  (forall f, In f l -> In f (mi_methods s) /\ not_static f = true) ->
  statements (statement (gen_struct s) te c sh p)
    (map (fun x => CheckStore (fst x) (snd x)) (map checkpoint_of l)) (render st)
  = let r := check_cells te c sh p (map (mcell (mi_modname s)) l) st in
    Some (render (fst r), snd r).
Proof.
  induction l as [|f l IH]; intros st H; [reflexivity|].
  destruct (H f) as [If S]; [cbn; auto|].
  cbn [map statements]. unfold statement at 1, checkpoint_of at 1 2. cbn [fst snd].
  assert (NS : mf_is_static f = false) by (unfold not_static in S; now apply negb_true_iff).
  rewrite NS, own_look, gval_check by (auto; apply own_cell; auto).
  cbn [check_cells]. unfold slot_checkpoint. rewrite own_put by auto.
  destruct (slot_drop c (dm te (mcell (mi_modname s) f)) sh (st (fst (mcell (mi_modname s) f))) p); auto.
  apply IH. intros; apply H; cbn; auto.
Qed.

Lemma object_check_named te c sh p st :
  obj_checkpoint (gen_struct s) te c sh p (render st)
  = let r := check_cells te c sh p ocells st in Some (render (fst r), snd r).
Proof.
  unfold obj_checkpoint. cbn [gen_struct gm_checkpoint]. fold subs. fold objects.
  rewrite statements_app, subs_check by auto. rewrite ocells_eq, check_cells_app.
  destruct (check_cells te c sh p _ st) as [st' [u| |]]; cbn [fst snd]; auto.
  unfold checkpoints. apply own_check. intros f J. now apply filter_In in J.
Qed.

(** ** Drop *)

Lemma object_drop_named te c sh p st :
  obj_drop (gen_struct s) te c sh (render st) p
  = Some (object_drop c sh (map (fld te st) ocells) p).
Proof.
  set (hv := fun (x : ident * gval V U) q =>
    match snd x with
    | GvStore m y => match find_mod (gen_struct s) m with
                     | Some k => slot_drop c (mod_decl te m k false) sh y q
                     | None => Ret tt
                     end
    | GvPhantom => Ret tt
    end).
  set (ho := fun (x : ident * oval V U) q =>
    match snd x with
    | OvField v => hv (fst x, v) q
    | OvSub _ l => tglue hv l q
    end).
  assert (P : forall x, In x phantoms -> snd x = GvPhantom).
  { intros x I. apply in_map_iff in I as (f & <- & _). reflexivity. }
  assert (HV : forall st f md, In (mcell md f) cells -> forall q,
            gval_drop (gen_struct s) te c sh (mf_name f, sval st (mcell md f)) q
            = Some (hv (mf_name f, sval st (mcell md f)) q)
            /\ hv (mf_name f, sval st (mcell md f)) q
               = slot_drop c (dm te (mcell md f)) sh (st (fst (mcell md f))) q).
  { intros st' f md I q. unfold gval_drop, hv, sval. cbn [snd].
    rewrite (cell_mod (fst (mcell md f)) f I). split; reflexivity. }
  unfold obj_drop. rewrite (glue_total _ ho).
  - f_equal. rewrite object_drop_glue, tglue_map, ocells_eq. unfold render.
    assert (E1 : forall q, tglue ho (rsubs st) q
      = tglue (fun a => slot_drop c (f_decl (fld te st a)) sh (f_slot (fld te st a)))
          (flat_map (fun t => map (mcell (tmod t)) (filter not_static (mt_methods t))) objects) q).
    { intros q. unfold rsubs. rewrite tglue_map, <- tglue_flat. apply tglue_ext. intros t r It.
      apply objects_in in It. unfold ho. cbn [snd]. unfold rsub. rewrite tglue_app.
      rewrite (tglue_ret _ phantoms r), (tglue_ret _ phantoms true)
        by (intros a b I; unfold hv; now rewrite (P a I)).
      unfold rfields. rewrite !tglue_map.
      rewrite (tglue_ext _ (fun a q => slot_drop c (dm te (mcell (tmod t) a)) sh
                                (st (fst (mcell (tmod t) a))) q)).
      - cbn [fld f_decl f_slot].
        now destruct (tglue _ (filter not_static (mt_methods t)) r) as [[]| |].
      - intros f b I. apply filter_In in I as [I S]. apply HV. apply sub_cell; auto. }
    assert (E2 : forall q, tglue ho (rown st ++ rphantoms) q
      = tglue (fun a => slot_drop c (f_decl (fld te st a)) sh (f_slot (fld te st a)))
          (map (mcell (mi_modname s)) (filter not_static (mi_methods s))) q).
    { intros q. rewrite tglue_app.
      rewrite (tglue_ret ho rphantoms q), (tglue_ret ho rphantoms true).
      2, 3: intros a b I; apply in_map_iff in I as (x & <- & I); unfold ho, hv; cbn [snd fst];
            now rewrite (P x I).
      unfold rown. rewrite !tglue_map.
      rewrite (tglue_ext _ (fun a q => slot_drop c (dm te (mcell (mi_modname s) a)) sh
                                (st (fst (mcell (mi_modname s) a))) q)).
      - cbn [fld f_decl f_slot].
        now destruct (tglue _ (filter not_static (mi_methods s)) q) as [[]| |].
      - intros f b I. apply filter_In in I as [I S]. apply HV. apply own_cell; auto. }
    rewrite (tglue_app ho). rewrite E1, !E2. symmetry. apply tglue_app.
  - intros x q I. unfold render in I. rewrite !in_app_iff in I. destruct I as [I|[I|I]].
    + apply in_map_iff in I as (t & <- & It). apply objects_in in It. unfold oval_drop, ho. cbn [snd].
      apply glue_total. intros [n v] b J. unfold rsub in J. apply in_app_iff in J as [J|J].
      * apply in_map_iff in J as (f & E & J). apply filter_In in J as [J S]. injection E as <- <-.
        apply HV. apply sub_cell; auto.
      * unfold gval_drop, hv. now rewrite (P _ J).
    + apply in_map_iff in I as (f & <- & I). apply filter_In in I as [I S]. unfold oval_drop, ho.
      cbn [snd fst]. apply HV. apply own_cell; auto.
    + apply in_map_iff in I as (z & <- & I). unfold oval_drop, ho, gval_drop, hv. cbn [snd fst].
      now rewrite (P z I).
Qed.

End Obj.
