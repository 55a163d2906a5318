(** * GenRunFns: when the functions of a mock have different names *)

From Coq Require Import List Bool String Ascii NArith Arith.
From Verif Require Import Base Ast AstSpec TyEq Rewrite Derive DeriveSpec
  Names Sig MockFn MockFnSpec MockFnProofs Item ItemProofs
  NameProofs MockItem ItemSpec PropItems GenSpec GenProofs GenRun GenRunSpec GenRunLists GenRunObj.
Import ListNotations.
Open Scope string_scope.
Open Scope list_scope.

Lemma Forall2_nth_r {A B} (R : A -> B -> Prop) l k i b :
  Forall2 R l k -> nth_error k i = Some b -> exists a, nth_error l i = Some a /\ R a b.
Proof.
  intros F. revert i. induction F as [|x y l k H F IH]; intros [|i] E; try discriminate; cbn in *; auto.
  injection E as <-. eauto.
Qed.

Section Fns.
Context (hash : list pargs -> N) (m : mockable_struct) (s : mock_struct).
Context (M : mocked hash m s) (C : clear_functions m).

Definition uname (f : mock_function) : ident := unraw (mf_name f).

Lemma made_names o l k : Forall2 (made o) l k -> map uname k = map (fun x => unraw (fn_name x)) l.
Proof.
  intros F. induction F as [|x f l k (N & _) F IH]; cbn; auto. unfold uname at 1. now rewrite N, IH.
Qed.

Lemma own_unames : map uname (mi_methods s) = map (fun x => unraw (fn_name x)) (ms_methods m).
Proof. exact (made_names _ _ _ (mo_methods _ _ _ M)). Qed.

Lemma own_uname f : In f (mi_methods s) -> exists x, In x (ms_methods m) /\ mf_name f = fn_name x.
Proof.
  intros I. destruct (Forall2_in_r _ _ _ _ (mo_methods _ _ _ M) I) as (x & Ix & N & _). eauto.
Qed.

Lemma expect_neq_context a b : ~ expecting b -> expect_ident a <> (b ++ "_context")%string.
Proof.
  unfold expect_ident. intros H E. apply H.
  do 6 (destruct b as [|? b]; [discriminate|cbn in E; injection E as <- E]).
  destruct b as [|? b]; [left; reflexivity|]. cbn in E. injection E as <- E. right. exists b. reflexivity.
Qed.

Lemma expects_nodup l : NoDup (map uname l) -> NoDup (map (fun f => expect_ident (mf_name f)) (filter not_static l)).
Proof.
  intros N. apply (NoDup_map_factor uname).
  - intros x y _ _ E. unfold expect_ident in E. now apply append_inj_l in E.
  - now apply NoDup_filter_map.
Qed.

Lemma contexts_nodup l : NoDup (map uname l) -> NoDup (map (fun f => context_ident (mf_name f)) (filter mf_is_static l)).
Proof.
  intros N. apply (NoDup_map_factor uname).
  - intros x y _ _ E. unfold context_ident in E. now apply append_inj_r in E.
  - now apply NoDup_filter_map.
Qed.

Lemma own_functions_are :
  own_functions (gen_struct s)
  = map fst (ms_consts m) ++ map (fun x => unraw (fn_name x)) (ms_methods m)
    ++ map (fun f => context_ident (mf_name f)) (filter mf_is_static (mi_methods s))
    ++ map (fun f => expect_ident (mf_name f)) (filter not_static (mi_methods s))
    ++ "checkpoint" :: (if negb (has_new m) then ["new"] else []).
Proof.
  unfold own_functions. cbn [gen_struct gm_consts gm_calls gm_contexts gm_expects gm_new].
  rewrite (mo_consts _ _ _ M), (mo_new _ _ _ M), <- own_unames, !map_map. reflexivity.
Qed.

Lemma in_context n l : In n (map (fun f => context_ident (mf_name f)) (filter mf_is_static l)) ->
  exists f, In f l /\ mf_is_static f = true /\ n = (uname f ++ "_context")%string.
Proof.
  intros I. apply in_map_iff in I as (f & <- & I). apply filter_In in I as [I S]. exists f. auto.
Qed.
Lemma in_expect n l : In n (map (fun f => expect_ident (mf_name f)) (filter not_static l)) ->
  exists f, In f l /\ mf_is_static f = false /\ n = ("expect_" ++ uname f)%string.
Proof.
  intros I. apply in_map_iff in I as (f & <- & I). apply filter_In in I as [I S]. exists f.
  unfold not_static in S. apply negb_true_iff in S. auto.
Qed.

Lemma own_not_reserved n : In n (map (fun x => unraw (fn_name x)) (ms_methods m)) -> ~ reserved n.
Proof. intros I. apply in_map_iff in I as (x & <- & I). apply (cf_own _ C x I). Qed.
Lemma const_not_reserved n : In n (map fst (ms_consts m)) -> ~ reserved n.
Proof. intros I. apply in_map_iff in I as (x & <- & I). apply (cf_const _ C x I). Qed.

Lemma own_uname_in f : In f (mi_methods s) -> In (uname f) (map (fun x => unraw (fn_name x)) (ms_methods m)).
Proof. intros I. rewrite <- own_unames. now apply in_map. Qed.

Lemma r_new n : unraw n = "new" -> n = "new" \/ n = "r#new".
Proof.
  unfold unraw. intros E. destruct n as [|a n]; [discriminate|].
  destruct n as [|b n].
  - destruct (ascii_dec a "r"%char) as [->|]; [discriminate|]. left.
    destruct a as [[] [] [] [] [] [] [] []]; cbn in E; congruence.
  - destruct (ascii_dec a "r"%char) as [->|H].
    + destruct (ascii_dec b "#"%char) as [->|H].
      * cbn in E. subst n. auto.
      * left. destruct b as [[] [] [] [] [] [] [] []]; cbn in E; congruence.
    + left. destruct a as [[] [] [] [] [] [] [] []]; cbn in E; congruence.
Qed.

Lemma not_new : has_new m = false -> ~ In "new" (map (fun x => unraw (fn_name x)) (ms_methods m)).
Proof.
  unfold has_new. intros H I. apply orb_false_iff in H as [H _]. apply in_map_iff in I as (x & E & I).
  apply r_new in E as [E|E]; [|now apply (cf_own _ C x I) in E].
  assert (X : existsb named_new (ms_methods m) = true); [|congruence].
  apply existsb_exists. exists x. split; auto. unfold named_new. apply String.eqb_eq. exact E.
Qed.

Lemma last_in n : In n ("checkpoint" :: (if negb (has_new m) then ["new"] else [])) ->
  n = "checkpoint" \/ (n = "new" /\ has_new m = false).
Proof. destruct (has_new m); cbn; intuition. Qed.

Lemma not_context u : "checkpoint" <> (u ++ "_context")%string.
Proof. no_text. Qed.
Lemma not_context' u : "new" <> (u ++ "_context")%string.
Proof. no_text. Qed.

Lemma own_nodup : NoDup (own_functions (gen_struct s)).
Proof.
  rewrite own_functions_are.
  assert (NO : NoDup (map uname (mi_methods s))) by (rewrite own_unames; exact (cf_fns _ C None)).
  apply NoDup_app_intro; [exact (cf_consts _ C)|apply NoDup_app_intro|].
  - exact (cf_fns _ C None).
  - apply NoDup_app_intro; [now apply contexts_nodup|apply NoDup_app_intro|].
    + now apply expects_nodup.
    + destruct (negb (has_new m)); repeat constructor; cbn; intuition discriminate.
    + intros n I J. apply in_expect in I as (f & _ & _ & ->).
      apply last_in in J as [J|[J _]]; discriminate.
    + intros n I J. apply in_context in I as (f & I & _ & ->). apply in_app_iff in J as [J|J].
      * apply in_expect in J as (f' & _ & _ & J).
        apply (expect_neq_context (mf_name f') (uname f)); [|now symmetry].
        intros X. apply (own_not_reserved _ (own_uname_in f I)). right. auto.
      * apply last_in in J as [J|[J _]]; symmetry in J; [now apply not_context in J|now apply not_context' in J].
  - intros n I J. assert (R := own_not_reserved _ I). apply R.
    apply in_app_iff in J as [J|J]; [|apply in_app_iff in J as [J|J]].
    + apply in_context in J as (f & _ & _ & ->). right. right. exists (uname f). reflexivity.
    + apply in_expect in J as (f & _ & _ & ->). right. left. right. exists (uname f). reflexivity.
    + apply last_in in J as [->|[-> H]]; [left; reflexivity|]. exfalso. now apply not_new.
  - intros n I J. assert (R := const_not_reserved _ I).
    apply in_app_iff in J as [J|J]; [|apply R; apply in_app_iff in J as [J|J]; [|apply in_app_iff in J as [J|J]]].
    + apply in_map_iff in I as (k & <- & I). apply in_map_iff in J as (x & E & J).
      now apply (cf_const _ C k I) in E.
    + apply in_context in J as (f & _ & _ & ->). right. right. exists (uname f). reflexivity.
    + apply in_expect in J as (f & _ & _ & ->). right. left. right. exists (uname f). reflexivity.
    + apply last_in in J as [->|[-> H]]; [left; reflexivity|]. exfalso.
      apply in_map_iff in I as (k & E & I). now apply (cf_const _ C k I) in E.
Qed.

(** ** Blocks of traits *)

Lemma block_functions_are t md :
  block_functions (trait_impl t md)
  = map (fun f => expect_ident (mf_name f)) (filter not_static (mt_methods t))
    ++ map (fun f => context_ident (mf_name f)) (filter mf_is_static (mt_methods t)).
Proof. unfold block_functions. cbn [trait_impl gt_expects gt_contexts]. now rewrite !map_map. Qed.

Lemma trait_unames x t : trait_made hash x t ->
  map uname (mt_methods t) = map (fun x => unraw (fn_name x)) (impl_fns x).
Proof. intros T. exact (made_names _ _ _ (tm_methods _ _ _ T)). Qed.

Lemma trait_uname x t f : trait_made hash x t -> In f (mt_methods t) ->
  exists y, In y (impl_fns x) /\ uname f = unraw (fn_name y).
Proof.
  intros T I. destruct (Forall2_in_r _ _ _ _ (tm_methods _ _ _ T) I) as (y & Iy & N & _).
  exists y. split; auto. unfold uname. now rewrite N.
Qed.

(** The name of a function in a block, and the function. *)
Lemma block_name x t md n : trait_made hash x t -> In x (ms_impls m) ->
  In n (block_functions (trait_impl t md)) ->
  exists f, In f (mt_methods t) /\ ~ expecting (uname f)
    /\ ((mf_is_static f = false /\ n = ("expect_" ++ uname f)%string)
        \/ (mf_is_static f = true /\ n = (uname f ++ "_context")%string)).
Proof.
  intros T Ix I. rewrite block_functions_are in I.
  apply in_app_iff in I as [I|I]; [apply in_expect in I as (f & I & S & ->)|apply in_context in I as (f & I & S & ->)];
    exists f; (split; [exact I|]);
    destruct (trait_uname x t f T I) as (y & Iy & ->); (split; [exact (cf_trait _ C x y Ix Iy)|]); auto.
Qed.

Lemma block_nodup x t md : trait_made hash x t -> In x (ms_impls m) -> NoDup (block_functions (trait_impl t md)).
Proof.
  intros T Ix. rewrite block_functions_are.
  assert (NO : NoDup (map uname (mt_methods t))).
  { rewrite (trait_unames x t T). apply In_nth_error in Ix as (i & E). assert (N := cf_fns _ C (Some i)).
    cbn in N. now rewrite E in N. }
  apply NoDup_app_intro; [now apply expects_nodup|now apply contexts_nodup|].
  intros n I J. apply in_expect in I as (f & _ & _ & ->). apply in_context in J as (f' & J & _ & E).
  destruct (trait_uname x t f' T J) as (y & Iy & U). rewrite U in E.
  exact (expect_neq_context (mf_name f) _ (cf_trait _ C x y Ix Iy) E).
Qed.

Lemma block_not_own x t md n : trait_made hash x t -> In x (ms_impls m) ->
  In n (block_functions (trait_impl t md)) -> ~ In n (own_functions (gen_struct s)).
Proof.
  intros T Ix I J. destruct (block_name x t md n T Ix I) as (f & If & X & K).
  destruct (trait_uname x t f T If) as (y & Iy & U). rewrite own_functions_are in J.
  assert (RN : reserved n).
  { destruct K as [[_ ->]|[_ ->]]; [right; left; right|right; right]; eauto. }
  apply in_app_iff in J as [J|J]; [now apply (const_not_reserved n J)|].
  apply in_app_iff in J as [J|J]; [now apply (own_not_reserved n J)|].
  assert (D : forall f', In f' (mi_methods s) -> uname f' <> uname f).
  { intros f' I' E. destruct (own_uname f' I') as (z & Iz & N). rewrite U in E. unfold uname in E. rewrite N in E.
    symmetry in E. exact (cf_apart _ C x y z Ix Iy Iz E). }
  apply in_app_iff in J as [J|J]; [|apply in_app_iff in J as [J|J]].
  - apply in_context in J as (f' & I' & _ & E). destruct K as [[_ K]|[_ K]]; rewrite K in E.
    + apply (expect_neq_context (mf_name f) (uname f')); [|exact E].
      intros Y. apply (own_not_reserved _ (own_uname_in f' I')). right. auto.
    + apply append_inj_r in E. apply (D f' I'). now symmetry.
  - apply in_expect in J as (f' & I' & _ & E). destruct K as [[_ K]|[_ K]]; rewrite K in E.
    + apply append_inj_l in E. apply (D f' I'). now symmetry.
    + apply (expect_neq_context (mf_name f') (uname f) X). now symmetry.
  - apply last_in in J. destruct K as [[_ ->]|[_ ->]].
    + destruct J as [J|[J _]]; discriminate.
    + destruct J as [J|[J _]]; symmetry in J; [now apply not_context in J|now apply not_context' in J].
Qed.

Lemma block_same x t md y u md' n : trait_made hash x t -> In x (ms_impls m) ->
  trait_made hash y u -> In y (ms_impls m) ->
  In n (block_functions (trait_impl t md)) -> In n (block_functions (trait_impl u md')) ->
  exists f f', In f (impl_fns x) /\ In f' (impl_fns y) /\ unraw (fn_name f) = unraw (fn_name f').
Proof.
  intros T Ix T' Iy I J.
  destruct (block_name x t md n T Ix I) as (f & If & X & K).
  destruct (block_name y u md' n T' Iy J) as (f' & If' & X' & K').
  destruct (trait_uname x t f T If) as (z & Iz & Z). destruct (trait_uname y u f' T' If') as (z' & Iz' & Z').
  exists z, z'. split; auto. split; auto. rewrite <- Z, <- Z'.
  destruct K as [[_ ->]|[_ ->]], K' as [[_ E]|[_ E]].
  - now apply append_inj_l in E.
  - exfalso. exact (expect_neq_context (mf_name f) _ X' E).
  - exfalso. symmetry in E. exact (expect_neq_context (mf_name f') _ X E).
  - now apply append_inj_r in E.
Qed.

Lemma clear_fns_distinct : distinct_functions (gen_struct s).
Proof.
  split; [exact own_nodup|]. cbn [gen_struct gm_trait_impls]. assert (F := mo_traits _ _ _ M). split.
  - intros t I. apply in_map_iff in I as (u & <- & I).
    destruct (Forall2_in_r _ _ _ _ F I) as (x & Ix & T). split; [now apply (block_nodup x)|].
    intros n. now apply (block_not_own x).
  - intros i j t u n NE Et Eu It Iu.
    rewrite nth_error_map in Et, Eu.
    destruct (nth_error (mi_traits s) i) as [a|] eqn:Ea; [|discriminate].
    destruct (nth_error (mi_traits s) j) as [b|] eqn:Eb; [|discriminate].
    injection Et as <-. injection Eu as <-.
    destruct (Forall2_nth_r _ _ _ _ _ F Ea) as (x & Ex & T).
    destruct (Forall2_nth_r _ _ _ _ _ F Eb) as (y & Ey & T').
    destruct (block_same x a _ y b _ n T (nth_error_In _ _ Ex) T' (nth_error_In _ _ Ey) It Iu)
      as (f & f' & If & If' & E).
    cbn [trait_impl gt_self gt_generics]. rewrite (tm_generics _ _ _ T), (tm_generics _ _ _ T').
    exact (cf_traits _ C i j x y f f' _ _ NE Ex Ey If If' E (tm_self _ _ _ T) (tm_self _ _ _ T')).
Qed.
End Fns.
