(** * PipeProofs: facts about whole mocks *)

From Coq Require Import List Bool String NArith Arith Lia.
From Verif Require Import Ast AstSpec TyEq Rewrite RewriteProofs Derive DeriveSpec Names CallSpec Subst
  SubstProofs Sig SigSpec SigProofs PropSig MockFn MockFnProofs PropCalls PropSubst Item ItemSpec
  ItemProofs MockItem PipeSpec.
Import ListNotations.
Open Scope string_scope.
Open Scope list_scope.

Lemma build_kept b f : build b = Some f -> kept (b_sig b) (mf_sig f).
Proof.
  intros H. destruct (mock_functions_keep_their_arguments _ _ H) as (F & I & G & O & A).
  unfold kept. auto.
Qed.

Lemma kept_self s s' : kept s s' -> takes_self s' = takes_self s.
Proof.
  intros (_ & _ & _ & _ & F). unfold takes_self. induction F as [|a a' l l' H F IH]; auto.
  cbn. rewrite IH. destruct a; [subst|destruct a'; tauto]. reflexivity.
Qed.

Lemma build_static b f : build b = Some f -> mf_is_static f = negb (takes_self (b_sig b)).
Proof.
  intros H. apply build_built in H as (dg & di & ce & sig & B).
  rewrite (bt_static _ _ _ _ _ _ B). unfold takes_self. apply static_receivers.
  intros. eapply prepared_receivers. exact (bt_prepared _ _ _ _ _ _ B).
Qed.

(** A method of a struct or an implemented trait. *)
Record fn_made (tr : option ident) (vis : visibility) (x : fn_item) (f : mock_function) : Prop := FnMade {
  fm_kept : kept (fi_sig x) (mf_sig f);
  fm_static : mf_is_static f = negb (takes_self (fi_sig x));
  fm_vis : mf_call_vis f = vis;
  fm_trait : mf_trait f = tr
}.

Lemma trait_fn_made n g v ss x f : build (trait_builder n g v ss x) = Some f -> fn_made (Some ss) v x f.
Proof.
  intros H. constructor.
  - apply (build_kept _ _ H).
  - apply (build_static _ _ H).
  - apply build_built in H as (? & ? & ? & ? & B). apply (bt_call_vis _ _ _ _ _ _ B).
  - apply build_built in H as (? & ? & ? & ? & B). apply (bt_trait _ _ _ _ _ _ B).
Qed.

Lemma method_fn_made m x f : build (method_builder m x) = Some f -> fn_made None (fi_vis x) x f.
Proof.
  intros H. constructor.
  - apply (build_kept _ _ H).
  - apply (build_static _ _ H).
  - apply build_built in H as (? & ? & ? & ? & B). apply (bt_call_vis _ _ _ _ _ _ B).
  - apply build_built in H as (? & ? & ? & ? & B). apply (bt_trait _ _ _ _ _ _ B).
Qed.

Lemma fn_name_kept tr v x f : fn_made tr v x f -> mf_name f = sg_ident (fi_sig x).
Proof. intros H. unfold mf_name. apply (fm_kept _ _ _ _ H). Qed.

Lemma unraw_same i : unraw i = unraw_name i.
Proof. reflexivity. Qed.

(** The pieces of a list of functions. *)
Lemma made_expects tr (vis : fn_item -> visibility) xs fs m sa :
  Forall2 (fun x f => fn_made tr (vis x) x f) xs fs ->
  map (fun e => (ge_name e, ge_vis e)) (map (fun f => expect_fn f m (sa f)) (filter not_static fs))
  = map (fun x => ("expect_" ++ unraw_name (sg_ident (fi_sig x)), vis x)%string)
        (filter (fun x => takes_self (fi_sig x)) xs).
Proof.
  intros F. rewrite map_map. cbn [expect_fn ge_name ge_vis]. symmetry.
  apply (Forall2_map (fun x f => fn_made tr (vis x) x f)).
  - eapply Forall2_filter; [exact F|]. intros x f H. unfold not_static.
    rewrite (fm_static _ _ _ _ H). now rewrite negb_involutive.
  - intros x f H. rewrite (fn_name_kept _ _ _ _ H), (fm_vis _ _ _ _ H). reflexivity.
Qed.

Lemma made_contexts tr (vis : fn_item -> visibility) xs fs m :
  Forall2 (fun x f => fn_made tr (vis x) x f) xs fs ->
  map (fun e => (gx_name e, gx_vis e)) (map (fun f => context_fn f m) (filter mf_is_static fs))
  = map (fun x => (unraw_name (sg_ident (fi_sig x)) ++ "_context", vis x)%string)
        (filter (fun x => negb (takes_self (fi_sig x))) xs).
Proof.
  intros F. rewrite map_map. cbn [context_fn gx_name gx_vis]. symmetry.
  apply (Forall2_map (fun x f => fn_made tr (vis x) x f)).
  - eapply Forall2_filter; [exact F|]. intros x f H. now rewrite (fm_static _ _ _ _ H).
  - intros x f H. rewrite (fn_name_kept _ _ _ _ H), (fm_vis _ _ _ _ H). reflexivity.
Qed.

(** An implemented trait. *)
Record impl_made (vis : visibility) (x : item_impl) (i : gen_trait_impl) : Prop := ImplMade {
  ii_path : exists bang, im_trait x = Some (bang, gt_path i);
  ii_self : self_path (im_self x) = Some (gt_self i);
  ii_unsafe : gt_unsafe i = im_unsafe x;
  ii_generics : gt_generics i = im_generics x;
  ii_consts : gt_consts i
    = flat_map (fun i => match i with IiConst n e => [(n, e)] | _ => [] end) (im_items x);
  ii_types : gt_types i
    = flat_map (fun i => match i with IiType n t => [(n, t)] | _ => [] end) (im_items x);
  ii_calls : Forall2 (fun f c => kept (fi_sig f) (gc_sig c) /\ gc_vis c = VInherited)
                     (impl_fns x) (gt_calls i);
  ii_expects : map (fun e => (ge_name e, ge_vis e)) (gt_expects i)
    = map (fun f => ("expect_" ++ unraw_name (sg_ident (fi_sig f)), vis)%string)
          (filter (fun f => takes_self (fi_sig f)) (impl_fns x));
  ii_contexts : map (fun e => (gx_name e, gx_vis e)) (gt_contexts i)
    = map (fun f => (unraw_name (sg_ident (fi_sig f)) ++ "_context", vis)%string)
          (filter (fun f => negb (takes_self (fi_sig f))) (impl_fns x))
}.

Lemma new_trait_impl hash n g x v t m :
  new_trait hash n g x v = Some t -> impl_made v x (trait_impl t m).
Proof.
  unfold new_trait. destruct (im_trait x) as [[b p]|] eqn:T; [|discriminate].
  destruct (self_path (im_self x)) as [s|] eqn:S; [|discriminate].
  destruct (existsb _ _); [discriminate|].
  destruct (all_some _ _) as [ms|] eqn:A; [|discriminate].
  intros E. injection E as <-. apply all_some_spec in A.
  assert (F : Forall2 (fun x f => fn_made (Some (ss_name hash p)) v x f) (impl_fns x) ms).
  { eapply Forall2_imp; [exact A|]. intros f y _ H. eapply trait_fn_made. exact H. }
  constructor; cbn [trait_impl gt_path gt_self gt_unsafe gt_generics gt_consts gt_types gt_calls
    gt_expects gt_contexts mt_path mt_self mt_unsafe mt_generics mt_consts mt_types mt_methods]; auto.
  - exists b. exact T.
  - clear - F. induction F as [|y f ys fs H F IH]; cbn; constructor; auto. split.
    + apply (fm_kept _ _ _ _ H).
    + unfold call_fn. cbn [gc_vis]. now rewrite (fm_trait _ _ _ _ H).
  - eapply (made_expects _ (fun _ => v)). exact F.
  - eapply (made_contexts _ (fun _ => v)). exact F.
Qed.

(** A whole mock. *)
Record mock_made (m : mockable_struct) (g : gen_mock) : Prop := MockMade {
  km_name : gm_name g = ms_name m;
  km_vis : gm_vis g = ms_vis m;
  km_generics : gm_generics g = ms_generics m;
  km_consts : gm_consts g = ms_consts m;
  km_debug : gm_debug g = derives_debug (ms_attrs m);
  km_calls : Forall2 (fun f c => kept (fi_sig f) (gc_sig c) /\ gc_vis c = fi_vis f)
                     (ms_methods m) (gm_calls g);
  km_expects : map (fun e => (ge_name e, ge_vis e)) (gm_expects g)
    = map (fun f => ("expect_" ++ unraw_name (sg_ident (fi_sig f)), fi_vis f)%string)
          (filter (fun f => takes_self (fi_sig f)) (ms_methods m));
  km_contexts : map (fun e => (gx_name e, gx_vis e)) (gm_contexts g)
    = map (fun f => (unraw_name (sg_ident (fi_sig f)) ++ "_context", fi_vis f)%string)
          (filter (fun f => negb (takes_self (fi_sig f))) (ms_methods m));
  km_impls : Forall2 (impl_made (ms_vis m)) (ms_impls m) (gm_trait_impls g)
}.

Lemma mock_it_made hash m g : mock_it hash m = Some g -> mock_made m g.
Proof.
  unfold mock_it, from_mockable. destruct (all_some _ (ms_methods m)) as [ms|] eqn:A; [|discriminate].
  destruct (all_some _ (ms_impls m)) as [ts|] eqn:B; [|discriminate].
  unfold gen_struct_error. cbn [mi_generics].
  destruct (phantom_error (ms_generics m)) eqn:P; [discriminate|].
  intros E. injection E as <-. apply all_some_spec in A, B.
  assert (F : Forall2 (fun x f => fn_made None (fi_vis x) x f) (ms_methods m) ms).
  { eapply Forall2_imp; [exact A|]. intros f y _ H. eapply method_fn_made. exact H. }
  constructor; cbn [gen_struct gm_name gm_vis gm_generics gm_consts gm_debug gm_calls gm_expects
    gm_contexts gm_trait_impls mi_name mi_vis mi_generics mi_consts mi_auto_debug mi_methods mi_traits
    mi_modname]; auto.
  - clear - F. induction F as [|y f ys fs H F IH]; cbn; constructor; auto. split.
    + apply (fm_kept _ _ _ _ H).
    + unfold call_fn. cbn [gc_vis]. rewrite (fm_trait _ _ _ _ H). apply (fm_vis _ _ _ _ H).
  - eapply (made_expects None fi_vis). exact F.
  - eapply (made_contexts None fi_vis). exact F.
  - clear - B. generalize (gen_mod_ident (ms_name m) None). intros mn.
    induction B as [|y t ys ts H B IH]; cbn; constructor; auto.
    eapply new_trait_impl. exact H.
Qed.
