(** * OrdinaryProofs: ordinary types stay ordinary

    Lemmas for PropAccept.v. *)

From Coq Require Import List Bool String Ascii NArith Arith Lia.
From Verif Require Import Ast AstProofs AstSpec TyEq Rewrite RewriteProofs Derive DeriveSpec Names CallSpec Subst
  SubstProofs Sig SigSpec SigProofs MockFn MockFnSpec MockFnProofs Item
  ItemProofs MockItem RefuseSpec Errors.
Import ListNotations.
Open Scope string_scope.
Open Scope list_scope.

Lemma forallb_map {A B} (f : B -> bool) (h : A -> B) l : forallb f (map h l) = forallb (fun x => f (h x)) l.
Proof. induction l; cbn; auto. now rewrite IHl. Qed.

Lemma forallb_F {A} (f : A -> bool) l : forallb f l = true -> Forall (fun x => f x = true) l.
Proof. induction l; cbn; intros; constructor; apply andb_prop in H as []; auto. Qed.
Lemma F_forallb {A} (f : A -> bool) l : Forall (fun x => f x = true) l -> forallb f l = true.
Proof. induction 1; cbn; auto. now rewrite H, IHForall. Qed.

Lemma F_step {A} (P Q : A -> Prop) l : Forall (fun x => P x -> Q x) l -> Forall P l -> Forall Q l.
Proof. intros H. induction H; intros HP; inversion HP; constructor; auto. Qed.

Lemma keep_map {A} (f : A -> bool) (h : A -> A) l :
  Forall (fun x => f x = true -> f (h x) = true) l -> forallb f l = true -> forallb f (map h l) = true.
Proof.
  intros H F. rewrite forallb_map. apply F_forallb. eapply F_step; [exact H|]. now apply forallb_F.
Qed.

Lemma none_map {A} (f e : A -> bool) l :
  Forall (fun x => f x = true -> e x = false) l -> forallb f l = true -> existsb e l = false.
Proof.
  intros H F. apply forallb_F in F. induction H; cbn; auto. inversion F; subst. rewrite H; auto.
Qed.

Ltac ordinary_simpl :=
  cbn [ordinary ordinary_path ordinary_seg ordinary_pargs ordinary_garg ordinary_bound].

(** ** Substitution *)

Section subst.
  Context (a : assoc_types) (tr : ident).

  Lemma ordinary_get_path p : self_start (segs p) = false -> get_path a p = None.
  Proof.
    destruct p as [[|] [|[s x] [|[i y] [|]]]]; auto. cbn. intros ->. auto.
  Qed.

  Lemma ordinary_subst_ok :
    (forall t, ordinary t = true -> substitute_error a tr t = false) /\
    (forall p, ordinary_path p = true -> substitute_path_error a tr p = false) /\
    (forall s, ordinary_seg s = true -> substitute_seg_error a tr s = false) /\
    (forall x, ordinary_pargs x = true -> substitute_pargs_error a tr x = false) /\
    (forall g, ordinary_garg g = true -> substitute_garg_error a tr g = false) /\
    (forall b, ordinary_bound b = true -> substitute_bound_error a tr b = false).
  Proof.
    apply ast_ind;
      cbn [substitute_error substitute_path_error substitute_seg_error substitute_pargs_error
           substitute_garg_error substitute_bound_error];
      ordinary_simpl; intros; try discriminate; auto;
      try (eapply none_map; eauto; fail).
    - destruct (get_path a p); auto.
    - destruct a0; auto; apply andb_prop in H0 as [_ H0]; auto.
    - apply andb_prop in H0 as [H0 S]. apply negb_true_iff in S.
      rewrite ordinary_get_path by auto. auto.
  Qed.

  Context (Ha : forall i t, assoc_get a i = Some t -> ordinary t = true).

  Lemma ordinary_subst :
    (forall t, ordinary t = true -> ordinary (substitute_type a tr t) = true) /\
    (forall p, ordinary_path p = true -> ordinary_path (substitute_path a tr p) = true) /\
    (forall s, ordinary_seg s = true -> ordinary_seg (substitute_seg a tr s) = true) /\
    (forall x, ordinary_pargs x = true -> ordinary_pargs (substitute_pargs a tr x) = true) /\
    (forall g, ordinary_garg g = true -> ordinary_garg (substitute_garg a tr g) = true) /\
    (forall b, ordinary_bound b = true -> ordinary_bound (substitute_bound a tr b) = true).
  Proof.
    apply ast_ind;
      cbn [substitute_type substitute_path substitute_seg substitute_pargs substitute_garg
           substitute_bound];
      ordinary_simpl; intros; try discriminate; auto;
      try (apply keep_map; auto; fail).
    - destruct (get_path a p) as [u|] eqn:G; [|ordinary_simpl; auto].
      destruct p as [[|] [|[s x] [|[i y] [|]]]]; try discriminate. cbn in G.
      destruct (s =? "Self"); [|discriminate]. eapply Ha. exact G.
    - destruct a0; auto; apply andb_prop in H0 as [N H0]; specialize (H H0);
        cbn [substitute_pargs] in *; rewrite N; exact H.
    - apply andb_prop in H0 as [H0 S]. apply negb_true_iff in S.
      rewrite ordinary_get_path by auto. ordinary_simpl. rewrite H by auto. cbn.
      apply negb_true_iff. destruct p as [lead l']. destruct l' as [|[i x] l']; auto.
  Qed.
End subst.


(** Induction over types only. *)
Ltac ty_induction t :=
  revert t;
  match goal with
  | |- forall t, @?P t =>
      let H := fresh in
      enough (H : (forall t, P t) /\ (forall _ : path, True) /\ (forall _ : seg, True)
                  /\ (forall _ : pargs, True) /\ (forall _ : garg, True) /\ (forall _ : bound, True))
        by (exact (proj1 H));
      apply ast_ind; try (intros; exact I); cbv beta
  end.

Lemma placed_subst a tr t :
  (forall i u, assoc_get a i = Some u -> placed u = true) ->
  placed t = true -> placed (substitute_type a tr t) = true.
Proof.
  intros Ha. ty_induction t; cbn [placed substitute_type]; intros; try discriminate; auto.
  - destruct (get_path a p) as [u|] eqn:G; auto.
    destruct p as [[|] [|[s x] [|[i y] [|]]]]; try discriminate. cbn in G.
    destruct (s =? "Self"); [|discriminate]. eapply Ha. exact G.
  - destruct e; try discriminate; try (apply H; exact H0).
    + destruct e; try discriminate; auto.
    + cbn [substitute_type] in *. specialize (H eq_refl).
      destruct (get_path a p) as [u|]; [|reflexivity]. destruct u; auto; discriminate.
    + reflexivity.
  - apply keep_map; auto.
Qed.

(** ** Self *)

Section deself.
  Context (n : ident) (g : generics).
  Context (Hn : n <> "Self") (Hg : supported_params g).

  Lemma ordinary_deself_ok :
    (forall t, ordinary t = true -> deselfify_error g t = false) /\
    (forall p, ordinary_path p = true -> deselfify_path_error g p = false) /\
    (forall s, ordinary_seg s = true -> deselfify_seg_error g s = false) /\
    (forall x, ordinary_pargs x = true -> deselfify_pargs_error g x = false) /\
    (forall x, ordinary_garg x = true -> deselfify_garg_error g x = false) /\
    (forall b, ordinary_bound b = true -> deselfify_bound_error g b = false).
  Proof using Hg.
    apply ast_ind;
      cbn [deselfify_error deselfify_path_error deselfify_seg_error deselfify_pargs_error
           deselfify_garg_error deselfify_bound_error];
      ordinary_simpl; intros; try discriminate; auto;
      try (eapply none_map; eauto; fail).
    - destruct a.
      + destruct (i =? "Self"); cbn; auto. rewrite orb_false_r.
        destruct (existsb _ (params g)) eqn:E; auto. apply existsb_exists in E as (p & I & E).
        destruct (Hg p I) as [(l & ->)|(j & b & d & ->)]; discriminate.
      + apply andb_prop in H0 as [N H0]. apply negb_true_iff in N. rewrite N. cbn [orb]. auto.
      + apply andb_prop in H0 as [N H0]. discriminate.
    - apply andb_prop in H0 as [H0 _]. auto.
  Qed.

  Lemma ordinary_self_args : ordinary_pargs (self_args g) = true.
  Proof.
    unfold self_args. destruct (params g) as [|p ps]; auto. cbn [ordinary_pargs]. rewrite forallb_map.
    induction (p :: ps) as [|[l b|i b d|i t d] l0 IH]; cbn; auto.
  Qed.

  Lemma ordinary_deself :
    (forall t, ordinary t = true -> ordinary (deselfify n g t) = true) /\
    (forall p, ordinary_path p = true -> ordinary_path (deselfify_path n g p) = true) /\
    (forall s, ordinary_seg s = true -> ordinary_seg (deselfify_seg n g s) = true) /\
    (forall x, ordinary_pargs x = true -> ordinary_pargs (deselfify_pargs n g x) = true) /\
    (forall x, ordinary_garg x = true -> ordinary_garg (deselfify_garg n g x) = true) /\
    (forall b, ordinary_bound b = true -> ordinary_bound (deselfify_bound n g b) = true).
  Proof using Hn.
    apply ast_ind;
      cbn [deselfify deselfify_path deselfify_seg deselfify_pargs deselfify_garg deselfify_bound];
      ordinary_simpl; intros; try discriminate; auto;
      try (apply keep_map; auto; fail).
    - destruct a.
      + destruct (i =? "Self"); [|reflexivity]. cbn [ordinary_seg].
        pose proof ordinary_self_args as S. destruct (self_args g); auto;
          rewrite S, andb_true_r; apply negb_true_iff; now apply String.eqb_neq.
      + apply andb_prop in H0 as [N H0]. specialize (H H0). apply negb_true_iff in N. rewrite N.
        cbn [ordinary_seg deselfify_pargs] in *. rewrite N. exact H.
      + apply andb_prop in H0 as [N H0]. discriminate.
    - apply andb_prop in H0 as [H0 S]. rewrite H by auto. cbn [andb].
      destruct p as [lead l']. destruct l' as [|[i x] l']; auto. cbn in S |- *.
      apply negb_true_iff in S. rewrite S. cbn. now rewrite S.
  Qed.

  Lemma placed_deself t : placed t = true -> placed (deselfify n g t) = true.
  Proof.
    ty_induction t; cbn [placed deselfify]; intros; try discriminate; auto.
    - destruct e; try discriminate; try (apply H; exact H0).
      + destruct e; try discriminate; auto.
      + reflexivity.
    - apply keep_map; auto.
  Qed.
End deself.

(** ** Lifetimes *)

Lemma ordinary_add p t : ordinary t = true -> ordinary (fst (add_to_type p t)) = true.
Proof.
  assert (O : forall l, forallb ordinary_bound l = true ->
            forallb ordinary_bound (fst (add_to_trait_object p l)) = true).
  { intros l L. unfold add_to_trait_object. destruct (existsb _ l); auto. cbn.
    rewrite forallb_app, L. auto. }
  ty_induction t; cbn [add_to_type]; intros; auto.
  - cbn [ordinary] in H0. specialize (H H0). destruct (add_to_type p e). exact H.
  - assert (D : ordinary (fst (let '(e0, l0) := add_to_type p e in (TRef l m e0, l0))) = true).
    { cbn [ordinary] in H0. specialize (H H0). destruct (add_to_type p e). exact H. }
    destruct e; auto.
    + destruct e; auto. cbn [ordinary] in H0. specialize (O _ H0).
      destruct (add_to_trait_object p bounds). exact O.
    + cbn [ordinary] in H0. specialize (O _ H0). destruct (add_to_trait_object p bounds). exact O.
  - cbn [ordinary] in H0. specialize (H H0). destruct (add_to_type p e). exact H.
  - cbn [ordinary fst] in *. apply keep_map with (h := fun e => fst (add_to_type p e)); auto.
Qed.

Lemma placed_add_ok m i t :
  raw_name i = false -> placed t = true -> add_to_type_error (PatIdent false m i false) t = false.
Proof.
  intros R. ty_induction t; cbn [placed add_to_type_error]; intros; try discriminate; auto.
  - assert (X : forall b, negb (existsb is_lifetime_bound b)
                && (demutify_pat_error (PatIdent false m i false) || raw_pat (PatIdent false m i false)) = false).
    { intros b. cbn. unfold raw_name in R. rewrite R. apply andb_false_r. }
    destruct e; auto. destruct e; auto.
  - eapply none_map; eauto.
Qed.

(** ** Anonymous lifetimes *)

Lemma ordinary_deanon_path p :
  ordinary_path p = true -> deanonymize_path_error p = false /\ ordinary_path (deanonymize_path p) = true.
Proof.
  destruct p as [b l]. unfold deanonymize_path_error, deanonymize_path. cbn [segs leading ordinary_path].
  induction l as [|[i a] l IH]; cbn [existsb map forallb]; auto.
  intros H. apply andb_prop in H as [H1 H2]. destruct (IH H2) as [I1 I2]. rewrite I1, I2.
  destruct a; cbn [seg_args deanonymize_seg ordinary_seg] in *; auto.
  - apply andb_prop in H1 as [N H1]. rewrite N. cbn [ordinary_pargs] in *. split; auto.
    rewrite !andb_true_r. cbn [andb]. rewrite forallb_map. clear -H1.
    induction args as [|x l IH]; auto. cbn [forallb] in *. apply andb_prop in H1 as [H1 H2].
    rewrite (IH H2), andb_true_r. destruct x; auto.
  - apply andb_prop in H1 as [_ H1]. discriminate.
Qed.

Lemma ordinary_deanon t :
  ordinary t = true -> deanonymize_error t = false /\ ordinary (deanonymize t) = true.
Proof.
  ty_induction t; cbn [deanonymize deanonymize_error]; ordinary_simpl; intros; try discriminate; auto.
  - now apply ordinary_deanon_path.
  - induction l as [|b l IH]; cbn [existsb map forallb] in *; auto.
    apply andb_prop in H0 as [H0 H1]. destruct (IH (Forall_inv_tail H) H1) as [I1 I2]. rewrite I1, I2.
    destruct b; cbn [deanonymize_bound ordinary_bound] in *; auto.
    apply andb_prop in H0 as [H0 S]. destruct (ordinary_deanon_path _ H0) as [D1 D2].
    rewrite D1, D2. split; auto. rewrite andb_true_r. cbn [andb].
    destruct p as [lead [|[j x] l']]; auto. destruct x; exact S.
  - split.
    + eapply none_map; [|exact H0]. eapply Forall_impl; [|exact H]. cbv beta. intros x X E. now apply X.
    + apply keep_map; auto. eapply Forall_impl; [|exact H]. cbv beta. intros x X E. now apply X.
Qed.

(** ** Moving to other modules *)

Definition go_error : list seg -> bool :=
  fix go l := match l with
              | [] => false
              | [s] => supersuperfy_seg_error s
              | _ :: r => go r
              end.
Lemma go_none l : existsb supersuperfy_seg_error l = false -> go_error l = false.
Proof.
  induction l as [|s [|s' l] IH]; auto.
  - cbn. now rewrite orb_false_r.
  - intros H. cbn [existsb] in H. apply orb_false_iff in H as [_ H]. exact (IH H).
Qed.

Lemma ordinary_super_ok :
  (forall t, ordinary t = true -> supersuperfy_error t = false) /\
  (forall p, ordinary_path p = true -> supersuperfy_path_error p = false) /\
  (forall s, ordinary_seg s = true -> supersuperfy_seg_error s = false) /\
  (forall x, ordinary_pargs x = true -> supersuperfy_pargs_error x = false) /\
  (forall x, ordinary_garg x = true -> supersuperfy_garg_error x = false) /\
  (forall b, ordinary_bound b = true -> supersuperfy_bound_error b = false).
Proof.
  apply ast_ind;
    cbn [supersuperfy_error supersuperfy_path_error supersuperfy_seg_error supersuperfy_pargs_error
         supersuperfy_garg_error supersuperfy_bound_error];
    ordinary_simpl; intros; try discriminate; auto;
    try (eapply none_map; eauto; fail).
  - fold go_error. apply go_none. eapply none_map; eauto.
  - destruct a; auto; apply andb_prop in H0 as [_ H0]; auto.
  - apply andb_prop in H0 as [H0 _]. auto.
Qed.

Lemma ordinary_on_last f l :
  Forall (fun s => ordinary_seg s = true -> ordinary_seg (f s) = true) l ->
  forallb ordinary_seg l = true -> forallb ordinary_seg (on_last f l) = true.
Proof.
  induction l as [|s [|s' l] IH]; intros F H; auto.
  - cbn [on_last forallb] in *. apply andb_prop in H as [H _]. rewrite (Forall_inv F H). auto.
  - change (on_last f (s :: s' :: l)) with (s :: on_last f (s' :: l)).
    cbn [forallb] in H |- *. apply andb_prop in H as [H1 H2]. rewrite H1. cbn [andb].
    apply IH; auto. now apply Forall_inv_tail in F.
Qed.

Lemma ordinary_add_supers n l :
  forallb ordinary_seg l = true -> forallb ordinary_seg (add_supers n l) = true.
Proof.
  intros H. unfold add_supers. destruct (starts_with_super l); auto. rewrite forallb_app, H, andb_true_r.
  induction n; auto.
Qed.

Lemma on_last_start f l : (forall s, seg_id (f s) = seg_id s) -> self_start (on_last f l) = self_start l.
Proof.
  intros H. destruct l as [|[i a] [|s l]]; auto. cbn. specialize (H (Seg i a)).
  destruct (f (Seg i a)). cbn in H. now subst.
Qed.

Lemma add_supers_start n l : self_start l = false -> self_start (add_supers n l) = false.
Proof. unfold add_supers. destruct (starts_with_super l); auto. destruct n; auto. Qed.

Lemma super_path_start n p :
  self_start (segs p) = false -> self_start (segs (supersuperfy_path n p)) = false.
Proof.
  destruct p as [b l]. cbn. intros S. apply add_supers_start.
  rewrite on_last_start; auto. intros [i a]. reflexivity.
Qed.

Lemma ordinary_super n :
  (forall t, ordinary t = true -> ordinary (supersuperfy n t) = true) /\
  (forall p, ordinary_path p = true -> ordinary_path (supersuperfy_path n p) = true) /\
  (forall s, ordinary_seg s = true -> ordinary_seg (supersuperfy_seg n s) = true) /\
  (forall x, ordinary_pargs x = true -> ordinary_pargs (supersuperfy_pargs n x) = true) /\
  (forall x, ordinary_garg x = true -> ordinary_garg (supersuperfy_garg n x) = true) /\
  (forall b, ordinary_bound b = true -> ordinary_bound (supersuperfy_bound n b) = true).
Proof.
  apply ast_ind;
    cbn [supersuperfy supersuperfy_path supersuperfy_seg supersuperfy_pargs supersuperfy_garg
         supersuperfy_bound];
    ordinary_simpl; intros; try discriminate; auto;
    try (apply keep_map; auto; fail).
  - apply ordinary_add_supers. now apply ordinary_on_last.
  - destruct a; auto; apply andb_prop in H0 as [N H0]; specialize (H H0);
      cbn [supersuperfy_pargs] in *; rewrite N; exact H.
  - apply andb_prop in H0 as [H0 S]. apply negb_true_iff in S. rewrite H by auto.
    rewrite super_path_start by exact S. reflexivity.
Qed.

(** ** Lifetimes of a type *)

Lemma ordinary_find_ok :
  (forall t, ordinary t = true -> find_lifetimes_error t = false) /\
  (forall p, ordinary_path p = true -> find_lifetimes_in_path_error p = false) /\
  (forall s, ordinary_seg s = true -> find_lifetimes_in_seg_error s = false) /\
  (forall x, ordinary_pargs x = true -> find_lifetimes_in_pargs_error x = false) /\
  (forall x, ordinary_garg x = true -> find_lifetimes_in_garg_error x = false) /\
  (forall b, ordinary_bound b = true -> find_lifetimes_in_tpb_error b = false).
Proof.
  apply ast_ind;
    cbn [find_lifetimes_error find_lifetimes_in_path_error find_lifetimes_in_seg_error
         find_lifetimes_in_pargs_error find_lifetimes_in_garg_error find_lifetimes_in_tpb_error];
    ordinary_simpl; intros; try discriminate; auto;
    try (eapply none_map; eauto; fail).
  - destruct a; auto; apply andb_prop in H0 as [_ H0]; auto.
  - apply andb_prop in H0 as [H0 _]. auto.
Qed.

Lemma ordinary_output n o :
  (forall t, o = Some t -> ordinary t = true) -> ordinary (ownify (fst (output_of n o))) = true.
Proof.
  destruct o as [t|]; cbn [output_of]; [|auto]. intros H. specialize (H t eq_refl).
  apply (proj1 (ordinary_super n)) in H. revert H. generalize (supersuperfy n t). clear.
  intros t H.
  assert (D : ordinary (destrify t) = true).
  { destruct t; auto. cbn [destrify]. destruct (is_static_lt lt); auto. cbn [ordinary] in *.
    repeat match goal with
    | |- ordinary match ?x with _ => _ end = true => destruct x; auto
    | |- ordinary (if ?x then _ else _) = true => destruct x; auto
    end. cbn. cbn in H. now rewrite H. }
  revert D. generalize (destrify t). clear. intros t D.
  destruct t; auto. cbn [dedynify].
  assert (G : ordinary (ownify (TRef lt mut t)) = true).
  { cbn. destruct (is_static_lt lt); auto. }
  destruct t; auto. cbn [ordinary] in D. destruct (is_static_lt lt) eqn:E; cbn; rewrite E; cbn; auto.
  now rewrite D.
Qed.

(** ** Bounds of type parameters *)

Lemma fn_seg_super s : ordinary_fn_seg s = true -> supersuperfy_seg_error s = false.
Proof.
  destruct s as [i a]. destruct a as [|l|is_ o]; intros H;
    try (apply (proj1 (proj2 (proj2 ordinary_super_ok))); exact H).
  cbn in *. apply andb_prop in H as [H1 H2]. apply orb_false_iff. split.
  - eapply none_map; [|exact H1]. apply Forall_forall. intros x _. apply (proj1 ordinary_super_ok).
  - destruct o; auto. now apply (proj1 ordinary_super_ok).
Qed.
Lemma fn_bound_super b : ordinary_fn_bound b = true -> supersuperfy_bound_error b = false.
Proof.
  destruct b as [m f [lead l]| |]; auto. cbn [ordinary_fn_bound supersuperfy_bound_error supersuperfy_path_error].
  fold go_error. intros H. apply go_none. eapply none_map; [|exact H].
  apply Forall_forall. intros x _. apply fn_seg_super.
Qed.
Lemma fn_bound_find b : ordinary_fn_bound b = true -> find_lifetimes_in_tpb_error b = false.
Proof.
  destruct b as [m f [lead l]| |]; auto. cbn. intros H. eapply none_map; [|exact H].
  apply Forall_forall. intros [i a] _. destruct a; auto.
  apply (proj1 (proj2 (proj2 ordinary_find_ok))).
Qed.
Lemma fn_bounds {e : bound -> bool} l :
  (forall b, ordinary_fn_bound b = true -> e b = false) ->
  forallb ordinary_fn_bound l = true -> existsb e l = false.
Proof. intros H F. eapply none_map; [|exact F]. apply Forall_forall. intros x _. apply H. Qed.

Lemma generics_super g : ordinary_generics g -> supersuperfy_generics_error g = false.
Proof.
  intros [P W]. unfold supersuperfy_generics_error. apply orb_false_iff. split.
  - destruct (existsb _ (params g)) eqn:E; auto. apply existsb_exists in E as (p & I & E).
    destruct p as [|i b d|]; try discriminate. destruct (P i b d I) as [B D].
    apply orb_prop in E as [E|E].
    + unfold supersuperfy_bounds_error in E. rewrite (fn_bounds b fn_bound_super B) in E. discriminate.
    + destruct d as [t|]; [|discriminate]. cbn in E. now rewrite (proj1 ordinary_super_ok t D) in E.
  - destruct (where_clause g) as [w|]; auto. destruct (existsb _ w) eqn:E; auto.
    apply existsb_exists in E as (p & I & E). destruct p as [|f t b]; try discriminate.
    destruct (W w eq_refl f t b I) as [T B]. apply orb_prop in E as [E|E].
    + now rewrite (proj1 ordinary_super_ok t T) in E.
    + unfold supersuperfy_bounds_error in E. rewrite (fn_bounds b fn_bound_super B) in E. discriminate.
Qed.

Lemma bounded_ordinary g i l :
  ordinary_generics g -> In (i, l) (bounded_idents g) -> forallb ordinary_fn_bound l = true.
Proof.
  intros [P W] I. unfold bounded_idents in I. apply in_app_or in I as [I|I].
  - apply in_flat_map in I as (p & J & K). destruct p as [|j b d|]; try contradiction.
    destruct K as [K|[]]. injection K as -> ->. now apply (P i l d).
  - destruct (where_clause g) as [w|]; [|contradiction]. apply in_flat_map in I as (p & J & K).
    destruct p as [|f t b]; try contradiction. destruct (ident_of_ty t) as [j|]; [|contradiction].
    destruct K as [K|[]]. injection K as -> ->. now apply (W w eq_refl f t l J).
Qed.
