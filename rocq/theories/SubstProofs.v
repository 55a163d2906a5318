(** * SubstProofs: replacing associated types *)

From Coq Require Import List Bool String NArith Arith Lia.
From Verif Require Import Ast AstProofs AstSpec TyEq Rewrite RewriteProofs Subst DeriveSpec.
Import ListNotations.
Open Scope string_scope.
Open Scope list_scope.

Section subst.
  Context (a : list (string * ty)) (tr : ident).
  Notation f := (project (assoc_get a) tr).

  Lemma map_sub {A} (e p : A -> bool) (s g : A -> A) l :
    Forall (fun x => e x = false -> p x = true -> s x = g x) l ->
    existsb e l = false -> forallb p l = true -> map s l = map g l.
  Proof.
    intros H E P. apply map_ext_F.
    eapply Forall_imp3; [|exact H|exact (existsb_false_F _ _ _ E)|exact (forallb_true_F _ _ _ P)].
    cbn. auto.
  Qed.

  Lemma opt_sub (e p : ty -> bool) (s g : ty -> ty) o :
    optP (fun x => e x = false -> p x = true -> s x = g x) o ->
    match o with None => false | Some t => e t end = false ->
    match o with None => true | Some t => p t end = true ->
    option_map s o = option_map g o.
  Proof. intros H E P. destruct H; cbn; auto. rewrite H; auto. Qed.

  Lemma args_none x : everywhere_pargs f x = PaNone -> x = PaNone.
  Proof. destruct x; cbn; congruence. Qed.

  Lemma project_other t : projection tr t = None -> f t = t.
  Proof. unfold project. intros ->. reflexivity. Qed.

  Lemma project_path p :
    get_path a p = None -> f (TPath (everywhere_path f p)) = TPath (everywhere_path f p).
  Proof.
    intros G. destruct (projection tr (TPath (everywhere_path f p))) as [i|] eqn:E.
    2: { apply project_other. exact E. }
    assert (N : assoc_get a i = None).
    { destruct p as [b l]. cbn [everywhere_path] in E. cbn [projection] in E.
      destruct b; [discriminate|]. destruct l as [|[s x] [|[j y] [|]]]; try discriminate;
        cbn [map everywhere_seg] in E.
      - destruct (everywhere_pargs f x); discriminate.
      - destruct (everywhere_pargs f x) eqn:X; try discriminate.
        destruct (everywhere_pargs f y) eqn:Y; try discriminate.
        destruct (s =? "Self") eqn:S; [|discriminate]. injection E as ->.
        cbn [get_path] in G. rewrite S in G. exact G.
      - destruct (everywhere_pargs f x); try discriminate.
        destruct (everywhere_pargs f y); discriminate. }
    generalize dependent (TPath (everywhere_path f p)). intros t E.
    unfold project. rewrite E, N. reflexivity.
  Qed.

  Lemma substituted :
    (forall t, substitute_error a tr t = false -> plain t = true ->
               substitute_type a tr t = everywhere f t) /\
    (forall p, substitute_path_error a tr p = false -> plain_path p = true ->
               substitute_path a tr p = everywhere_path f p) /\
    (forall s, substitute_seg_error a tr s = false -> plain_seg s = true ->
               substitute_seg a tr s = everywhere_seg f s) /\
    (forall x, substitute_pargs_error a tr x = false -> plain_pargs x = true ->
               substitute_pargs a tr x = everywhere_pargs f x) /\
    (forall g, substitute_garg_error a tr g = false -> plain_garg g = true ->
               substitute_garg a tr g = everywhere_garg f g) /\
    (forall b, substitute_bound_error a tr b = false -> plain_bound b = true ->
               substitute_bound a tr b = everywhere_bound f b).
  Proof.
    apply ast_ind;
      cbn [substitute_error substitute_path_error substitute_seg_error substitute_pargs_error
           substitute_garg_error substitute_bound_error
           plain plain_path plain_seg plain_pargs plain_garg plain_bound
           substitute_type substitute_path substitute_seg substitute_pargs substitute_garg
           substitute_bound
           everywhere everywhere_path everywhere_seg everywhere_pargs everywhere_garg
           everywhere_bound]; intros; try discriminate; auto;
      try (rewrite project_other by reflexivity; f_equal; auto; fail).
    - (* bare fn *) rewrite project_other by reflexivity.
      apply orb_false_iff in H1 as [E1 E2]. apply andb_prop in H2 as [P1 P2].
      f_equal; [eapply map_sub; eauto|eapply opt_sub; eauto].
    - (* impl *) rewrite project_other by reflexivity. f_equal. eapply map_sub; eauto.
    - (* path *) apply andb_prop in H1 as [P1 P2].
      destruct (get_path a p) as [u|] eqn:G.
      + destruct p as [[|] [|[s x] [|[i y] [|]]]]; try discriminate. cbn [get_path] in G.
        destruct (s =? "Self") eqn:S; [|discriminate]. cbn in P2.
        destruct x; try discriminate. destruct y; try discriminate.
        cbn. unfold project. cbn [projection]. rewrite S, G. reflexivity.
      + rewrite project_path by exact G. rewrite H; auto.
    - (* qualified path *) clear H0.
      apply negb_false_iff in H1. unfold qself_ok in H1.
      destruct q as [| | | | | | | |[b [|[s x] [|]]]| | | | | | |]; try discriminate.
      destruct n as [|[|]]; try discriminate.
      destruct p as [b' [|[t y] [|[i z] [|]]]]; try discriminate.
      apply andb_prop in H1 as [H1 G]. apply andb_prop in H1 as [S T].
      destruct (assoc_get a i) as [u|] eqn:A; [|discriminate].
      apply andb_prop in H2 as [_ Z]. cbn [no_args] in Z. destruct z; try discriminate.
      cbn [to_sub segs rev app]. rewrite A.
      cbn [everywhere everywhere_path map everywhere_seg everywhere_pargs].
      rewrite (project_other (TPath (Path b [Seg s (everywhere_pargs f x)]))).
      2: { cbn. destruct b, (everywhere_pargs f x); reflexivity. }
      unfold project. cbn [projection]. rewrite S, T. cbn [andb]. rewrite A. reflexivity.
    - (* dyn *) rewrite project_other by reflexivity. f_equal. eapply map_sub; eauto.
    - (* tuple *) rewrite project_other by reflexivity. f_equal. eapply map_sub; eauto.
    - f_equal. eapply map_sub; eauto.
    - f_equal. auto.
    - f_equal. eapply map_sub; eauto.
    - f_equal. auto.
    - f_equal. auto.
    - (* bound *) apply andb_prop in H1 as [P1 P2].
      assert (G : get_path a p = None).
      { destruct p as [[|] [|[s x] [|[i y] [|]]]]; auto. cbn [get_path].
        destruct (s =? "Self"); [discriminate|reflexivity]. }
      rewrite G in *. f_equal. auto.
  Qed.

  (** Nothing is left. *)
  Context (types : ident -> option ty).
  Notation h := (project types tr).
  Context (clean : forall i u, types i = Some u -> projects types tr u = false).

  Lemma exists_map_false {A} (q : A -> bool) (g : A -> A) l :
    Forall (fun x => q (g x) = false) l -> existsb q (map g l) = false.
  Proof. intros H. induction H; cbn; auto. rewrite H, IHForall. reflexivity. Qed.

  Lemma project_clean t :
    (projects_here types tr t || projects types tr t)%bool
    = projects types tr t.
  Proof.
    destruct (projects_here types tr t) eqn:E; auto. destruct t; cbn [projects]; rewrite E; reflexivity.
  Qed.

  (** The recursive part of [projects]. *)
  Definition below (t : ty) : bool :=
    match t with
    | TArray e _ | TGroup e | TParen e | TPtr _ e | TRef _ _ e | TSlice e => projects types tr e
    | TBareFn _ _ i o =>
        existsb (projects types tr) i
        || match o with None => false | Some t => projects types tr t end
    | TImplTrait l | TDyn _ l => existsb (projects_bound types tr) l
    | TInfer | TMacro _ | TNever | TVerbatim _ => false
    | TPath p => projects_path types tr p
    | TQPath q _ p => projects types tr q || projects_path types tr p
    | TTuple l => existsb (projects types tr) l
    end.

  Lemma projects_below t : projects types tr t = projects_here types tr t || below t.
  Proof. destruct t; reflexivity. Qed.

  Lemma top_clean t : below t = false -> projects types tr (h t) = false.
  Proof.
    intros B. unfold project. destruct (projection tr t) as [i|] eqn:E.
    - destruct (types i) as [u|] eqn:T; [exact (clean i u T)|].
      rewrite projects_below, B. unfold projects_here. rewrite E, T. reflexivity.
    - rewrite projects_below, B. unfold projects_here. rewrite E. reflexivity.
  Qed.

  Lemma nothing_left :
    (forall t, projects types tr (everywhere h t) = false) /\
    (forall p, projects_path types tr (everywhere_path h p) = false) /\
    (forall s, projects_seg types tr (everywhere_seg h s) = false) /\
    (forall x, projects_pargs types tr (everywhere_pargs h x) = false) /\
    (forall g, projects_garg types tr (everywhere_garg h g) = false) /\
    (forall b, projects_bound types tr (everywhere_bound h b) = false).
  Proof.
    apply ast_ind;
      cbn [everywhere everywhere_path everywhere_seg everywhere_pargs everywhere_garg
           everywhere_bound]; intros; try (apply top_clean; cbn [below]);
      cbn [projects_path projects_seg projects_pargs projects_garg projects_bound];
      try apply exists_map_false; auto.
    - rewrite (exists_map_false _ _ _ H). destruct H0; auto.
    - rewrite H, H0. reflexivity.
    - rewrite (exists_map_false _ _ _ H). destruct H0; auto.
  Qed.
End subst.

(** Types without projections stay. *)
Section same.
  Context (types : ident -> option ty) (tr : ident).
  Notation h := (project types tr).

  Lemma same_here t : projects_here types tr t = false -> h t = t.
  Proof.
    unfold projects_here, project. destruct (projection tr t) as [i|]; auto.
    destruct (types i); [discriminate|auto].
  Qed.

  Lemma map_same {A} (q : A -> bool) (g : A -> A) l :
    Forall (fun x => q x = false -> g x = x) l -> existsb q l = false -> map g l = l.
  Proof.
    intros H. induction H as [|x l P _ IH]; cbn; auto. intros E.
    apply orb_false_iff in E as [E1 E2]. rewrite P, IH; auto.
  Qed.

  Lemma opt_same (q : ty -> bool) (g : ty -> ty) o :
    optP (fun x => q x = false -> g x = x) o ->
    match o with None => false | Some t => q t end = false -> option_map g o = o.
  Proof. intros H E. destruct H; cbn; auto. rewrite H; auto. Qed.

  Lemma unchanged :
    (forall t, projects types tr t = false -> everywhere h t = t) /\
    (forall p, projects_path types tr p = false -> everywhere_path h p = p) /\
    (forall s, projects_seg types tr s = false -> everywhere_seg h s = s) /\
    (forall x, projects_pargs types tr x = false -> everywhere_pargs h x = x) /\
    (forall g, projects_garg types tr g = false -> everywhere_garg h g = g) /\
    (forall b, projects_bound types tr b = false -> everywhere_bound h b = b).
  Proof.
    apply ast_ind;
      cbn [everywhere everywhere_path everywhere_seg everywhere_pargs everywhere_garg
           everywhere_bound projects projects_path projects_seg projects_pargs projects_garg
           projects_bound]; intros;
      repeat match goal with
             | H : (_ || _)%bool = false |- _ => apply orb_false_iff in H as [? ?]
             end;
      repeat match goal with
             | H : Forall _ ?l |- _ =>
                 let E := fresh in assert (E := map_same _ _ _ H); clear H
             | H : optP _ ?l |- _ =>
                 let E := fresh in assert (E := opt_same _ _ _ H); clear H
             end;
      repeat match goal with
             | H : _ = false -> _ = _, H' : _ = false |- _ => rewrite (H H'); clear H
             end;
      try (apply same_here; assumption); auto.
  Qed.
End same.

(** The declared types. *)
Lemma assoc_get_insert a i t j :
  assoc_get (assoc_insert a i t) j = if j =? i then Some t else assoc_get a j.
Proof.
  induction a as [|[k u] a IH]; cbn.
  - reflexivity.
  - destruct (i =? k) eqn:E.
    + apply String.eqb_eq in E. subst k. cbn. destruct (j =? i); reflexivity.
    + cbn. rewrite IH. destruct (j =? k) eqn:E1, (j =? i) eqn:E2; auto.
      apply String.eqb_eq in E1, E2. subst. rewrite String.eqb_refl in E. discriminate.
Qed.
