(** * GenericsProofs: splitting and merging generics *)

From Coq Require Import List Bool String NArith Arith Lia.
From Verif Require Import Ast AstProofs AstSpec Rewrite RewriteProofs TyEq Derive DeriveSpec.
Import ListNotations.
Open Scope string_scope.
Open Scope list_scope.

(** ** [find_lifetimes] finds what is in the text *)

Section lifetimes.
  Context (l : lifetime).
  Notation k := (TkLt l).

  Lemma in_each s L : In k (each s L) <-> Exists (fun x => In k x) L.
  Proof.
    induction L as [|x L IH]; [split; [intros []|intros H; inversion H]|].
    cbn [each flat_map]. fold (each s L). rewrite !in_app_iff, IH, Exists_cons. cbn.
    split; [intros [[H|[H|[]]]|H]; auto; discriminate|intros [H|H]; auto].
  Qed.

  Lemma in_between s L : In k (between s L) <-> Exists (fun x => In k x) L.
  Proof.
    induction L as [|x L IH]; [split; [intros []|intros H; inversion H]|].
    rewrite Exists_cons. destruct L as [|y L].
    - cbn [between]. split; [auto|intros [H|H]; auto; inversion H].
    - cbn [between] in *. rewrite in_app_iff. cbn [In]. rewrite IH.
      split; [intros [H|[H|H]]; auto; discriminate|intros [H|H]; auto].
  Qed.

  Lemma exists_map {A} (f : A -> list token) L :
    Exists (fun x => In k x) (map f L) <-> Exists (fun a => In k (f a)) L.
  Proof. rewrite Exists_map. reflexivity. Qed.

  Lemma exists_split {A} (P : A -> Prop) n L :
    Exists P L <-> Exists P (firstn n L) \/ Exists P (skipn n L).
  Proof. rewrite <- (firstn_skipn n L) at 1. apply Exists_app. Qed.

  Lemma found_all {A} (find : A -> list lifetime) (tok : A -> list token) (ok : A -> bool) L :
    Forall (fun x => ok x = true -> (In l (find x) <-> In k (tok x))) L ->
    forallb ok L = true ->
    (In l (flat_map find L) <-> Exists (fun x => In k (tok x)) L).
  Proof.
    intros H. induction H as [|x L Hx HL IH]; cbn; intros O.
    - split; [intros []|intros E; inversion E].
    - apply andb_prop in O as [O1 O2]. rewrite in_app_iff, Exists_cons, Hx, IH by assumption.
      reflexivity.
  Qed.

  Ltac tk := cbn [tokens path_tokens seg_tokens pargs_tokens garg_tokens bound_tokens].
  Ltac simp := repeat progress (cbn [In]; rewrite ?in_app_iff, ?in_each, ?in_between, ?exists_map).
  Ltac fin := repeat match goal with
                     | |- _ <-> _ => split
                     | |- _ -> _ => intro
                     | H : _ \/ _ |- _ => destruct H
                     | H : False |- _ => destruct H
                     | H : TkSym _ = _ |- _ => discriminate H
                     | H : TkId _ = _ |- _ => discriminate H
                     | H : In _ (if ?b then _ else _) |- _ => destruct b; cbn [In] in H
                     end; auto 12.

  Lemma found_in_text :
    (forall t, no_fn_types t = true -> (In l (find_lifetimes t) <-> In k (tokens t))) /\
    (forall p, no_fn_types_path p = true ->
       (In l (find_lifetimes_in_path p) <-> Exists (fun s => In k (seg_tokens s)) (segs p))) /\
    (forall s, no_fn_types_seg s = true ->
       (In l (find_lifetimes_in_seg s) <-> In k (seg_tokens s))) /\
    (forall a, no_fn_types_pargs a = true ->
       (In l (find_lifetimes_in_pargs a) <-> In k (pargs_tokens a))) /\
    (forall g, no_fn_types_garg g = true ->
       (In l (find_lifetimes_in_garg g) <-> In k (garg_tokens g))) /\
    (forall b, no_fn_types_bound b = true ->
       (In l (find_lifetimes_in_tpb b) <-> In k (bound_tokens b))).
  Proof.
    apply ast_ind;
      cbn [no_fn_types no_fn_types_path no_fn_types_seg no_fn_types_pargs no_fn_types_garg
           no_fn_types_bound find_lifetimes find_lifetimes_in_path find_lifetimes_in_seg
           find_lifetimes_in_pargs find_lifetimes_in_garg find_lifetimes_in_tpb]; intros; tk;
      try discriminate; try (simp; fin; fail).
    - (* array *) rewrite H by assumption. simp. fin.
    - exact (H H0).
    - (* impl *) rewrite (found_all _ _ _ _ H H0). simp. fin.
    - (* paren *) rewrite H by assumption. simp. fin.
    - (* path *) destruct p as [b s]. tk. rewrite H by assumption. cbn [segs]. simp. fin.
    - (* qualified path *) apply andb_prop in H1 as [A B]. destruct p as [b s].
      rewrite in_app_iff, H, H0 by assumption. cbn [segs]. destruct n.
      + cbn [In]. rewrite in_app_iff. cbn [In]. rewrite in_flat_map.
        rewrite Exists_exists. cbn [In].
        split.
        * intros [(x & X & Y)|X]; auto. right. right. right. exists x. auto.
        * intros [X|[X|[X|(x & X & [Y|Y])]]]; auto; try discriminate.
          left. exists x. auto.
      + simp. rewrite firstn_map, skipn_map, !exists_map.
        rewrite (exists_split _ (S n) s). fin.
    - (* ptr *) rewrite H by assumption. simp. fin.
    - (* ref *) rewrite in_app_iff, H by assumption. simp.
      assert (X : In l match l0 with Some x => [x] | None => [] end
                  <-> In k match l0 with Some x => [TkLt x] | None => [] end).
      { destruct l0; cbn [In]; [split; intros [X|[]]; left; congruence|reflexivity]. }
      rewrite X. fin.
    - rewrite H by assumption. simp. fin.
    - rewrite (found_all _ _ _ _ H H0). simp. fin.
    - rewrite (found_all _ _ _ _ H H0). simp. fin.
    - cbn [segs]. apply (found_all _ _ _ _ H H0).
    - rewrite H by assumption. cbn [In]. fin.
    - rewrite (found_all _ _ _ _ H H0). simp. fin.
    - cbn [In]. fin; left; congruence.
    - exact (H H0).
    - rewrite H by assumption. cbn [In]. fin.
    - rewrite (found_all _ _ _ _ H H0). cbn [In]. simp. fin.
    - destruct b; [|discriminate]. destruct p as [c s]. rewrite H by assumption. cbn [segs]. tk.
      cbn [binder_tokens]. simp. fin.
    - cbn [In]. fin; left; congruence.
  Qed.

  Lemma memb_mentionsb t :
    no_fn_types t = true -> memb l (find_lifetimes t) = mentionsb l t.
  Proof.
    intros H. unfold memb, mentionsb.
    destruct found_in_text as [F _]. specialize (F t H).
    destruct (existsb (String.eqb l) (find_lifetimes t)) eqn:E; symmetry.
    - apply existsb_exists in E as (x & X & Y). apply String.eqb_eq in Y. subst x.
      apply existsb_exists. exists k. split; [apply F; assumption|apply String.eqb_refl].
    - destruct (existsb _ (tokens t)) eqn:E'; auto.
      apply existsb_exists in E' as ([i|j|s] & X & Y); try discriminate.
      apply String.eqb_eq in Y. subst j. apply F in X.
      assert (T : existsb (String.eqb l) (find_lifetimes t) = true).
      { apply existsb_exists. exists l. split; [assumption|apply String.eqb_refl]. }
      congruence.
  Qed.
End lifetimes.

Lemma memb_app l x y : memb l (x ++ y) = memb l x || memb l y.
Proof. apply existsb_app. Qed.

Lemma memb_args l args :
  forallb plain_arg args = true ->
  memb l (flat_map arg_lifetimes args) = existsb (arg_mentionsb l) args.
Proof.
  induction args as [|a args IH]; cbn [flat_map existsb forallb]; auto. intros H.
  apply andb_prop in H as [H1 H2]. rewrite memb_app, IH by assumption. f_equal.
  destruct a as [r m c t|p t]; cbn [arg_lifetimes arg_mentionsb].
  - destruct r as [[j|]|]; cbn; auto. apply orb_false_r.
  - apply memb_mentionsb. exact H1.
Qed.

(** ** Splitting *)

Lemma flat_filter {A B} (f : A -> bool) (h : A -> list B) l :
  flat_map (fun a => if f a then h a else []) l = flat_map h (filter f l).
Proof.
  induction l as [|a l IH]; auto. cbn. rewrite IH. destruct (f a); reflexivity.
Qed.

Lemma lifetime_params_filter (g : generics) (f : string -> bool) :
  flat_map (fun p => match p with
                     | GpLifetime l b => if f l then [(l, b)] else []
                     | _ => []
                     end) (params g)
  = filter (fun x => f (fst x)) (lifetime_params g).
Proof.
  unfold lifetime_params. induction (params g) as [|[l b|i b d|i t d] ps IH]; auto.
  cbn [flat_map app]. cbn [filter fst]. rewrite IH. destruct (f l); reflexivity.
Qed.

Lemma split_groups (g : generics) (args : list fnarg) (rt : option ty) :
  lt_token g = true ->
  forallb plain_arg args = true -> match rt with Some t => no_fn_types t | None => true end = true ->
  let '(tg, alv, rlv) := split_lifetimes g args rt in
  let returned l := match rt with Some t => mentionsb l t | None => false end in
  rlv = filter (fun x => returned (fst x)) (lifetime_params g)
  /\ alv = filter (fun x => negb (returned (fst x)) && existsb (arg_mentionsb (fst x)) args)
                  (lifetime_params g)
  /\ params tg = filter is_type_param (params g)
  /\ where_clause tg = (if existsb is_type_param (params g) then where_clause g else None)
  /\ lt_token tg = existsb is_type_param (params g).
Proof.
  intros L A R. unfold split_lifetimes. rewrite L. cbn [negb].
  split; [|split; [|split; [|split]]].
  - rewrite lifetime_params_filter. apply filter_ext. intros [l b]. cbn [fst].
    destruct rt as [t|]; [apply memb_mentionsb; assumption|reflexivity].
  - rewrite <- (lifetime_params_filter g (fun l =>
      negb (match rt with Some t => mentionsb l t | None => false end)
      && existsb (arg_mentionsb l) args)).
    apply flat_map_ext. intros [l b|i b d|i t d]; auto.
    rewrite memb_args by assumption.
    replace (memb l match rt with Some t => find_lifetimes t | None => [] end)
      with (match rt with Some t => mentionsb l t | None => false end).
    2: { destruct rt as [t|]; [symmetry; apply memb_mentionsb; assumption|reflexivity]. }
    destruct rt as [t|]; [destruct (mentionsb l t)|]; cbn; auto.
  - change (fun p => match p with GpType _ _ _ => true | _ => false end) with is_type_param.
    destruct (filter is_type_param (params g)) eqn:E; reflexivity.
  - change (fun p => match p with GpType _ _ _ => true | _ => false end) with is_type_param.
    destruct (filter is_type_param (params g)) as [|p ps] eqn:E.
    + replace (existsb is_type_param (params g)) with false; auto.
      symmetry. destruct (existsb is_type_param (params g)) eqn:X; auto.
      apply existsb_exists in X as (p & I & T).
      assert (In p []) by (rewrite <- E; apply filter_In; auto). contradiction.
    + replace (existsb is_type_param (params g)) with true; auto.
      symmetry. apply existsb_exists. exists p.
      apply filter_In. rewrite E. left. reflexivity.
  - change (fun p => match p with GpType _ _ _ => true | _ => false end) with is_type_param.
    destruct (filter is_type_param (params g)) as [|p ps] eqn:E.
    + symmetry. destruct (existsb is_type_param (params g)) eqn:X; auto.
      apply existsb_exists in X as (p & I & T).
      assert (In p []) by (rewrite <- E; apply filter_In; auto). contradiction.
    + cbn [lt_token]. symmetry. apply existsb_exists. exists p.
      apply filter_In. rewrite E. left. reflexivity.
Qed.

(** ** Merging *)

Lemma cmp_gp_spec o y : cmp_gp_idents o y = true <-> key_of o = key_of y.
Proof.
  destruct o, y; cbn; split; intros H; try discriminate;
    try (apply String.eqb_eq in H; congruence); injection H as ->; apply String.eqb_refl.
Qed.

Lemma cmp_wp_spec o y : cmp_wp_idents o y = true <-> subject_of o = subject_of y.
Proof.
  destruct o, y; cbn; split; intros H; try discriminate.
  - apply String.eqb_eq in H. congruence.
  - injection H as ->. apply String.eqb_refl.
  - apply ty_eqb_eq in H. congruence.
  - injection H as ->. apply ty_eqb_eq. reflexivity.
Qed.

Lemma pkey_dec (a b : pkey) : {a = b} + {a <> b}.
Proof. decide equality; apply string_dec. Defined.

Lemma merge_param_key o y : key_of (merge_param o y) = key_of o.
Proof. destruct o, y; reflexivity. Qed.

Lemma merge_pred_subject o y : subject_of (merge_pred o y) = subject_of o.
Proof. destruct o, y; reflexivity. Qed.

Lemma add_param_keys out y :
  map key_of (add_param out y)
  = map key_of out ++ if in_dec pkey_dec (key_of y) (map key_of out) then [] else [key_of y].
Proof.
  induction out as [|o out IH]; [reflexivity|]. cbn [add_param].
  destruct (cmp_gp_idents o y) eqn:C.
  - apply cmp_gp_spec in C. cbn [map]. rewrite merge_param_key.
    destruct (in_dec pkey_dec (key_of y) (key_of o :: map key_of out)) as [I|N].
    + rewrite app_nil_r. reflexivity.
    + elim N. left. exact C.
  - assert (K : key_of o <> key_of y) by (intros E; apply cmp_gp_spec in E; congruence).
    cbn [map]. rewrite IH.
    destruct (in_dec pkey_dec (key_of y) (map key_of out)) as [I|N];
      destruct (in_dec pkey_dec (key_of y) (key_of o :: map key_of out)) as [I'|N']; cbn; auto.
    + elim N'. right. exact I.
    + destruct I'; [contradiction|contradiction].
Qed.

Lemma fold_param_keys ys : forall out,
  NoDup (map key_of ys) ->
  map key_of (fold_left add_param ys out)
  = map key_of out
    ++ filter (fun k => if in_dec pkey_dec k (map key_of out) then false else true)
              (map key_of ys).
Proof.
  induction ys as [|y ys IH]; intros out N; [symmetry; apply app_nil_r|].
  inversion N as [|k l N1 N2]; subst. cbn [fold_left map filter].
  rewrite IH, add_param_keys by assumption.
  destruct (in_dec pkey_dec (key_of y) (map key_of out)) as [I|NI].
  - rewrite app_nil_r. reflexivity.
  - rewrite <- app_assoc. cbn [app]. do 2 f_equal.
    apply filter_ext_in. intros k Hk.
    destruct (in_dec pkey_dec k (map key_of out ++ [key_of y])) as [J|J];
      destruct (in_dec pkey_dec k (map key_of out)) as [J'|J']; auto.
    + apply in_app_iff in J as [J|[J|[]]]; [contradiction|]. subst k. contradiction.
    + elim J. apply in_app_iff. auto.
Qed.

Lemma merged_keys x y :
  bracketed x -> bracketed y -> NoDup (keys y) ->
  keys (merge_generics x y)
  = keys x ++ filter (fun k => if in_dec pkey_dec k (keys x) then false else true) (keys y).
Proof.
  intros Bx By N. unfold keys, merge_generics, merge_params. cbn [params].
  destruct (is_empty_generics x) eqn:Ex.
  - unfold is_empty_generics in Ex. apply andb_prop in Ex as [Ex _].
    rewrite Bx by (destruct (lt_token x); [discriminate|reflexivity]). cbn [map app].
    symmetry. induction (map key_of (params y)) as [|k l IH]; auto. cbn. f_equal.
    inversion N; auto.
  - destruct (is_empty_generics y) eqn:Ey.
    + unfold is_empty_generics in Ey. apply andb_prop in Ey as [Ey _].
      rewrite By by (destruct (lt_token y); [discriminate|reflexivity]).
      symmetry. apply app_nil_r.
    + cbn [params]. apply fold_param_keys. exact N.
Qed.

Lemma NoDup_app_filter (l m : list pkey) :
  NoDup l -> NoDup m ->
  NoDup (l ++ filter (fun k => if in_dec pkey_dec k l then false else true) m).
Proof.
  intros L M. induction m as [|k m IH]; cbn; [rewrite app_nil_r; exact L|].
  inversion M as [|? ? M1 M2]; subst. destruct (in_dec pkey_dec k l) as [I|N]; auto.
  apply NoDup_Add with (a := k) (l := l ++ filter (fun k => if in_dec pkey_dec k l then false else true) m).
  - apply Add_app.
  - split; auto. rewrite in_app_iff, filter_In. intros [X|[X _]]; contradiction.
Qed.

(** Bounds. *)
Lemma in_add_bounds o y b : In b (add_bounds o y) <-> In b o \/ In b y.
Proof.
  unfold add_bounds, bounds_eqb. destruct (list_eqb bound_eqb o y) eqn:E.
  - apply bounds_eqb_eq in E. subst y. tauto.
  - apply in_app_iff.
Qed.

Definition bound_in (ps : list gparam) (i : ident) (b : bound) : Prop :=
  exists l d, In (GpType i l d) ps /\ In b l.
Definition pred_in (w : list wpred) (t : ty) (b : bound) : Prop :=
  exists f l, In (WpType f t l) w /\ In b l.

Lemma bound_in_cons p ps i b :
  bound_in (p :: ps) i b
  <-> (exists l d, p = GpType i l d /\ In b l) \/ bound_in ps i b.
Proof.
  unfold bound_in. split.
  - intros (l & d & [->|H] & B); [left|right]; eauto.
  - intros [(l & d & -> & B)|(l & d & H & B)]; exists l, d; cbn; auto.
Qed.

Lemma bound_in_nil i b : ~ bound_in [] i b.
Proof. intros (l & d & [] & _). Qed.

Lemma merge_param_bounds o y i b :
  key_of o = key_of y ->
  (exists l d, merge_param o y = GpType i l d /\ In b l)
  <-> (exists l d, o = GpType i l d /\ In b l) \/ (exists l d, y = GpType i l d /\ In b l).
Proof.
  intros K. destruct o as [| j l d|], y as [|j' l' d'|]; cbn in K; try discriminate; cbn [merge_param].
  - split; [intros (x & d & E & _); discriminate|
            intros [(x & d & E & _)|(x & d & E & _)]; discriminate].
  - injection K as <-. split.
    + intros (x & e & E & B). injection E as <- <- <-. apply in_add_bounds in B as [B|B]; eauto.
    + intros [(x & e & E & B)|(x & e & E & B)]; injection E as <- <- <-;
        eexists; eexists; (split; [reflexivity|]); apply in_add_bounds; auto.
  - split; [intros (x & e & E & _); discriminate|
            intros [(x & e & E & _)|(x & e & E & _)]; discriminate].
Qed.

Lemma add_param_bounds out y i b :
  bound_in (add_param out y) i b <-> bound_in out i b \/ bound_in [y] i b.
Proof.
  induction out as [|o out IH]; cbn [add_param].
  - split; [auto|]. intros [H|H]; auto. elim (bound_in_nil _ _ H).
  - destruct (cmp_gp_idents o y) eqn:C.
    + apply cmp_gp_spec in C. rewrite !bound_in_cons, (merge_param_bounds _ _ _ _ C).
      pose proof (bound_in_nil i b). tauto.
    + rewrite !(bound_in_cons o), IH. tauto.
Qed.

Lemma fold_param_bounds ys : forall out i b,
  bound_in (fold_left add_param ys out) i b <-> bound_in out i b \/ bound_in ys i b.
Proof.
  induction ys as [|y ys IH]; intros out i b; cbn [fold_left].
  - pose proof (bound_in_nil i b). tauto.
  - rewrite IH, add_param_bounds, !(bound_in_cons y). pose proof (bound_in_nil i b). tauto.
Qed.

Lemma merged_bounds x y i b :
  bracketed x -> bracketed y ->
  (has_bound (merge_generics x y) i b <-> has_bound x i b \/ has_bound y i b).
Proof.
  intros Bx By. change has_bound with (fun g => bound_in (params g)). cbv beta.
  unfold merge_generics, merge_params. cbn [params].
  destruct (is_empty_generics x) eqn:Ex; [|destruct (is_empty_generics y) eqn:Ey].
  - unfold is_empty_generics in Ex. apply andb_prop in Ex as [Ex _].
    rewrite Bx by (destruct (lt_token x); [discriminate|reflexivity]).
    pose proof (bound_in_nil i b). tauto.
  - unfold is_empty_generics in Ey. apply andb_prop in Ey as [Ey _].
    rewrite By by (destruct (lt_token y); [discriminate|reflexivity]).
    pose proof (bound_in_nil i b). tauto.
  - cbn [params]. apply fold_param_bounds.
Qed.

Lemma pred_in_cons p ps t b :
  pred_in (p :: ps) t b <-> (exists f l, p = WpType f t l /\ In b l) \/ pred_in ps t b.
Proof.
  unfold pred_in. split.
  - intros (f & l & [->|H] & B); [left|right]; eauto.
  - intros [(f & l & -> & B)|(f & l & H & B)]; exists f, l; cbn; auto.
Qed.

Lemma pred_in_nil t b : ~ pred_in [] t b.
Proof. intros (l & d & [] & _). Qed.

Lemma merge_pred_bounds o y t b :
  subject_of o = subject_of y ->
  (exists f l, merge_pred o y = WpType f t l /\ In b l)
  <-> (exists f l, o = WpType f t l /\ In b l) \/ (exists f l, y = WpType f t l /\ In b l).
Proof.
  intros K. destruct o as [| f s l], y as [|f' s' l']; cbn in K; try discriminate; cbn [merge_pred].
  - split; [intros (x & d & E & _); discriminate|
            intros [(x & d & E & _)|(x & d & E & _)]; discriminate].
  - injection K as <-. split.
    + intros (x & e & E & B). injection E as _ <- <-. apply in_add_bounds in B as [B|B]; eauto.
    + intros [(x & e & E & B)|(x & e & E & B)]; injection E as <- <- <-;
        eexists; eexists; (split; [reflexivity|]); apply in_add_bounds; auto.
Qed.

Lemma add_pred_bounds out y t b :
  pred_in (add_pred out y) t b <-> pred_in out t b \/ pred_in [y] t b.
Proof.
  induction out as [|o out IH]; cbn [add_pred].
  - split; [auto|]. intros [H|H]; auto. elim (pred_in_nil _ _ H).
  - destruct (cmp_wp_idents o y) eqn:C.
    + apply cmp_wp_spec in C. rewrite !pred_in_cons, (merge_pred_bounds _ _ _ _ C).
      pose proof (pred_in_nil t b). tauto.
    + rewrite !(pred_in_cons o), IH. tauto.
Qed.

Lemma fold_pred_bounds ys : forall out t b,
  pred_in (fold_left add_pred ys out) t b <-> pred_in out t b \/ pred_in ys t b.
Proof.
  induction ys as [|y ys IH]; intros out t b; cbn [fold_left].
  - pose proof (pred_in_nil t b). tauto.
  - rewrite IH, add_pred_bounds, !(pred_in_cons y). pose proof (pred_in_nil t b). tauto.
Qed.

Lemma merged_where x y t b :
  where_bound (merge_generics x y) t b <-> where_bound x t b \/ where_bound y t b.
Proof.
  change where_bound with (fun g => pred_in (preds g)). cbv beta.
  unfold preds, merge_generics, merge_params. cbn [where_clause].
  pose proof (pred_in_nil t b) as Z.
  destruct (is_empty_generics x) eqn:Ex; [|destruct (is_empty_generics y) eqn:Ey].
  - unfold is_empty_generics in Ex. apply andb_prop in Ex as [_ Ex].
    destruct (where_clause x); [discriminate|].
    destruct (where_clause y); [|tauto]. rewrite fold_pred_bounds. tauto.
  - unfold is_empty_generics in Ey. apply andb_prop in Ey as [_ Ey].
    destruct (where_clause y); [discriminate|]. destruct (where_clause x); tauto.
  - cbn [where_clause]. destruct (where_clause x), (where_clause y);
      rewrite ?fold_pred_bounds; tauto.
Qed.

(** Subjects of the where clause. *)
Lemma add_pred_subjects out y s :
  In s (map subject_of (add_pred out y)) <-> In s (map subject_of out) \/ s = subject_of y.
Proof.
  induction out as [|o out IH]; cbn [add_pred map In].
  - split; [intros [H|[]]; auto|intros [[]|H]; auto].
  - destruct (cmp_wp_idents o y) eqn:C; cbn [map In].
    + rewrite merge_pred_subject. apply cmp_wp_spec in C. rewrite <- C.
      split; [tauto|]. intros [H|H]; auto.
    + rewrite IH. tauto.
Qed.

(** Identity. *)
Lemma merge_blank_right x y : bracketed x -> blank y -> merge_generics x y = x.
Proof.
  intros Bx (Y1 & Y2 & Y3). unfold merge_generics, merge_params.
  destruct x as [lt ps w], y as [lt' ps' w']; cbn in *. subst.
  unfold is_empty_generics; cbn. destruct lt; cbn; [destruct w; reflexivity|].
  specialize (Bx eq_refl). cbn in Bx. subst. destruct w; reflexivity.
Qed.

Lemma add_pred_present w y :
  In y w -> NoDup (map subject_of w) -> merge_pred y y = y -> add_pred w y = w.
Proof.
  induction w as [|o w IH]; intros I N M; [contradiction|].
  inversion N as [|? ? N1 N2]; subst. cbn [add_pred].
  destruct (cmp_wp_idents o y) eqn:C.
  - apply cmp_wp_spec in C. destruct I as [->|I]; [rewrite M; reflexivity|].
    elim N1. rewrite C. apply in_map. exact I.
  - destruct I as [->|I].
    + assert (cmp_wp_idents y y = true) by (apply cmp_wp_spec; reflexivity). congruence.
    + rewrite IH; auto.
Qed.

Lemma fold_pred_present w ys :
  (forall y, In y ys -> In y w /\ merge_pred y y = y) -> NoDup (map subject_of w) ->
  fold_left add_pred ys w = w.
Proof.
  intros H N. induction ys as [|y ys IH]; auto. cbn [fold_left].
  destruct (H y (or_introl eq_refl)) as [I M]. rewrite add_pred_present by assumption.
  apply IH. intros z Z. apply H. right. exact Z.
Qed.

Lemma merge_blank_left x y :
  blank x -> NoDup (map subject_of (preds y)) ->
  (forall f t b, In (WpType f t b) (preds y) -> f = None) ->
  merge_generics x y = y.
Proof.
  intros (X1 & X2 & X3) N F. unfold merge_generics, merge_params, is_empty_generics.
  rewrite X1, X3. cbn [negb andb]. destruct y as [lt ps w]. cbn in *.
  f_equal. destruct w as [w|]; auto. f_equal.
  apply fold_pred_present; auto. intros y I. split; auto.
  destruct y as [l b|f t b]; auto. rewrite (F f t b I). cbn [merge_pred].
  unfold add_bounds. replace (bounds_eqb b b) with true; auto.
  symmetry. apply bounds_eqb_eq. reflexivity.
Qed.
