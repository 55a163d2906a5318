(** * RewriteProofs: what the rewriting functions do to the tokens of a type *)

From Coq Require Import List Bool String NArith Arith Lia.
From Verif Require Import Ast AstProofs Rewrite AstSpec.
Import ListNotations.
Open Scope string_scope.
Open Scope list_scope.

(** ** Substituting tokens *)

Section flat.
  Context (F : token -> list token).
  Context (Fsym : forall s, F (TkSym s) = [TkSym s]).

  Lemma flat_sym : forall s l, flat_map F (TkSym s :: l) = TkSym s :: flat_map F l.
  Proof. intros; cbn. rewrite Fsym. reflexivity. Qed.

  Lemma flat_each : forall s l, flat_map F (each s l) = each s (map (flat_map F) l).
  Proof.
    induction l as [|x l IH]; [reflexivity|].
    cbn [each flat_map map] in *. unfold each in IH. rewrite !flat_map_app, IH. cbn.
    rewrite Fsym. reflexivity.
  Qed.

  Lemma flat_between : forall s l, flat_map F (between s l) = between s (map (flat_map F) l).
  Proof.
    induction l as [|x [|y l] IH]; [reflexivity|reflexivity|].
    change (between s (x :: y :: l)) with (x ++ TkSym s :: between s (y :: l)).
    change (map (flat_map F) (x :: y :: l)) with (flat_map F x :: flat_map F y :: map (flat_map F) l).
    change (between s (flat_map F x :: flat_map F y :: map (flat_map F) l))
      with (flat_map F x ++ TkSym s :: between s (map (flat_map F) (y :: l))).
    rewrite flat_map_app, flat_sym, IH. reflexivity.
  Qed.

  Lemma flat_flat : forall A (G : A -> list token) l,
    flat_map F (flat_map (fun s => TkSym "::" :: G s) l)
    = flat_map (fun s => TkSym "::" :: flat_map F (G s)) l.
  Proof.
    induction l as [|x l IH]; [reflexivity|].
    cbn [flat_map]. rewrite flat_map_app, flat_sym, IH. reflexivity.
  Qed.

  Lemma flat_opt : forall b s,
    flat_map F (if b : bool then [TkSym s] else []) = if b then [TkSym s] else [].
  Proof. intros [|] s; cbn; rewrite ?Fsym; reflexivity. Qed.
End flat.

Lemma each_map_ext : forall A s (f g : A -> list token) l,
  Forall (fun x => f x = g x) l -> each s (map f l) = each s (map g l).
Proof. intros A s f g l H. f_equal. induction H; cbn; congruence. Qed.

Lemma map_ext_F : forall A B (f g : A -> B) l,
  Forall (fun x => f x = g x) l -> map f l = map g l.
Proof. intros A B f g l H. induction H; cbn; congruence. Qed.

Lemma flat_ext_F : forall A B (f g : A -> list B) l,
  Forall (fun x => f x = g x) l -> flat_map f l = flat_map g l.
Proof. intros A B f g l H. induction H; cbn; congruence. Qed.

Lemma existsb_false_F : forall A (f : A -> bool) l,
  existsb f l = false -> Forall (fun x => f x = false) l.
Proof.
  induction l as [|x l IH]; cbn; intros H; constructor.
  - destruct (f x); [discriminate|reflexivity].
  - apply IH. destruct (f x); [discriminate|exact H].
Qed.

Lemma forallb_true_F : forall A (f : A -> bool) l,
  forallb f l = true -> Forall (fun x => f x = true) l.
Proof. intros A f l H. apply Forall_forall. rewrite forallb_forall in H. exact H. Qed.

Lemma Forall_imp2 : forall A (P Q R : A -> Prop) l,
  (forall x, P x -> Q x -> R x) -> Forall P l -> Forall Q l -> Forall R l.
Proof. intros A P Q R l H HP HQ. induction HP; inversion HQ; subst; constructor; auto. Qed.

Lemma Forall_imp3 : forall A (P Q R S : A -> Prop) l,
  (forall x, P x -> Q x -> R x -> S x) -> Forall P l -> Forall Q l -> Forall R l -> Forall S l.
Proof.
  intros A P Q R S l H HP. induction HP; intros HQ HR; inversion HQ; inversion HR; subst;
    constructor; auto.
Qed.

(** ** deselfify *)

Lemma put_free : forall a g l, has_self l = false -> put_for_self a g l = l.
Proof.
  induction l as [|k l IH]; cbn; intros H; [reflexivity|].
  destruct (is_self k); [discriminate|]. cbn. f_equal. apply IH. exact H.
Qed.

Lemma put_cons : forall a g k l,
  put_for_self a g (k :: l) = (if is_self k then self_type_tokens a g else [k]) ++ put_for_self a g l.
Proof. reflexivity. Qed.

Lemma put_app : forall a g l r,
  put_for_self a g (l ++ r) = put_for_self a g l ++ put_for_self a g r.
Proof. intros. apply flat_map_app. Qed.

Lemma put_sym : forall a g s l, put_for_self a g (TkSym s :: l) = TkSym s :: put_for_self a g l.
Proof. reflexivity. Qed.
Lemma put_lt : forall a g s l, put_for_self a g (TkLt s :: l) = TkLt s :: put_for_self a g l.
Proof. reflexivity. Qed.
Lemma put_nil : forall a g, put_for_self a g [] = [].
Proof. reflexivity. Qed.

Lemma put_each : forall a g s l,
  put_for_self a g (each s l) = each s (map (put_for_self a g) l).
Proof. intros. apply flat_each. reflexivity. Qed.

Lemma put_between : forall a g s l,
  put_for_self a g (between s l) = between s (map (put_for_self a g) l).
Proof. intros. apply flat_between. reflexivity. Qed.

Lemma put_binder : forall a g b, put_for_self a g (binder_tokens b) = binder_tokens b.
Proof.
  intros a g b. destruct b as [|x b]; [reflexivity|].
  unfold binder_tokens. rewrite !put_sym, put_app, put_each, map_map.
  reflexivity.
Qed.

Lemma has_self_binder : forall b, has_self (binder_tokens b) = false.
Proof.
  intros [|x b]; [reflexivity|]. cbn.
  unfold has_self. rewrite existsb_app. cbn. rewrite orb_false_r.
  induction b as [|y b IH]; [reflexivity|]. cbn. exact IH.
Qed.

Lemma firstn_map' : forall A B (f : A -> B) n l, firstn n (map f l) = map f (firstn n l).
Proof. intros. apply firstn_map. Qed.
Lemma skipn_map' : forall A B (f : A -> B) n l, skipn n (map f l) = map f (skipn n l).
Proof. intros. apply skipn_map. Qed.

Lemma existsb_orb : forall a b, a || b = false -> a = false /\ b = false.
Proof. intros [|] [|]; cbn; intros; split; congruence. Qed.

Section deself.
  Context (a : ident) (g : generics).
  Notation put := (put_for_self a g).
  Notation de := (deselfify a g).

  Lemma self_args_tokens :
    existsb (fun p => match p with GpConst _ _ _ => true | _ => false end) (params g) = false ->
    TkId a :: pargs_tokens (self_args g) = self_type_tokens a g.
  Proof.
    unfold self_args, self_type_tokens. intros H. f_equal.
    destruct (params g) as [|p ps]; [reflexivity|].
    cbn [tokens path_tokens seg_tokens pargs_tokens garg_tokens bound_tokens]. do 2 f_equal. rewrite map_map.
    apply each_map_ext. apply existsb_false_F in H. revert H.
    apply Forall_impl. intros [l b|i b d|i t d]; cbn; [reflexivity|reflexivity|discriminate].
  Qed.

  Lemma deselfify_tokens_all :
    (forall t, deselfify_error g t = false -> self_reachable t = true ->
       tokens (de t) = put (tokens t)) /\
    (forall p, deselfify_path_error g p = false -> self_reachable_path p = true ->
       (leading (deselfify_path a g p) = leading p) /\
       map seg_tokens (segs (deselfify_path a g p)) = map (fun s => put (seg_tokens s)) (segs p)) /\
    (forall s, deselfify_seg_error g s = false -> self_reachable_seg s = true ->
       seg_tokens (deselfify_seg a g s) = put (seg_tokens s)) /\
    (forall x, deselfify_pargs_error g x = false -> self_reachable_pargs x = true ->
       pargs_tokens (deselfify_pargs a g x) = put (pargs_tokens x)) /\
    (forall x, deselfify_garg_error g x = false -> self_reachable_garg x = true ->
       garg_tokens (deselfify_garg a g x) = put (garg_tokens x)) /\
    (forall x, deselfify_bound_error g x = false -> self_reachable_bound x = true ->
       bound_tokens (deselfify_bound a g x) = put (bound_tokens x)).
  Proof.
    assert (EACH : forall A s (tok : A -> list token) (f : A -> A) err rea l,
      Forall (fun x => err x = false -> rea x = true -> tok (f x) = put (tok x)) l ->
      existsb err l = false -> forallb rea l = true ->
      each s (map tok (map f l)) = put (each s (map tok l))).
    { intros A s tok f err rea l H E R. rewrite put_each, !map_map.
      apply each_map_ext. apply existsb_false_F in E. apply forallb_true_F in R.
      revert H E R. apply Forall_imp3. auto. }
    apply ast_ind; cbn [deselfify deselfify_path deselfify_seg deselfify_pargs deselfify_garg
      deselfify_bound deselfify_error deselfify_path_error deselfify_seg_error
      deselfify_pargs_error deselfify_garg_error deselfify_bound_error
      self_reachable self_reachable_path self_reachable_seg self_reachable_pargs
      self_reachable_garg self_reachable_bound].
    - intros e n IH E R. cbn [tokens path_tokens seg_tokens pargs_tokens garg_tokens bound_tokens]. rewrite put_sym, put_app, IH by assumption. reflexivity.
    - intros q b i o _ _ _ R. symmetry. apply put_free. destruct (has_self _); [discriminate|reflexivity].
    - intros e IH E R. cbn [tokens path_tokens seg_tokens pargs_tokens garg_tokens bound_tokens]. auto.
    - intros l _ _ R. symmetry. apply put_free. destruct (has_self _); [discriminate|reflexivity].
    - reflexivity.
    - reflexivity.
    - reflexivity.
    - intros e IH E R. cbn [tokens path_tokens seg_tokens pargs_tokens garg_tokens bound_tokens]. rewrite put_sym, put_app, IH by assumption. reflexivity.
    - intros [b l] IH E R. destruct (IH E R) as [L S]. cbn [tokens path_tokens seg_tokens pargs_tokens garg_tokens bound_tokens].
      cbn [deselfify deselfify_path deselfify_seg deselfify_pargs deselfify_garg deselfify_bound] in *. cbn [path_tokens leading segs] in *.
      rewrite S, put_app, put_between, map_map. destruct b; reflexivity.
    - intros q n [b l] IHq IHp E R.
      apply existsb_orb in E. destruct E as [E1 E2]. apply andb_prop in R. destruct R as [R1 R2].
      destruct (IHp E2 R2) as [L S]. cbn [deselfify deselfify_path deselfify_seg deselfify_pargs deselfify_garg deselfify_bound segs leading] in S, L |- *.
      destruct n as [|n].
      + cbn [tokens path_tokens seg_tokens pargs_tokens garg_tokens bound_tokens]. rewrite put_sym, put_app, put_sym, IHq by assumption.
        do 3 f_equal. unfold put_for_self. rewrite flat_flat by reflexivity.
        clear - S. revert S. generalize (map (deselfify_seg a g) l) as l'.
        induction l as [|s l IH]; intros [|s' l']; cbn; intros S; try discriminate; [reflexivity|].
        injection S as S1 S2. rewrite S1. unfold put_for_self. cbn. do 2 f_equal.
        apply IH. exact S2.
      + cbn [tokens path_tokens seg_tokens pargs_tokens garg_tokens bound_tokens]. rewrite S, !put_sym, put_app, put_sym, IHq by assumption.
        do 3 f_equal. rewrite !put_app, !put_sym, !put_between.
        rewrite !firstn_map, !skipn_map, !map_map. destruct b; reflexivity.
    - intros m e IH E R. cbn [tokens path_tokens seg_tokens pargs_tokens garg_tokens bound_tokens]. rewrite !put_sym, IH by assumption. reflexivity.
    - intros l m e IH E R. cbn [tokens path_tokens seg_tokens pargs_tokens garg_tokens bound_tokens]. rewrite put_sym, !put_app, IH by assumption.
      destruct l, m; reflexivity.
    - intros e IH E R. cbn [tokens path_tokens seg_tokens pargs_tokens garg_tokens bound_tokens]. rewrite put_sym, put_app, IH by assumption. reflexivity.
    - intros d l IH E R. cbn [tokens path_tokens seg_tokens pargs_tokens garg_tokens bound_tokens]. rewrite put_app. rewrite (EACH _ _ _ _ _ _ _ IH E R).
      destruct d; reflexivity.
    - intros l IH E R. cbn [tokens path_tokens seg_tokens pargs_tokens garg_tokens bound_tokens]. rewrite put_sym, put_app, (EACH _ _ _ _ _ _ _ IH E R).
      reflexivity.
    - reflexivity.
    - (* path *) intros b l IH E R. split; [reflexivity|]. cbn [segs].
      rewrite map_map. apply map_ext_F. apply existsb_false_F in E. apply forallb_true_F in R.
      revert IH E R. apply Forall_imp3. auto.
    - (* seg *) intros i x IH E R. cbn [deselfify_seg deselfify_seg_error] in *.
      apply existsb_orb in E. destruct E as [E1 E2]. cbn [tokens path_tokens seg_tokens pargs_tokens garg_tokens bound_tokens]. rewrite put_cons.
      destruct (i =? "Self") eqn:I; cbn [is_self]; rewrite I.
      + destruct x; try discriminate. cbn [tokens path_tokens seg_tokens pargs_tokens garg_tokens bound_tokens]. rewrite put_nil, app_nil_r.
        apply self_args_tokens. exact E1.
      + cbn [tokens path_tokens seg_tokens pargs_tokens garg_tokens bound_tokens]. rewrite IH by assumption. reflexivity.
    - reflexivity.
    - intros l IH E R. cbn [tokens path_tokens seg_tokens pargs_tokens garg_tokens bound_tokens]. rewrite put_sym, put_app, (EACH _ _ _ _ _ _ _ IH E R).
      reflexivity.
    - intros i o _ _ _ R. symmetry. apply put_free. destruct (has_self _); [discriminate|reflexivity].
    - reflexivity.
    - intros t IH E R. cbn [tokens path_tokens seg_tokens pargs_tokens garg_tokens bound_tokens]. auto.
    - reflexivity.
    - intros i t IH E R. apply andb_prop in R. destruct R as [R1 R2].
      cbn [tokens path_tokens seg_tokens pargs_tokens garg_tokens bound_tokens]. rewrite put_cons, put_sym, IH by assumption. cbn [is_self].
      destruct (i =? "Self"); [discriminate|reflexivity].
    - intros i e _ R. cbn [tokens path_tokens seg_tokens pargs_tokens garg_tokens bound_tokens]. rewrite put_cons. cbn [is_self].
      destruct (i =? "Self"); [discriminate|reflexivity].
    - intros i l _ _ R. symmetry. apply put_free. destruct (has_self _); [discriminate|reflexivity].
    - intros m b [c l] IH E R. destruct (IH E R) as [L S]. cbn [tokens path_tokens seg_tokens pargs_tokens garg_tokens bound_tokens].
      cbn [deselfify deselfify_path deselfify_seg deselfify_pargs deselfify_garg deselfify_bound leading segs] in S |- *. cbn [tokens path_tokens seg_tokens pargs_tokens garg_tokens bound_tokens].
      rewrite S, !put_app, put_between, put_binder, map_map. destruct m, c; reflexivity.
    - reflexivity.
    - reflexivity.
  Qed.

  Lemma deselfify_tokens : forall t,
    deselfify_error g t = false -> self_reachable t = true -> tokens (de t) = put (tokens t).
  Proof. apply deselfify_tokens_all. Qed.
End deself.

(** ** deanonymize *)

Lemma stat_app : forall l r, put_static (l ++ r) = put_static l ++ put_static r.
Proof. intros. apply map_app. Qed.

Lemma stat_free : forall l, has_anon l = false -> put_static l = l.
Proof.
  induction l as [|k l IH]; cbn; intros H; [reflexivity|].
  destruct (is_anon k); [discriminate|]. f_equal. apply IH. exact H.
Qed.

Lemma stat_cons : forall k l,
  put_static (k :: l) = (if is_anon k then TkLt "static" else k) :: put_static l.
Proof. reflexivity. Qed.
Lemma stat_sym : forall s l, put_static (TkSym s :: l) = TkSym s :: put_static l.
Proof. reflexivity. Qed.
Lemma stat_id : forall s l, put_static (TkId s :: l) = TkId s :: put_static l.
Proof. reflexivity. Qed.
Lemma stat_lt : forall x l, put_static (TkLt x :: l) = TkLt (deanonymize_lifetime x) :: put_static l.
Proof.
  intros x l. rewrite stat_cons. cbn [is_anon]. unfold deanonymize_lifetime.
  destruct (x =? "_"); reflexivity.
Qed.

Lemma stat_flat : forall l, put_static l = flat_map (fun k => [if is_anon k then TkLt "static" else k]) l.
Proof. induction l as [|k l IH]; cbn; [reflexivity|]. rewrite <- IH. reflexivity. Qed.

Lemma stat_each : forall s l, put_static (each s l) = each s (map put_static l).
Proof.
  intros. rewrite stat_flat, flat_each by reflexivity. apply f_equal. apply map_ext.
  intros. symmetry. apply stat_flat.
Qed.
Lemma stat_between : forall s l, put_static (between s l) = between s (map put_static l).
Proof.
  intros. rewrite stat_flat, flat_between by reflexivity. apply f_equal. apply map_ext.
  intros. symmetry. apply stat_flat.
Qed.

Lemma no_anon : forall l, negb (has_anon l) = true -> has_anon l = false.
Proof. intros l. destruct (has_anon l); [discriminate|reflexivity]. Qed.

Lemma deanonymize_garg_tokens : forall x, anon_reachable_garg x = true ->
  garg_tokens (deanonymize_garg x) = put_static (garg_tokens x).
Proof.
  intros x H. destruct x; cbn [deanonymize_garg];
    try (symmetry; apply stat_free; apply no_anon; exact H).
  cbn [tokens path_tokens seg_tokens pargs_tokens garg_tokens bound_tokens]. rewrite stat_lt. reflexivity.
Qed.

Lemma deanonymize_path_tokens : forall p,
  deanonymize_path_error p = false -> anon_reachable_path p = true ->
  map seg_tokens (segs (deanonymize_path p)) = map (fun s => put_static (seg_tokens s)) (segs p).
Proof.
  intros [b l] E R. unfold deanonymize_path, deanonymize_path_error, anon_reachable_path in *.
  cbn [segs] in *. rewrite map_map. apply map_ext_F.
  apply existsb_false_F in E. apply forallb_true_F in R. revert E R. apply Forall_imp2.
  intros [i x]. cbn [seg_args deanonymize_seg]. intros E R. destruct x; [reflexivity| |discriminate].
  cbn [tokens path_tokens seg_tokens pargs_tokens garg_tokens bound_tokens]. rewrite stat_id, stat_sym, stat_app, stat_each, !map_map.
  do 2 f_equal. f_equal. apply each_map_ext. apply forallb_true_F in R. revert R.
  apply Forall_impl. apply deanonymize_garg_tokens.
Qed.

Lemma deanonymize_path_tokens' : forall p,
  deanonymize_path_error p = false -> anon_reachable_path p = true ->
  path_tokens (deanonymize_path p) = put_static (path_tokens p).
Proof.
  intros p E R. pose proof (deanonymize_path_tokens p E R) as H. destruct p as [b l].
  cbn [deanonymize_path leading segs] in *. cbn [tokens path_tokens seg_tokens pargs_tokens garg_tokens bound_tokens].
  unfold deanonymize_path in *. cbn [leading segs path_tokens] in *.
  rewrite H, stat_app, stat_between, map_map. destruct b; reflexivity.
Qed.

Lemma deanonymize_bound_tokens : forall x,
  match x with BTrait _ _ p => deanonymize_path_error p | _ => false end = false ->
  anon_reachable_bound x = true ->
  bound_tokens (deanonymize_bound x) = put_static (bound_tokens x).
Proof.
  intros [m f p|l|s] E R; cbn [deanonymize_bound bound_tokens].
  - cbn in R. apply andb_prop in R. destruct R as [R1 R2].
    rewrite !stat_app, deanonymize_path_tokens' by assumption.
    rewrite (stat_free (binder_tokens f)) by (apply no_anon; exact R1). destruct m; reflexivity.
  - rewrite stat_lt. reflexivity.
  - reflexivity.
Qed.

Lemma deanonymize_tokens : forall t,
  deanonymize_error t = false -> anon_reachable t = true ->
  tokens (deanonymize t) = put_static (tokens t).
Proof.
  assert (EACH : forall A s (tok : A -> list token) (f : A -> A) (err rea : A -> bool) l,
    Forall (fun x => err x = false -> rea x = true -> tok (f x) = put_static (tok x)) l ->
    existsb err l = false -> forallb rea l = true ->
    each s (map tok (map f l)) = put_static (each s (map tok l))).
  { intros A s tok f err rea l H E R. rewrite stat_each, !map_map.
    apply each_map_ext. apply existsb_false_F in E. apply forallb_true_F in R.
    revert H E R. apply Forall_imp3. auto. }
  apply (ty_all (fun t => deanonymize_error t = false -> anon_reachable t = true ->
                          tokens (deanonymize t) = put_static (tokens t))
                (fun _ => True) (fun _ => True) (fun _ => True) (fun _ => True) (fun _ => True));
    try (intros; exact I); cbn [deanonymize deanonymize_error anon_reachable].
  - intros e n IH E R. cbn [tokens path_tokens seg_tokens pargs_tokens garg_tokens bound_tokens]. rewrite stat_sym, stat_app, IH by assumption. reflexivity.
  - intros q b i o IHi IHo E R.
    apply existsb_orb in E. destruct E as [E1 E2].
    apply andb_prop in R. destruct R as [R R2]. apply andb_prop in R. destruct R as [R0 R1].
    cbn [tokens path_tokens seg_tokens pargs_tokens garg_tokens bound_tokens]. rewrite !stat_app, !stat_sym, !stat_app, !stat_sym.
    rewrite (EACH _ _ _ _ _ _ _ IHi E2 R1).
    rewrite (stat_free (binder_tokens b)) by (apply no_anon; exact R0).
    do 5 f_equal. destruct IHo as [|t IHo]; [reflexivity|]. cbn [option_map].
    rewrite stat_sym, IHo by assumption. reflexivity.
  - intros e IH E R. cbn [tokens path_tokens seg_tokens pargs_tokens garg_tokens bound_tokens]. auto.
  - discriminate.
  - reflexivity.
  - discriminate.
  - reflexivity.
  - intros e IH E R. cbn [tokens path_tokens seg_tokens pargs_tokens garg_tokens bound_tokens]. rewrite stat_sym, stat_app, IH by assumption. reflexivity.
  - intros p _ E R. cbn [tokens path_tokens seg_tokens pargs_tokens garg_tokens bound_tokens]. apply deanonymize_path_tokens'; assumption.
  - intros q n p IHq _ E R.
    apply existsb_orb in E. destruct E as [E1 E2]. apply andb_prop in R. destruct R as [R1 R2].
    pose proof (deanonymize_path_tokens p E2 R2) as S. destruct p as [b l].
    unfold deanonymize_path in S |- *. cbn [segs leading] in S |- *.
    destruct n as [|n]; cbn [tokens path_tokens seg_tokens pargs_tokens garg_tokens bound_tokens].
    + rewrite stat_sym, stat_app, stat_sym, IHq by assumption. do 3 f_equal.
      rewrite stat_flat, flat_flat by reflexivity.
      clear - S. revert S. generalize (map deanonymize_seg l) as l'.
      induction l as [|s l IH]; intros [|s' l']; cbn; intros S; try discriminate; [reflexivity|].
      injection S as S1 S2. rewrite S1, stat_flat. do 2 f_equal. apply IH. exact S2.
    + rewrite S, !stat_sym, stat_app, stat_sym, IHq by assumption.
      do 3 f_equal. rewrite !stat_app, !stat_sym, !stat_between.
      rewrite !firstn_map, !skipn_map, !map_map. destruct b; reflexivity.
  - intros m e IH E R. cbn [tokens path_tokens seg_tokens pargs_tokens garg_tokens bound_tokens]. rewrite !stat_sym, IH by assumption. reflexivity.
  - intros l m e IH E R. cbn [tokens path_tokens seg_tokens pargs_tokens garg_tokens bound_tokens]. rewrite stat_sym, !stat_app, IH by assumption.
    destruct l as [l|], m; cbn [option_map]; rewrite ?stat_lt; reflexivity.
  - intros e IH E R. cbn [tokens path_tokens seg_tokens pargs_tokens garg_tokens bound_tokens]. rewrite stat_sym, stat_app, IH by assumption. reflexivity.
  - intros d l _ E R. cbn [tokens path_tokens seg_tokens pargs_tokens garg_tokens bound_tokens]. rewrite stat_app, stat_each, !map_map.
    f_equal; [destruct d; reflexivity|].
    apply each_map_ext. apply existsb_false_F in E. apply forallb_true_F in R. revert E R.
    apply Forall_imp2. apply deanonymize_bound_tokens.
  - intros l IH E R. cbn [tokens path_tokens seg_tokens pargs_tokens garg_tokens bound_tokens]. rewrite stat_sym, stat_app, (EACH _ _ _ _ _ _ _ IH E R).
    reflexivity.
  - discriminate.
Qed.
