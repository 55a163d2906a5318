(** * ClosureProofs: closures in arguments *)

From Coq Require Import List Bool String NArith Arith Lia.
From Verif Require Import Ast AstSpec TyEq Rewrite Derive DeriveSpec AttrProofs.
Import ListNotations.
Open Scope string_scope.
Open Scope list_scope.

Lemma last_is_spec p i :
  last_is p i = true <-> exists lead pre a, p = Path lead (pre ++ [Seg i a]).
Proof.
  unfold last_is, last_ident. destruct p as [lead l]. cbn [segs]. split.
  - destruct (rev l) as [|[j x] r] eqn:E; [discriminate|]. intros H.
    apply String.eqb_eq in H. subst j.
    apply (f_equal (@rev _)) in E. rewrite rev_involutive in E. cbn in E.
    exists lead, (rev r), x. congruence.
  - intros (lead' & pre & x & E). injection E as -> ->. rewrite rev_app_distr. cbn.
    apply String.eqb_refl.
Qed.

Lemma is_fn_bound_spec b : is_fn_bound b = true <-> closure_bound b.
Proof.
  unfold is_fn_bound, closure_bound, closure_trait. destruct b as [m f p| |].
  - rewrite !orb_true_iff, !last_is_spec. split.
    + intros [[(lead & pre & a & ->)|(lead & pre & a & ->)]|(lead & pre & a & ->)];
        repeat eexists; auto.
    + intros (m' & f' & lead & pre & i & a & E & [->|[->| ->]]); injection E as -> -> ->;
        [left; left|left; right|right]; exists lead, pre, a; reflexivity.
  - split; [discriminate|]. intros (m' & f' & lead & pre & i & a & E & _). discriminate.
  - split; [discriminate|]. intros (m' & f' & lead & pre & i & a & E & _). discriminate.
Qed.

Lemma ident_of_ty_spec t i : ident_of_ty t = Some i <-> t = ty_of i /\ keyword i = false.
Proof.
  assert (K : forall j, path_keyword j = keyword j).
  { intros j. unfold path_keyword, keyword. cbn [existsb].
    destruct (j =? "Self"), (j =? "self"), (j =? "super"), (j =? "crate"); reflexivity. }
  unfold ident_of_ty, ty_of, path_of, seg_of. split.
  - destruct t as [| | | | | | | |[[|] [|[j [| |]] [|]]]| | | | | | |]; try discriminate.
    destruct (path_keyword j) eqn:E; [discriminate|]. intros H. injection H as ->.
    rewrite <- K. auto.
  - intros [-> H]. rewrite K, H. reflexivity.
Qed.

Lemma bounded_declared g i l : In (i, l) (bounded_idents g) <-> declared g i l.
Proof.
  unfold bounded_idents, declared, preds. rewrite in_app_iff, in_flat_map.
  split.
  - intros [(p & I & H)|H].
    + left. destruct p as [|j b d|]; try contradiction. destruct H as [H|[]].
      injection H as -> ->. exists d. exact I.
    + right. destruct (where_clause g) as [w|]; [|contradiction].
      apply in_flat_map in H as (p & I & H). destruct p as [|f t b]; [contradiction|].
      destruct (ident_of_ty t) as [j|] eqn:E; [|contradiction]. destruct H as [H|[]].
      injection H as -> ->. apply ident_of_ty_spec in E as [-> E]. exists f. auto.
  - intros [(d & I)|(f & I & K)].
    + left. exists (GpType i l d). split; auto. left. reflexivity.
    + right. destruct (where_clause g) as [w|]; [|contradiction].
      apply in_flat_map. exists (WpType f (ty_of i) l). split; auto.
      assert (E : ident_of_ty (ty_of i) = Some i) by (apply ident_of_ty_spec; auto).
      rewrite E. left. reflexivity.
Qed.

Lemma in_fn_types g k v :
  In (k, v) (fn_types g)
  <-> exists i l b, k = ty_of i /\ v = boxed l /\ declared g i l /\ In b l /\ closure_bound b.
Proof.
  unfold fn_types. rewrite in_flat_map. split.
  - intros ([i l] & I & H). cbn [fst snd] in H. unfold save_fn_types in H.
    apply in_map_iff in H as (b & E & F). injection E as <- <-.
    apply filter_In in F as [F1 F2]. exists i, l, b.
    rewrite is_fn_bound_spec in F2. rewrite bounded_declared in I. auto.
  - intros (i & l & b & -> & -> & D & I & C). exists (i, l).
    split; [apply bounded_declared; exact D|]. cbn [fst snd]. unfold save_fn_types.
    apply in_map_iff. exists b. split; [reflexivity|].
    apply filter_In. rewrite is_fn_bound_spec. auto.
Qed.

Lemma lookup_some {A} (t : ty) (l : list (ty * A)) v : lookup t l = Some v -> In (t, v) l.
Proof.
  induction l as [|[k u] l IH]; cbn; [discriminate|].
  destruct (ty_eqb k t) eqn:E; auto. apply ty_eqb_eq in E. intros H. left. congruence.
Qed.

Lemma lookup_none {A} (t : ty) (l : list (ty * A)) : lookup t l = None -> forall v, ~ In (t, v) l.
Proof.
  induction l as [|[k u] l IH]; cbn; [intros _ v []|].
  destruct (ty_eqb k t) eqn:E; [discriminate|]. intros H v [X|X]; [|eapply IH; eauto].
  injection X as -> ->. assert (ty_eqb t t = true) by (apply ty_eqb_eq; reflexivity). congruence.
Qed.

Lemma has_key_spec {A} (t : ty) (l : list (ty * A)) :
  has_key t l = true <-> In t (map fst l).
Proof.
  unfold has_key. destruct (lookup t l) eqn:E.
  - apply lookup_some in E. split; auto. intros _. change t with (fst (t, a)).
    apply in_map. exact E.
  - split; [discriminate|]. intros H. apply in_map_iff in H as ([k v] & K & I).
    cbn in K. subst k. elim (lookup_none _ _ E _ I).
Qed.

Lemma distinct_keys_spec {A} (l : list (ty * A)) :
  distinct_keys l = true <-> NoDup (map fst l).
Proof.
  induction l as [|[k v] l IH]; cbn; [split; [constructor|auto]|].
  rewrite andb_true_iff, negb_true_iff, IH. split.
  - intros [H N]. constructor; auto. intros I. apply has_key_spec in I. congruence.
  - intros N. inversion N as [|? ? N1 N2]; subst. split; auto.
    destruct (has_key k l) eqn:E; auto. elim N1. apply has_key_spec. exact E.
Qed.

Lemma nodup_functional {A} (l : list (ty * A)) t v w :
  NoDup (map fst l) -> In (t, v) l -> In (t, w) l -> v = w.
Proof.
  induction l as [|[k u] l IH]; cbn; [intros _ []|]. intros N H H'.
  inversion N as [|? ? N1 N2]; subst.
  destruct H as [H|H], H' as [H'|H']; auto; try congruence.
  - injection H as -> ->. elim N1. change t with (fst (t, w)). apply in_map. exact H'.
  - injection H' as -> ->. elim N1. change t with (fst (t, v)). apply in_map. exact H.
Qed.

Lemma ty_of_inj i j : ty_of i = ty_of j -> i = j.
Proof. intros H. injection H as ->. reflexivity. Qed.

Lemma closure_key g i : has_key (ty_of i) (fn_types g) = true <-> closure_param g i.
Proof.
  rewrite has_key_spec, in_map_iff. unfold closure_param. split.
  - intros ([k v] & E & I). cbn in E. subst k.
    apply in_fn_types in I as (j & l & b & E & -> & D & I & C).
    apply ty_of_inj in E. subst j. eauto.
  - intros (l & b & D & I & C). exists (ty_of i, boxed l). split; auto.
    apply in_fn_types. exists i, l, b. auto 8.
Qed.

Lemma closure_lookup g i t :
  distinct_keys (fn_types g) = true ->
  (lookup (ty_of i) (fn_types g) = Some t
   <-> exists l b, t = boxed l /\ declared g i l /\ In b l /\ closure_bound b).
Proof.
  intros N. apply distinct_keys_spec in N. split.
  - intros H. apply lookup_some, in_fn_types in H as (j & l & b & E & -> & R).
    apply ty_of_inj in E. subst j. eauto.
  - intros (l & b & -> & R).
    assert (I : In (ty_of i, boxed l) (fn_types g)) by (apply in_fn_types; exists i, l, b; auto).
    destruct (lookup (ty_of i) (fn_types g)) as [v|] eqn:E.
    + apply lookup_some in E. f_equal. eapply nodup_functional; eauto.
    + elim (lookup_none _ _ E _ I).
Qed.

Lemma other_lookup g t :
  (forall i, t = ty_of i -> ~ closure_param g i) -> lookup t (fn_types g) = None.
Proof.
  intros H. destruct (lookup t (fn_types g)) as [v|] eqn:E; auto.
  apply lookup_some, in_fn_types in E as (i & l & b & -> & _ & R).
  elim (H i eq_refl). exists l, b. exact R.
Qed.

(** ** When the macro panics *)

Lemma nodup_flat_count {A} (dec : forall x y : A, {x = y} + {x <> y}) l :
  ~ NoDup l <-> exists x, 2 <= count_occ dec l x.
Proof.
  rewrite (NoDup_count_occ dec). split.
  - intros H. induction l as [|a l IH].
    + elim H. intros x. cbn. lia.
    + destruct (le_lt_dec 2 (count_occ dec (a :: l) a)) as [L|L]; [exists a; exact L|].
      destruct IH as (x & X).
      * intros K. apply H. intros y. cbn. destruct (dec a y) as [->|N]; [|apply K].
        cbn in L. destruct (dec y y); [lia|contradiction].
      * exists x. cbn. destruct (dec a x); lia.
  - intros (x & X) K. specialize (K x). lia.
Qed.

Definition ty_dec (a b : ty) : {a = b} + {a <> b}.
Proof.
  destruct (ty_eqb a b) eqn:E; [left; apply ty_eqb_eq; exact E|right].
  intros ->. assert (ty_eqb b b = true) by (apply ty_eqb_eq; reflexivity). congruence.
Defined.

(** How often a key occurs: the number of closure bounds of the parameter. *)
Lemma count_occ_app {A} (dec : forall x y : A, {x = y} + {x <> y}) l m x :
  count_occ dec (l ++ m) x = count_occ dec l x + count_occ dec m x.
Proof. induction l as [|a l IH]; cbn; auto. rewrite IH. destruct (dec a x); lia. Qed.

Lemma count_save i j l :
  count_occ ty_dec (map fst (save_fn_types j l)) (ty_of i)
  = if i =? j then List.length (filter is_fn_bound l) else 0.
Proof.
  unfold save_fn_types. rewrite map_map. cbn [fst].
  destruct (i =? j) eqn:E.
  - apply String.eqb_eq in E. subst j. induction (filter is_fn_bound l) as [|b r IH]; auto.
    cbn [map count_occ List.length]. destruct (ty_dec (ty_of i) (ty_of i)); [congruence|contradiction].
  - apply String.eqb_neq in E. induction (filter is_fn_bound l) as [|b r IH]; auto.
    cbn [map count_occ]. destruct (ty_dec (ty_of j) (ty_of i)) as [X|X]; auto.
    apply ty_of_inj in X. congruence.
Qed.

Lemma count_fn_types g i :
  count_occ ty_dec (map fst (fn_types g)) (ty_of i)
  = List.length (filter is_fn_bound (all_bounds g i)).
Proof.
  unfold fn_types, bounded_idents, all_bounds, preds.
  rewrite flat_map_app, map_app, count_occ_app, filter_app, app_length. f_equal.
  - induction (params g) as [|p ps IH]; auto. cbn [flat_map].
    rewrite flat_map_app, map_app, count_occ_app, filter_app, app_length, IH. f_equal.
    destruct p as [|j b d|]; auto. cbn [flat_map fst snd app]. rewrite app_nil_r, count_save.
    destruct (i =? j); reflexivity.
  - destruct (where_clause g) as [w|]; auto.
    induction w as [|p ps IH]; auto. cbn [flat_map].
    rewrite flat_map_app, map_app, count_occ_app, filter_app, app_length, IH. f_equal.
    destruct p as [|f t b]; auto. destruct (ident_of_ty t) as [j|] eqn:E.
    + apply ident_of_ty_spec in E as [-> K]. cbn [flat_map fst snd app ty_of path_of seg_of].
      rewrite app_nil_r, count_save, K. cbn [negb]. rewrite andb_true_r.
      destruct (i =? j); reflexivity.
    + destruct t as [| | | | | | | |[[|] [|[j [| |]] [|]]]| | | | | | |]; auto.
      destruct (keyword j) eqn:K.
      * cbn [negb]. rewrite andb_false_r. reflexivity.
      * assert (ident_of_ty (ty_of j) = Some j) by (apply ident_of_ty_spec; auto).
        unfold ty_of, path_of, seg_of in H. congruence.
Qed.

Lemma two_in_list {A} (f : A -> bool) l :
  2 <= List.length (filter f l)
  <-> exists l1 a l2 b l3, l = l1 ++ a :: l2 ++ b :: l3 /\ f a = true /\ f b = true.
Proof.
  split.
  - intros H.
    assert (one : forall l, 1 <= List.length (filter f l) ->
                  exists l1 a l2, l = l1 ++ a :: l2 /\ f a = true
                                  /\ List.length (filter f l2) = List.length (filter f l) - 1).
    { clear. induction l as [|a l IH]; cbn; [lia|]. destruct (f a) eqn:E.
      - intros _. exists [], a, l. cbn. repeat split; auto. lia.
      - intros H. destruct (IH H) as (l1 & b & l2 & -> & F & C).
        exists (a :: l1), b, l2. auto. }
    destruct (one l) as (l1 & a & m & -> & F & C); [lia|].
    destruct (one m) as (l2 & b & l3 & -> & F' & _); [lia|].
    exists l1, a, l2, b, l3. auto.
  - intros (l1 & a & l2 & b & l3 & -> & F & F').
    rewrite filter_app. cbn [filter]. rewrite F, filter_app. cbn [filter]. rewrite F'.
    rewrite app_length. cbn [List.length]. rewrite app_length. cbn [List.length]. lia.
Qed.

Lemma keys_are_idents g k : In k (map fst (fn_types g)) -> exists i, k = ty_of i.
Proof.
  intros H. apply in_map_iff in H as ([k' v] & <- & I).
  apply in_fn_types in I as (i & _ & _ & -> & _). exists i. reflexivity.
Qed.

Lemma panics_spec g :
  distinct_keys (fn_types g) = false
  <-> exists i, 2 <= List.length (filter is_fn_bound (all_bounds g i)).
Proof.
  split.
  - intros H. assert (N : ~ NoDup (map fst (fn_types g))).
    { intros N. apply distinct_keys_spec in N. congruence. }
    apply (nodup_flat_count ty_dec) in N as (k & K).
    destruct (keys_are_idents g k) as (i & ->).
    { apply (count_occ_In ty_dec). lia. }
    exists i. rewrite <- count_fn_types. exact K.
  - intros (i & I). rewrite <- count_fn_types in I.
    destruct (distinct_keys (fn_types g)) eqn:E; auto.
    apply distinct_keys_spec in E.
    assert (~ NoDup (map fst (fn_types g))) by (apply (nodup_flat_count ty_dec); eauto).
    contradiction.
Qed.

Lemma in_dec_subseq {A} (f : A -> bool) l a : In a (filter f l) <-> In a l /\ f a = true.
Proof. apply filter_In. Qed.

Lemma pat_name_demut p : pat_name (demutify_pat p) = pat_name p.
Proof. destruct p; reflexivity. Qed.
