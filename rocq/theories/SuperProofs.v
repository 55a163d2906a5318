(** * SuperProofs: paths keep their meaning in the generated modules *)

From Coq Require Import List Bool String NArith Arith Lia.
From Verif Require Import Ast AstProofs Rewrite AstSpec RewriteProofs.
Import ListNotations.
Open Scope string_scope.
Open Scope list_scope.

Lemma supers_repeat : forall n l, supers (repeat "super" n ++ l) = n + supers l.
Proof. induction n as [|n IH]; intros l; cbn; [reflexivity|]. rewrite IH. reflexivity. Qed.

Lemma up_down : forall m ns k, up m ns (List.length ns + k) = up m [] k.
Proof.
  intros m ns k. unfold up, here. rewrite app_nil_r, app_length.
  destruct (Nat.leb_spec k (List.length m)) as [L|L].
  - destruct (Nat.leb_spec (List.length ns + k) (List.length m + List.length ns)); [|lia].
    f_equal. replace (List.length m + List.length ns - (List.length ns + k))
      with (List.length m - k) by lia.
    rewrite firstn_app. replace (List.length m - k - List.length m) with 0 by lia.
    cbn. apply app_nil_r.
  - destruct (Nat.leb_spec (List.length ns + k) (List.length m + List.length ns)); [lia|reflexivity].
Qed.

Lemma absolute_seg_id : forall m ns own s, seg_id (absolute_seg m ns own s) = seg_id s.
Proof. intros m ns own [i a]. reflexivity. Qed.

Lemma absolute_segs_ids : forall m ns own l,
  map seg_id (map (absolute_seg m ns own) l) = map seg_id l.
Proof. intros. rewrite map_map. apply map_ext. apply absolute_seg_id. Qed.

Lemma hidden_free : forall ns own i r,
  negb (existsb (String.eqb i) own) = true -> hidden ns own (i :: r) = false.
Proof.
  intros ns own i r H. unfold hidden. destruct ns; [reflexivity|].
  destruct (existsb _ _); [discriminate|reflexivity].
Qed.

Lemma hidden_none : forall own l, hidden [] own l = false.
Proof. reflexivity. Qed.

(** A path that does not begin with [super] needs no change. *)
Lemma resolve_plain : forall m ns own l,
  super_start l = false -> free_start own l = true ->
  resolve m ns own l = resolve m [] own l.
Proof.
  intros m ns own [|i r] S F; [reflexivity|]. cbn in S. cbn [free_start] in F.
  apply andb_prop in F. destruct F as [F1 F2].
  unfold resolve. destruct (i =? "crate"); [reflexivity|]. rewrite S.
  destruct (i =? "self").
  - destruct r as [|j r].
    + cbn. destruct ns; reflexivity.
    + apply andb_prop in F2. destruct F2 as [F2 F3]. cbn [supers].
      destruct (j =? "super"); [discriminate|].
      apply negb_true_iff in F3. unfold hidden. destruct ns; [reflexivity|]. rewrite F3. reflexivity.
  - apply negb_true_iff in F1. unfold hidden. destruct ns; [reflexivity|]. rewrite F1. reflexivity.
Qed.

(** One that does needs as many more as there are modules in between. *)
Lemma resolve_super : forall m ns own l, super_start l = true ->
  resolve m ns own (repeat "super" (List.length ns) ++ l)
  = (fst (resolve m [] own l), List.length ns + snd (resolve m [] own l)).
Proof.
  intros m ns own [|i r] S; [discriminate|]. cbn in S. apply String.eqb_eq in S. subst i.
  assert (H : forall k x, resolve m ns own (repeat "super" k ++ "super" :: x)
                = (up m ns (k + supers ("super" :: x)), k + supers ("super" :: x))).
  { intros k x. rewrite <- supers_repeat. destruct k; reflexivity. }
  rewrite H. rewrite up_down. reflexivity.
Qed.

Lemma map_repeat' : forall A B (f : A -> B) x n, map f (repeat x n) = repeat (f x) n.
Proof. induction n; cbn; congruence. Qed.

Lemma absolute_segs_plain : forall m ns own l,
  super_start (map seg_id l) = false -> free_start own (map seg_id l) = true ->
  absolute_segs m ns own false l = absolute_segs m [] own false l.
Proof. intros. unfold absolute_segs. rewrite (resolve_plain m ns own) by assumption. reflexivity. Qed.

Lemma skipn_repeat : forall A (x : A) n k l, skipn (n + k) (repeat x n ++ l) = skipn k l.
Proof. induction n as [|n IH]; intros; cbn; [reflexivity|apply IH]. Qed.

Lemma absolute_segs_super : forall m ns own l,
  super_start (map seg_id l) = true ->
  absolute_segs m ns own false (repeat (seg_of "super") (List.length ns) ++ l)
  = absolute_segs m [] own false l.
Proof.
  intros m ns own l H. unfold absolute_segs.
  rewrite map_app, map_repeat'. change (seg_id (seg_of "super")) with "super".
  rewrite (resolve_super m ns own _ H). destruct (resolve m [] own (map seg_id l)) as [t k].
  cbn [fst snd]. rewrite skipn_repeat. reflexivity.
Qed.

Lemma starts_ids : forall l, starts_with_super l = super_start (map seg_id l).
Proof. intros [|[i a] l]; reflexivity. Qed.

Lemma on_last_ids : forall f l, (forall s, seg_id (f s) = seg_id s) ->
  map seg_id (on_last f l) = map seg_id l.
Proof.
  intros f l H. induction l as [|x l IH]; [reflexivity|]. destruct l as [|y l]; cbn.
  - rewrite H. reflexivity.
  - f_equal. exact IH.
Qed.

Lemma on_last_length : forall f l, List.length (on_last f l) = List.length l.
Proof.
  intros f l. induction l as [|x l IH]; [reflexivity|]. destruct l as [|y l]; [reflexivity|].
  change (S (List.length (on_last f (y :: l))) = S (List.length (y :: l))). rewrite IH. reflexivity.
Qed.

Section super.
  Context (m ns : modpath) (own : list ident).
  Notation lv := (List.length ns).
  Definition when {A} (top : bool) (f : A -> A) (x : A) : A := if top then f x else x.

  Definition movable_segs (top : bool) :=
    fix go l := match l with
                | [] => true
                | [s] => movable_seg own top s
                | s :: r => movable_seg own false s && go r
                end.

  Lemma movable_segs_map : forall top l,
    Forall (fun s => forall top, movable_seg own top s = true ->
      absolute_seg m ns own (when top (supersuperfy_seg lv) s) = absolute_seg m [] own s) l ->
    movable_segs top l = true ->
    map (absolute_seg m ns own) (when top (on_last (supersuperfy_seg lv)) l)
    = map (absolute_seg m [] own) l.
  Proof.
    intros top l H. induction H as [|s l Hs H IH]; intros M.
    - destruct top; reflexivity.
    - destruct l as [|s' l].
      + cbn [movable_segs] in M. specialize (Hs top M). destruct top; cbn in *; rewrite Hs; reflexivity.
      + change (movable_seg own false s && movable_segs top (s' :: l) = true) in M.
        apply andb_prop in M. destruct M as [M1 M2]. specialize (IH M2).
        specialize (Hs false M1). cbn [when] in Hs.
        destruct top; cbn [when] in *.
        * change (on_last (supersuperfy_seg lv) (s :: s' :: l))
            with (s :: on_last (supersuperfy_seg lv) (s' :: l)).
          cbn [map] in *. rewrite Hs, IH. reflexivity.
        * cbn [map] in *. rewrite Hs, IH. reflexivity.
  Qed.

  (** The paths of a type, after their arguments have been dealt with. *)
  Definition new_segs (top : bool) (l : list seg) : list seg :=
    when top (fun l => add_supers lv (on_last (supersuperfy_seg lv) l)) l.

  Lemma new_segs_length : forall top l,
    List.length (new_segs top l)
    = List.length l + (if top && starts_with_super l then lv else 0).
  Proof.
    intros [|] l; unfold new_segs, when, add_supers; cbn [andb].
    - rewrite !starts_ids, on_last_ids by (intros [i a]; reflexivity).
      destruct (super_start _); rewrite ?app_length, ?repeat_length, on_last_length; lia.
    - lia.
  Qed.

  Lemma ss_seg_id : forall s, seg_id (supersuperfy_seg lv s) = seg_id s.
  Proof. intros [i a]. reflexivity. Qed.

  Lemma new_segs_absolute : forall top b l,
    Forall (fun s => forall top, movable_seg own top s = true ->
      absolute_seg m ns own (when top (supersuperfy_seg lv) s) = absolute_seg m [] own s) l ->
    (if b : bool then negb (super_start (map seg_id l)) else free_start own (map seg_id l)) = true ->
    top || negb (super_start (map seg_id l)) = true ->
    movable_segs top l = true ->
    absolute_segs m ns own b (map (absolute_seg m ns own) (new_segs top l))
    = absolute_segs m [] own b (map (absolute_seg m [] own) l).
  Proof.
    intros top b l H B T M. pose proof (movable_segs_map top l H M) as E.
    assert (IDS : map seg_id (map (absolute_seg m [] own) l) = map seg_id l)
      by apply absolute_segs_ids.
    unfold new_segs. destruct top; cbn [when] in *.
    - unfold add_supers. rewrite starts_ids, on_last_ids by apply ss_seg_id.
      destruct (super_start (map seg_id l)) eqn:S.
      + destruct b; [discriminate|]. rewrite map_app, map_repeat', E.
        apply absolute_segs_super. rewrite IDS. exact S.
      + rewrite E. destruct b; [reflexivity|]. apply absolute_segs_plain; rewrite IDS; assumption.
    - rewrite E. destruct b; [reflexivity|]. cbn in T. apply negb_true_iff in T.
      apply absolute_segs_plain; rewrite IDS; assumption.
  Qed.

  Lemma when_opt : forall A (f : A -> A) top o, when top (option_map f) o = option_map (when top f) o.
  Proof. intros A f [|] [x|]; reflexivity. Qed.

  Lemma opt_all : forall (f h k : ty -> ty) (g : ty -> bool) o,
    optP (fun t => g t = true -> f (h t) = k t) o ->
    match o with None => true | Some t => g t end = true ->
    option_map f (option_map h o) = option_map k o.
  Proof. intros f h k g o [|t H] E; cbn; [reflexivity|]. rewrite H by exact E. reflexivity. Qed.

  Lemma list_all : forall A (f h k : A -> A) (g : A -> bool) l,
    Forall (fun t => g t = true -> f (h t) = k t) l ->
    forallb g l = true -> map f (map h l) = map k l.
  Proof.
    intros A f h k g l H E. rewrite map_map. apply map_ext_F. apply forallb_true_F in E.
    revert H E. apply Forall_imp2. auto.
  Qed.

  Lemma when_map : forall A (f : A -> A) top l, map (when top f) l = when top (map f) l.
  Proof. intros A f [|] l; cbn; [reflexivity|apply map_id]. Qed.

  Lemma when_omap : forall A (f : A -> A) top o, option_map (when top f) o = when top (option_map f) o.
  Proof. intros A f [|] [x|]; reflexivity. Qed.

  Definition seg_moves (s : seg) : Prop :=
    forall top, movable_seg own top s = true ->
      absolute_seg m ns own (when top (supersuperfy_seg lv) s) = absolute_seg m [] own s.

  Lemma path_moves : forall b l top, Forall seg_moves l ->
    movable_path own top (Path b l) = true ->
    absolute_path m ns own (when top (supersuperfy_path lv) (Path b l))
    = absolute_path m [] own (Path b l).
  Proof.
    intros b l top H M.
    change ((if b then negb (super_start (map seg_id l)) else free_start own (map seg_id l))
            && (top || negb (super_start (map seg_id l))) && movable_segs top l = true) in M.
    apply andb_prop in M. destruct M as [M M3]. apply andb_prop in M. destruct M as [M1 M2].
    pose proof (new_segs_absolute top b l H M1 M2 M3) as A. unfold new_segs in A.
    destruct top; cbn [when] in *; cbn [supersuperfy_path absolute_path]; rewrite A; reflexivity.
  Qed.

  Lemma supersuperfy_all :
    (forall t top, movable own top t = true ->
       absolute m ns own (when top (supersuperfy lv) t) = absolute m [] own t) /\
    (forall p, Forall seg_moves (segs p)) /\
    (forall s, seg_moves s) /\
    (forall a top, movable_pargs own top a = true ->
       absolute_pargs m ns own (when top (supersuperfy_pargs lv) a) = absolute_pargs m [] own a) /\
    (forall g top, movable_garg own top g = true ->
       absolute_garg m ns own (when top (supersuperfy_garg lv) g) = absolute_garg m [] own g) /\
    (forall b top, movable_bound own top b = true ->
       absolute_bound m ns own (when top (supersuperfy_bound lv) b) = absolute_bound m [] own b).
  Proof.
    assert (L : forall i top, Forall (fun t => forall top, movable own top t = true ->
                  absolute m ns own (when top (supersuperfy lv) t) = absolute m [] own t) i ->
                forallb (movable own top) i = true ->
                map (absolute m ns own) (when top (map (supersuperfy lv)) i) = map (absolute m [] own) i).
    { intros i top H M. rewrite <- when_map.
      apply (list_all _ _ _ _ (movable own top)); [|exact M]. revert H. apply Forall_impl.
      intros t H. apply H. }
    assert (O : forall o top, optP (fun t => forall top, movable own top t = true ->
                  absolute m ns own (when top (supersuperfy lv) t) = absolute m [] own t) o ->
                match o with None => true | Some t => movable own top t end = true ->
                option_map (absolute m ns own) (when top (option_map (supersuperfy lv)) o)
                = option_map (absolute m [] own) o).
    { intros o top H M. rewrite <- when_omap.
      apply (opt_all _ _ _ (movable own top)); [|exact M]. destruct H; constructor; auto. }
    assert (B : forall l top, Forall (fun b => forall top, movable_bound own top b = true ->
                  absolute_bound m ns own (when top (supersuperfy_bound lv) b) = absolute_bound m [] own b) l ->
                forallb (movable_bound own top) l = true ->
                map (absolute_bound m ns own) (when top (map (supersuperfy_bound lv)) l)
                = map (absolute_bound m [] own) l).
    { intros l top H M. rewrite <- when_map.
      apply (list_all _ _ _ _ (movable_bound own top)); [|exact M]. revert H. apply Forall_impl.
      intros t H. apply H. }
    apply ast_ind.
    - intros e n IH top M. specialize (IH top M).
      destruct top; cbn [when] in *; cbn [supersuperfy absolute]; rewrite IH; reflexivity.
    - intros q b i o IHi IHo top M. apply andb_prop in M. destruct M as [M1 M2].
      pose proof (L i top IHi M1) as E1. pose proof (O o top IHo M2) as E2.
      destruct top; cbn [when] in *; cbn [supersuperfy absolute]; rewrite E1, E2; reflexivity.
    - intros e IH top M. specialize (IH top M).
      destruct top; cbn [when] in *; cbn [supersuperfy absolute]; rewrite IH; reflexivity.
    - intros l IH top M. pose proof (B l false IH M) as E. cbn [when] in E.
      destruct top; cbn [when supersuperfy absolute]; rewrite E; reflexivity.
    - intros [|]; reflexivity.
    - intros s [|]; reflexivity.
    - intros [|]; reflexivity.
    - intros e IH top M. specialize (IH top M).
      destruct top; cbn [when] in *; cbn [supersuperfy absolute]; rewrite IH; reflexivity.
    - intros [b l] IH top M. cbn [movable] in M. pose proof (path_moves b l top IH M) as E.
      destruct top; cbn [when] in *; cbn [supersuperfy absolute]; rewrite E; reflexivity.
    - intros q n [b l] IHq IHl top M. cbn [segs] in IHl.
      destruct n as [|n].
      + change (movable own top q && negb (super_start (map seg_id l)) && movable_segs top l = true) in M.
        apply andb_prop in M. destruct M as [M M3]. apply andb_prop in M. destruct M as [M1 M2].
        specialize (IHq top M1). pose proof (movable_segs_map top l IHl M3) as E.
        destruct top; cbn [when] in *; cbn [supersuperfy absolute].
        * unfold super_added. cbn [segs]. rewrite starts_ids.
          apply negb_true_iff in M2. rewrite M2. cbn [Nat.add supersuperfy_path].
          unfold add_supers. rewrite starts_ids, on_last_ids, M2 by apply ss_seg_id.
          rewrite IHq, E. reflexivity.
        * rewrite IHq, E. reflexivity.
      + cbn [movable] in M. apply andb_prop in M. destruct M as [M1 M].
        change ((if b then negb (super_start (map seg_id l)) else free_start own (map seg_id l))
            && (top || negb (super_start (map seg_id l))) && movable_segs top l = true) in M.
        apply andb_prop in M. destruct M as [M M4]. apply andb_prop in M. destruct M as [M2 M3].
        specialize (IHq top M1).
        pose proof (new_segs_absolute top b l IHl M2 M3 M4) as E.
        pose proof (new_segs_length top l) as N. unfold new_segs in E, N.
        destruct top; cbn [when] in *.
        * cbn [supersuperfy supersuperfy_path Nat.add absolute]. rewrite IHq, E, N.
          unfold super_added. cbn [segs andb] in *.
          f_equal. destruct (starts_with_super l); lia.
        * cbn [absolute]. rewrite IHq, E. reflexivity.
    - intros u e IH top M. specialize (IH top M).
      destruct top; cbn [when] in *; cbn [supersuperfy absolute]; rewrite IH; reflexivity.
    - intros x u e IH top M. specialize (IH top M).
      destruct top; cbn [when] in *; cbn [supersuperfy absolute]; rewrite IH; reflexivity.
    - intros e IH top M. specialize (IH top M).
      destruct top; cbn [when] in *; cbn [supersuperfy absolute]; rewrite IH; reflexivity.
    - intros d l IH top M. pose proof (B l top IH M) as E.
      destruct top; cbn [when] in *; cbn [supersuperfy absolute]; rewrite E; reflexivity.
    - intros l IH top M. pose proof (L l top IH M) as E.
      destruct top; cbn [when] in *; cbn [supersuperfy absolute]; rewrite E; reflexivity.
    - intros s [|]; reflexivity.
    - intros b l H. exact H.
    - intros i a IH top M. specialize (IH top M).
      destruct top; cbn [when] in *; cbn [supersuperfy_seg absolute_seg]; rewrite IH; reflexivity.
    - intros [|]; reflexivity.
    - intros l IH top M.
      assert (E : map (absolute_garg m ns own) (when top (map (supersuperfy_garg lv)) l)
                  = map (absolute_garg m [] own) l).
      { rewrite <- when_map. apply (list_all _ _ _ _ (movable_garg own top)); [|exact M].
        revert IH. apply Forall_impl. intros t H. apply H. }
      destruct top; cbn [when] in *; cbn [supersuperfy_pargs absolute_pargs]; rewrite E; reflexivity.
    - intros i o IHi IHo top M. apply andb_prop in M. destruct M as [M1 M2].
      pose proof (L i top IHi M1) as E1. pose proof (O o top IHo M2) as E2.
      destruct top; cbn [when] in *; cbn [supersuperfy_pargs absolute_pargs]; rewrite E1, E2; reflexivity.
    - intros l [|]; reflexivity.
    - intros t IH top M. specialize (IH top M).
      destruct top; cbn [when] in *; cbn [supersuperfy_garg absolute_garg]; rewrite IH; reflexivity.
    - intros e [|]; reflexivity.
    - intros i t IH top M. specialize (IH top M).
      destruct top; cbn [when] in *; cbn [supersuperfy_garg absolute_garg]; rewrite IH; reflexivity.
    - intros i e [|]; reflexivity.
    - intros i l IH top M. pose proof (B l top IH M) as E.
      destruct top; cbn [when] in *; cbn [supersuperfy_garg absolute_garg]; rewrite E; reflexivity.
    - intros u f [b l] IH top M. pose proof (path_moves b l top IH M) as E.
      destruct top; cbn [when] in *; cbn [supersuperfy_bound absolute_bound]; rewrite E; reflexivity.
    - intros l [|]; reflexivity.
    - intros s [|]; reflexivity.
  Qed.
End super.

Lemma supersuperfy_absolute : forall m ns own t, movable own true t = true ->
  absolute m ns own (supersuperfy (List.length ns) t) = absolute m [] own t.
Proof. intros m ns own t M. apply (proj1 (supersuperfy_all m ns own) t true M). Qed.

Lemma absolute_unmoved : forall m ns own t, movable own false t = true ->
  absolute m ns own t = absolute m [] own t.
Proof. intros m ns own t M. apply (proj1 (supersuperfy_all m ns own) t false M). Qed.

Lemma supersuperfy_bounds_absolute : forall m ns own l,
  forallb (movable_bound own true) l = true ->
  map (absolute_bound m ns own) (map (supersuperfy_bound (List.length ns)) l)
  = map (absolute_bound m [] own) l.
Proof.
  intros m ns own l M. destruct (supersuperfy_all m ns own) as (_ & _ & _ & _ & _ & B).
  apply (list_all _ _ _ _ (movable_bound own true)); [|exact M].
  apply Forall_forall. intros b _ H. apply (B b true H).
Qed.

Lemma supersuperfy_generics_absolute : forall m ns own g, movable_generics own g = true ->
  absolute_generics m ns own (supersuperfy_generics (List.length ns) g)
  = absolute_generics m [] own g.
Proof.
  intros m ns own [lt ps wc] M. unfold movable_generics in M. cbn in M.
  apply andb_prop in M. destruct M as [M1 M2].
  unfold absolute_generics, supersuperfy_generics. cbn [lt_token params where_clause]. f_equal.
  - rewrite map_map. apply map_ext_F. apply forallb_true_F in M1. revert M1. apply Forall_impl.
    intros [l b|i b d|i t d] M; cbn [supersuperfy_param absolute_param].
    + reflexivity.
    + apply andb_prop in M. destruct M as [Mb Md].
      rewrite supersuperfy_bounds_absolute by exact Mb. f_equal.
      destruct d as [d|]; [|reflexivity]. cbn. rewrite supersuperfy_absolute by exact Md. reflexivity.
    + rewrite absolute_unmoved by exact M. reflexivity.
  - destruct wc as [w|]; [|reflexivity]. cbn [option_map]. f_equal. rewrite map_map.
    apply map_ext_F. apply forallb_true_F in M2. revert M2. apply Forall_impl.
    intros [l b|f t b] M; cbn [supersuperfy_pred absolute_pred].
    + reflexivity.
    + apply andb_prop in M. destruct M as [Mt Mb].
      rewrite supersuperfy_absolute, supersuperfy_bounds_absolute by assumption. reflexivity.
Qed.
