(** * GenProofs: the parameters of expectations *)

From Coq Require Import List Bool String NArith Arith Lia.
From Verif Require Import Ast AstProofs AstSpec TyEq Rewrite RewriteProofs SuperProofs Derive DeriveSpec
  GenericsProofs ClosureProofs Names Subst Sig MockFn MockFnProofs Item ItemSpec ItemProofs MockItem GenSpec.
Import ListNotations.
Open Scope string_scope.
Open Scope list_scope.

(** ** Names *)

Lemma in_type_names g i : In i (type_names g) <-> In (KType i) (keys g).
Proof.
  unfold type_names, keys. induction (params g) as [|[l b|j b d|j t d] ps IH]; cbn; [tauto|..].
  - rewrite IH. intuition discriminate.
  - rewrite IH. intuition congruence.
  - rewrite IH. intuition discriminate.
Qed.

Lemma in_lifetime_names g l : In l (lifetime_names g) <-> In (KLifetime l) (keys g).
Proof.
  unfold lifetime_names, keys. induction (params g) as [|[m b|j b d|j t d] ps IH]; cbn; [tauto|..].
  - rewrite IH. intuition congruence.
  - rewrite IH. intuition discriminate.
  - rewrite IH. intuition discriminate.
Qed.

Definition no_const (g : generics) : Prop := forall i, ~ In (KConst i) (keys g).

Lemma no_const_cons b p ps w :
  no_const (Generics b (p :: ps) w) ->
  match p with GpConst _ _ _ => False | _ => True end /\ no_const (Generics b ps w).
Proof.
  unfold no_const, keys. cbn. intros H. split.
  - destruct p as [| |j t d]; auto. apply (H j). left. reflexivity.
  - intros i I. apply (H i). right. exact I.
Qed.

Lemma type_args_own g : no_const g -> own_params g (type_args g).
Proof.
  intros N. unfold own_params, lifetime_names, type_names.
  assert (E : angle_args (type_args g)
    = map arg_of_param (filter is_lifetime_param (params g))
      ++ map arg_of_param (filter (fun p => negb (is_lifetime_param p)) (params g))).
  { unfold type_args. destruct (params g); cbn [angle_args]; auto. now rewrite map_app. }
  rewrite E. clear E. destruct (params g) as [|p0 ps0] eqn:P; [reflexivity|].
  assert (N' : no_const (Generics (lt_token g) (p0 :: ps0) None)).
  { intros i I. apply (N i). unfold keys in *. rewrite P. exact I. }
  clear - N'. revert N'. generalize (lt_token g) as b. generalize (p0 :: ps0) as ps. clear p0 ps0.
  intros ps b N. f_equal.
  - induction ps as [|p ps IH]; cbn; auto. apply no_const_cons in N as [N1 N2].
    destruct p; cbn; rewrite IH; auto.
  - induction ps as [|p ps IH]; cbn; auto. apply no_const_cons in N as [N1 N2].
    destruct p; cbn; rewrite ?IH; auto. destruct N1.
Qed.

Lemma static_lifetime_names g :
  lifetime_names (staticize g) = map (fun _ => "static") (lifetime_names g).
Proof.
  unfold lifetime_names, staticize. cbn [params].
  induction (params g) as [|[l b|i b d|i t d] ps IH]; cbn; rewrite ?IH; auto.
Qed.

Lemma static_type_names g : type_names (staticize g) = type_names g.
Proof.
  unfold type_names, staticize. cbn [params].
  induction (params g) as [|[l b|i b d|i t d] ps IH]; cbn; rewrite ?IH; auto.
Qed.

Lemma static_no_const g : no_const g -> no_const (staticize g).
Proof.
  unfold no_const, keys, staticize. cbn [params]. intros N i I. apply (N i).
  clear N. induction (params g) as [|[l b|j b d|j t d] ps IH]; cbn in *; auto;
    destruct I as [I|I]; auto; discriminate.
Qed.

Lemma static_args g : no_const g -> static_params g (type_args (staticize g)).
Proof.
  intros N. assert (H := type_args_own _ (static_no_const _ N)).
  unfold own_params in H. unfold static_params. rewrite H, static_lifetime_names, static_type_names.
  now rewrite map_map.
Qed.

(** ** Merging *)

Lemma in_add_param k l y :
  In k (map key_of (add_param l y)) <-> In k (map key_of l) \/ k = key_of y.
Proof.
  rewrite add_param_keys, in_app_iff.
  destruct (in_dec pkey_dec (key_of y) (map key_of l)) as [I|N]; cbn; [|intuition].
  split; [tauto|]. intros [H|H]; auto. subst. auto.
Qed.

Lemma in_fold_param k ys : forall l,
  In k (map key_of (fold_left add_param ys l)) <-> In k (map key_of l) \/ In k (map key_of ys).
Proof.
  induction ys as [|y ys IH]; intros l; cbn [fold_left map In]; [tauto|].
  rewrite IH, in_add_param. intuition.
Qed.

Lemma in_merged x y k :
  solid x -> solid y -> (In k (keys (merge_generics x y)) <-> In k (keys x) \/ In k (keys y)).
Proof.
  intros Sx Sy. unfold keys, merge_generics, merge_params. cbn [params].
  destruct (is_empty_generics x) eqn:Ex.
  - rewrite (Sx Ex). cbn. tauto.
  - destruct (is_empty_generics y) eqn:Ey.
    + rewrite (Sy Ey). cbn. tauto.
    + cbn [params]. apply in_fold_param.
Qed.

Lemma split_keys g args rt tg a r k :
  bracketed g -> split_lifetimes g args rt = (tg, a, r) ->
  (In k (keys tg) <-> exists i, k = KType i /\ In i (type_names g)).
Proof.
  intros B. unfold split_lifetimes. destruct (lt_token g) eqn:L; cbn [negb].
  - assert (K : In k (map key_of (filter (fun p => match p with GpType _ _ _ => true | _ => false end)
                                       (params g)))
               <-> exists i, k = KType i /\ In i (type_names g)).
    { unfold type_names. split.
      - intros I. apply in_map_iff in I as (p & <- & I). apply filter_In in I as [I T].
        destruct p as [|i b d|]; try discriminate. exists i. split; auto.
        apply in_flat_map. exists (GpType i b d). split; auto. left. reflexivity.
      - intros (i & -> & I). apply in_flat_map in I as (p & I & T).
        destruct p as [|j b d|]; try contradiction. destruct T as [->|[]].
        apply in_map_iff. exists (GpType i b d). split; auto. apply filter_In. auto. }
    destruct (filter _ (params g)) as [|p ps] eqn:F; intros E; injection E as <- _ _;
      unfold keys; cbn [params]; rewrite <- K; reflexivity.
  - intros E. injection E as <- _ _. unfold keys, type_names. rewrite (B L). cbn.
    split; [tauto|]. intros (i & _ & []).
Qed.

Lemma split_no_lifetimes g args rt tg a r :
  bracketed g -> split_lifetimes g args rt = (tg, a, r) ->
  (forall l, In l (lifetime_names g) -> match rt with Some t => ~ In l (find_lifetimes t) | None => True end) ->
  r = [].
Proof.
  intros B. unfold split_lifetimes. destruct (lt_token g) eqn:L; cbn [negb]; intros E H.
  - injection E as _ _ <-. unfold lifetime_names in H.
    induction (params g) as [|[l b|i b d|i t d] ps IH]; cbn; auto.
    rewrite IH by (intros l' I; apply H; cbn; auto).
    destruct (memb l _) eqn:M; auto. exfalso. specialize (H l (or_introl eq_refl)).
    destruct rt as [t|]; [|discriminate]. apply H. unfold memb in M.
    apply existsb_exists in M as (x & X & Y). apply String.eqb_eq in Y. now subst.
  - now injection E as _ _ <-.
Qed.

Lemma lifetimes_keys l k :
  In k (keys (lifetimes_to_generics l)) <-> exists x, In x l /\ k = KLifetime (fst x).
Proof.
  unfold keys, lifetimes_to_generics. destruct l as [|x l].
  - cbn. split; [tauto|]. intros (y & [] & _).
  - cbn [params]. rewrite map_map, in_map_iff. cbn [key_of].
    split; intros (y & H1 & H2); exists y; split; auto.
Qed.

(** ** Lifetimes of moved and stored types *)

Section found.
  Context (l : lifetime).
  Notation k := (TkLt l).

  Ltac tk := cbn [tokens path_tokens seg_tokens pargs_tokens garg_tokens bound_tokens].
  Ltac simp := repeat progress (cbn [In]; rewrite ?in_app_iff, ?in_each, ?in_between, ?exists_map).

  Lemma found_each {A} (find : A -> list lifetime) (tok : A -> list token) L :
    Forall (fun x => In l (find x) -> In k (tok x)) L ->
    In l (flat_map find L) -> Exists (fun x => In k (tok x)) L.
  Proof.
    intros H I. apply in_flat_map in I as (x & I & J). rewrite Forall_forall in H.
    apply Exists_exists. exists x. auto.
  Qed.

  (** What [find_lifetimes] finds is in the text, for all types. *)
  Lemma found_sound :
    (forall t, In l (find_lifetimes t) -> In k (tokens t)) /\
    (forall p, In l (find_lifetimes_in_path p) -> Exists (fun s => In k (seg_tokens s)) (segs p)) /\
    (forall s, In l (find_lifetimes_in_seg s) -> In k (seg_tokens s)) /\
    (forall a, In l (find_lifetimes_in_pargs a) -> In k (pargs_tokens a)) /\
    (forall g, In l (find_lifetimes_in_garg g) -> In k (garg_tokens g)) /\
    (forall b, In l (find_lifetimes_in_tpb b) -> In k (bound_tokens b)).
  Proof.
    apply ast_ind;
      cbn [find_lifetimes find_lifetimes_in_path find_lifetimes_in_seg
           find_lifetimes_in_pargs find_lifetimes_in_garg find_lifetimes_in_tpb]; intros; tk;
      try contradiction.
    all: try (simp; auto 8; fail).
    all: try (match goal with
              | H : Forall _ ?L, H0 : In l (flat_map _ ?L) |- _ =>
                  assert (X := found_each _ _ _ H H0)
              end; cbn [segs]; simp; auto 8; fail).
    all: try (destruct p as [c s]; cbn [segs] in *; tk; simp; auto 8; fail).
    all: try (destruct H as [H|[]]; subst; left; reflexivity).
    - destruct p as [b s]. cbn [segs] in H0. apply in_app_iff in H1.
      destruct n.
      + cbn [In]. right. rewrite in_app_iff. destruct H1 as [H1|H1]; auto.
        right. right. apply in_flat_map. specialize (H0 H1). apply Exists_exists in H0 as (x & X & Y).
        exists x. split; auto. right. exact Y.
      + simp. right. destruct H1 as [H1|H1]; auto. right. right. right.
        specialize (H0 H1). rewrite firstn_map, skipn_map, !exists_map.
        apply (exists_split _ (S n)) in H0. destruct H0; auto.
    - simp. rewrite in_app_iff in H0. destruct H0 as [H0|H0]; auto.
      destruct l0; cbn in H0; [|contradiction]. destruct H0 as [->|[]]. cbn. auto.
  Qed.
End found.

Lemma flat_map_id {A B} (f : A -> list B) (h : A -> A) L :
  Forall (fun x => f (h x) = f x) L -> flat_map f (map h L) = flat_map f L.
Proof. induction 1 as [|x L H _ IH]; cbn; auto. now rewrite H, IH. Qed.

Lemma moved_lifetimes n :
  (forall t, find_lifetimes (supersuperfy n t) = find_lifetimes t) /\
  (forall p, find_lifetimes_in_path (supersuperfy_path n p) = find_lifetimes_in_path p) /\
  (forall s, find_lifetimes_in_seg (supersuperfy_seg n s) = find_lifetimes_in_seg s) /\
  (forall a, find_lifetimes_in_pargs (supersuperfy_pargs n a) = find_lifetimes_in_pargs a) /\
  (forall g, find_lifetimes_in_garg (supersuperfy_garg n g) = find_lifetimes_in_garg g) /\
  (forall b, find_lifetimes_in_tpb (supersuperfy_bound n b) = find_lifetimes_in_tpb b).
Proof.
  apply ast_ind;
    cbn [find_lifetimes find_lifetimes_in_path find_lifetimes_in_seg find_lifetimes_in_pargs
         find_lifetimes_in_garg find_lifetimes_in_tpb supersuperfy supersuperfy_path supersuperfy_seg
         supersuperfy_pargs supersuperfy_garg supersuperfy_bound]; intros; auto;
    try (apply flat_map_id; assumption).
  - now rewrite H, H0.
  - now rewrite H.
  - assert (E : flat_map find_lifetimes_in_seg (on_last (supersuperfy_seg n) l)
                = flat_map find_lifetimes_in_seg l).
    { induction H as [|s l H _ IH]; auto. destruct l as [|s' l]; cbn [on_last flat_map].
      - now rewrite H.
      - cbn [on_last flat_map] in IH. rewrite IH. reflexivity. }
    unfold add_supers. destruct (starts_with_super _); auto.
    rewrite flat_map_app, E.
    assert (R : forall k, flat_map find_lifetimes_in_seg (repeat (seg_of "super") k) = []).
    { clear. induction k; cbn; auto. }
    now rewrite R.
Qed.

Lemma owned_lifetimes l n o :
  In l (find_lifetimes (ownify (fst (output_of n o)))) ->
  match o with Some t => In l (find_lifetimes t) | None => False end.
Proof.
  destruct o as [t|]; [|intros []]. cbn [output_of].
  rewrite <- (proj1 (moved_lifetimes n) t). generalize (supersuperfy n t) as u. clear t. intros u.
  assert (D : forall u, In l (find_lifetimes (destrify u)) -> In l (find_lifetimes u)).
  { intros [| | | | | | | | | | |lt m e| | | |]; auto. cbn [destrify].
    destruct (is_static_lt lt); auto. cbn [find_lifetimes]. rewrite !in_app_iff.
    intros [I|I]; auto. left.
    destruct e as [| | | | | | | |[[] [|[i []] [|]]]| | | |x| | |]; auto;
      try (cbn [find_lifetimes] in I |- *; 
           repeat match goal with
                  | H : context [if ?b then _ else _] |- _ => destruct b
                  end; auto; cbn in I; contradiction).
    cbn in I. rewrite !app_nil_r in I. exact I. }
  intros I. apply D. revert I. generalize (destrify u) as v. clear. intros v.
  destruct v as [| | | | | | | | | | |lt m e| | | |]; auto.
  destruct e as [| | | | | | | | | | | | |d b| |]; cbn [dedynify fst ownify];
    try (destruct (is_static_lt lt); cbn [find_lifetimes]; rewrite ?in_app_iff; auto; fail).
  destruct (is_static_lt lt) eqn:S; cbn [fst ownify]; rewrite S; cbn [find_lifetimes]; auto.
  rewrite in_app_iff. cbn. rewrite !app_nil_r. auto.
Qed.

(** ** What [build] makes *)

Lemma moved_keys n g : keys (supersuperfy_generics n g) = keys g.
Proof.
  unfold keys. cbn [supersuperfy_generics params]. rewrite map_map.
  apply map_ext. intros []; reflexivity.
Qed.

Lemma moved_type_names n g i : In i (type_names (supersuperfy_generics n g)) <-> In i (type_names g).
Proof. rewrite !in_type_names, moved_keys. reflexivity. Qed.

Lemma moved_lifetime_names n g i :
  In i (lifetime_names (supersuperfy_generics n g)) <-> In i (lifetime_names g).
Proof. rewrite !in_lifetime_names, moved_keys. reflexivity. Qed.

Lemma declosured_type_names g i :
  In i (type_names (declosured_generics g)) <-> In i (type_names g) /\ ~ closure_param g i.
Proof.
  unfold type_names. cbn [declosured_generics params]. rewrite !in_flat_map. split.
  - intros (p & I & T). apply filter_In in I as [I K].
    destruct p as [|j b d|]; try contradiction. destruct T as [->|[]]. split.
    + exists (GpType i b d). split; auto. left. reflexivity.
    + intros C. apply closure_key in C. rewrite C in K. discriminate.
  - intros [(p & I & T) C]. destruct p as [|j b d|]; try contradiction. destruct T as [->|[]].
    exists (GpType i b d). split; [|left; reflexivity]. apply filter_In. split; auto.
    destruct (has_key (ty_of i) (fn_types g)) eqn:K; auto. elim C. apply closure_key. exact K.
Qed.

Lemma declosured_lifetime_names g i :
  In i (lifetime_names (declosured_generics g)) <-> In i (lifetime_names g).
Proof.
  unfold lifetime_names. cbn [declosured_generics params]. rewrite !in_flat_map. split.
  - intros (p & I & T). apply filter_In in I as [I K]. exists p. auto.
  - intros (p & I & T). destruct p as [l b| |]; try contradiction.
    exists (GpLifetime l b). split; auto. apply filter_In. auto.
Qed.

Lemma prepared_names b dg di ce sig :
  prepared b = Some (dg, di, ce, sig) ->
  (forall i, In i (type_names dg)
     <-> In i (type_names (sg_generics (b_sig b))) /\ ~ closure_param (sg_generics (b_sig b)) i
         /\ existsb is_concretize (b_attrs b) = false)
  /\ (forall l, In l (lifetime_names dg) -> In l (lifetime_names (sg_generics (b_sig b)))).
Proof.
  unfold prepared. change (b_concretize b) with (existsb is_concretize (b_attrs b)).
  destruct (existsb is_concretize (b_attrs b)).
  - cbn [concretize_args]. intros E. injection E as <- _ _ _. split; cbn.
    + intros i. split; [tauto|]. intros (_ & _ & H). discriminate.
    + tauto.
  - destruct (declosurefy _ _) as [[[g' i'] c']|] eqn:D; [|discriminate].
    unfold declosurefy in D. destruct (distinct_keys _); [|discriminate].
    injection D as <- <- <-. intros E. injection E as <- _ _ _. split.
    + intros i. rewrite declosured_type_names. tauto.
    + intros l. apply declosured_lifetime_names.
Qed.

(** The generics of a function. *)
Record typing (b : builder) (f : mock_function) : Prop := Typing {
  ty_const : no_const (mf_egenerics f);
  ty_sgenerics : mf_struct_generics f
    = match b_struct_generics b with Some g => g | None => no_generics end;
  ty_names : forall i, In i (type_names (mf_egenerics f))
    <-> In i (type_names (mf_type_generics f)) \/ In i (type_names (mf_call_generics f));
  ty_own : no_const (mf_type_generics f)
    /\ forall i, In i (type_names (mf_type_generics f)) <-> In i (type_names (mf_struct_generics f));
  ty_call : forall i, In i (type_names (mf_call_generics f))
    <-> In i (type_names (sg_generics (b_sig b))) /\ ~ closure_param (sg_generics (b_sig b)) i
        /\ existsb is_concretize (b_attrs b) = false;
  ty_plain : is_method_generic f = false -> params (mf_call_generics f) = [];
  ty_lifetimes :
    lifetime_names (mf_struct_generics f) = [] ->
    (forall l t, In l (lifetime_names (sg_generics (b_sig b))) ->
       sg_output (b_sig b) = Some t -> ~ mentions l t) ->
    lifetime_names (mf_egenerics f) = []
}.

Lemma keys_types g :
  (forall k, In k (keys g) -> exists i, k = KType i) -> has_type_params g = false -> params g = [].
Proof.
  unfold has_type_params, keys. destruct (params g) as [|p ps]; auto. intros H E.
  destruct (H (key_of p) (or_introl eq_refl)) as [i I]. destruct p; discriminate.
Qed.

Lemma build_typing b f :
  build b = Some f -> bracketed (sg_generics (b_sig b)) ->
  match b_struct_generics b with Some g => bracketed g | None => True end ->
  typing b f.
Proof.
  intros H B BS. apply build_built in H as (dg & di & ce & sig & BT).
  destruct (bt_generics _ _ _ _ _ _ BT) as (sa & sr & ma & mr & S1 & S2 & C & E & _).
  assert (P := bt_prepared _ _ _ _ _ _ BT).
  destruct (prepared_sig _ _ _ _ _ P) as (_ & _ & PB). specialize (PB B).
  destruct (prepared_names _ _ _ _ _ P) as [PN PL].
  assert (SG := bt_sgenerics _ _ _ _ _ _ BT).
  assert (BSG : bracketed (mf_struct_generics f)).
  { rewrite SG. destruct (b_struct_generics b); auto. intros _. reflexivity. }
  assert (BM := super_bracketed (b_levels b) _ PB).
  assert (K1 := fun k => split_keys _ _ _ _ _ _ k BSG S1).
  assert (K2 := fun k => split_keys _ _ _ _ _ _ k BM S2).
  assert (SO1 := split_solid _ _ _ _ _ _ BSG S1).
  assert (SO2 := split_solid _ _ _ _ _ _ BM S2).
  assert (SC : solid (mf_cgenerics f)) by (rewrite C; apply merge_generic; auto).
  assert (SE : solid (merge_generics (mf_cgenerics f) (lifetimes_to_generics sr)))
    by (apply merge_generic; auto; apply lifetimes_solid).
  assert (KE : forall k, In k (keys (mf_egenerics f))
    <-> In k (keys (mf_type_generics f)) \/ In k (keys (mf_call_generics f))
        \/ (exists x, In x sr /\ k = KLifetime (fst x)) \/ (exists x, In x mr /\ k = KLifetime (fst x))).
  { intros k. rewrite E, !in_merged, C, in_merged, !lifetimes_keys; auto using lifetimes_solid; tauto. }
  constructor; auto.
  - intros i I. apply KE in I as [I|[I|[(x & _ & I)|(x & _ & I)]]]; try discriminate.
    + apply K1 in I as (j & J & _). discriminate.
    + apply K2 in I as (j & J & _). discriminate.
  - intros i. rewrite !in_type_names, KE. split; [|tauto].
    intros [I|[I|[(x & _ & I)|(x & _ & I)]]]; auto; discriminate.
  - split.
    + intros i I. apply K1 in I as (j & J & _). discriminate.
    + intros i. rewrite in_type_names, K1. split; [|eauto]. intros (j & J & I). congruence.
  - intros i. rewrite in_type_names, K2. rewrite <- PN. split.
    + intros (j & J & I). apply moved_type_names in I. congruence.
    + intros I. exists i. split; auto. apply moved_type_names. exact I.
  - intros G. unfold is_method_generic in G. apply orb_false_iff in G as [G _].
    apply keys_types; auto. intros k I. apply K2 in I as (j & -> & _). eauto.
  - intros L M.
    assert (OU : mf_owned_output f = ownify (fst (output_of (b_levels b) (sg_output (b_sig b))))).
    { rewrite (bt_owned _ _ _ _ _ _ BT). f_equal.
      assert (O := bt_output _ _ _ _ _ _ BT). now rewrite <- O. }
    assert (R1 : sr = []).
    { eapply split_no_lifetimes; [exact BSG|exact S1|]. rewrite L. intros l []. }
    assert (R2 : mr = []).
    { eapply split_no_lifetimes; [exact BM|exact S2|]. intros l I F.
      apply moved_lifetime_names, PL in I. rewrite OU in F. apply owned_lifetimes in F.
      destruct (sg_output (b_sig b)) as [t|] eqn:T; [|exact F].
      apply (M l t I eq_refl). apply (proj1 (found_sound l)). exact F. }
    subst. destruct (lifetime_names (mf_egenerics f)) as [|l ls] eqn:N; auto. exfalso.
    assert (I : In l (lifetime_names (mf_egenerics f))) by (rewrite N; left; reflexivity).
    apply in_lifetime_names, KE in I as [I|[I|[(x & [] & _)|(x & [] & _)]]].
    + apply K1 in I as (j & J & _). discriminate.
    + apply K2 in I as (j & J & _). discriminate.
Qed.

(** A plain method: the parameters are those of the struct, in order. *)
Lemma prepared_where b dg di ce sig :
  prepared b = Some (dg, di, ce, sig) ->
  where_clause (sg_generics (b_sig b)) = None -> where_clause dg = None.
Proof.
  unfold prepared. destruct (b_concretize b).
  - cbn [concretize_args]. intros E _. now injection E as <- _ _ _.
  - destruct (declosurefy _ _) as [[[g' i'] c']|] eqn:D; [|discriminate].
    unfold declosurefy in D. destruct (distinct_keys _); [|discriminate].
    injection D as <- <- <-. intros E W. injection E as <- _ _ _.
    cbn [declosured_generics where_clause]. now rewrite W.
Qed.

Lemma split_where g args rt tg a r :
  split_lifetimes g args rt = (tg, a, r) -> where_clause g = None -> where_clause tg = None.
Proof.
  unfold split_lifetimes. destruct (lt_token g); cbn.
  - destruct (filter _ _); intros E W; injection E as <- _ _; auto.
  - intros E W. now injection E as <- _ _.
Qed.

Lemma split_type_names g args rt tg a r :
  bracketed g -> split_lifetimes g args rt = (tg, a, r) -> type_names tg = type_names g.
Proof.
  intros B. unfold split_lifetimes. destruct (lt_token g) eqn:L; cbn.
  - assert (K : flat_map (fun p => match p with GpType i _ _ => [i] | _ => [] end)
                  (filter (fun p => match p with GpType _ _ _ => true | _ => false end) (params g))
                = type_names g).
    { unfold type_names. induction (params g) as [|[l b|i b d|i t d] ps IH]; cbn; auto. now rewrite IH. }
    destruct (filter _ _) as [|p ps] eqn:F; intros E; injection E as <- _ _; exact K.
  - intros E. now injection E as <- _ _.
Qed.

Lemma merge_lifetimes_types x l :
  solid x -> type_names (merge_generics x (lifetimes_to_generics l)) = type_names x.
Proof.
  intros S. unfold merge_generics, merge_params, type_names. cbn [params].
  assert (N : type_names (lifetimes_to_generics l) = []).
  { destruct l as [|y l]; auto. unfold type_names. cbn [lifetimes_to_generics params].
    induction (y :: l) as [|z k IH]; cbn; auto. }
  destruct (is_empty_generics x) eqn:E.
  - rewrite (S E). cbn. exact N.
  - destruct (is_empty_generics (lifetimes_to_generics l)); auto. cbn [params].
    clear N. destruct l as [|y l]; auto. cbn [lifetimes_to_generics params].
    generalize (params x) as ps. induction (y :: l) as [|z k IH]; intros ps; cbn [map fold_left]; auto.
    rewrite IH. clear. induction ps as [|p ps IH]; [reflexivity|]. cbn [add_param].
    destruct (cmp_gp_idents p (GpLifetime (fst z) (snd z))) eqn:C.
    + destruct p; cbn in C |- *; try discriminate. reflexivity.
    + cbn [flat_map]. now rewrite IH.
Qed.

Lemma plain_names b f :
  build b = Some f -> bracketed (sg_generics (b_sig b)) ->
  match b_struct_generics b with Some g => bracketed g | None => True end ->
  is_method_generic f = false ->
  type_names (mf_egenerics f) = type_names (mf_struct_generics f).
Proof.
  intros H B BS G. assert (T := build_typing _ _ H B BS).
  apply build_built in H as (dg & di & ce & sig & BT).
  destruct (bt_generics _ _ _ _ _ _ BT) as (sa & sr & ma & mr & S1 & S2 & C & E & _).
  assert (P := bt_prepared _ _ _ _ _ _ BT).
  destruct (prepared_sig _ _ _ _ _ P) as (_ & _ & PB). specialize (PB B).
  assert (BSG : bracketed (mf_struct_generics f)).
  { rewrite (ty_sgenerics _ _ T). destruct (b_struct_generics b); auto. intros _. reflexivity. }
  assert (BM := super_bracketed (b_levels b) _ PB).
  assert (SO1 := split_solid _ _ _ _ _ _ BSG S1).
  assert (SO2 := split_solid _ _ _ _ _ _ BM S2).
  assert (SC : solid (mf_cgenerics f)) by (rewrite C; apply merge_generic; auto).
  rewrite E, !merge_lifetimes_types; auto.
  2: { apply merge_generic; auto using lifetimes_solid. }
  rewrite <- (split_type_names _ _ _ _ _ _ BSG S1), C.
  assert (PE := ty_plain _ _ T G). unfold merge_generics, merge_params, type_names. cbn [params].
  destruct (is_empty_generics (mf_type_generics f)) eqn:X.
  - rewrite PE, (SO1 X). reflexivity.
  - destruct (is_empty_generics (mf_call_generics f)); cbn [params]; rewrite ?PE; reflexivity.
Qed.

Lemma plain_not_generic b f :
  build b = Some f -> bracketed (sg_generics (b_sig b)) ->
  match b_struct_generics b with Some g => bracketed g | None => True end ->
  type_names (sg_generics (b_sig b)) = [] -> where_clause (sg_generics (b_sig b)) = None ->
  is_method_generic f = false.
Proof.
  intros H B BS N W. assert (T := build_typing _ _ H B BS).
  apply build_built in H as (dg & di & ce & sig & BT).
  destruct (bt_generics _ _ _ _ _ _ BT) as (sa & sr & ma & mr & S1 & S2 & C & E & _).
  unfold is_method_generic, has_where.
  assert (W1 := prepared_where _ _ _ _ _ (bt_prepared _ _ _ _ _ _ BT) W).
  rewrite (split_where _ _ _ _ _ _ S2) by (cbn; now rewrite W1). rewrite orb_false_r.
  destruct (has_type_params (mf_call_generics f)) eqn:X; auto. exfalso.
  unfold has_type_params in X. apply existsb_exists in X as (p & I & J).
  destruct p as [|i b0 d|]; try discriminate.
  assert (I' : In i (type_names (mf_call_generics f))).
  { unfold type_names. apply in_flat_map. exists (GpType i b0 d). split; auto. left. reflexivity. }
  apply (ty_call _ _ T) in I' as (I' & _). rewrite N in I'. destruct I'.
Qed.

(** ** The pieces of a function *)

Lemma own_empty g a : own_params g a -> lifetime_names g = [] -> static_params g a.
Proof. unfold own_params, static_params. intros -> ->. reflexivity. Qed.

Lemma no_params_args g : params g = [] -> angle_args (type_args g) = [].
Proof. unfold type_args. intros ->. reflexivity. Qed.

Lemma keys_none g :
  no_const g -> lifetime_names g = [] -> has_type_params g = false -> params g = [].
Proof.
  unfold no_const, lifetime_names, has_type_params, keys.
  destruct (params g) as [|[l b|i b d|i t d] ps]; auto; cbn; intros N L T; try discriminate.
  elim (N i). left. reflexivity.
Qed.

Record pieces (m : mockable_struct) (x : fn_item) (f : mock_function) : Prop := Pieces {
  pi_module : typed_module (ms_generics m) x (priv_module f);
  pi_call : plain_method x \/ documented m x -> forall md, typed_call (priv_module f) (call_fn f (Some md));
  pi_field : has_self x = true -> forall md, typed_field md (priv_module f) (field_definition f md);
  pi_expect : has_self x = true -> plain_method x \/ documented m x ->
    forall md, typed_expect md (priv_module f) (expect_fn f md None);
  pi_impl_expect : has_self x = true -> plain_method x \/ documented m x ->
    forall md s ts,
      lifetime_names (ms_generics m) = [] -> NoDup (type_names (ms_generics m)) ->
      angle_args (seg_args s) = map GaType ts ->
      seg_args s = PaNone \/ List.length ts = List.length (type_names (ms_generics m)) ->
      typed_impl_expect (ms_generics m) s md (priv_module f)
        (expect_fn f md (if is_method_generic f then None else Some (seg_args s)));
  pi_context : has_self x = false -> forall md,
    typed_context md (priv_module f) (context_fn f (Some md))
}.

Lemma instance_name s i : instance s (ty_of i) = s i.
Proof. reflexivity. Qed.

Lemma binding_skip n ns a r i : n <> i -> binding (n :: ns) (GaType a :: r) i = binding ns r i.
Proof. intros H. cbn. destruct (n =? i) eqn:E; auto. apply String.eqb_eq in E. contradiction. Qed.

Lemma binding_all names : forall ts,
  NoDup names -> List.length ts = List.length names ->
  map (binding names (map GaType ts)) names = ts.
Proof.
  induction names as [|n ns IH]; intros [|t ts] N L; try discriminate; auto.
  inversion N as [|? ? N1 N2]; subst. cbn [map]. f_equal.
  - cbn. now rewrite String.eqb_refl.
  - rewrite <- (IH ts) at 2 by (auto; now injection L). apply map_ext_in. intros i I.
    apply binding_skip. intros ->. contradiction.
Qed.

Lemma binding_none names i : binding names [] i = ty_of i.
Proof. destruct names; reflexivity. Qed.

Lemma make_pieces m x f b :
  build b = Some f -> b_sig b = fi_sig x -> b_attrs b = fi_attrs x ->
  b_struct_generics b = Some (ms_generics m) ->
  bracketed (sg_generics (fi_sig x)) -> bracketed (ms_generics m) ->
  mf_is_static f = negb (has_self x) ->
  pieces m x f.
Proof.
  intros H E1 E2 E3 B BS SS.
  assert (T : typing b f) by (apply build_typing; auto; rewrite ?E1, ?E3; auto).
  assert (SG : mf_struct_generics f = ms_generics m) by (rewrite (ty_sgenerics _ _ T), E3; auto).
  assert (PN : is_method_generic f = false -> type_names (mf_egenerics f) = type_names (ms_generics m)).
  { intros G. rewrite <- SG. eapply plain_names; eauto; rewrite ?E1, ?E3; auto. }
  assert (PG : plain_method x -> is_method_generic f = false).
  { intros (_ & N & W). eapply plain_not_generic; eauto; rewrite ?E1, ?E3; auto. }
  assert (ME : is_method_generic f = true -> is_expectation_generic f = true).
  { eapply method_generic_expectation; eauto. now rewrite E1. }
  assert (DL : documented m x -> lifetime_names (mf_egenerics f) = []).
  { intros [D1 D2]. apply (ty_lifetimes _ _ T); [now rewrite SG|]. rewrite E1. exact D2. }
  assert (OB : has_self x = true ->
    gp_generic (priv_module f) = None <-> is_method_generic f = false).
  { intros S. cbn [priv_module gp_generic]. unfold generic_part. rewrite SS, S. cbn [negb orb].
    destruct (is_method_generic f) eqn:G; [rewrite (ME eq_refl)|rewrite andb_false_r]; cbn;
      split; auto; discriminate. }
  constructor.
  - intros i. cbn [priv_module gp_generics]. rewrite (ty_names _ _ T), (ty_call _ _ T), E1, E2.
    rewrite (proj2 (ty_own _ _ T)), SG. unfold chosen. tauto.
  - intros D md. unfold typed_call.
    destruct (has_self x) eqn:S.
    + destruct (is_method_generic f) eqn:G.
      * destruct (gp_generic (priv_module f)) eqn:GP; [|destruct (OB eq_refl) as [X _]; specialize (X eq_refl); discriminate].
        cbn [call_fn gc_turbofish priv_module gp_generics]. rewrite G. apply type_args_own, (ty_const _ _ T).
      * rewrite (proj2 (OB eq_refl) eq_refl). cbn [call_fn gc_turbofish]. rewrite G, SS. cbn [negb orb].
        apply no_params_args, (ty_plain _ _ T G).
    + cbn [priv_module gp_generic call_fn gc_turbofish gp_generics]. unfold generic_part. rewrite SS, orb_true_r. cbn [negb orb].
      rewrite andb_true_r. destruct (is_expectation_generic f) eqn:EG.
      * apply type_args_own, (ty_const _ _ T).
      * destruct D as [(D & _)|D]; [congruence|]. apply no_params_args.
        unfold is_expectation_generic in EG. apply orb_false_iff in EG as [EG _].
        apply keys_none; auto. apply (ty_const _ _ T).
  - intros S md. unfold typed_field. destruct (gp_generic (priv_module f)) eqn:GP.
    + assert (G : is_method_generic f = true).
      { destruct (is_method_generic f) eqn:G; auto. discriminate (proj2 (OB S) eq_refl). }
      cbn [field_definition gf_ty]. now rewrite G.
    + clear GP. assert (GP := proj1 (OB S) eq_refl). cbn [field_definition gf_ty]. rewrite GP. eexists. split; [reflexivity|].
      cbn [priv_module gp_generics]. apply static_args, (ty_const _ _ T).
  - intros S D md. split; [reflexivity|]. destruct (gp_generic (priv_module f)) eqn:GP.
    + assert (G : is_method_generic f = true).
      { destruct (is_method_generic f) eqn:G; auto. discriminate (proj2 (OB S) eq_refl). }
      assert (L : lifetime_names (mf_egenerics f) = []).
      { destruct D as [D|D]; auto. rewrite (PG D) in G. discriminate. }
      cbn [expect_fn ge_turbofish ge_args priv_module gp_generics expectation_args]. rewrite G. split.
      * apply type_args_own, (ty_const _ _ T).
      * assert (X := static_args _ (ty_const _ _ T)). unfold static_params in X. unfold own_params.
        rewrite X, L. reflexivity.
    + clear GP. assert (GP := proj1 (OB S) eq_refl). cbn [expect_fn ge_turbofish ge_args priv_module gp_generics expectation_args].
      rewrite GP. split; [apply no_params_args, (ty_plain _ _ T GP)|apply static_args, (ty_const _ _ T)].
  - intros S D md s ts L ND EA EL. split; [reflexivity|]. destruct (gp_generic (priv_module f)) eqn:GP.
    + assert (G : is_method_generic f = true).
      { destruct (is_method_generic f) eqn:G; auto. discriminate (proj2 (OB S) eq_refl). }
      assert (LE : lifetime_names (mf_egenerics f) = []).
      { destruct D as [D|D]; auto. rewrite (PG D) in G. discriminate. }
      cbn [expect_fn ge_turbofish ge_args priv_module gp_generics expectation_args]. rewrite G. split.
      * apply type_args_own, (ty_const _ _ T).
      * cbn [expectation_args].
        assert (X := static_args _ (ty_const _ _ T)). unfold static_params in X. unfold own_params.
        rewrite X, LE. reflexivity.
    + clear GP. assert (GP := proj1 (OB S) eq_refl). cbn [expect_fn ge_turbofish ge_args priv_module gp_generics].
      rewrite GP. split; [apply no_params_args, (ty_plain _ _ T GP)|].
      intros a A. unfold static_params in A. rewrite A, map_app, !map_map. cbn [arg_instance].
      assert (X := static_args _ (ty_const _ _ T)). unfold static_params in X.
      rewrite (PN GP) in *. unfold expectation_args.
      destruct (seg_args s) as [|l|i o] eqn:SA; cbn [angle_args] in *.
      * rewrite X. f_equal. apply map_ext. intros i. rewrite instance_name. now rewrite binding_none.
      * f_equal. destruct EL as [EL|EL]; [discriminate|]. rewrite EA.
        transitivity (map GaType (map (binding (type_names (ms_generics m)) (map GaType ts))
                                      (type_names (ms_generics m)))).
        { now rewrite binding_all. }
        rewrite map_map. reflexivity.
      * rewrite X. f_equal. apply map_ext. intros j. rewrite instance_name. now rewrite binding_none.
  - intros S md. split; [reflexivity|]. cbn [priv_module gp_context context_fn gx_args gp_generics].
    rewrite SS, S. cbn [negb]. eexists. eexists. split; [reflexivity|]. split.
    + apply type_args_own. apply (ty_own _ _ T).
    + exact (ty_names _ _ T).
Qed.

(** The functions of a mock. *)
Lemma mock_it_built hash m g :
  mock_it hash m = Some g ->
  exists s, mocked hash m s /\ g = gen_struct s
    /\ Forall2 (fun x f => build (method_builder m x) = Some f) (ms_methods m) (mi_methods s)
    /\ Forall2 (fun x t => new_trait hash (ms_name m) (ms_generics m) x (ms_vis m) = Some t)
               (ms_impls m) (mi_traits s).
Proof.
  unfold mock_it, from_mockable. destruct (all_some _ (ms_methods m)) as [ms|] eqn:A; [|discriminate].
  destruct (all_some _ (ms_impls m)) as [ts|] eqn:B; [|discriminate].
  unfold gen_struct_error. cbn [mi_generics].
  destruct (phantom_error (ms_generics m)) eqn:P; [discriminate|].
  intros E. injection E as <-. eexists. split; [|split; [reflexivity|]].
  - constructor; cbn; auto.
    + apply all_some_spec in A. eapply Forall2_imp; [exact A|].
      intros f y _ H. eapply made_method. exact H.
    + apply all_some_spec in B. eapply Forall2_imp; [exact B|].
      intros x y _ H. eapply new_trait_made. exact H.
  - cbn. split; apply all_some_spec; assumption.
Qed.

Lemma new_trait_fns hash n g x v t :
  new_trait hash n g x v = Some t ->
  Forall2 (fun y f => build (trait_builder n g v (mt_ss_name t) y) = Some f) (impl_fns x) (mt_methods t).
Proof.
  unfold new_trait. destruct (im_trait x) as [[b p]|] eqn:T; [|discriminate].
  destruct (self_path (im_self x)) as [s|] eqn:S; [|discriminate].
  destruct (existsb _ _); [discriminate|].
  destruct (all_some _ _) as [ms|] eqn:A; [|discriminate].
  intros E. injection E as <-. cbn. apply all_some_spec. exact A.
Qed.

(** ** Keys *)

Lemma binding_own s names i :
  In i names -> binding names (map (fun j => GaType (s j)) names) i = s i.
Proof.
  induction names as [|n ns IH]; intros I; [destruct I|]. cbn.
  destruct (n =? i) eqn:E.
  - apply String.eqb_eq in E. now subst.
  - apply IH. destruct I as [->|I]; auto. rewrite String.eqb_refl in E. discriminate.
Qed.

Lemma instance_tuple s l : instance s (TTuple l) = TTuple (map (instance s) l).
Proof. reflexivity. Qed.

Lemma keyid_instance g s :
  no_const g -> lifetime_names g = [] ->
  map (arg_instance s) (gen_keyid g)
  = [GaType match type_names g with [i] => s i | l => TTuple (map s l) end].
Proof.
  intros N L.
  assert (T : forall p, In p (params g) -> exists i b d, p = GpType i b d).
  { intros [l b|i b d|i t d] I; eauto; exfalso.
    - assert (X : In l (lifetime_names g)).
      { apply in_flat_map. eexists. split; [exact I|]. left. reflexivity. }
      rewrite L in X. destruct X.
    - apply (N i). unfold keys. apply in_map_iff. eexists. split; [|exact I]. reflexivity. }
  unfold gen_keyid, type_names. destruct (params g) as [|p [|q ps]]; auto.
  - destruct (T p) as (i & b & d & ->); [left; auto|]. reflexivity.
  - assert (F : forall ps, (forall p, In p ps -> exists i b d, p = GpType i b d) ->
      map (instance s) (flat_map (fun p => match p with GpType i _ _ => [ty_of i] | _ => [] end) ps)
      = map s (flat_map (fun p => match p with GpType i _ _ => [i] | _ => [] end) ps)).
    { clear. induction ps as [|p ps IH]; intros H; auto.
      destruct (H p) as (i & b & d & ->); [left; auto|]. cbn [flat_map app map].
      rewrite instance_name. f_equal. apply IH. intros r I. apply H. right. exact I. }
    destruct (T p) as (i & b & d & ->); [left; auto|].
    destruct (T q) as (i' & b' & d' & ->); [right; left; auto|].
    cbn [map arg_instance]. rewrite instance_tuple, F by exact T. reflexivity.
Qed.

Lemma own_key g s :
  lifetime_names g = [] -> no_const g -> forall a, own_params g a ->
  map (arg_instance (binding (type_names g) (map (arg_instance s) (angle_args a)))) (gen_keyid g)
  = map (arg_instance s) (gen_keyid g).
Proof.
  intros L N a A. rewrite !keyid_instance by auto. red in A. rewrite A, L. cbn [map app].
  rewrite map_map. cbn [arg_instance].
  assert (B : map (binding (type_names g) (map (fun i => GaType (instance s (ty_of i))) (type_names g)))
                  (type_names g) = map s (type_names g)).
  { apply map_ext_in. intros i I. exact (binding_own s _ _ I). }
  destruct (type_names g) as [|i [|j l]]; auto.
  - do 2 f_equal. exact (binding_own s [i] i (or_introl eq_refl)).
  - do 3 f_equal. exact B.
Qed.

Lemma same_key g s r :
  lifetime_names g = [] -> no_const g ->
  (map (arg_instance s) (gen_keyid g) = map (arg_instance r) (gen_keyid g)
   <-> forall i, In i (type_names g) -> s i = r i).
Proof.
  intros L N. rewrite !keyid_instance by auto. split.
  - intros E i I. destruct (type_names g) as [|j [|k l]].
    + destruct I.
    + injection E as E. destruct I as [<-|[]]. exact E.
    + injection E as E1 E2 E3. assert (E : map s (j :: k :: l) = map r (j :: k :: l)) by (cbn; congruence).
      clear - E I. induction (j :: k :: l) as [|n t IH]; [destruct I|]. injection E as E1 E2.
      destruct I as [<-|I]; auto.
  - intros E. assert (M : map s (type_names g) = map r (type_names g)) by (apply map_ext_in; exact E).
    destruct (type_names g) as [|j [|k l]]; auto.
    + injection M as M. now rewrite M.
    + now rewrite M.
Qed.

Lemma pred_same w n : forall m ns own,
  List.length ns = n -> movable_generics own (Generics false [] (Some [w])) = true ->
  absolute_pred m ns own (supersuperfy_pred n w) = absolute_pred m [] own w.
Proof.
  intros m ns own L M. assert (X := supersuperfy_generics_absolute m ns own _ M). subst n.
  unfold absolute_generics, supersuperfy_generics in X. cbn in X. now injection X.
Qed.

Record keypieces (m : mockable_struct) (x : fn_item) (f : mock_function) : Prop := KeyPieces {
  kp_keyed : plain_method x \/ documented m x -> has_self x = true -> forall md md' sa,
    keyed (priv_module f) (call_fn f (Some md)) (expect_fn f md' sa);
  kp_static : documented m x -> has_self x = false -> forall md,
    keyed_static (priv_module f) (call_fn f (Some md));
  kp_bounded : has_self x = true -> forall md sa, bounded x (priv_module f) (expect_fn f md sa)
}.

Lemma split_where_kept g args rt tg a r :
  split_lifetimes g args rt = (tg, a, r) -> type_names tg <> [] -> where_clause tg = where_clause g.
Proof.
  unfold split_lifetimes. destruct (lt_token g); cbn.
  - destruct (filter _ _); intros E; injection E as <- _ _; auto. intros X. elim X. reflexivity.
  - intros E. now injection E as <- _ _.
Qed.

Lemma prepared_kept b dg di ce sig w :
  prepared b = Some (dg, di, ce, sig) -> b_concretize b = false ->
  In w (preds (sg_generics (b_sig b))) ->
  match w with
  | WpType _ t _ => forall i, closure_param (sg_generics (b_sig b)) i -> t <> ty_of i
  | WpLifetime _ _ => True
  end -> In w (preds dg).
Proof.
  unfold prepared. intros P C I K. rewrite C in P.
  destruct (declosurefy _ _) as [[[g' i'] c']|] eqn:D; [|discriminate].
  unfold declosurefy in D. destruct (distinct_keys _); [|discriminate].
  injection D as <- <- <-. injection P as <- _ _ _.
  unfold preds in *. cbn [declosured_generics where_clause].
  destruct (where_clause _) as [l|]; [|destruct I].
  match goal with |- In w match match filter ?k l with _ => _ end with _ => _ end =>
    assert (F : In w (filter k l)) end.
  { apply filter_In. split; auto. destruct w as [|q t bs]; auto.
    destruct (ident_of_ty t) as [i|] eqn:E; auto. apply ident_of_ty_spec in E as [-> E].
    destruct (has_key _ _) eqn:H; auto. apply closure_key in H. elim (K i); auto. }
  destruct (filter _ l); auto.
Qed.

Lemma make_keypieces m x f b :
  build b = Some f -> b_sig b = fi_sig x -> b_attrs b = fi_attrs x -> b_levels b = 2 ->
  b_struct_generics b = Some (ms_generics m) ->
  bracketed (sg_generics (fi_sig x)) -> bracketed (ms_generics m) ->
  mf_is_static f = negb (has_self x) ->
  keypieces m x f.
Proof.
  intros H E1 E2 LV E3 B BS SS. assert (P := make_pieces _ _ _ _ H E1 E2 E3 B BS SS).
  assert (T : typing b f) by (apply build_typing; auto; rewrite ?E1, ?E3; auto).
  assert (SG : mf_struct_generics f = ms_generics m) by (rewrite (ty_sgenerics _ _ T), E3; auto).
  assert (PG : plain_method x -> is_method_generic f = false).
  { intros (_ & N & W). eapply plain_not_generic; eauto; rewrite ?E1, ?E3; auto. }
  assert (DL : documented m x -> lifetime_names (mf_egenerics f) = []).
  { intros [D1 D2]. apply (ty_lifetimes _ _ T); [now rewrite SG|]. rewrite E1. exact D2. }
  constructor.
  - intros D S md md' sa G s r. unfold key_at.
    assert (C := pi_call _ _ _ P D md). assert (E := pi_expect _ _ _ P S D md'). unfold typed_call, typed_expect in *.
    cbn [expect_fn ge_turbofish ge_args ge_mod] in *.
    destruct (gp_generic (priv_module f)) as [k|] eqn:GP; [|congruence].
    destruct E as (_ & E & _).
    assert (L : lifetime_names (mf_egenerics f) = []).
    { destruct D as [D|D]; auto. exfalso. apply PG in D. revert GP. cbn [priv_module gp_generic].
      unfold generic_part. rewrite SS, S, D, andb_false_r. discriminate. }
    assert (K : gk_key k = gen_keyid (mf_egenerics f)).
    { revert GP. cbn [priv_module gp_generic]. unfold generic_part.
      destruct (_ && _); [|discriminate]. intros X. now injection X as <-. }
    cbn [priv_module gp_generics] in *. rewrite K, !own_key by (auto; apply (ty_const _ _ T)).
    apply same_key; auto. apply (ty_const _ _ T).
  - intros D S md G s r. unfold key_at, guard_key.
    assert (C := pi_call _ _ _ P (or_intror D) md). unfold typed_call in C.
    destruct (gp_generic (priv_module f)) as [k|] eqn:GP; [|congruence].
    assert (K : gk_key k = gen_keyid (mf_egenerics f)).
    { revert GP. cbn [priv_module gp_generic]. unfold generic_part.
      destruct (_ && _); [|discriminate]. intros X. now injection X as <-. }
    cbn [priv_module gp_generics] in *. rewrite K, own_key by (auto; apply (ty_const _ _ T)).
    apply same_key; auto. apply (ty_const _ _ T).
  - intros S md sa. split; [|split].
    + intros i. unfold chosen. rewrite <- E1, <- E2, <- (ty_call _ _ T). reflexivity.
    + intros k. cbn [priv_module gp_generic]. unfold generic_part, sharing, borrowed.
      cbn [priv_module gp_kind gp_owned gp_generics expect_fn ge_where].
      rewrite SS, S. cbn [negb orb].
      destruct (is_expectation_generic f); cbn; [|discriminate].
      destruct (is_method_generic f); cbn; [|discriminate]. intros X. injection X as <-. cbn [gk_any_where].
      unfold kind_of, preds. destruct (mf_return_ref f), (mf_return_refmut f); cbn;
        (split; [destruct (where_clause (mf_egenerics f)); cbn; rewrite ?app_nil_r; reflexivity|]);
        intros w I; try contradiction; destruct I as [<-|[]];
        destruct (where_clause (mf_call_generics f)); cbn; try (left; reflexivity);
        apply in_app_iff; right; left; reflexivity.
    + intros (i & CH) w (W1 & W2).
      assert (CH' := CH). destruct CH' as (_ & _ & NC). rewrite <- E2 in NC.
      unfold chosen in CH. rewrite <- E1, <- E2, <- (ty_call _ _ T) in CH. rewrite <- E1 in W1, W2.
      assert (BT := H). apply build_built in BT as (dg & di & ce & sig & BT).
      destruct (bt_generics _ _ _ _ _ _ BT) as (sa' & sr & ma & mr & S1 & S2 & _).
      assert (K := prepared_kept _ _ _ _ _ _ (bt_prepared _ _ _ _ _ _ BT) NC W1 W2).
      assert (W : where_clause (mf_call_generics f) = where_clause (supersuperfy_generics (b_levels b) dg)).
      { eapply split_where_kept; [exact S2|]. intros X. rewrite X in CH. destruct CH. }
      exists (supersuperfy_pred 2 w). split.
      * cbn [expect_fn ge_where].
        assert (I : In (supersuperfy_pred 2 w) (listed (where_clause (mf_call_generics f)))).
        { rewrite W, LV. cbn [supersuperfy_generics where_clause]. unfold preds in K.
          destruct (where_clause dg); [|destruct K]. cbn. now apply in_map. }
        destruct (_ && _); auto. cbn. destruct (where_clause (mf_call_generics f)); [|destruct I].
        cbn in I |- *. apply in_app_iff. left. exact I.
      * intros m0 a1 a2 own MV. apply pred_same; auto.
Qed.

(** The structure with the expectations of a trait. *)
Lemma same_substruct hash m ts x t :
  same_fns m ->
  Forall2 (fun x t => new_trait hash (ms_name m) (ms_generics m) x (ms_vis m) = Some t) (ms_impls m) ts ->
  In x (ms_impls m) -> new_trait hash (ms_name m) (ms_generics m) x (ms_vis m) = Some t -> In t ts ->
  exists t', In t' (unique_traits ts) /\ mt_methods t' = mt_methods t /\ mt_ss_name t' = mt_ss_name t.
Proof.
  intros U F Ix Nt It.
  assert (Tt := new_trait_made _ _ _ _ _ _ Nt). assert (Ft := new_trait_fns _ _ _ _ _ _ Nt).
  destruct (unique_covers _ _ It) as (t' & It' & E). apply same_trait_eq in E as [E _].
  assert (It2 := unique_in _ _ It').
  destruct (Forall2_in_r _ _ _ _ F It2) as (x' & Ix' & Nt').
  assert (Tt' := new_trait_made _ _ _ _ _ _ Nt'). assert (Ft' := new_trait_fns _ _ _ _ _ _ Nt').
  destruct (tm_path _ _ _ Tt) as (b & TP). destruct (tm_path _ _ _ Tt') as (b' & TP').
  assert (EF : impl_fns x = impl_fns x').
  { apply (U x x' b b' (mt_path t)); auto. now rewrite E. }
  assert (ES : mt_ss_name t' = mt_ss_name t)
    by (rewrite (tm_ss _ _ _ Tt), (tm_ss _ _ _ Tt'), E; reflexivity).
  exists t'. split; auto. split; auto.
  rewrite <- EF, ES in Ft'. clear - Ft Ft'. revert Ft'. generalize (mt_methods t').
  induction Ft as [|y f l k H _ IH]; intros r R; inversion R; subst; auto.
  f_equal; [congruence|]. apply IH. assumption.
Qed.
