(** * SigProofs: facts about Sig.v *)

From Coq Require Import List Bool String NArith Arith Lia.
From Verif Require Import Ast AstSpec AstProofs TyEq Rewrite RewriteProofs Derive DeriveSpec
  ClosureProofs Subst Sig SigSpec.
Import ListNotations.
Open Scope string_scope.
Open Scope list_scope.

(** ** Text *)

Section unbounded.
  Context (l : lifetime).
  Notation un := (unbounded l).
  Notation oc := (occurs l).

  Lemma un_app x y : un (x ++ y) = un x ++ un y.
  Proof. apply filter_app. Qed.
  Lemma oc_app x y : oc (x ++ y) = (oc x + oc y)%nat.
  Proof. unfold occurs. rewrite filter_app, app_length. reflexivity. Qed.
  Lemma un_cons k x : un (k :: x) = un [k] ++ un x.
  Proof. apply (un_app [k] x). Qed.
  Lemma oc_cons k x : oc (k :: x) = (oc [k] + oc x)%nat.
  Proof. apply (oc_app [k] x). Qed.
  Lemma oc_sym s x : oc (TkSym s :: x) = oc x.
  Proof. reflexivity. Qed.

  Lemma un_each (A : Type) s (f g : A -> list token) x :
    Forall (fun a => un (f a) = un (g a)) x -> un (each s (map f x)) = un (each s (map g x)).
  Proof.
    induction 1; [reflexivity|]. unfold each in *. cbn [map flat_map]. rewrite !un_app. congruence.
  Qed.
  Lemma oc_each (A : Type) s (f g : A -> list token) (h : A -> list lifetime) x :
    Forall (fun a => oc (f a) = (oc (g a) + List.length (h a))%nat) x ->
    oc (each s (map f x)) = (oc (each s (map g x)) + List.length (flat_map h x))%nat.
  Proof.
    induction 1; [reflexivity|]. unfold each in *. cbn [map flat_map]. rewrite !oc_app, app_length.
    lia.
  Qed.
End unbounded.

(** ** add_to_type *)

Notation here := (fun p l => arg_lifetime p = l).

Lemma add_bounds p d b :
  unbounded (arg_lifetime p) (tokens (TDyn d (fst (add_to_trait_object p b))))
  = unbounded (arg_lifetime p) (tokens (TDyn d b))
  /\ existsb is_lifetime_bound (fst (add_to_trait_object p b)) = true
  /\ (existsb is_lifetime_bound b = true -> add_to_trait_object p b = (b, []))
  /\ Forall (fun x => x = arg_lifetime p) (snd (add_to_trait_object p b))
  /\ occurs (arg_lifetime p) (tokens (TDyn d (fst (add_to_trait_object p b))))
     = (occurs (arg_lifetime p) (tokens (TDyn d b))
        + List.length (snd (add_to_trait_object p b)))%nat.
Proof.
  unfold add_to_trait_object. destruct (existsb is_lifetime_bound b) eqn:E; cbn [fst snd].
  - repeat split; auto; cbn; lia.
  - split; [|split; [|split; [discriminate|split; [repeat constructor|]]]].
    + cbn [tokens]. rewrite map_app. unfold each. rewrite flat_map_app, app_assoc, un_app.
      cbn. rewrite String.eqb_refl. cbn. apply app_nil_r.
    + rewrite existsb_app. cbn. apply orb_true_r.
    + cbn [tokens]. rewrite map_app. unfold each. rewrite flat_map_app, app_assoc, oc_app.
      f_equal. unfold occurs. cbn. rewrite String.eqb_refl. reflexivity.
Qed.

Definition added (p : pat) (t : ty) : Prop :=
  let l := arg_lifetime p in
  unbounded l (tokens (fst (add_to_type p t))) = unbounded l (tokens t)
  /\ (add_to_type_error p t = false -> objects_bounded (fst (add_to_type p t)) = true)
  /\ (objects_bounded t = true -> add_to_type p t = (t, []))
  /\ Forall (fun x => x = l) (snd (add_to_type p t))
  /\ occurs l (tokens (fst (add_to_type p t)))
     = (occurs l (tokens t) + List.length (snd (add_to_type p t)))%nat.

Definition ref_prefix (r : option lifetime) (m : bool) : list token :=
  TkSym "&" :: match r with None => [] | Some l => [TkLt l] end ++ (if m then [TkSym "mut"] else []).

Lemma ref_tokens r m e : tokens (TRef r m e) = ref_prefix r m ++ tokens e.
Proof. unfold ref_prefix. cbn [tokens app]. now rewrite <- app_assoc. Qed.

Lemma paren_un l e : unbounded l (tokens (TParen e)) = unbounded l (tokens e).
Proof. cbn [tokens]. rewrite un_cons, un_app. cbn. apply app_nil_r. Qed.
Lemma paren_oc l e : occurs l (tokens (TParen e)) = occurs l (tokens e).
Proof. cbn [tokens]. rewrite oc_sym, oc_app. cbn. apply Nat.add_0_r. Qed.

Lemma ref_shape p r m e : exists y ls, add_to_type p (TRef r m e) = (TRef r m y, ls).
Proof.
  destruct e; try (eexists; eexists; reflexivity);
    try (cbn [add_to_type]; destruct (add_to_type p _); eexists; eexists; reflexivity).
  - destruct e; try (eexists; eexists; reflexivity).
    cbn [add_to_type]. destruct (add_to_trait_object p _); eexists; eexists; reflexivity.
  - change (add_to_type p (TRef r m (TRef lt mut e)))
      with (let '(e, l) := add_to_type p (TRef lt mut e) in (TRef r m e, l)).
    destruct (add_to_type p _); eexists; eexists; reflexivity.
  - cbn [add_to_type]. destruct (add_to_trait_object p _); eexists; eexists; reflexivity.
Qed.

Lemma ref_view p r m e :
  (exists d b, (e = TDyn d b \/ e = TParen (TDyn d b))
     /\ add_to_type p (TRef r m e)
        = (TRef r m (TParen (TDyn d (fst (add_to_trait_object p b)))),
           snd (add_to_trait_object p b)))
  \/ (add_to_type p (TRef r m e) = (TRef r m (fst (add_to_type p e)), snd (add_to_type p e))
      /\ add_to_type_error p (TRef r m e) = add_to_type_error p e
      /\ objects_bounded (TRef r m e) = objects_bounded e
      /\ objects_bounded (TRef r m (fst (add_to_type p e))) = objects_bounded (fst (add_to_type p e))).
Proof.
  assert (X : forall e, (forall d b, e <> TDyn d b /\ e <> TParen (TDyn d b)) ->
    add_to_type p (TRef r m e) = (TRef r m (fst (add_to_type p e)), snd (add_to_type p e))
    /\ add_to_type_error p (TRef r m e) = add_to_type_error p e
    /\ objects_bounded (TRef r m e) = objects_bounded e
    /\ objects_bounded (TRef r m (fst (add_to_type p e))) = objects_bounded (fst (add_to_type p e))).
  { intros x D. destruct x;
      try (cbn [add_to_type]; destruct (add_to_type p _) as [u ls]; cbn [fst snd];
           repeat split; reflexivity);
      try (repeat split; reflexivity).
    - destruct x; try (repeat split; reflexivity).
      exfalso. destruct (D dyn bounds) as [_ D']. now apply D'.
    - destruct (ref_shape p lt mut x) as (y & ls & E).
      change (add_to_type p (TRef r m (TRef lt mut x)))
        with (let '(e, l) := add_to_type p (TRef lt mut x) in (TRef r m e, l)).
      rewrite E. repeat split; reflexivity.
    - exfalso. destruct (D dyn bounds) as [D' _]. now apply D'. }
  destruct e; try (right; apply X; intros; split; discriminate).
  - destruct e; try (right; apply X; intros; split; discriminate).
    left. exists dyn, bounds. split; [auto|]. cbn [add_to_type].
    destruct (add_to_trait_object p bounds). reflexivity.
  - left. exists dyn, bounds. split; [auto|]. cbn [add_to_type].
    destruct (add_to_trait_object p bounds). reflexivity.
Qed.

Lemma add_to_type_added p t : added p t.
Proof.
  revert t.
  apply (ty_all (added p) (fun _ => True) (fun _ => True) (fun _ => True) (fun _ => True)
                (fun _ => True)); try (intros; exact I); unfold added;
    try (cbn [add_to_type fst snd add_to_type_error]; intros; repeat split; auto;
         [discriminate|cbn; lia]);
    try (cbn [add_to_type fst snd add_to_type_error]; intros; repeat split; auto; cbn; lia).
  - (* array *) intros e n (U & O & S & F & C). cbn [add_to_type add_to_type_error].
    destruct (add_to_type p e) as [e' ls] eqn:E.
    cbn [fst snd] in *. repeat split; auto.
    + cbn [tokens]. rewrite un_cons, un_app, (un_cons _ _ (tokens e ++ _)), un_app, U. reflexivity.
    + cbn [objects_bounded]. intros B. apply S in B. now inversion B.
    + cbn [tokens]. rewrite !oc_sym, !oc_app, C. cbn. lia.
  - (* reference *) intros r m e (U & O & S & F & C).
    destruct (ref_view p r m e) as [(d & b & D & ->)|(-> & -> & -> & X)]; cbn [fst snd];
      [|rewrite X].
    + destruct (add_bounds p d b) as (U' & O' & S' & F' & C').
      rewrite !ref_tokens, !un_app, !oc_app, paren_un, paren_oc, U', C'.
      split; [|split; [|split; [|split; [exact F'|]]]].
      * destruct D as [-> | ->]; rewrite ?paren_un; reflexivity.
      * intros _. exact O'.
      * destruct D as [-> | ->]; [discriminate|]. intros B. apply S' in B. rewrite B. reflexivity.
      * destruct D as [-> | ->]; rewrite ?paren_oc; lia.
    + split; [|split; [exact O|split; [|split; [exact F|]]]].
      * rewrite !ref_tokens, !un_app, U. reflexivity.
      * intros B. apply S in B. rewrite B. reflexivity.
      * rewrite !ref_tokens, !oc_app, C. lia.
  - (* slice *) intros e (U & O & S & F & C). cbn [add_to_type add_to_type_error].
    destruct (add_to_type p e) as [e' ls] eqn:E.
    cbn [fst snd] in *. repeat split; auto.
    + cbn [tokens]. rewrite un_cons, un_app, (un_cons _ _ (tokens e ++ _)), un_app, U. reflexivity.
    + cbn [objects_bounded]. intros B. apply S in B. now inversion B.
    + cbn [tokens]. rewrite !oc_sym, !oc_app, C. cbn. lia.
  - (* tuple *) intros l IH. cbn [add_to_type fst snd add_to_type_error objects_bounded].
    split; [|split; [|split; [|split]]].
    + cbn [tokens]. rewrite un_cons, un_app, (un_cons _ _ (each _ _ ++ _)), un_app.
      rewrite map_map. rewrite (un_each _ _ _ (fun x => tokens (fst (add_to_type p x))) tokens); auto.
      revert IH. apply Forall_impl. tauto.
    + intros E. apply existsb_false_F in E. apply forallb_forall. intros y I.
      apply in_map_iff in I as (x & <- & I). rewrite Forall_forall in IH, E.
      apply IH; auto.
    + intros B. rewrite forallb_forall in B.
      rewrite Forall_forall in IH.
      assert (X : forall x, In x l -> add_to_type p x = (x, [])) by (intros x I; apply IH; auto).
      f_equal.
      * f_equal. rewrite <- map_id. apply map_ext_in. intros x I. rewrite X; auto.
      * clear - X. induction l as [|x l IH]; auto. cbn. rewrite X by (left; auto).
        apply IH. intros. apply X. right; auto.
    + rewrite Forall_forall in IH |- *. intros x I. apply in_flat_map in I as (y & Iy & I).
      destruct (IH _ Iy) as (_ & _ & _ & F & _). rewrite Forall_forall in F. auto.
    + cbn [tokens]. rewrite !oc_sym, !oc_app, map_map.
      rewrite (oc_each _ _ _ (fun x => tokens (fst (add_to_type p x))) tokens
                 (fun x => snd (add_to_type p x))); [lia|].
      revert IH. apply Forall_impl. tauto.
Qed.

(** ** Anonymous lifetimes after [deselfify] *)

Lemma anon_put a g l :
  has_anon (self_type_tokens a g) = false -> has_anon (put_for_self a g l) = has_anon l.
Proof.
  intros H. unfold has_anon, put_for_self in *. induction l as [|k l IH]; auto.
  cbn [flat_map]. rewrite existsb_app, IH. cbn [existsb].
  destruct (is_self k) eqn:E.
  - rewrite H. destruct k; try discriminate. reflexivity.
  - cbn. now rewrite orb_false_r.
Qed.

Section anon.
  Context (a : ident) (g : generics) (N : has_anon (self_type_tokens a g) = false).

  Lemma anon_put_free l : has_anon l = false -> has_anon (put_for_self a g l) = false.
  Proof. now rewrite anon_put. Qed.

  Lemma deselfify_anon_path p :
    deselfify_path_error g p = false -> self_reachable_path p = true ->
    anon_reachable_path p = true -> anon_reachable_path (deselfify_path a g p) = true.
  Proof.
    destruct p as [b l]. cbn [deselfify_path_error self_reachable_path deselfify_path].
    unfold anon_reachable_path. cbn [segs]. intros E R A.
    apply forallb_forall. intros s' I. apply in_map_iff in I as (s & <- & I).
    apply existsb_false_F in E. rewrite Forall_forall in E. specialize (E _ I).
    rewrite forallb_forall in R, A. specialize (R _ I). specialize (A _ I).
    destruct s as [i x]. cbn [deselfify_seg_error self_reachable_seg deselfify_seg seg_args] in *.
    apply existsb_orb in E as [E1 E2].
    destruct (i =? "Self") eqn:I'.
    - destruct x; try discriminate. cbn [seg_args]. unfold self_args.
      unfold self_type_tokens in N. destruct (params g) as [|q ps]; [reflexivity|].
      apply forallb_forall. intros y Iy. apply in_map_iff in Iy as (z & <- & Iz).
      destruct z as [l0 b0|i0 b0 d0|i0 t0 d0]; reflexivity.
    - cbn [seg_args]. destruct x as [|ys|ins o]; [exact A| |exact A].
      cbn [deselfify_pargs deselfify_pargs_error self_reachable_pargs] in *.
      apply forallb_forall. intros y' Iy. apply in_map_iff in Iy as (y & <- & Iy).
      rewrite forallb_forall in R, A. apply existsb_false_F in E2. rewrite Forall_forall in E2.
      specialize (R _ Iy). specialize (A _ Iy). specialize (E2 _ Iy).
      destruct (deselfify_tokens_all a g) as (_ & _ & _ & _ & T & _). specialize (T _ E2 R).
      destruct y; try reflexivity;
        cbn [deselfify_garg anon_reachable_garg] in *; try rewrite T;
        try rewrite anon_put by assumption; exact A.
  Qed.

  Lemma deselfify_anon t :
    deselfify_error g t = false -> self_reachable t = true ->
    anon_reachable t = true -> anon_reachable (deselfify a g t) = true.
  Proof.
    revert t.
    apply (ty_all (fun t => deselfify_error g t = false -> self_reachable t = true ->
                            anon_reachable t = true -> anon_reachable (deselfify a g t) = true)
             (fun _ => True) (fun _ => True) (fun _ => True) (fun _ => True)
             (fun b => deselfify_bound_error g b = false -> self_reachable_bound b = true ->
                       anon_reachable_bound b = true ->
                       anon_reachable_bound (deselfify_bound a g b) = true));
      try (intros; exact I);
      cbn [deselfify deselfify_error self_reachable anon_reachable deselfify_bound
           deselfify_bound_error self_reachable_bound anon_reachable_bound]; auto.
    - intros p _ E R A. now apply deselfify_anon_path.
    - intros q n p IH _ E R A. apply existsb_orb in E as [E1 E2].
      apply andb_prop in R as [R1 R2]. apply andb_prop in A as [A1 A2].
      rewrite IH by assumption. now apply deselfify_anon_path.
    - intros d l IH E R A. apply forallb_forall. intros y I. apply in_map_iff in I as (x & <- & I).
      apply existsb_false_F in E. rewrite Forall_forall in E, IH. rewrite forallb_forall in R, A. auto.
    - intros l IH E R A. apply forallb_forall. intros y I. apply in_map_iff in I as (x & <- & I).
      apply existsb_false_F in E. rewrite Forall_forall in E, IH. rewrite forallb_forall in R, A. auto.
    - intros m f p _ E R A. apply andb_prop in A as [A1 A2]. rewrite A1. now apply deselfify_anon_path.
  Qed.
End anon.

(** ** Return types and where clauses *)

Lemma needs_pin_spec l : needs_pin l = true <-> exists b, In b l /\ future_bound b.
Proof.
  unfold needs_pin. rewrite existsb_exists. split; intros (b & I & H); exists b; (split; [exact I|]).
  - destruct b as [m f p| |]; try discriminate. apply orb_prop in H as [H|H];
      apply last_is_spec in H as (lead & pre & x & ->); do 6 eexists; split; auto.
  - destruct H as (m & f & lead & pre & i & x & -> & H).
    apply orb_true_iff. destruct H as [-> | ->]; [left|right]; apply last_is_spec; eauto.
Qed.

Lemma deimplify_returned t : exists t1, deimplify (Some t) = Some t1 /\ returned t t1.
Proof.
  destruct t as [| | |l| | | | | | | | | | | |];
    try (eexists; split; [reflexivity|constructor; discriminate]).
  cbn [deimplify]. destruct (needs_pin l) eqn:E.
  - apply needs_pin_spec in E as (b & I & F). eexists. split; [reflexivity|]. eapply RetPin; eauto.
  - eexists. split; [reflexivity|]. apply RetBox. intros b I F.
    assert (needs_pin l = true) by (apply needs_pin_spec; eauto). congruence.
Qed.

Lemma dewhereselfify_preds g w :
  In w (preds (dewhereselfify g)) <-> In w (preds g) /\ subject_of w <> SjType (ty_of "Self").
Proof.
  unfold dewhereselfify, preds. cbn. destruct (where_clause g) as [l|]; [|cbn; tauto].
  transitivity (In w (filter (fun p => match p with
                               | WpType _ t _ => negb (ty_eqb t (ty_of "Self"))
                               | WpLifetime _ _ => true
                               end) l)).
  { destruct (filter _ l); reflexivity. }
  rewrite filter_In. split; intros [I H]; (split; [exact I|]).
  - destruct w as [|f t b]; cbn; [discriminate|]. intros E. injection E as ->.
    rewrite (proj2 (ty_eqb_eq _ _) eq_refl) in H. discriminate.
  - destruct w as [|f t b]; auto. destruct (ty_eqb t (ty_of "Self")) eqn:E; auto.
    apply ty_eqb_eq in E. exfalso. apply H. cbn. congruence.
Qed.

(** ** Trait objects after [deselfify] *)

Lemma bounded_ref r m e :
  (forall d b, e <> TDyn d b /\ e <> TParen (TDyn d b)) ->
  objects_bounded (TRef r m e) = objects_bounded e.
Proof.
  intros H. destruct e; try reflexivity.
  - destruct e; try reflexivity. exfalso. destruct (H dyn bounds) as [_ X]. now apply X.
  - exfalso. destruct (H dyn bounds) as [X _]. now apply X.
Qed.

Lemma deselfify_bounds a g l :
  existsb (fun x => match x with BLifetime _ => true | _ => false end) (map (deselfify_bound a g) l)
  = existsb (fun x => match x with BLifetime _ => true | _ => false end) l.
Proof. induction l as [|[m f p|x|x] l IH]; cbn; auto. Qed.

Lemma deselfify_bounded a g t : objects_bounded (deselfify a g t) = objects_bounded t.
Proof.
  revert t.
  apply (ty_all (fun t => objects_bounded (deselfify a g t) = objects_bounded t)
           (fun _ => True) (fun _ => True) (fun _ => True) (fun _ => True) (fun _ => True));
    try (intros; exact I); try reflexivity; cbn [deselfify]; auto.
  - intros r m e IH. destruct e; try exact IH.
    + destruct e; try exact IH. cbn [deselfify objects_bounded]. apply deselfify_bounds.
    + reflexivity.
  - intros l IH. cbn [objects_bounded]. induction IH; auto. cbn. congruence.
Qed.
