(** * EndProofs: lemmas about whole macro calls *)

From Coq Require Import List Bool String NArith Arith.
From Verif Require Import Base Times Expect Mock.
From Verif Require Import Ast AstSpec TyEq Rewrite Derive DeriveSpec Names Subst SubstProofs Sig SigSpec SigProofs PropSig
  MockFn MockFnSpec MockFnProofs Item ItemProofs
  NameProofs MockItem ItemSpec PropItems PipeSpec PipeProofs PropPipeline Errors GenSpec GenProofs GenRun GenRunSpec GenRunProofs
  EndSpec.
Import ListNotations.
Open Scope string_scope.
Open Scope list_scope.

(** ** The input of the generator *)

Definition mockable (src : source) : mockable_struct :=
  match src with
  | STrait l t => from_trait (parse_attrs l) t
  | SImpl x => from_impl x
  | SMock d => from_mock d
  end.

Definition known_types (src : source) : list (ident * ty) :=
  match src with
  | STrait l _ => parse_attrs l
  | SImpl x => match im_trait x with Some _ => impl_types (im_items x) | None => [] end
  | SMock _ => []
  end.

Definition substituting (src : source) : bool :=
  match src with
  | STrait _ _ => true
  | SImpl x => match im_trait x with Some _ => true | None => false end
  | SMock _ => false
  end.
Definition before (src : source) (s : signature) : signature :=
  if substituting src then substitute_sig (known_types src) (trait_name src) s else s.

(** The function as it is given to the generator. *)
Definition prepared_from (src : source) (x : wfn) (f : fn_item) : Prop :=
  fi_attrs f = fst x
  /\ fi_sig f = mockable_method (mock_name src) (source_generics src) (before src (snd x))
  /\ (substituting src = true ->
      substitute_sig_error (known_types src) (trait_name src) (snd x) = false).

Lemma unless_some {A} b (o : option A) x : unless b o = Some x -> b = false /\ o = Some x.
Proof. unfold unless. destruct b; [discriminate|auto]. Qed.

Definition source_error (src : source) : bool :=
  match src with
  | STrait l t => parse_attrs_error l || from_trait_error (parse_attrs l) t
  | SImpl x => from_impl_error x
  | SMock d => from_mock_error d
  end.

Lemma expand_inv hash src g : expand hash src = Some g ->
  source_error src = false /\ mock_it hash (mockable src) = Some g.
Proof.
  destruct src as [l t|x|d]; cbn; intros H; apply unless_some in H as [E H];
    apply orb_false_iff in E as [E _]; auto.
Qed.

Lemma mockable_generics src : ms_generics (mockable src) = source_generics src.
Proof. destruct src as [l t|x|d]; cbn; auto. unfold from_impl. destruct (im_trait x) as [[? ?]|]; reflexivity. Qed.

Lemma mockable_name src : source_error src = false -> ms_name (mockable src) = mock_name src.
Proof.
  destruct src as [l t|x|d]; cbn; intros E; unfold gen_mock_ident, mock_name; rewrite <- ?unraw_same; auto.
  unfold from_impl_error in E. unfold from_impl, impl_name in *.
  assert (N : match im_self x with TPath p | TQPath _ _ p => path_ident p | _ => None end
              = Some (self_name (im_self x))).
  { repeat (apply orb_false_iff in E as [E _]).
    destruct (im_self x); try discriminate; cbn in *; destruct p as [b [|[i a] [|]]]; try discriminate; reflexivity. }
  rewrite N. destruct (im_trait x) as [[? ?]|]; reflexivity.
Qed.

Lemma F2_map {A B} (R : A -> B -> Prop) (f : A -> B) l : (forall a, In a l -> R a (f a)) -> Forall2 R l (map f l).
Proof. induction l as [|a l IH]; cbn; intros H; constructor; auto. Qed.
Lemma F2_map2 {A B C} (R : B -> C -> Prop) (f : A -> B) (h : A -> C) l :
  (forall a, In a l -> R (f a) (h a)) -> Forall2 R (map f l) (map h l).
Proof. induction l as [|a l IH]; cbn; intros H; constructor; auto. Qed.

Lemma impl_fns_on f (x : item_impl) : impl_fns (with_impl_items x (map (on_sig f) (im_items x)))
  = map (fun y => FnItem (fi_attrs y) (fi_vis y) (f (fi_sig y))) (methods_of x).
Proof.
  unfold impl_fns, methods_of. cbn. induction (im_items x) as [|i l IH]; auto. cbn [map flat_map].
  rewrite IH, map_app. destruct i; reflexivity.
Qed.

Lemma item_impl_fns x name g : impl_fns (mockable_item_impl x name g)
  = map (fun y => FnItem (fi_attrs y) (fi_vis y) (mockable_method name g (fi_sig y))) (methods_of x).
Proof. exact (impl_fns_on (mockable_method name g) x). Qed.

Lemma written_prepared src who : source_error src = false ->
  Forall2 (prepared_from src) (written src who) (fns_at (mockable src) who).
Proof.
  intros E. assert (NM := mockable_name src E). destruct src as [l t|x|d]; cbn [written].
  - destruct who as [[|[|i]]|]; cbn; try constructor.
    assert (F : impl_fns (mockable_trait (substitute_trait (parse_attrs l) t) (gen_mock_ident (it_ident t)) (it_generics t))
      = map (fun x => FnItem (fst x) VInherited
               (mockable_method (gen_mock_ident (it_ident t)) (it_generics t)
                  (substitute_sig (parse_attrs l) (it_ident t) (snd x)))) (trait_wfns t)).
    { unfold impl_fns, mockable_trait, substitute_trait, trait_wfns. cbn [im_items it_items with_items].
      rewrite map_map. induction (it_items t) as [|y r IH]; auto. cbn [map flat_map].
      rewrite IH, map_app. f_equal. destruct y as [n u d|at_ s|n b d|s]; auto.
      cbn. destruct (assoc_get (parse_attrs l) n); reflexivity. }
    cbn in F |- *. rewrite F. apply F2_map. intros [at_ s] I. split; [reflexivity|]. split.
    + cbn [fi_sig snd]. unfold before, mock_name. cbn. unfold gen_mock_ident. now rewrite unraw_same.
    + intros _. cbn. cbn in E. apply orb_false_iff in E as [_ E]. unfold from_trait_error in E.
      apply orb_false_iff in E as [E _]. unfold substitute_trait_error in E.
      unfold trait_wfns in I. apply in_flat_map in I as (y & Iy & I).
      destruct y; cbn in I; try contradiction. destruct I as [I|[]]. injection I as -> ->.
      destruct (substitute_sig_error (parse_attrs l) (it_ident t) s) eqn:X; auto.
      rewrite <- E. symmetry. apply existsb_exists. eexists. split; [exact Iy|exact X].
  - cbn [mockable] in *. unfold from_impl in *. unfold written. cbn in E. unfold from_impl_error in E.
    apply orb_false_iff in E as [E E2].
    unfold prepared_from, before, substituting, known_types, trait_name.
    destruct (im_trait x) as [[bang p]|]; cbv zeta in NM, E2 |- *; cbn [ms_name] in NM; rewrite NM in E2 |- *.
    + destruct who as [[|[|i]]|]; cbn [fns_at ms_impls ms_methods nth_error]; try constructor.
      cbn in E2.
      assert (P : path_ident p = Some match p with Path _ [Seg i _] => i | _ => "" end).
      { destruct p as [b [|[i a] [|]]]; cbn in *; try reflexivity; rewrite ?orb_true_r in E2; discriminate. }
      rewrite P in *. rewrite item_impl_fns.
      assert (MT : forall a tr, methods_of (substitute_item_impl a tr x)
                = map (fun y => FnItem (fi_attrs y) (fi_vis y) (substitute_sig a tr (fi_sig y))) (methods_of x)).
      { intros a tr. exact (impl_fns_on (substitute_sig a tr) x). }
      rewrite MT, map_map. cbn [fi_attrs fi_vis fi_sig]. unfold impl_wfns. apply F2_map2.
      intros f I. cbn. split; [reflexivity|]. split; [reflexivity|]. intros _.
      repeat (apply orb_false_iff in E2 as [E2 ?E]).
      match goal with |- ?e = false => destruct e eqn:X; auto end.
      match goal with H : existsb (fun f => substitute_sig_error _ _ (fi_sig f)) (impl_fns x) = false |- _ =>
        rewrite <- H; symmetry; apply existsb_exists; exists f; split; [exact I|exact X] end.
    + destruct who as [[|[|i]]|]; cbn; try constructor.
      unfold impl_wfns. apply F2_map2. intros f I. cbn. split; [reflexivity|]. split; [reflexivity|discriminate].
  - cbn [mockable] in *. cbn [from_mock ms_name] in NM. unfold prepared_from, before, substituting.
    destruct who as [i|]; cbn [fns_at from_mock ms_impls ms_methods]; rewrite NM.
    + rewrite nth_error_map. destruct (nth_error (md_impls d) i) as [x|]; cbn [option_map]; [|constructor].
      rewrite item_impl_fns. unfold impl_wfns. apply F2_map2. intros f I. cbn.
      split; [reflexivity|]. split; [reflexivity|discriminate].
    + unfold impl_wfns. apply F2_map2. intros f I. cbn.
      split; [reflexivity|]. split; [reflexivity|discriminate].
Qed.

Lemma F2_in_l {A B} (R : A -> B -> Prop) l k a : Forall2 R l k -> In a l -> exists b, In b k /\ R a b.
Proof.
  intros F. induction F as [|x y l k H F IH]; cbn; [intros []|]. intros [<-|I]; eauto.
  destruct (IH I) as (b & J & Q). eauto.
Qed.

(** ** Signatures *)

Section Sig.
Context (name : ident) (g : generics) (s : signature).
Let s' := mockable_method name g s.
Local Notation G := (sg_generics s).
Local Notation G' := (sg_generics s').

Lemma method_ident : sg_ident s' = sg_ident s.
Proof. reflexivity. Qed.

Lemma method_params : exists new, params G' = params G ++ map (fun l => GpLifetime l []) new
  /\ (lt_token G' = false -> lt_token G = false /\ new = []).
Proof.
  eexists. split; [reflexivity|]. cbn. destruct (flat_map added_lifetimes _); cbn.
  - rewrite orb_false_r. auto.
  - rewrite orb_true_r. discriminate.
Qed.

Lemma method_bracketed : bracketed G -> bracketed G'.
Proof.
  intros B L. destruct method_params as (new & -> & N). destruct (N L) as [L' ->]. rewrite (B L'). reflexivity.
Qed.

Lemma method_preds w : In w (preds G') <-> In w (preds G) /\ subject_of w <> SjType (ty_of "Self").
Proof. exact (dewhereselfify_preds _ w). Qed.

Lemma method_type_names : type_names G' = type_names G.
Proof.
  destruct method_params as (new & P & _). unfold type_names. rewrite P, flat_map_app.
  clear P. induction new as [|l r IH]; [now rewrite app_nil_r|]. exact IH.
Qed.

Lemma method_type_param i l d : In (GpType i l d) (params G') <-> In (GpType i l d) (params G).
Proof.
  destruct method_params as (new & -> & _). rewrite in_app_iff. split; auto.
  intros [I|I]; auto. apply in_map_iff in I as (x & E & _). discriminate.
Qed.

Lemma method_declared i l : DeriveSpec.declared G' i l <-> DeriveSpec.declared G i l.
Proof.
  unfold DeriveSpec.declared. setoid_rewrite method_type_param. setoid_rewrite method_preds. split.
  - intros [H|(f & (I & _) & K)]; eauto.
  - intros [H|(f & I & K)]; auto. right. exists f. repeat split; auto. intros E. injection E as ->. discriminate.
Qed.

Lemma method_closure i : closure_param G' i <-> closure_param G i.
Proof. unfold closure_param. now setoid_rewrite method_declared. Qed.

Lemma deselfify_ref n0 g0 t l m e : deselfify n0 g0 t = TRef l m e <-> exists e', t = TRef l m e' /\ deselfify n0 g0 e' = e.
Proof.
  destruct t; cbn; split; try discriminate; try (intros (e' & E & _); discriminate).
  all: try (intros E; injection E as <- <- <-; eauto).
  all: try (intros (e' & E & <-); injection E as <- <- <-; reflexivity).
Qed.

Lemma deanonymize_ref t l m e : deanonymize t = TRef l m e
  <-> exists l' e', t = TRef l' m e' /\ option_map deanonymize_lifetime l' = l /\ deanonymize e' = e.
Proof.
  destruct t; cbn; split; try discriminate; try (intros (l' & e' & E & _); discriminate).
  - intros E. injection E as <- <- <-. eauto.
  - intros (l' & e' & E & <- & <-). injection E as <- <- <-. reflexivity.
Qed.

Lemma deimplify_ref o l m e : deimplify o = Some (TRef l m e) <-> o = Some (TRef l m e).
Proof. destruct o as [[]|]; cbn; try tauto. destruct (needs_pin _); split; discriminate. Qed.

(** What the adapted function lends. *)
Lemma method_lends mu :
  (exists t, sg_output s' = Some t /\ borrows mu t)
  <-> exists l e, sg_output s = Some (TRef l mu e) /\ l <> Some "static" /\ l <> Some "_".
Proof.
  assert (O : sg_output s' = option_map (fun t => deanonymize (deselfify name g t)) (deimplify (sg_output s)))
    by reflexivity.
  rewrite O. split.
  - intros (t & E & l & e & -> & N). destruct (deimplify (sg_output s)) as [u|] eqn:D; [|discriminate].
    cbn in E. injection E as E. apply deanonymize_ref in E as (l' & e' & E & <- & _).
    apply deselfify_ref in E as (e2 & -> & _). apply (proj1 (deimplify_ref _ _ _ _)) in D.
    exists l', e2. split; [exact D|]. split; intros ->; apply N; reflexivity.
  - intros (l & e & E & N1 & N2). rewrite E. cbn. eexists. split; [reflexivity|].
    do 2 eexists. split; [reflexivity|]. destruct l as [l|]; [|discriminate]. cbn. unfold deanonymize_lifetime.
    destruct (l =? "_") eqn:X; [apply String.eqb_eq in X; subst; congruence|exact N1].
Qed.
End Sig.

Lemma substitute_ref a tr t l mu :
  substitute_error a tr t = false -> plain t = true ->
  ((exists e, substitute_type a tr t = TRef l mu e) <->
   exists e, project (assoc_get a) tr t = TRef l mu e).
Proof.
  intros E P. destruct t as [e n|q b i o|e|bs| |z| |e|p|q n p|m e|r m e|e|d bs|es|z]; cbn [substitute_type]; unfold project; cbn [projection].
  all: try (split; intros (e' & X); discriminate).
  - (* path *)
    assert (D : (exists x i, p = Path false [Seg x PaNone; Seg i PaNone] /\ (x =? "Self") = true)
                \/ (get_path a p = None /\ projection tr (TPath p) = None)).
    { destruct p as [[|] [|[x ax] [|[i ai] [|c r]]]]; cbn; auto.
      - destruct ax; auto.
      - cbn in P. destruct (x =? "Self") eqn:X; cbn in P.
        + apply andb_true_iff in P as [_ P]. apply andb_true_iff in P as [P1 P2].
          destruct ax, ai; try discriminate. left. eauto.
        + destruct ax, ai; auto.
      - destruct ax, ai; auto. }
    destruct D as [(x & i & -> & X)|[D1 D2]].
    + cbn. rewrite X. destruct (assoc_get a i); [tauto|]. split; intros (e' & Y); discriminate.
    + rewrite D1. cbn [projection] in D2. rewrite D2. split; intros (e' & Y); discriminate.
  - (* qualified path *)
    cbn in E. apply negb_false_iff in E. unfold qself_ok in E.
    destruct q as [| | | | | | | |qp| | | | | | |]; try discriminate.
    destruct qp as [qb [|[s0 sa] [|]]]; try discriminate.
    destruct n as [|[|n]]; try discriminate.
    destruct p as [pb [|[t0 ta] [|[i ia] [|]]]]; try discriminate.
    destruct ((s0 =? "Self") && (t0 =? tr))%bool eqn:X; [|discriminate]. cbn in E.
    cbn in P. rewrite !andb_true_iff in P. destruct P as [_ P]. destruct ia; try discriminate.
    cbn. destruct (assoc_get a i); [tauto|discriminate].
  - split; intros (e' & X); injection X as <- <- <-; eauto.
Qed.
