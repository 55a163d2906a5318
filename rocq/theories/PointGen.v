(** * PointGen: from tests of generated code to tests of the model, for failures *)

From Coq Require Import PeanoNat NArith List Bool String Lia.
From Verif Require Import Base Times TimesSpec Expect Mock.
From Verif Require Import Ast AstSpec TyEq Rewrite Derive DeriveSpec Names CallSpec Sig SigSpec MockFn MockFnSpec
  Item MockItem ItemSpec GenSpec GenRun GenRunSpec ModRun PipeSpec ModSpec ModRunSpec.
From Verif Require Import PointSpec MessageSpec PointRuns PointGenSpec.
Import ListNotations.
Open Scope N_scope.

Section Transfer.
Context {V U O W W' : Type}.
Context (O' := op V U).
Context (sets' : W' -> O' -> list (setter V U) -> Prop) (calls' : W' -> O' -> bool)
  (validates' : W' -> O' -> Prop) (name' : W' -> string -> Prop).
Context (sets : W -> O -> list (setter V U) -> Prop) (calls : W -> O -> bool)
  (validates : W -> O -> Prop) (name : W -> string -> Prop).
Context (F : O -> O') (l : list O) (rs : list (res (option V))).

(** The place [w] of the test stands for the place [w'] of its translation. *)
Record stands (w' : W') (w : W) : Prop := Stands {
  sd_calls : forall o, In o l -> calls' w' (F o) = calls w o;
  sd_valid : forall o, In o l -> (validates' w' (F o) <-> validates w o);
  sd_name : forall n, name' w' n -> name w n
}.
Context (found : forall w' o x, In o l -> sets' w' (F o) x -> exists w, stands w' w /\ sets w o x).

Lemma calls_in_map w' w k : stands w' w -> (forall o, In o k -> In o l) -> calls_in calls' w' (map F k) = calls_in calls w k.
Proof.
  intros S I. unfold calls_in. do 2 f_equal. assert (Sc := sd_calls _ _ S). induction k as [|o k IH]; [reflexivity|]. cbn.
  rewrite <- Sc by (apply I; now left). assert (E := IH (fun x X => I x (or_intror X))).
  destruct (calls' w' (F o)); cbn; now rewrite ?E.
Qed.
Lemma In_firstn {A} (x : A) n k : In x (firstn n k) -> In x k.
Proof. intros I. rewrite <- (firstn_skipn n k). apply in_app_iff. now left. Qed.
Lemma In_skipn {A} (x : A) n k : In x (skipn n k) -> In x k.
Proof. intros I. rewrite <- (firstn_skipn n k). apply in_app_iff. now right. Qed.

Lemma points_map i w' fn s n done : points_to sets' calls' validates' name' (map F l) rs i w' fn s n done ->
  exists w, stands w' w /\ points_to sets calls validates name l rs i w fn s n done.
Proof.
  intros (j & o' & rest & Nm & J & N & S & R & T & C & Op). rewrite nth_error_map in N.
  destruct (nth_error l j) as [o|] eqn:No; [|discriminate]. cbn in N. injection N as <-.
  destruct (found _ _ _ (nth_error_In _ _ No) S) as (w & St & S'). exists w. split; [exact St|].
  exists j, o, rest. split; [exact (sd_name _ _ St _ Nm)|]. split; [exact J|]. split; [exact No|]. split; [exact S'|].
  split; [exact R|]. split; [exact T|]. split.
  - rewrite firstn_map, skipn_map, (calls_in_map _ w) in C; [exact C|exact St|].
    intros o0 I. apply In_skipn in I. exact (In_firstn _ _ _ I).
  - intros k o0 r K Nk Va. apply (Op k (F o0) r K).
    + now rewrite nth_error_map, Nk.
    + apply (sd_valid _ _ St _ (nth_error_In _ _ Nk)). exact Va.
Qed.

Lemma explains_map i o m : In o l -> explains sets' calls' validates' name' (map F l) rs i (F o) m ->
  explains sets calls validates name l rs i o m.
Proof.
  intros I. destruct m as [| | | | |w|fn s [|n k]|fn s []|fn s n k|fn s n k|d sq lv|sq lv| |d]; cbn [explains]; try tauto.
  - intros (w' & done & C & P & X). destruct (points_map _ _ _ _ _ _ P) as (w & S & P'). exists w, done.
    rewrite <- (sd_calls _ _ S _ I). auto.
  - intros (w' & done & C & P & X). destruct (points_map _ _ _ _ _ _ P) as (w & S & P'). exists w, done.
    rewrite <- (sd_calls _ _ S _ I). auto.
  - intros (w' & done & C & P). destruct (points_map _ _ _ _ _ _ P) as (w & S & P'). exists w, done.
    rewrite <- (sd_calls _ _ S _ I). auto.
  - intros (w' & done & C & P). destruct (points_map _ _ _ _ _ _ P) as (w & S & P'). exists w, done.
    rewrite <- (sd_calls _ _ S _ I). auto.
  - intros (w' & done & C & P & X). destruct (points_map _ _ _ _ _ _ P) as (w & S & P'). exists w, done.
    rewrite <- (sd_calls _ _ S _ I). auto.
  - intros (w' & done & C & P & X). destruct (points_map _ _ _ _ _ _ P) as (w & S & P'). exists w, done.
    rewrite <- (sd_valid _ _ S _ I). auto.
  - intros (w' & done & C & P & X). destruct (points_map _ _ _ _ _ _ P) as (w & S & P'). exists w, done.
    rewrite <- (sd_valid _ _ S _ I). auto.
  - intros (w' & fn & s & done & q & C & P & X). destruct (points_map _ _ _ _ _ _ P) as (w & S & P'). exists w, fn, s, done, q.
    rewrite <- (sd_calls _ _ S _ I). auto.
Qed.
End Transfer.

(** ** Positions *)

Lemma f2_len {A B} (R : A -> B -> Prop) l l' : Forall2 R l l' -> List.length l = List.length l'.
Proof. induction 1; cbn; congruence. Qed.

Lemma same_trait_eq a b : same_trait_path a b = true <-> a = b.
Proof.
  destruct a as [p|], b as [q|]; cbn; try (split; congruence). rewrite path_eqb_eq. split; congruence.
Qed.
Lemma same_name_eq a b : same_name a b = true <-> unraw a = unraw b.
Proof. unfold same_name. apply String.eqb_eq. Qed.

Lemma position_entry tr f l : (position tr f l < List.length l)%nat ->
  exists t x, nth_error l (position tr f l) = Some (t, x) /\ t = tr /\ unraw (fn_name x) = unraw f.
Proof.
  induction l as [|[t x] l IH]; cbn; [lia|]. destruct (same_trait_path t tr && same_name (fn_name x) f)%bool eqn:E.
  - intros _. apply andb_true_iff in E as [A B]. apply same_trait_eq in A. apply same_name_eq in B. exists t, x. auto.
  - intros L. apply IH. lia.
Qed.
Lemma position_same tr f h l : unraw f = unraw h -> position tr f l = position tr h l.
Proof. intros E. induction l as [|[t x] l IH]; cbn; [reflexivity|]. unfold same_name. rewrite E. destruct (same_trait_path t tr && _)%bool; [reflexivity|]. now rewrite IH. Qed.
Lemma position_inj tr f tr' f' l : (position tr f l < List.length l)%nat ->
  Nat.eqb (position tr' f' l) (position tr f l) = (same_trait_path tr tr' && same_name f f')%bool.
Proof.
  intros L. destruct (Nat.eqb_spec (position tr' f' l) (position tr f l)) as [E|E].
  - destruct (position_entry tr f l L) as (t & x & N & A & B). rewrite <- E in L.
    destruct (position_entry tr' f' l L) as (t' & x' & N' & A' & B'). rewrite E, N in N'. injection N' as <- <-.
    symmetry. apply andb_true_iff. rewrite same_trait_eq, same_name_eq. split; congruence.
  - symmetry. apply not_true_is_false. intros H. apply E. apply andb_true_iff in H as [A B].
    apply same_trait_eq in A. apply same_name_eq in B. subst. symmetry. now apply position_same.
Qed.
Lemma place_entry f l : (place f l < List.length l)%nat -> exists x, nth_error l (place f l) = Some x /\ unraw (fn_name x) = unraw f.
Proof.
  induction l as [|x l IH]; cbn; [lia|]. destruct (same_name (fn_name x) f) eqn:E.
  - intros _. apply same_name_eq in E. exists x. auto.
  - intros L. apply IH. lia.
Qed.
Lemma place_same f h l : unraw f = unraw h -> place f l = place h l.
Proof. intros E. induction l as [|x l IH]; cbn; [reflexivity|]. unfold same_name. rewrite E. destruct (_ =? _)%string; [reflexivity|]. now rewrite IH. Qed.
Lemma place_inj f f' l : (place f l < List.length l)%nat -> Nat.eqb (place f' l) (place f l) = same_name f f'.
Proof.
  intros L. destruct (Nat.eqb_spec (place f' l) (place f l)) as [E|E].
  - destruct (place_entry f l L) as (x & N & B). rewrite <- E in L.
    destruct (place_entry f' l L) as (x' & N' & B'). rewrite E, N in N'. injection N' as <-.
    symmetry. apply same_name_eq. congruence.
  - symmetry. apply not_true_is_false. intros H. apply E. apply same_name_eq in H. symmetry. now apply place_same.
Qed.

Section Mocks.
Context {V U : Type}.
Context (hash : list pargs -> N) (m : mockable_struct) (te : types V) (sd : sdecl V) (st : list (mdecl V)).
Context (desc : described_mock hash m te sd st).
Context (found : forall who x f, In x (fns_at m who) -> same_name (fn_name x) f = true ->
  exists d, nth_error (if has_self x then struct_fields sd else st)
              (position (trait_at m who) f (if has_self x then object_fns m else static_fns m)) = Some d
            /\ described hash m te (trait_at m who, x) d).

(** Declared functions have a place. *)
Lemma filtered tr (l : list fn_item) ds : Forall2 (fun x d => described hash m te (tr, x) d) l ds ->
  List.length (filter nonstatic ds) = List.length (filter (fun x : option path * fn_item => has_self (snd x)) (map (pair tr) l)).
Proof.
  induction 1 as [|x d l ds D F IH]; cbn; [reflexivity|]. unfold nonstatic at 1. rewrite (ds_static _ _ _ _ _ D), negb_involutive. cbn.
  destruct (has_self x); cbn; congruence.
Qed.
Lemma all_static_filter (ds : list (mdecl V)) : Mock.all_static ds = true -> filter nonstatic ds = [].
Proof.
  unfold Mock.all_static, nonstatic. intros A. rewrite forallb_forall in A. induction ds as [|d ds IH]; cbn; [reflexivity|].
  rewrite (A d (or_introl eq_refl)). cbn. apply IH. intros x X. apply A. now right.
Qed.
Lemma olen : List.length (struct_fields sd) = List.length (object_fns m).
Proof.
  destruct desc as (T & M & _). unfold struct_fields, object_fns, all_fns. rewrite filter_app, !app_length. f_equal.
  - clear -T. induction T as [|t ds l k D F IH]; cbn [map filter List.concat flat_map]; [reflexivity|].
    rewrite filter_app, app_length, <- (filtered _ _ _ D), <- IH. destruct (Mock.all_static ds) eqn:A; cbn [negb].
    + now rewrite (all_static_filter _ A).
    + cbn [map List.concat]. now rewrite app_length.
  - exact (filtered None _ _ M).
Qed.

Lemma slen : List.length st = List.length (static_fns m).
Proof. destruct desc as (_ & _ & F). symmetry. clear -F. induction F; cbn; congruence. Qed.

Lemma news_map (l : list (uop V U)) i x : nth_error (news (map (to_op m sd) l)) i = Some x -> x = sd.
Proof.
  intros N. apply nth_error_In in N. unfold news in N. apply in_flat_map in N as (o & I & J).
  apply in_map_iff in I as (u & <- & _). destruct u; cbn in J; try contradiction. destruct J as [J|[]]. congruence.
Qed.

Lemma a_site (l : list (uop V U)) w o x : Forall (named m) l -> In o l -> sets_site w (to_op m sd o) x ->
  exists us, stands calls_site validates_site (site_name st (map (to_op m sd) l)) (ucalls m) (uvalidates m) (uname m) (to_op m sd) l w us
    /\ usets m us o x.
Proof.
  intros Na I S. rewrite Forall_forall in Na. assert (D := Na _ I).
  destruct o as [|i who f k y|i who f k args wr|i|i|who f k y|who f k args|who f|who f|t|b|f]; cbn [to_op] in S; inversion S; subst.
  - exists (USiteObj i (trait_at m who) f). split; [|constructor]. destruct D as (fx & If & Sf & Hs).
    destruct (found who fx f If Sf) as (d & Nd & De). rewrite Hs in Nd.
    assert (L : (position (trait_at m who) f (object_fns m) < List.length (object_fns m))%nat).
    { rewrite <- olen. apply nth_error_Some. congruence. }
    constructor.
    + intros o' _. destruct o'; cbn; try reflexivity. rewrite position_inj by exact L. reflexivity.
    + intros o' _. split; intros X; destruct o'; cbn in X; inversion X; subst; constructor.
    + intros n (md & (sd' & N1 & N2) & ->). apply news_map in N1. subst sd'.
      assert (md = d) by congruence. subst md. exists who, fx. split; [exact If|]. split; [|split; [exact Hs|exact (ds_name _ _ _ _ _ De)]].
      unfold same_fn. apply andb_true_iff. rewrite same_trait_eq. split; [reflexivity|]. apply same_name_eq. apply same_name_eq in Sf. congruence.
  - exists (USiteStat (trait_at m who) f). split; [|constructor]. destruct D as (fx & If & Sf & Hs).
    destruct (found who fx f If Sf) as (d & Nd & De). rewrite Hs in Nd.
    assert (L : (position (trait_at m who) f (static_fns m) < List.length (static_fns m))%nat).
    { rewrite <- slen. apply nth_error_Some. congruence. }
    constructor.
    + intros o' _. destruct o'; cbn; try reflexivity. rewrite position_inj by exact L. reflexivity.
    + intros o' _. split; intros X; destruct o'; cbn in X; inversion X; subst; try (constructor; fail); cbn [to_op].
      * constructor. unfold same_fn. rewrite <- position_inj with (l := static_fns m) by exact L. apply Nat.eqb_eq. auto.
      * constructor. unfold same_fn. rewrite <- position_inj with (l := static_fns m) by exact L. apply Nat.eqb_eq. auto.
      * match goal with H : same_fn _ _ _ _ _ = true |- _ => unfold same_fn in H; rewrite <- position_inj with (l := static_fns m) in H by exact L; apply Nat.eqb_eq in H; rewrite H end.
        constructor.
      * match goal with H : same_fn _ _ _ _ _ = true |- _ => unfold same_fn in H; rewrite <- position_inj with (l := static_fns m) in H by exact L; apply Nat.eqb_eq in H; rewrite H end.
        constructor.
    + intros n (md & N & ->). cbn in N.
      assert (md = d) by congruence. subst md. exists who, fx. split; [exact If|]. split; [|split; [exact Hs|exact (ds_name _ _ _ _ _ De)]].
      unfold same_fn. apply andb_true_iff. rewrite same_trait_eq. split; [reflexivity|]. apply same_name_eq. apply same_name_eq in Sf. congruence.
Qed.

Lemma sound_mapped top (l : list (uop V U)) : Forall (sound_uop m top) l ->
  Forall polite_op (map (to_op m sd) l) /\ Forall (sound_op top) (map (to_op m sd) l).
Proof.
  intros F. split; apply Forall_map; revert F; apply Forall_impl; intros o H.
  - intros x X. destruct o as [|i who f k y|i who f k args wr|i|i|who f k y|who f k args|who f|who f|t|b|f]; cbn in X; inversion X; subst.
    + exact (proj1 (H _ _ (USetsObj m _ _ _ _ _))).
    + exact (proj1 (H _ _ (USetsStat m _ _ _ _))).
  - intros w x X. destruct o as [|i who f k y|i who f k args wr|i|i|who f k y|who f k args|who f|who f|t|b|f]; cbn in X; inversion X; subst.
    + exact (proj2 (H _ _ (USetsObj m _ _ _ _ _))).
    + exact (proj2 (H _ _ (USetsStat m _ _ _ _))).
Qed.

Theorem generated_explained c sh u (l : list (uop V U)) rs i o x :
  (forall s y, In y (sh s) -> In y s) ->
  snd (run c sh (init u st) (map (to_op m sd) l)) = rs -> Forall (named m) l ->
  Forall (sound_uop m (umax c)) l -> N.of_nat (List.length l) < umax c ->
  nth_error l i = Some o -> nth_error rs i = Some (Panic x) -> uexplained m l rs i o x.
Proof.
  intros Sh R Na So Len N P. destruct (run c sh (init u st) (map (to_op m sd) l)) as [y rs'] eqn:E. cbn in R. subst rs'.
  destruct (sound_mapped _ _ So) as [So1 So2].
  assert (X := run_explained sh Sh c u st (map (to_op m sd) l) y rs i (to_op m sd o) x E So1 So2).
  rewrite map_length in X. specialize (X Len). rewrite nth_error_map, N in X. specialize (X eq_refl P).
  refine (explains_map _ _ _ _ _ _ _ _ (to_op m sd) l rs _ i o x (nth_error_In _ _ N) X).
  intros w o' y' I S. exact (a_site l w o' y' Na I S).
Qed.
End Mocks.

Section Modules.
Context {V U : Type}.
Context (n : ident) (items : list item) (te : types V) (st : list (mdecl V)).
Context (desc : Forall2 (described_fn n te) (module_fns items) st).
Context (found : forall x f, In x (module_fns items) -> same_name (fn_name x) f = true ->
  exists d, nth_error st (place f (module_fns items)) = Some d /\ described_fn n te x d).

Lemma a_module_site (l : list (mop V U)) w o x : Forall (named_fn items) l -> In o l -> sets_site w (to_mod_op items o) x ->
  exists us, stands calls_site validates_site (site_name st (map (to_mod_op items) l)) mcalls mvalidates (mname items) (to_mod_op items) l w us
    /\ msets us o x.
Proof.
  intros Na I S. rewrite Forall_forall in Na. assert (D := Na _ I).
  destruct o as [f k y|f k args|f|f| |t|b|f]; cbn [to_mod_op] in S; inversion S; subst.
  exists f. split; [|constructor]. destruct D as (fx & If & Sf).
  destruct (found fx f If Sf) as (d & Nd & De).
  assert (Ln : List.length st = List.length (module_fns items)) by (symmetry; exact (f2_len _ _ _ desc)).
  assert (L : (place f (module_fns items) < List.length (module_fns items))%nat).
  { rewrite <- Ln. apply nth_error_Some. congruence. }
  constructor.
  - intros o' _. destruct o'; cbn; try reflexivity. apply place_inj. exact L.
  - intros o' _. split; intros X; destruct o'; cbn in X; inversion X; subst; try (constructor; fail); cbn [to_mod_op].
    + constructor. rewrite <- place_inj with (l := module_fns items) by exact L. apply Nat.eqb_eq. auto.
    + constructor. rewrite <- place_inj with (l := module_fns items) by exact L. apply Nat.eqb_eq. auto.
    + match goal with H : same_name _ _ = true |- _ => rewrite <- place_inj with (l := module_fns items) in H by exact L; apply Nat.eqb_eq in H; rewrite H end.
      constructor.
    + match goal with H : same_name _ _ = true |- _ => rewrite <- place_inj with (l := module_fns items) in H by exact L; apply Nat.eqb_eq in H; rewrite H end.
      constructor.
  - intros s (md & N & ->). cbn in N. assert (md = d) by congruence. subst md. exists fx. split; [exact If|].
    split; [|exact (df_name _ _ _ _ De)]. apply same_name_eq. apply same_name_eq in Sf. congruence.
Qed.

Theorem generated_module_explained c sh u (l : list (mop V U)) rs i o x :
  (forall s y, In y (sh s) -> In y s) ->
  snd (run c sh (init u st) (map (to_mod_op items) l)) = rs -> Forall (named_fn items) l ->
  Forall (sound_mop (umax c)) l -> N.of_nat (List.length l) < umax c ->
  nth_error l i = Some o -> nth_error rs i = Some (Panic x) -> mexplained items l rs i o x.
Proof.
  intros Sh R Na So Len N P. destruct (run c sh (init u st) (map (to_mod_op items) l)) as [y rs'] eqn:E. cbn in R. subst rs'.
  assert (So1 : Forall polite_op (map (to_mod_op items) l)).
  { apply Forall_map; revert So; apply Forall_impl; intros o' H z Z. destruct o'; cbn in Z; inversion Z; subst. exact (proj1 (H _ _ (MSets _ _ _))). }
  assert (So2 : Forall (sound_op (umax c)) (map (to_mod_op items) l)).
  { apply Forall_map; revert So; apply Forall_impl; intros o' H w z Z. destruct o'; cbn in Z; inversion Z; subst. exact (proj2 (H _ _ (MSets _ _ _))). }
  assert (X := run_explained sh Sh c u st (map (to_mod_op items) l) y rs i (to_mod_op items o) x E So1 So2).
  rewrite map_length in X. specialize (X Len). rewrite nth_error_map, N in X. specialize (X eq_refl P).
  refine (explains_map _ _ _ _ _ _ _ _ (to_mod_op items) l rs _ i o x (nth_error_In _ _ N) X).
  intros w o' y' I S. exact (a_module_site l w o' y' Na I S).
Qed.
End Modules.
