(** * PointRuns: failures in tests point to the expectations they are about *)

From Coq Require Import PeanoNat NArith List Bool String Lia.
From Verif Require Import Base Times TimesSpec Expect ExpectProofs Mock Spec CallProofs DispatchProofs FifoProofs
  MessageSpec MessageProofs MessageRuns PointSpec PointProofs.
Import ListNotations.
Open Scope N_scope.

Section PointRuns.
Context {V U : Type}.
Context (sh : shuffle V U) (shuffled : forall s x, In x (sh s) -> In x s).

(** ** The places and their declarations *)

Definition built (ob : object V U) (sd : sdecl V) : Prop := ob = [] \/ map f_decl ob = struct_fields sd.
Definition laid_out (decls : list (mdecl V)) (l : list (op V U)) (y : sys V U) : Prop :=
  map fst (y_stats y) = decls /\ Forall2 built (y_objs y) (news l).

Lemma news_app (l l' : list (op V U)) : news (l ++ l') = news l ++ news l'.
Proof. apply flat_map_app. Qed.
Lemma map_set_nth {A B} (g : A -> B) l i x : (forall z, nth_error l i = Some z -> g x = g z) -> map g (set_nth l i x) = map g l.
Proof.
  revert i. induction l as [|a l IH]; intros [|i] H; cbn; try reflexivity.
  - now rewrite (H a eq_refl).
  - rewrite IH; [reflexivity|]. intros z Z. exact (H z Z).
Qed.
Lemma Forall2_set {A B} (R : A -> B -> Prop) l l' i x : Forall2 R l l' ->
  (forall b z, nth_error l i = Some z -> R z b -> R x b) -> Forall2 R (set_nth l i x) l'.
Proof.
  intros F. revert i. induction F as [|a b l l' R0 F IH]; intros [|i] H; cbn.
  - constructor.
  - constructor.
  - constructor; [exact (H b a eq_refl R0)|exact F].
  - constructor; [exact R0|]. apply IH. intros b' z Z. exact (H b' z Z).
Qed.
Lemma built_set ob j f f' sd : nth_error ob j = Some f -> f_decl f' = f_decl f -> built ob sd -> built (set_nth ob j f') sd.
Proof.
  intros N D [->|B]; [destruct j; discriminate|]. right. rewrite map_set_nth; [exact B|]. intros z Z. congruence.
Qed.
Lemma object_checkpoint_decls c o p : map f_decl (fst (object_checkpoint c sh o p)) = map f_decl o.
Proof.
  induction o as [|[md s] o IH]; cbn; [reflexivity|]. destruct (slot_drop c md sh s p); cbn; [|reflexivity|reflexivity].
  destruct (object_checkpoint c sh o p). cbn in *. now rewrite IH.
Qed.
Lemma module_checkpoint_decls c ss p : map fst (fst (module_checkpoint c sh ss p)) = map fst ss.
Proof.
  induction ss as [|[md s] ss IH]; cbn; [reflexivity|]. destruct (static_checkpoint c md sh s p) as [sm [x|m|]]; cbn; [|reflexivity|reflexivity].
  destruct (module_checkpoint c sh ss p). cbn in *. now rewrite IH.
Qed.

Lemma step_laid_out decls c l y o y' r : laid_out decls l y -> step c sh y o = (y', r) -> laid_out decls (l ++ [o]) y'.
Proof.
  intros [S F] E. unfold laid_out. rewrite news_app.
  assert (Same : news [o] = [] -> forall y1, map fst (y_stats y1) = map fst (y_stats y) -> Forall2 built (y_objs y1) (news l) ->
    map fst (y_stats y1) = decls /\ Forall2 built (y_objs y1) (news l ++ news [o])).
  { intros -> y1 A B. rewrite app_nil_r. split; [congruence|exact B]. }
  destruct o as [sd|i j k a|i j k args wr|i|i|t k a|t k args|t|t| |t|b|f]; cbn [step] in E.
  - injection E as <- _. split; [exact S|]. apply Forall2_app; [exact F|]. constructor; [|constructor]. right.
    unfold object_new. rewrite map_map. apply map_id.
  - apply (Same eq_refl); clear Same; destruct (nth_error (y_objs y) i) as [ob|] eqn:O; try (injection E as <- _; auto; fail);
      destruct (nth_error ob j) as [f|] eqn:N; try (injection E as <- _; auto; fail);
      destruct (slot_expect _ _ _ _ _ _ _) as [[s' t'] r1]; injection E as <- _; cbn; auto.
    apply Forall2_set; [exact F|]. intros sd z Z. assert (z = ob) by congruence. subst z. exact (built_set _ _ _ (Field (f_decl f) s') _ N eq_refl).
  - apply (Same eq_refl); clear Same; destruct (nth_error (y_objs y) i) as [ob|] eqn:O; try (injection E as <- _; auto; fail);
      destruct (nth_error ob j) as [f|] eqn:N; try (injection E as <- _; auto; fail);
      unfold field_call in E; destruct (slot_call _ _ _ _ _ _ _) as [[s' t'] r1]; injection E as <- _; cbn; auto.
    apply Forall2_set; [exact F|]. intros sd z Z. assert (z = ob) by congruence. subst z. exact (built_set _ _ _ (Field (f_decl f) s') _ N eq_refl).
  - apply (Same eq_refl); clear Same; destruct (nth_error (y_objs y) i) as [ob|] eqn:O; try (injection E as <- _; auto; fail);
      destruct (object_checkpoint c sh ob (w_panicking (y_world y))) as [ob' r1] eqn:C; injection E as <- _; cbn; auto.
    apply Forall2_set; [exact F|]. intros sd z Z. assert (z = ob) by congruence. subst z.
    assert (D := object_checkpoint_decls c ob (w_panicking (y_world y))). rewrite C in D. cbn in D.
    intros [->|B]; [left; now destruct ob'|right; congruence].
  - apply (Same eq_refl); clear Same; destruct (nth_error (y_objs y) i) as [ob|] eqn:O; try (injection E as <- _; auto; fail);
      injection E as <- _; cbn; auto.
    apply Forall2_set; [exact F|]. intros sd z Z _. now left.
  - apply (Same eq_refl); clear Same; destruct (nth_error (y_stats y) t) as [[md sm]|] eqn:O; try (injection E as <- _; auto; fail);
      destruct (context_expect _ _ _ _ _ _ _) as [[s' t'] r1]; injection E as <- _; cbn; auto.
    apply map_set_nth. intros z Z. assert (z = (md, sm)) by congruence. now subst z.
  - apply (Same eq_refl); clear Same; destruct (nth_error (y_stats y) t) as [[md sm]|] eqn:O; try (injection E as <- _; auto; fail);
      destruct (static_call _ _ _ _ _ _) as [[s' t'] r1]; injection E as <- _; cbn; auto.
    apply map_set_nth. intros z Z. assert (z = (md, sm)) by congruence. now subst z.
  - apply (Same eq_refl); clear Same; destruct (nth_error (y_stats y) t) as [[md sm]|] eqn:O; try (injection E as <- _; auto; fail);
      destruct (static_checkpoint _ _ _ _ _) as [s' r1]; injection E as <- _; cbn; auto.
    apply map_set_nth. intros z Z. assert (z = (md, sm)) by congruence. now subst z.
  - apply (Same eq_refl); clear Same; destruct (nth_error (y_stats y) t) as [[md sm]|] eqn:O; try (injection E as <- _; auto; fail);
      destruct (context_drop _ _ _ _ _) as [s' r1]; injection E as <- _; cbn; auto.
    apply map_set_nth. intros z Z. assert (z = (md, sm)) by congruence. now subst z.
  - assert (D := module_checkpoint_decls c (y_stats y) (w_panicking (y_world y))). 
    apply (Same eq_refl); clear Same; destruct (module_checkpoint _ _ _ _) as [s' r1]; injection E as <- _; auto.
  - injection E as <- _. apply (Same eq_refl); auto.
  - injection E as <- _. apply (Same eq_refl); auto.
  - injection E as <- _. apply (Same eq_refl); auto.
Qed.
Lemma laid_out_site decls l y st md s : laid_out decls l y -> at_site y st md s -> site_decl decls l st md.
Proof.
  intros [S F] A. destruct st as [i j|k]; cbn in *.
  - destruct A as (ob & N & M). destruct (Forall2_nth _ _ _ _ _ F N) as (sd & N2 & [->|B]); [destruct j; discriminate|].
    exists sd. split; [exact N2|]. rewrite <- B. rewrite nth_error_map, M. reflexivity.
  - destruct A as (b & N). rewrite <- S, nth_error_map, N. reflexivity.
Qed.
Lemma site_decl_app decls (l l' : list (op V U)) st md : site_decl decls l st md -> site_decl decls (l ++ l') st md.
Proof.
  destruct st as [i j|k]; cbn; [|auto]. intros (sd & N & M). exists sd. split; [|exact M].
  rewrite news_app, nth_error_app1; [exact N|]. apply nth_error_Some. congruence.
Qed.

(** ** The run *)

Lemma run_snoc c y l o : run c sh y (l ++ [o]) =
  let (y1, rs) := run c sh y l in let (y2, r) := step c sh y1 o in (y2, rs ++ [r]).
Proof.
  revert y. induction l as [|x l IH]; intros y; cbn.
  - destruct (step c sh y o). reflexivity.
  - destruct (step c sh y x) as [y1 r]. rewrite IH. destruct (run c sh y1 l) as [y2 rs]. destruct (step c sh y2 o). reflexivity.
Qed.
Lemma run_len c y l : List.length (snd (run c sh y l)) = List.length l.
Proof.
  revert y. induction l as [|x l IH]; intros y; cbn; [reflexivity|]. destruct (step c sh y x) as [y1 r].
  specialize (IH y1). destruct (run c sh y1 l). cbn in *. now rewrite IH.
Qed.

Definition polite_exp (e : expectation V U) : Prop := polite_matcher (c_matcher (e_common e)) /\ polite_action (e_action e).
Lemma polite_kept e e' : kept e e' -> polite_exp e -> polite_exp e'.
Proof.
  intros (M & _ & _ & A) [P Q]. split; [now rewrite M|]. unfold act_kept in A.
  destruct (e_action e) as [ra pa|ra|[oa|fa oa|ta fa oa|va]], (e_action e') as [rb pb|rb|[ob|fb ob|tb fb ob|vb]]; cbn in *; try contradiction; auto.
  - destruct A as [->|[-> _]]; [exact Q|exact Logic.I].
  - now rewrite A.
  - destruct A as [-> _]. exact Q.
Qed.

Definition once_like (e : expectation V U) : Prop :=
  used e \/ exists b f, e_action e = AStatic (SOnce f) b \/ exists t, e_action e = AStatic (SOnceSt t f) b.
Lemma once_kept e e' : kept e e' -> once_like e' -> once_like e.
Proof.
  intros (_ & _ & _ & A). unfold once_like, used. intros [[b Q]|(b & f & [Q|(t & Q)])]; rewrite Q in A; unfold act_kept in A;
    (destruct (e_action e) as [ra pa|ra|[oa|fa oa|ta fa oa|va]]; try contradiction).
  - destruct A as [<-|[_ (f & [->|(o & ->)])]].
    + left. eauto.
    + right. exists pa, f. auto.
    + right. exists pa, f. right. eauto.
  - destruct A as [<-|[A _]]; [|discriminate]. right. exists pa, f. auto.
  - destruct A as [<-|[A _]]; [|discriminate]. right. exists pa, f. right. eauto.
Qed.

(** Where an expectation comes from. *)
Record origin c (l : list (op V U)) (rs : list (res (option V))) (st : site) (e : expectation V U)
    (j : nat) (o : op V U) (done rest : list (setter V U)) : Prop := Origin {
  og_op : nth_error l j = Some o;
  og_sets : sets_site st o (done ++ rest);
  og_all : nth_error rs j = Some (Ret None) -> rest = [];
  og_text : matcher_show (c_matcher (e_common e)) = text_of done;
  og_range : right_range c (count_of done) (trange_of (c_times (e_common e)));
  og_count : counted e <= calls_of st (skipn (S j) l);
  og_used : used e -> 1 <= calls_of st (skipn (S j) l);
  og_once : once_like e -> exists x, In x done /\ once_setter x;
  og_seq : c_seq (e_common e) <> None -> exists q, In (StInSequence q) done;
  og_polite : polite_exp e;
  og_open : forall k o' r, (j < k)%nat -> nth_error l k = Some o' -> validates_site st o' -> nth_error rs k = Some r -> r <> Ret None
}.
Definition traced c (l : list (op V U)) rs (y : sys V U) : Prop :=
  forall st md s e, at_site y st md s -> held s e -> exists j o done rest, origin c l rs st e j o done rest.

Lemma calls_app st (l l' : list (op V U)) : calls_of st (l ++ l') = calls_of st l + calls_of st l'.
Proof. unfold calls_of, calls_in. rewrite filter_app, app_length. lia. Qed.
Lemma calls_one st (o : op V U) : calls_of st [o] = if calls_site st o then 1 else 0.
Proof. unfold calls_of, calls_in. cbn. destruct (calls_site st o); reflexivity. Qed.
Lemma skipn_snoc {A} j (l : list A) x : (j < List.length l)%nat -> skipn (S j) (l ++ [x]) = skipn (S j) l ++ [x].
Proof. intros L. rewrite skipn_app. replace (S j - List.length l)%nat with 0%nat by lia. reflexivity. Qed.
Lemma nth_snoc {A} (l : list A) x k z : nth_error (l ++ [x]) k = Some z ->
  (k < List.length l)%nat /\ nth_error l k = Some z \/ k = List.length l /\ z = x.
Proof.
  intros N. destruct (Nat.lt_ge_cases k (List.length l)) as [L|L].
  - left. split; [exact L|]. now rewrite nth_error_app1 in N.
  - right. rewrite nth_error_app2 in N by exact L. destruct (k - List.length l)%nat as [|q] eqn:Q; cbn in N.
    + injection N as <-. split; [lia|reflexivity].
    + destruct q; discriminate.
Qed.
Lemma nth_len {A} (l : list A) j x : nth_error l j = Some x -> (j < List.length l)%nat.
Proof. intros N. apply nth_error_Some. congruence. Qed.

Lemma origin_step c l rs st e e' j o0 done rest o r : List.length rs = List.length l -> origin c l rs st e j o0 done rest ->
  kept e e' -> counted e' <= counted e + (if calls_site st o then 1 else 0) -> (calls_site st o = false -> used e' -> used e) ->
  (validates_site st o -> r <> Ret None) -> origin c (l ++ [o]) (rs ++ [r]) st e' j o0 done rest.
Proof.
  intros Ln O K C Us Va. assert (L := nth_len _ _ _ (og_op _ _ _ _ _ _ _ _ _ O)). destruct K as (K1 & K2 & K3 & K4) eqn:KQ.
  constructor.
  - rewrite nth_error_app1 by exact L. apply O.
  - apply O.
  - rewrite nth_error_app1 by lia. apply O.
  - rewrite K1. apply O.
  - rewrite K3. apply O.
  - rewrite skipn_snoc, calls_app, calls_one by exact L. assert (X := og_count _ _ _ _ _ _ _ _ _ O). lia.
  - rewrite skipn_snoc, calls_app, calls_one by exact L. intros Q. destruct (calls_site st o); [lia|].
    assert (X := og_used _ _ _ _ _ _ _ _ _ O (Us eq_refl Q)). lia.
  - intros Q. apply (og_once _ _ _ _ _ _ _ _ _ O). exact (once_kept _ _ K Q).
  - rewrite K2. apply O.
  - exact (polite_kept _ _ K (og_polite _ _ _ _ _ _ _ _ _ O)).
  - intros k o' r' J N W R. apply nth_snoc in N as [[Lk N]|[-> ->]].
    + rewrite nth_error_app1 in R by lia. exact (og_open _ _ _ _ _ _ _ _ _ O k o' r' J N W R).
    + rewrite nth_error_app2 in R by lia. rewrite Ln, Nat.sub_diag in R. cbn in R. injection R as <-. exact (Va W).
Qed.

Lemma default_made c me kd : right_range c AFull (trange_of (c_times (e_common (expectation_default c me kd : expectation V U)))).
Proof. split; reflexivity. Qed.

Lemma fresh_origin c l rs st md o x e r : 1 < umax c -> List.length rs = List.length l -> polite_op o -> sound_op (umax c) o ->
  sets_site st o x -> fresh c md x e r -> exists done rest, origin c (l ++ [o]) (rs ++ [r]) st e (List.length l) o done rest.
Proof.
  intros U1 Ln P Sm W (th & t & t' & r0 & A & ->).
  assert (Pl : Forall polite_setter x) by (apply P; destruct W; constructor).
  assert (Sx : sound_setters (umax c) x) by exact (Sm _ _ W).
  destruct (setters_made c th x U1 Sx _ _ _ _ _ _ (default_made c (md_me md) (md_kind md)) A) as (done & rest & -> & R & M).
  exists done, rest. constructor.
  - now rewrite nth_error_app2, Nat.sub_diag by lia.
  - exact W.
  - rewrite <- Ln, nth_error_app2, Nat.sub_diag by lia. cbn. intros Q. injection Q as Q. apply R. exact (unit_ret _ Q).
  - apply M.
  - apply M.
  - rewrite (md_count _ _ _ _ _ _ M). cbn. lia.
  - intros Q. destruct (md_used _ _ _ _ _ _ M Q) as [b B]. destruct (md_kind md); discriminate.
  - intros [Q|Q].
    + destruct (md_used _ _ _ _ _ _ M Q) as [b B]. destruct (md_kind md); discriminate.
    + destruct (md_once _ _ _ _ _ _ M Q) as [(b & f & [B|(t0 & B)])|B]; [destruct (md_kind md); discriminate|destruct (md_kind md); discriminate|exact B].
  - intros Q. destruct (md_seq _ _ _ _ _ _ M Q) as [B|B]; [now destruct B|exact B].
  - exact (proj2 (setters_clean _ _ _ _ _ _ _ _ Pl (default_clean _ _ _) A)).
  - intros k o' r' J N. apply nth_len in N. rewrite app_length in N. cbn in N. lia.
Qed.

Lemma run_traced c u decls l : 1 < umax c -> Forall polite_op l -> Forall (sound_op (umax c)) l ->
  forall y rs, run c sh (init u decls) l = (y, rs) -> laid_out decls l y /\ traced c l rs y.
Proof.
  intros U1. induction l as [|o l IH] using rev_ind; intros Po So y rs.
  - cbn. intros E. injection E as <- <-. split.
    + split; [|constructor]. cbn. rewrite map_map. apply map_id.
    + intros st md s e A H. exfalso. destruct st as [i j|k]; cbn in A.
      * destruct A as (ob & N & _). destruct i; discriminate.
      * destruct A as (b & N). rewrite nth_error_map in N. destruct (nth_error decls k) as [d|]; [|discriminate].
        cbn in N. injection N as -> <- <-. exact (held_new _ _ H).
  - apply Forall_app in Po as [Po Po1]. apply Forall_app in So as [So So1]. inversion Po1 as [|? ? P _]; subst. inversion So1 as [|? ? S _]; subst.
    rewrite run_snoc. assert (Ln := run_len c (init u decls) l). destruct (run c sh (init u decls) l) as [y1 rs1]. cbn in Ln.
    destruct (IH Po So _ _ eq_refl) as [La Tr]. destruct (step c sh y1 o) as [y2 r] eqn:E. intros Q. injection Q as <- <-.
    split; [exact (step_laid_out _ _ _ _ _ _ _ La E)|]. intros st md s e A H.
    destruct (step_held sh _ _ _ _ _ _ _ _ _ E A H) as [(s0 & A0 & (e0 & H0 & K & C & Us) & Va)|(x & W & F)].
    + destruct (Tr _ _ _ _ A0 H0) as (j & o0 & done & rest & O). exists j, o0, done, rest.
      exact (origin_step _ _ _ _ _ _ _ _ _ _ _ _ Ln O K C Us Va).
    + destruct (fresh_origin _ _ _ _ _ _ _ _ _ U1 Ln P S W F) as (done & rest & O). eauto.
Qed.

(** ** Failures *)

Lemma calls_at (y : sys V U) o me es args e : calls y o me es args -> In e es ->
  exists st md s, at_site y st md s /\ held s e /\ calls_site st o = true /\ me = md_me md.
Proof.
  intros [i j k a wr ob [md s] N1 N2|s k a md [b sm] N] I.
  - exists (SiteObj i j), md, s. split; [exists ob; auto|]. split; [exact (held_get _ _ _ I)|]. cbn. now rewrite !Nat.eqb_refl.
  - exists (SiteStat s), md, sm. split; [exists b; auto|]. split; [exact (held_get _ _ _ I)|]. cbn. now rewrite Nat.eqb_refl.
Qed.
Lemma validates_at (y : sys V U) o me es e : validates y o me es -> In e es ->
  exists st md s, at_site y st md s /\ held s e /\ validates_site st o /\ me = md_me md.
Proof.
  intros [i ob f es0 N1 N2 S|i ob f es0 N1 N2 S|s md [b sm] es0 N1 S|s md [b sm] es0 N1 S|md [b sm] es0 N1 S] I.
  - apply In_nth_error in N2 as [j J]. destruct f as [md s]. exists (SiteObj i j), md, s. split; [exists ob; auto|].
    split; [now exists es0|]. split; [constructor|reflexivity].
  - apply In_nth_error in N2 as [j J]. destruct f as [md s]. exists (SiteObj i j), md, s. split; [exists ob; auto|].
    split; [now exists es0|]. split; [constructor|reflexivity].
  - exists (SiteStat s), md, sm. split; [exists b; auto|]. split; [now exists es0|]. split; [constructor|reflexivity].
  - exists (SiteStat s), md, sm. split; [exists b; auto|]. split; [now exists es0|]. split; [constructor|reflexivity].
  - apply In_nth_error in N1 as [s J]. exists (SiteStat s), md, sm. split; [exists b; auto|]. split; [now exists es0|]. split; [constructor|reflexivity].
Qed.
Lemma shows_text e s : shows e s -> s = matcher_show (c_matcher (e_common (e : expectation V U))).
Proof. unfold shows. destruct 1; reflexivity. Qed.
Lemma polite_raises e m : polite_exp e -> raises e m -> exists n, m = MUser n.
Proof.
  intros (M & A) [f args u u' E F|th f args u u' E F|ps p a u u' E I F|rf b f args u u' E Q F|rf f args u u' E Q F];
    rewrite E in *; cbn in *.
  - exact (M _ _ _ _ F).
  - exact (M _ _ _ _ F).
  - rewrite Forall_forall in M. exact (M _ I _ _ _ _ F).
  - destruct Q as [->|[[th ->]|[->|[th ->]]]]; exact (A _ _ _ _ F).
  - destruct Q as [[o ->]|(th & o & ->)]; exact (A _ _ _ _ F).
Qed.
Lemma calls_bound st (l : list (op V U)) : calls_of st l <= N.of_nat (List.length l).
Proof.
  unfold calls_of, calls_in. assert (H : (List.length (filter (calls_site st) l) <= List.length l)%nat); [|lia].
  induction l as [|o l IH]; cbn; [lia|]. destruct (calls_site st o); cbn; lia.
Qed.

Lemma firstn_nth {A} (l : list A) i o : nth_error l i = Some o -> firstn (S i) l = firstn i l ++ [o].
Proof. revert i. induction l as [|a l IH]; intros [|i]; cbn; try discriminate; [intros Q; now injection Q as ->|]. intros N. f_equal. exact (IH _ N). Qed.

Lemma run_split c y l i o y' rs m : run c sh y l = (y', rs) -> nth_error l i = Some o -> nth_error rs i = Some m ->
  exists y1 rs1 y2, run c sh y (firstn i l) = (y1, rs1) /\ step c sh y1 o = (y2, m) /\ rs1 = firstn i rs.
Proof.
  revert y i rs. induction l as [|x l IH]; intros y [|i] rs; cbn; try discriminate.
  - destruct (step c sh y x) as [y1 r] eqn:E. destruct (run c sh y1 l) as [y2 rs2]. intros Q. injection Q as _ <-. cbn.
    intros Q1 Q2. injection Q1 as ->. injection Q2 as ->. exists y, [], y1. auto.
  - destruct (step c sh y x) as [y1 r] eqn:E. destruct (run c sh y1 l) as [y2 rs2] eqn:R. intros Q. injection Q as -> <-. cbn.
    intros N M. destruct (IH _ _ _ R N M) as (y3 & rs3 & y4 & A & B & ->). rewrite A. exists y3, (r :: firstn i rs2), y4. auto.
Qed.

Lemma origin_points c u decls l i o y rs rs1 st md s e j o0 done rest y0 : 
  run c sh (init u decls) l = (y, rs) -> nth_error l i = Some o -> rs1 = firstn i rs ->
  laid_out decls (firstn i l) y0 -> at_site y0 st md s -> origin c (firstn i l) rs1 st e j o0 done rest ->
  forall n, n <= calls_of st (skipn (S j) (firstn i l)) + (if calls_site st o then 1 else 0) ->
  points decls l rs i st (me_name (md_me md)) (matcher_show (c_matcher (e_common e))) n done.
Proof.
  intros R N -> La A O n Le. assert (Li := nth_len _ _ _ N). assert (Lj := nth_len _ _ _ (og_op _ _ _ _ _ _ _ _ _ O)).
  rewrite firstn_length_le in Lj by lia.
  assert (Fn : forall B (x : list B) k, (k < i)%nat -> nth_error (firstn i x) k = nth_error x k).
  { clear. intros B. induction i as [|i IH]; intros x k L; [lia|]. destruct x, k; cbn; auto. apply IH. lia. }
  exists j, o0, rest. split.
  - exists md. split; [|reflexivity]. rewrite <- (firstn_skipn i l). apply site_decl_app. exact (laid_out_site _ _ _ _ _ _ La A).
  - split; [exact Lj|]. split; [rewrite <- (Fn _ l j Lj); apply O|]. split; [apply O|].
    split; [rewrite <- (Fn _ rs j Lj); apply O|]. split; [apply O|]. split.
    + fold (calls_of st (skipn (S j) (firstn (S i) l))). rewrite (firstn_nth _ _ _ N), skipn_snoc, calls_app, calls_one by (rewrite firstn_length_le; lia). exact Le.
    + intros k o' r [J1 J2] Nk W Rk. apply (og_open _ _ _ _ _ _ _ _ _ O k o' r J1).
      * now rewrite Fn.
      * exact W.
      * now rewrite Fn.
Qed.

Theorem run_explained c u decls l y rs i o m :
  run c sh (init u decls) l = (y, rs) -> Forall polite_op l -> Forall (sound_op (umax c)) l ->
  N.of_nat (List.length l) < umax c -> nth_error l i = Some o -> nth_error rs i = Some (Panic m) ->
  explained decls l rs i o m.
Proof.
  intros R Po So Len N M. destruct (run_split _ _ _ _ _ _ _ _ R N M) as (y1 & rs1 & y2 & R1 & E & Q).
  assert (Li := nth_len _ _ _ N). assert (U1 : 1 < umax c) by lia.
  assert (Po1 : Forall polite_op (firstn i l)) by (rewrite <- (firstn_skipn i l) in Po; apply Forall_app in Po; apply Po).
  assert (So1 : Forall (sound_op (umax c)) (firstn i l)) by (rewrite <- (firstn_skipn i l) in So; apply Forall_app in So; apply So).
  destruct (run_traced c u decls _ U1 Po1 So1 _ _ R1) as [La Tr].
  assert (Bd : forall st (o0 : op V U) done rest e j, origin c (firstn i l) rs1 st e j o0 done rest ->
    calls_of st (skipn (S j) (firstn i l)) + 1 < umax c).
  { intros st o0 done rest e j O. assert (X := calls_bound st (skipn (S j) (firstn i l))). rewrite skipn_length, firstn_length_le in X by lia. lia. }
  assert (Call : forall (P : method V -> list V -> expectation V U -> Prop), called_with y1 o P ->
     exists st md e j o0 done rest args, calls_site st o = true /\ origin c (firstn i l) rs1 st e j o0 done rest /\ P (md_me md) args e
       /\ forall n, n <= calls_of st (skipn (S j) (firstn i l)) + 1 ->
          points decls l rs i st (me_name (md_me md)) (matcher_show (c_matcher (e_common e))) n done).
  { intros P (me & es & args & e & C & I & H). destruct (calls_at _ _ _ _ _ _ C I) as (st & md & s & A & Hd & Cs & ->).
    destruct (Tr _ _ _ _ A Hd) as (j & o0 & done & rest & O). exists st, md, e, j, o0, done, rest, args.
    split; [exact Cs|]. split; [exact O|]. split; [exact H|]. intros n Le.
    refine (origin_points _ _ _ _ _ _ _ _ _ _ _ _ _ _ _ _ _ _ R N Q La A O n _). now rewrite Cs. }
  assert (Val : forall (P : method V -> expectation V U -> Prop), validated_with y1 o P ->
     exists st md e j o0 done rest, validates_site st o /\ origin c (firstn i l) rs1 st e j o0 done rest /\ P (md_me md) e
       /\ forall n, n <= calls_of st (skipn (S j) (firstn i l)) ->
          points decls l rs i st (me_name (md_me md)) (matcher_show (c_matcher (e_common e))) n done).
  { intros P (me & es & e & C & I & H). destruct (validates_at _ _ _ _ _ C I) as (st & md & s & A & Hd & Cs & ->).
    destruct (Tr _ _ _ _ A Hd) as (j & o0 & done & rest & O). exists st, md, e, j, o0, done, rest.
    split; [exact Cs|]. split; [exact O|]. split; [exact H|]. intros n Le.
    refine (origin_points _ _ _ _ _ _ _ _ _ _ _ _ _ _ _ _ _ _ R N Q La A O n _). lia. }
  destruct (step_reason sh shuffled _ _ _ _ _ E) as [W|(me & es & args & e & C & I & Ra)].
  2: { destruct (calls_at _ _ _ _ _ _ C I) as (st & md & s & A & Hd & _ & _). destruct (Tr _ _ _ _ A Hd) as (j & o0 & done & rest & O).
       destruct (polite_raises _ _ (og_polite _ _ _ _ _ _ _ _ _ O) Ra) as [n ->]. exact Logic.I. }
  destruct m as [| | | | |w|fn s [|n k]|fn s re|fn s n k|fn s n k|d sq lv|sq lv| |d]; cbn [reason explained explains] in *; unfold explained; cbn [explains]; try exact Logic.I.
  - destruct (Call _ W) as (st & md & e & j & o0 & done & rest & args & Cs & O & (-> & S & B) & Pt). exists st, done.
    split; [exact Cs|]. rewrite (shows_text _ _ S). split; [apply Pt; lia|].
    destruct (og_range _ _ _ _ _ _ _ _ _ O) as [_ X]. unfold bound in B. destruct (arg_max (count_of done)) as [k|]; [|lia].
    f_equal. lia.
  - destruct (Call _ W) as (st & md & e & j & o0 & done & rest & args & Cs & O & (-> & S & B1 & B) & Pt). exists st, done.
    split; [exact Cs|]. rewrite (shows_text _ _ S). assert (X0 := Bd _ _ _ _ _ _ O). assert (X1 := og_count _ _ _ _ _ _ _ _ _ O).
    destruct (og_range _ _ _ _ _ _ _ _ _ O) as [_ X]. unfold bound in B, B1. destruct (arg_max (count_of done)) as [k0|].
    + destruct B as (-> & B2 & B3); [lia|]. split; [apply Pt; lia|]. split; [f_equal; lia|exact B3].
    + destruct B as (-> & B2 & B3); lia.
  - destruct (Call _ W) as (st & md & e & j & o0 & done & rest & args & Cs & O & (-> & S & B) & Pt). rewrite (shows_text _ _ S).
    destruct re; exists st, done; (split; [exact Cs|]); try (apply Pt; lia).
    split; [apply Pt; assert (X := og_used _ _ _ _ _ _ _ _ _ O B); lia|].
    apply (og_once _ _ _ _ _ _ _ _ _ O). now left.
  - destruct W as [_ W]. destruct (Val _ W) as (st & md & e & j & o0 & done & rest & Cs & O & (-> & S & -> & -> & B) & Pt). exists st, done.
    split; [exact Cs|]. rewrite (shows_text _ _ S). split; [apply Pt; apply O|].
    destruct (og_range _ _ _ _ _ _ _ _ _ O) as [X _]. unfold least in *. rewrite X in *. split; [reflexivity|exact B].
  - destruct W as [_ W]. destruct (Val _ W) as (st & md & e & j & o0 & done & rest & Cs & O & (-> & S & -> & B1 & B) & Pt). exists st, done.
    split; [exact Cs|]. rewrite (shows_text _ _ S). split; [apply Pt; apply O|].
    assert (X0 := Bd _ _ _ _ _ _ O). assert (X1 := og_count _ _ _ _ _ _ _ _ _ O).
    destruct (og_range _ _ _ _ _ _ _ _ _ O) as [_ X]. unfold bound in *. destruct (arg_max (count_of done)) as [k0|]; [|lia].
    destruct B as (B2 & B3); [lia|]. split; [f_equal; lia|exact B3].
  - destruct (Call _ W) as (st & md & e & j & o0 & done & rest & args & Cs & O & (_ & (h & Sq & _) & _) & Pt).
    destruct (og_seq _ _ _ _ _ _ _ _ _ O) as [q Iq]; [congruence|].
    exists st, (me_name (md_me md)), (matcher_show (c_matcher (e_common e))), done, q. split; [exact Cs|]. split; [apply Pt; lia|exact Iq].
Qed.
End PointRuns.
