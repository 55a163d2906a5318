(** * NameProofs: lemmas about made up identifiers *)

From Coq Require Import List Bool String Ascii NArith Arith DecimalString Decimal DecimalN Lia.
From Verif Require Import Ast Names.
Import ListNotations.
Open Scope string_scope.

(** ** Strings *)

Lemma append_assoc (a b c : string) : a ++ (b ++ c) = (a ++ b) ++ c.
Proof. induction a; cbn; congruence. Qed.

Lemma append_nil (a : string) : a ++ "" = a.
Proof. induction a; cbn; congruence. Qed.

Lemma append_length (a b : string) : String.length (a ++ b) = (String.length a + String.length b)%nat.
Proof. induction a; cbn; congruence. Qed.

Lemma append_inj_l (a b c : string) : a ++ b = a ++ c -> b = c.
Proof. induction a; cbn; auto. intros H. injection H. auto. Qed.

Lemma append_inj_r (a b c : string) : a ++ c = b ++ c -> a = b.
Proof.
  revert b. induction a as [|x a IH]; intros [|y b] H; cbn in *; auto.
  - exfalso. apply (f_equal String.length) in H. cbn in H. rewrite append_length in H. lia.
  - exfalso. apply (f_equal String.length) in H. cbn in H. rewrite append_length in H. lia.
  - injection H as -> H. f_equal. auto.
Qed.

Lemma append_split (a b c d : string) :
  a ++ b = c ++ d ->
  (exists e, a = c ++ e /\ d = e ++ b) \/ (exists e, c = a ++ e /\ b = e ++ d).
Proof.
  revert c. induction a as [|x a IH]; intros c H.
  - right. exists c. auto.
  - destruct c as [|y c].
    + left. exists (String x a). auto.
    + cbn in H. injection H as -> H. destruct (IH _ H) as [(e & -> & ->)|(e & -> & ->)].
      * left. exists e. auto.
      * right. exists e. auto.
Qed.

Definition ends_ (s : string) : Prop := exists u, s = u ++ "_".

Lemma ends_app (a b : string) : b <> "" -> ends_ (a ++ b) -> ends_ b.
Proof.
  intros N [u H]. apply append_split in H as [(e & -> & H)|(e & -> & H)].
  - destruct b as [|x b]; [elim N; auto|]. destruct e as [|y e]; cbn in H.
    + exists "". auto.
    + injection H as _ H. destruct e; discriminate.
  - exists e. auto.
Qed.

Lemma not_ends_nil : ~ ends_ "".
Proof. intros [[|x u] H]; discriminate. Qed.

(** ** Joining identifiers *)

Definition no2 (s : string) : Prop := forall u v, s <> u ++ "__" ++ v.
Definition good (s : string) : Prop := s <> "" /\ no2 s /\ ~ ends_ s.

Lemma no2_tail c s : no2 (String c s) -> no2 s.
Proof. intros H u v ->. exact (H (String c u) v eq_refl). Qed.
Lemma ends_tail c s : ~ ends_ (String c s) -> ~ ends_ s.
Proof. intros H [u ->]. apply H. exists (String c u). auto. Qed.

Lemma cut2 (a b x y : string) :
  no2 a -> ~ ends_ a -> no2 b -> ~ ends_ b ->
  a ++ "__" ++ x = b ++ "__" ++ y -> a = b /\ x = y.
Proof.
  revert b. induction a as [|c a IH]; intros b A A' B B' H.
  - destruct b as [|d b]; cbn in H.
    + injection H as ->. auto.
    + injection H as <- H. destruct b as [|d b]; cbn in H.
      * elim B'. exists "". auto.
      * injection H as <- H. elim (B "" b). auto.
  - destruct b as [|d b]; cbn in H.
    + injection H as -> H. destruct a as [|c a]; cbn in H.
      * elim A'. exists "". auto.
      * injection H as -> H. elim (A "" a). auto.
    + injection H as -> H. destruct (IH b) as [-> ->]; auto.
      * eapply no2_tail; eauto.
      * eapply ends_tail; eauto.
      * eapply no2_tail; eauto.
      * eapply ends_tail; eauto.
Qed.

Fixpoint tail_of (l : list string) : string :=
  match l with
  | [] => ""
  | i :: r => "__" ++ i ++ tail_of r
  end.

Lemma fold_join l : forall acc, acc <> "" ->
  fold_left (join_step "__") l acc = acc ++ tail_of l.
Proof.
  induction l as [|i l IH]; intros acc N; cbn [fold_left tail_of].
  - now rewrite append_nil.
  - unfold join_step at 2. destruct (acc =? "") eqn:E; [apply String.eqb_eq in E; contradiction|].
    rewrite IH.
    + now rewrite !append_assoc.
    + destruct acc; [contradiction|discriminate].
Qed.

Lemma joined i l : i <> "" -> fold_left (join_step "__") (i :: l) "" = i ++ tail_of l.
Proof. intros N. cbn [fold_left]. unfold join_step at 2. cbn. apply fold_join. exact N. Qed.

Lemma join_inj l : forall m i j,
  Forall good (i :: l) -> Forall good (j :: m) ->
  i ++ tail_of l = j ++ tail_of m -> i :: l = j :: m.
Proof.
  induction l as [|k l IH]; intros m i j A B H;
    inversion A as [|? ? [I1 [I2 I3]] A']; subst; inversion B as [|? ? [J1 [J2 J3]] B']; subst.
  - destruct m as [|k m]; cbn [tail_of] in H.
    + rewrite !append_nil in H. congruence.
    + rewrite append_nil in H. elim (I2 _ _ H).
  - destruct m as [|k' m]; cbn [tail_of] in H.
    + rewrite append_nil in H. symmetry in H. elim (J2 _ _ H).
    + apply cut2 in H as [-> H]; auto. f_equal. apply IH; auto.
Qed.

Lemma join_not_ends l : forall i, Forall good (i :: l) -> ~ ends_ (i ++ tail_of l).
Proof.
  induction l as [|k l IH]; intros i A; inversion A as [|? ? [I1 [I2 I3]] A']; subst;
    cbn [tail_of].
  - now rewrite append_nil.
  - rewrite append_assoc. intros H. apply ends_app in H.
    + exact (IH _ A' H).
    + inversion A' as [|? ? [K _] _]; subst. destruct k; [contradiction|discriminate].
Qed.

(** ** The hash *)

Definition no1 (s : string) : Prop := forall u v, s <> u ++ "_" ++ v.

Lemma no1_app a b : no1 (a ++ b) -> no1 b.
Proof. intros H u v ->. apply (H (a ++ u) v). now rewrite append_assoc. Qed.

Lemma no1_ends a b : no1 (a ++ b) -> ~ ends_ a.
Proof. intros H [u ->]. apply (H u b). now rewrite <- append_assoc. Qed.

Lemma cut_last J K D E : no1 D -> no1 E -> J ++ "_" ++ D = K ++ "_" ++ E -> J = K /\ D = E.
Proof.
  intros A B H. apply append_split in H as [(e & -> & H)|(e & -> & H)].
  - destruct e as [|c e]; cbn in H.
    + injection H as ->. now rewrite append_nil.
    + injection H as _ ->. exfalso. apply (B e D). reflexivity.
  - destruct e as [|c e]; cbn in H.
    + injection H as ->. now rewrite append_nil.
    + injection H as _ ->. exfalso. apply (A e E). reflexivity.
Qed.

Lemma suffix_in_last l : forall i J D,
  ~ ends_ J -> no1 D -> (i ++ tail_of l = J ++ "_" ++ D)%string ->
  exists s, last (i :: l) "" = s ++ "_" ++ D.
Proof.
  induction l as [|k l IH]; intros i J D NJ ND H.
  - cbn [tail_of] in H. rewrite append_nil in H. exists J. exact H.
  - cbn [tail_of] in H. rewrite append_assoc in H.
    apply append_split in H as [(e & E & H)|(e & -> & H)].
    + exfalso. destruct e as [|c e].
      * rewrite append_nil in E. apply NJ. exists (i ++ "_"). rewrite <- E, <- append_assoc. auto.
      * cbn in H. injection H as <- H. destruct e as [|d e].
        -- change "__" with ("_" ++ "_") in E. rewrite append_assoc in E.
           apply append_inj_r in E. apply NJ. exists i. auto.
        -- assert (X : ends_ (J ++ String "_" (String d e))).
           { exists (i ++ "_"). rewrite <- E, <- append_assoc. reflexivity. }
           change (String "_" (String d e)) with ("_" ++ String d e) in X.
           rewrite append_assoc in X. apply ends_app in X; [|discriminate].
           rewrite H in ND. exact (no1_ends _ _ ND X).
    + destruct (IH k e D) as [s S]; auto.
      * intros [u ->]. apply NJ. exists (i ++ "__" ++ u). rewrite <- !append_assoc. reflexivity.
      * exists s. exact S.
Qed.

Lemma digits_no1 d : no1 (NilEmpty.string_of_uint d).
Proof.
  intros u v. revert u. induction d; intros u; cbn [NilEmpty.string_of_uint];
    destruct u as [|c u]; cbn; try discriminate; intros H; injection H as _ H; exact (IHd _ H).
Qed.

Lemma show_no1 n : no1 (show_N n).
Proof.
  unfold show_N, NilZero.string_of_uint. destruct (N.to_uint n) eqn:E; rewrite <- ?E;
    try apply digits_no1.
  intros u v H. destruct u as [|c [|d u]]; cbn in H; try discriminate.
Qed.

Lemma to_uint_not_nil n : N.to_uint n <> Nil.
Proof.
  intros H. assert (E := DecimalN.Unsigned.of_to n). rewrite H in E. cbn in E. subst n. discriminate.
Qed.

Lemma show_inj n m : show_N n = show_N m -> n = m.
Proof.
  unfold show_N. intros H.
  assert (A := NilZero.usu _ (to_uint_not_nil n)). assert (B := NilZero.usu _ (to_uint_not_nil m)).
  rewrite H in A. rewrite A in B. injection B as B.
  rewrite <- (DecimalN.Unsigned.of_to n), <- (DecimalN.Unsigned.of_to m), B. reflexivity.
Qed.

(** ** Names of traits *)

Definition args_of (p : path) : list pargs :=
  filter (fun a => negb (pargs_is_empty a)) (map seg_args (segs p)).

Lemma ss_name_inj (hash : list pargs -> N) (p q : path) :
  (hash (args_of p) = hash (args_of q) -> args_of p = args_of q) ->
  Forall good (map seg_id (segs p)) -> Forall good (map seg_id (segs q)) ->
  segs p <> [] -> segs q <> [] ->
  (forall s n, last (map seg_id (segs p)) "" <> s ++ "_" ++ show_N n) ->
  (forall s n, last (map seg_id (segs q)) "" <> s ++ "_" ++ show_N n) ->
  ss_name hash p = ss_name hash q ->
  map seg_id (segs p) = map seg_id (segs q) /\ args_of p = args_of q.
Proof.
  intros HI GP GQ NP NQ LP LQ H. unfold ss_name, hash_path_arguments, join_path_segments in H.
  fold (args_of p) (args_of q) in H.
  destruct (segs p) as [|sp lp]; [contradiction|].
  destruct (segs q) as [|sq lq]; [contradiction|]. cbn [map] in *.
  assert (NI : seg_id sp <> "") by (inversion GP as [|? ? [? _] _]; auto).
  assert (NJ : seg_id sq <> "") by (inversion GQ as [|? ? [? _] _]; auto).
  rewrite !joined in H by assumption.
  destruct (args_of p) as [|ap rp], (args_of q) as [|aq rq].
  - split; auto. apply join_inj; auto.
  - exfalso. destruct (suffix_in_last _ _ _ _ (join_not_ends _ _ GQ) (show_no1 _) H) as [s S].
    exact (LP _ _ S).
  - exfalso. symmetry in H.
    destruct (suffix_in_last _ _ _ _ (join_not_ends _ _ GP) (show_no1 _) H) as [s S].
    exact (LQ _ _ S).
  - apply cut_last in H as [H1 H2]; try apply show_no1.
    apply show_inj in H2. apply HI in H2. split; auto. apply join_inj; auto.
Qed.
