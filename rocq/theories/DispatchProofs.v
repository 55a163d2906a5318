(** * DispatchProofs: lemmas about [Expectations::call] *)

From Coq Require Import NArith List Bool String Lia.
From Verif Require Import Base Times TimesSpec TimesProofs Expect ExpectProofs Mock Spec.
Import ListNotations.
Open Scope N_scope.

Section P.
Context {V U : Type}.
Implicit Types (w : world U) (me : method V) (k : common V U) (e : expectation V U).

Lemma common_matches_verdict e args w w' b :
  verdict e args w w' b ->
  common_matches (e_common e) args w = (e_common e, w', Ret b).
Proof.
  intros [H1 H2]. unfold common_matches. rewrite H1, H2. reflexivity.
Qed.

Lemma is_done_proper c e :
  proper e ->
  exists d, common_is_done c (e_common e) = Ret d /\ (d = true <-> saturated e).
Proof.
  intros H. unfold common_is_done, saturated. rewrite is_done_ok by exact H.
  eexists; split; [reflexivity|]. apply N.leb_le.
Qed.

(** The expectations that a call passes over. *)
Definition passed (one : bool) e (b : bool) : Prop :=
  b = true -> saturated e /\ one = false.

Lemma find_exp_spec c one : forall es args w,
  Forall live es -> Forall proper es ->
  (exists i e bs w1,
      nth_error es i = Some e /\
      consulted (firstn (S i) es) args w bs w1 /\
      nth_error bs i = Some true /\
      (~ saturated e \/ one = true) /\
      (forall j e' , (j < i)%nat -> nth_error es j = Some e' ->
         exists b, nth_error bs j = Some b /\ passed one e' b) /\
      find_exp c one es args w = (es, w1, Ret (Some i)))
  \/
  (exists bs w1,
      consulted es args w bs w1 /\
      (forall j e', nth_error es j = Some e' ->
         exists b, nth_error bs j = Some b /\ passed one e' b) /\
      find_exp c one es args w = (es, w1, Ret None)).
Proof.
  induction es as [|e es IH]; intros args w HL HP.
  - right. exists [], w. simpl. repeat split; auto. intros [|j] e'; discriminate.
  - inversion HL as [|? ? L1 L2]; subst. inversion HP as [|? ? P1 P2]; subst.
    destruct (L1 args w) as (w1 & b & HV).
    pose proof (common_matches_verdict _ _ _ _ _ HV) as HM.
    destruct (is_done_proper c e P1) as (d & Hd & Hsat).
    cbn [find_exp]. rewrite HM. rewrite set_common_id.
    assert (Hskip : passed one e b ->
      (exists i e0 bs w0,
         nth_error (e :: es) i = Some e0 /\
         consulted (firstn (S i) (e :: es)) args w bs w0 /\
         nth_error bs i = Some true /\
         (~ saturated e0 \/ one = true) /\
         (forall j e' , (j < i)%nat -> nth_error (e :: es) j = Some e' ->
            exists b, nth_error bs j = Some b /\ passed one e' b) /\
         (let '(es2, w2, r2) := find_exp c one es args w1 in
          (e :: es2, w2, let? o := r2 in Ret (option_map S o)))
         = (e :: es, w0, Ret (Some i)))
      \/
      (exists bs w0,
         consulted (e :: es) args w bs w0 /\
         (forall j e', nth_error (e :: es) j = Some e' ->
            exists b, nth_error bs j = Some b /\ passed one e' b) /\
         (let '(es2, w2, r2) := find_exp c one es args w1 in
          (e :: es2, w2, let? o := r2 in Ret (option_map S o)))
         = (e :: es, w0, Ret None))).
    { intros HB.
      destruct (IH args w1 L2 P2) as [(i & e0 & bs & w2 & N1 & C1 & B1 & S1 & F1 & E1)|(bs & w2 & C1 & F1 & E1)].
      - left. exists (S i), e0, (b :: bs), w2. rewrite E1. simpl.
        split; [exact N1|]. split; [exists w1; split; [exact HV|exact C1]|].
        split; [exact B1|]. split; [exact S1|]. split; [|reflexivity].
        intros [|j] e' Hj He'; simpl in *.
        + inversion He'; subst. exists b; split; auto.
        + apply F1; auto; lia.
      - right. exists (b :: bs), w2. rewrite E1. simpl.
        split; [exists w1; split; [exact HV|exact C1]|].
        split; [|reflexivity].
        intros [|j] e' He'; simpl in *.
        + inversion He'; subst. exists b; split; auto.
        + apply F1; auto. }
    destruct b.
    + rewrite Hd. destruct (negb d || one) eqn:Q.
      * left. exists O, e, [true], w1. simpl. split; [reflexivity|].
        split; [exists w1; split; auto|]. split; [reflexivity|].
        split.
        { destruct one; [right; reflexivity|]. left.
          rewrite orb_false_r in Q. apply negb_true_iff in Q. subst d.
          intros HS. apply Hsat in HS. discriminate. }
        split; [intros; lia|reflexivity].
      * apply orb_false_iff in Q. destruct Q as [Q1 Q2].
        apply negb_false_iff in Q1. subst.
        apply Hskip. intros _. split; auto. apply Hsat. reflexivity.
    + apply Hskip. intros HB; discriminate.
Qed.

(** [Expectations::call] in terms of the scan. *)
Lemma expectations_call_spec c me : forall es args wr w,
  Forall live es -> Forall proper es ->
  (exists i e bs w1,
      nth_error es i = Some e /\
      consulted (firstn (S i) es) args w bs w1 /\
      nth_error bs i = Some true /\
      (~ saturated e \/ List.length es = 1%nat) /\
      (forall j e', (j < i)%nat -> nth_error es j = Some e' ->
         exists b, nth_error bs j = Some b /\
           (b = true -> saturated e' /\ List.length es <> 1%nat)) /\
      forall e' w2 r, expectation_call c me e args wr w1 = (e', w2, r) ->
        expectations_call c me es args wr w = (set_nth es i e', w2, let? v := r in Ret (Some v)))
  \/
  (exists bs w1,
      consulted es args w bs w1 /\
      (forall j e', nth_error es j = Some e' ->
         exists b, nth_error bs j = Some b /\
           (b = true -> saturated e' /\ List.length es <> 1%nat)) /\
      expectations_call c me es args wr w = (es, w1, Ret None)).
Proof.
  intros es args wr w HL HP. unfold expectations_call.
  destruct (find_exp_spec c (Nat.eqb (List.length es) 1) es args w HL HP)
    as [(i & e & bs & w1 & N1 & C1 & B1 & S1 & F1 & E1)|(bs & w1 & C1 & F1 & E1)].
  - left. exists i, e, bs, w1. split; [exact N1|]. split; [exact C1|]. split; [exact B1|].
    split. { destruct S1 as [S1|S1]; [left; exact S1|right; apply PeanoNat.Nat.eqb_eq; exact S1]. }
    split. { intros j e' Hj He'. destruct (F1 j e' Hj He') as (b & Hb & Hp).
             exists b; split; auto. intros Hbt. destruct (Hp Hbt) as [Q1 Q2]. split; auto.
             apply PeanoNat.Nat.eqb_neq; auto. }
    intros e' w2 r Hr. rewrite E1, N1, Hr. reflexivity.
  - right. exists bs, w1. split; [exact C1|].
    split. { intros j e' He'. destruct (F1 j e' He') as (b & Hb & Hp).
             exists b; split; auto. intros Hbt. destruct (Hp Hbt) as [Q1 Q2]. split; auto.
             apply PeanoNat.Nat.eqb_neq; auto. }
    rewrite E1. reflexivity.
Qed.

(** ** List updates *)
Lemma nth_set_nth_same {A} : forall (l : list A) i x y,
  nth_error l i = Some y -> nth_error (set_nth l i x) i = Some x.
Proof. induction l; intros [|i] x y H; simpl in *; try discriminate; auto. eauto. Qed.

Lemma nth_set_nth_other {A} : forall (l : list A) i j x,
  i <> j -> nth_error (set_nth l i x) j = nth_error l j.
Proof. induction l; intros [|i] [|j] x H; simpl in *; auto; try congruence. Qed.

Lemma set_nth_length {A} : forall (l : list A) i x, List.length (set_nth l i x) = List.length l.
Proof. induction l; intros [|i] x; simpl; auto. Qed.

Lemma set_nth_id {A} : forall (l : list A) i x, nth_error l i = Some x -> set_nth l i x = l.
Proof. induction l; intros [|i] x H; simpl in *; try discriminate; f_equal; auto. congruence. Qed.

Lemma Forall_set_nth {A} (P : A -> Prop) : forall (l : list A) i x,
  Forall P l -> P x -> Forall P (set_nth l i x).
Proof.
  induction l; intros [|i] x H Hx; simpl; auto; inversion H; subst; constructor; auto.
Qed.

End P.
