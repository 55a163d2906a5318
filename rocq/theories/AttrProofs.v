(** * AttrProofs: which attributes are copied *)

From Coq Require Import List Bool String NArith Arith Lia.
From Verif Require Import Ast AstSpec TyEq Rewrite Derive DeriveSpec.
Import ListNotations.
Open Scope string_scope.
Open Scope list_scope.

Lemma prefix_spec sub s : String.prefix sub s = true <-> exists post, s = (sub ++ post)%string.
Proof.
  revert s. induction sub as [|c sub IH]; intros s.
  - split; [exists s; reflexivity|destruct s; reflexivity].
  - destruct s as [|d s]; cbn [String.prefix String.append].
    + split; [discriminate|intros (p & E); discriminate].
    + destruct (Ascii.ascii_dec c d) as [->|N].
      * rewrite IH. split; intros (p & E); exists p; congruence.
      * split; [discriminate|intros (p & E); congruence].
Qed.

Lemma contains_spec sub s :
  contains sub s = true <-> exists pre post, s = (pre ++ sub ++ post)%string.
Proof.
  revert sub. induction s as [|c s IH]; intros sub; cbn [contains].
  - rewrite orb_false_r, prefix_spec. split.
    + intros (p & E). exists "", p. exact E.
    + intros (pre & post & E). destruct pre; [|discriminate]. exists post. exact E.
  - rewrite orb_true_iff, prefix_spec, IH. split.
    + intros [(p & E)|(pre & post & E)].
      * exists "", p. exact E.
      * exists (String c pre), post. cbn. congruence.
    + intros ([|d pre] & post & E).
      * left. exists post. exact E.
      * right. cbn in E. injection E as -> E. exists pre, post. exact E.
Qed.

Lemma last_ident_named a i : last_ident (apath a) = Some i <-> named a i.
Proof.
  unfold last_ident, named. destruct (apath a) as [lead l]. cbn [segs]. split.
  - destruct (rev l) as [|[j x] r] eqn:E; [discriminate|]. intros H. injection H as ->.
    apply (f_equal (@rev _)) in E. rewrite rev_involutive in E. cbn in E.
    exists lead, (rev r), x. congruence.
  - intros (lead' & pre & x & E). injection E as -> ->. rewrite rev_app_distr. reflexivity.
Qed.

Lemma named_fun a i j : named a i -> named a j -> i = j.
Proof. intros H H'. apply last_ident_named in H, H'. congruence. Qed.

Lemma named_some a : segs (apath a) <> [] -> exists i, named a i.
Proof.
  intros H. destruct (last_ident (apath a)) eqn:E; [exists s; apply last_ident_named; exact E|].
  unfold last_ident in E. destruct (rev (segs (apath a))) as [|[j x] r] eqn:R; [|discriminate].
  apply (f_equal (@rev _)) in R. rewrite rev_involutive in R. contradiction.
Qed.

Lemma is_concretize_spec a :
  is_concretize a = true
  <-> named a "concretize"
      \/ (apath a = path_of "cfg_attr"
          /\ exists pre post, alist a = Some (pre ++ "concretize" ++ post)%string).
Proof.
  unfold is_concretize, last_is. rewrite <- last_ident_named.
  assert (I : is_ident (apath a) "cfg_attr" = true <-> apath a = path_of "cfg_attr").
  { unfold is_ident, path_of, seg_of. split.
    - destruct (apath a) as [[|] [|[j [| |]] [|]]]; try discriminate.
      intros E. apply String.eqb_eq in E. congruence.
    - intros ->. reflexivity. }
  destruct (last_ident (apath a)) as [j|] eqn:L.
  - destruct (j =? "concretize") eqn:J.
    + apply String.eqb_eq in J. subst j. split; auto.
    + assert (N : Some j <> Some "concretize").
      { intros E. injection E as ->. discriminate. }
      destruct (is_ident (apath a) "cfg_attr") eqn:C.
      * destruct I as [I _]. specialize (I eq_refl).
        destruct (alist a) as [t|].
        -- rewrite contains_spec. split.
           ++ intros (p & q & ->). right. split; auto. exists p, q. reflexivity.
           ++ intros [E|(_ & p & q & E)]; [contradiction|]. injection E as ->. exists p, q. reflexivity.
        -- split; [discriminate|]. intros [E|(_ & p & q & E)]; [contradiction|discriminate].
      * split; [discriminate|]. intros [E|(E & _)]; [contradiction|].
        apply I in E. discriminate.
  - destruct (is_ident (apath a) "cfg_attr") eqn:C.
    + destruct I as [I _]. rewrite (I eq_refl) in L. discriminate.
    + split; [discriminate|]. intros [E|(E & _)]; [discriminate|].
      apply I in E. discriminate.
Qed.

Definition copied (f : attr_formatter) (a : attribute) : Prop :=
  ~ never_copied a
  /\ (named a "doc" -> af_doc f = true)
  /\ (named a "async_trait" -> af_async_trait f = true)
  /\ (named a "must_use" -> af_must_use f = true).

Lemma attr_kept_spec f a :
  segs (apath a) <> [] -> (attr_kept f a = true <-> copied f a).
Proof.
  intros W. destruct (named_some a W) as (i & N). unfold attr_kept, copied, never_copied.
  destruct (is_concretize a) eqn:C.
  - apply is_concretize_spec in C. split; [discriminate|]. intros (H & _). elim H.
    destruct C as [C|C]; auto. left. exists "concretize". split; auto. left. reflexivity.
  - assert (C1 : ~ named a "concretize").
    { intros E. assert (is_concretize a = true) by (apply is_concretize_spec; auto). congruence. }
    assert (C2 : ~ (apath a = path_of "cfg_attr"
          /\ exists pre post, alist a = Some (pre ++ "concretize" ++ post)%string)).
    { intros E. assert (is_concretize a = true) by (apply is_concretize_spec; auto). congruence. }
    destruct (last_ident (apath a)) as [j|] eqn:L;
      [|apply last_ident_named in N; congruence].
    apply last_ident_named in L. pose proof (named_fun _ _ _ L N). subst j.
    assert (NN : forall k, named a k <-> k = i).
    { intros k. split; [intros K; eapply named_fun; eauto|intros ->; exact N]. }
    assert (X : never_copied a <->
       In i ["concretize"; "derive"; "expect"; "inline"; "cold"; "instrument"; "link_name"; "auto_enum"]).
    { unfold never_copied. split.
      - intros [(k & K & I)|I]; [apply NN in K; subst k; exact I|contradiction].
      - intros I. left. exists i. split; auto. }
    unfold never_copied in X. rewrite X. rewrite !NN. rewrite NN in C1. clear - C1.
    cbn [In].
    repeat match goal with
           | |- context [i =? ?s] =>
               let E := fresh in destruct (i =? s) eqn:E;
               [apply String.eqb_eq in E; subst i|apply String.eqb_neq in E]
           end; intuition (congruence || auto).
Qed.

Lemma subseq_filter {A} (f : A -> bool) l : subseq (filter f l) l.
Proof.
  induction l as [|a l IH]; cbn; [constructor|]. destruct (f a); constructor; assumption.
Qed.
