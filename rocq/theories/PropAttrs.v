(** * PropAttrs: which attributes are copied to generated items (C50) *)

From Coq Require Import List Bool String NArith Arith.
From Verif Require Import Ast AstSpec Derive DeriveSpec AttrProofs.
Import ListNotations.
Open Scope string_scope.
Open Scope list_scope.

(** Every attribute is kept in its place or left out, by its own name and
    contents only.  The parser never makes an attribute with an empty path. *)
Theorem attributes_are_filtered :
  forall (f : attr_formatter) (l1 l2 : list attribute) (a : attribute),
    segs (apath a) <> [] ->
    let allowed := ~ never_copied a
                   /\ (named a "doc" -> af_doc f = true)
                   /\ (named a "async_trait" -> af_async_trait f = true)
                   /\ (named a "must_use" -> af_must_use f = true) in
    (allowed -> format f (l1 ++ a :: l2) = format f l1 ++ a :: format f l2)
    /\ (~ allowed -> format f (l1 ++ a :: l2) = format f l1 ++ format f l2).
Proof.
  intros f l1 l2 a W. cbv zeta. unfold format. rewrite filter_app. cbn [filter].
  pose proof (attr_kept_spec f a W) as K. unfold copied in K. split; intros H.
  - apply K in H. rewrite H. reflexivity.
  - destruct (attr_kept f a) eqn:E; auto. elim H. apply K. reflexivity.
Qed.

Theorem copied_attributes_are_a_subsequence :
  forall (f : attr_formatter) (l : list attribute),
    subseq (format f l) l /\ format f (format f l) = format f l.
Proof.
  intros f l. split; [apply subseq_filter|]. unfold format.
  induction l as [|a l IH]; auto. cbn [filter].
  destruct (attr_kept f a) eqn:E; auto. cbn [filter]. rewrite E, IH. reflexivity.
Qed.

Definition attr (l : list ident) (s : option string) : attribute :=
  Attribute (Path false (map seg_of l)) s "".

Example attributes_are_filtered_applies :
  let f := AttrFormatter true true false in
  let a := attr ["allow"] (Some "dead_code") in
  let b := attr ["tracing"; "instrument"] None in
  (segs (apath a) <> [] /\ ~ never_copied a /\ ~ named a "doc" /\ ~ named a "async_trait"
   /\ ~ named a "must_use")
  /\ (segs (apath b) <> [] /\ never_copied b)
  /\ format f [a; b; attr ["must_use"] None; a] = [a; a].
Proof.
  cbv zeta.
  assert (N : forall i, named (attr ["allow"] (Some "dead_code")) i -> i = "allow").
  { intros i H. apply (named_fun _ _ _ H). exists false, [], PaNone. reflexivity. }
  split.
  - split; [discriminate|]. split; [|repeat split; intros H; apply N in H; discriminate].
    intros [(i & H & I)|(H & _)]; [|discriminate]. apply N in H. subst i. cbn in I.
    intuition discriminate.
  - split; [|reflexivity]. split; [discriminate|]. left. exists "instrument".
    split; [exists false, [seg_of "tracing"], PaNone; reflexivity|cbn; auto 12].
Qed.

(** An attribute that only mentions the word is dropped as well: here
    [#[cfg_attr(feature = "concretized", allow(unused))]]. *)
Theorem cfg_attr_is_dropped_refuted :
  exists a : attribute,
    apath a = path_of "cfg_attr"
    /\ alist a = Some "feature = ""concretized"", allow (unused)"
    /\ forall f, format f [a] = [].
Proof.
  exists (Attribute (path_of "cfg_attr") (Some "feature = ""concretized"", allow (unused)") "").
  repeat split.
Qed.

Print Assumptions attributes_are_filtered.
Print Assumptions copied_attributes_are_a_subsequence.
Print Assumptions cfg_attr_is_dropped_refuted.
