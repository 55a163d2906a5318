(** * TimesProofs: lemmas about [Times] *)

From Coq Require Import NArith Bool Lia.
From Verif Require Import Base Times TimesSpec.
Open Scope N_scope.

(** Case analysis on all comparisons of [N] in sight. *)
Ltac ncase :=
  repeat match goal with
  | |- context [?a <=? ?b] => destruct (N.leb_spec a b)
  | |- context [?a <? ?b] => destruct (N.ltb_spec a b)
  | |- context [?a =? ?b] => destruct (N.eqb_spec a b)
  | H : context [?a <=? ?b] |- _ => destruct (N.leb_spec a b)
  | H : context [?a <? ?b] |- _ => destruct (N.ltb_spec a b)
  | H : context [?a =? ?b] |- _ => destruct (N.eqb_spec a b)
  end.

Lemma uadd1_ok c a : a < umax c -> uadd1 c a = Ret (a + 1).
Proof. intros. unfold uadd1. ncase; auto; lia. Qed.

Lemma usub_ok c a b : b <= a -> usub c a b = Ret (a - b).
Proof. intros. unfold usub. ncase; auto; lia. Qed.

Lemma uwrap1_ok c a : a < umax c -> uwrap1 c a = a + 1.
Proof. intros. unfold uwrap1. ncase; auto; lia. Qed.

(** The range built from a satisfiable argument. *)
Lemma trange_from_ok c x :
  arg_below (umax c) x -> satisfiable (umax c) x ->
  exists r, trange_from c x = Ret r /\ rstart r < rend r /\ rend r <= umax c /\
    forall k, k < umax c -> (rstart r <= k < rend r <-> in_arg x k).
Proof.
  intros B [k0 [I K]].
  destruct x; simpl in *.
  - exists (TRange n (n+1)). rewrite uadd1_ok by lia. simpl. repeat split; try lia.
  - exists (TRange a b). ncase; try lia. simpl. repeat split; lia.
  - exists (TRange a (umax c)). simpl. repeat split; try lia.
  - exists (TRange 0 (umax c)). simpl. repeat split; try lia.
  - exists (TRange a (b+1)). ncase; try lia. rewrite uadd1_ok by lia. simpl. repeat split; try lia.
  - exists (TRange 0 b). simpl. repeat split; lia.
  - exists (TRange 0 (b+1)). rewrite uadd1_ok by lia. simpl. repeat split; lia.
Qed.

Lemma is_satisfied_spec t :
  match times_is_satisfied t with
  | Satisfied => rstart (trange_of t) <= tcount t < rend (trange_of t)
  | TooMany => rstart (trange_of t) <= tcount t /\ rend (trange_of t) <= tcount t
  | TooFew => tcount t < rstart (trange_of t)
  end.
Proof. unfold times_is_satisfied. ncase; simpl; lia. Qed.
