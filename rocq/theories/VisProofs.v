(** * VisProofs: what [expectation_visibility] preserves *)

From Coq Require Import List Bool String NArith Arith Lia.
From Verif Require Import Ast AstSpec Rewrite Derive DeriveSpec.
Import ListNotations.
Open Scope string_scope.
Open Scope list_scope.

Lemma map_repeat_ids n : map seg_id (repeat (seg_of "super") n) = repeat "super" n.
Proof. induction n; cbn; congruence. Qed.

Lemma supers_repeat n l : supers (repeat "super" n ++ l) = (n + supers l)%nat.
Proof. induction n; cbn; congruence. Qed.

Lemma skipn_repeat (n : nat) (l : list string) k :
  skipn (n + k) (repeat "super" n ++ l) = skipn k l.
Proof. induction n; cbn; auto. Qed.

Lemma ancestor_app a m ns : ancestor a m = true -> ancestor a (m ++ ns) = true.
Proof.
  revert m; induction a as [|i a IH]; intros [|j m] H; cbn in *; auto; try discriminate.
  apply andb_true_iff in H as [-> H]. cbn. auto.
Qed.

Lemma ancestor_refl m : ancestor m m = true.
Proof. induction m; cbn; auto. rewrite String.eqb_refl; auto. Qed.

Lemma firstn_here (m ns : list string) k :
  (k <= List.length m)%nat ->
  firstn (List.length (m ++ ns) - (List.length ns + k)) (m ++ ns) = firstn (List.length m - k) m.
Proof.
  intros H. rewrite app_length.
  replace (List.length m + List.length ns - (List.length ns + k))%nat
    with (List.length m - k)%nat by lia.
  rewrite firstn_app.
  replace (List.length m - k - List.length m)%nat with 0%nat by lia.
  cbn. apply app_nil_r.
Qed.

Lemma module_named_supers m ns l :
  ns <> [] ->
  match l with [] => True | i :: _ => i = "super" end ->
  module_named (m ++ ns) (repeat "super" (List.length ns) ++ l)
  = match l with
    | [] => Some m
    | _ => module_named m l
    end.
Proof.
  intros Hn Hl. unfold module_named.
  destruct ns as [|n ns]; [congruence|].
  remember (repeat "super" (List.length (n :: ns)) ++ l) as R eqn:ER.
  assert (HR : exists r, R = "super" :: r) by (subst; cbn; eauto).
  destruct HR as [r HR]. rewrite HR. cbn [String.eqb Ascii.eqb Bool.eqb].
  rewrite <- HR, ER.
  rewrite supers_repeat, skipn_repeat.
  replace (Nat.leb (List.length (n :: ns) + supers l) (List.length (m ++ n :: ns)))
    with (Nat.leb (supers l) (List.length m)).
  2: { rewrite app_length. destruct (Nat.leb_spec (supers l) (List.length m));
       symmetry; [apply Nat.leb_le | apply Nat.leb_gt]; lia. }
  destruct l as [|i l].
  - cbn [supers skipn Nat.leb existsb].
    rewrite (firstn_here m (n :: ns) 0) by lia.
    rewrite Nat.sub_0_r, firstn_all, app_nil_r. reflexivity.
  - subst i. cbn [String.eqb Ascii.eqb Bool.eqb].
    destruct (Nat.leb_spec (supers ("super" :: l)) (List.length m)) as [H|H]; auto.
    rewrite (firstn_here m (n :: ns)) by lia. reflexivity.
Qed.

Lemma visibility_kept m ns v r :
  usable_in m v = Some r ->
  ~ starts_with "self" v ->
  usable_in (m ++ ns) (expectation_visibility v (List.length ns)) = Some r.
Proof.
  intros H Hs. destruct ns as [|n ns].
  { cbn [List.length expectation_visibility]. rewrite app_nil_r. exact H. }
  set (N := n :: ns) in *.
  assert (HN : N <> []) by discriminate.
  unfold expectation_visibility.
  assert (HL : exists k, List.length N = S k) by (cbn; eauto).
  destruct HL as [k HL]. rewrite HL. rewrite <- HL.
  destruct v as [|i [b l]|]; cbn [usable_in] in *.
  - exact H.
  - destruct l as [|[j a] l].
    { destruct b, i; cbn in H; discriminate. }
    destruct (String.eqb_spec j "crate") as [->|Hc].
    + cbn [usable_in].
      destruct (negb b && _)%bool eqn:Hin; [|discriminate].
      cbn [map seg_id module_named String.eqb Ascii.eqb Bool.eqb] in *.
      destruct (existsb keyword (map seg_id l)); [discriminate|].
      destruct (ancestor ([] ++ map seg_id l) m) eqn:Ha; [|discriminate].
      apply (ancestor_app _ _ N) in Ha. rewrite Ha. exact H.
    + cbn [usable_in].
      destruct (negb b && _)%bool eqn:Hin; [|discriminate].
      apply andb_true_iff in Hin as [Hb _]. rewrite Hb. cbn [andb orb].
      rewrite map_app, map_repeat_ids.
      assert (Hj : j = "super").
      { cbn [map seg_id module_named] in H.
        destruct (String.eqb_spec j "crate"); [contradiction|].
        destruct (String.eqb_spec j "super"); [assumption|].
        destruct (String.eqb_spec j "self"); [|discriminate].
        cbn in Hs. congruence. }
      rewrite module_named_supers; auto.
      cbn [map seg_id] in *.
      destruct (module_named m (j :: map seg_id l)) as [a'|]; [|discriminate].
      destruct (ancestor a' m) eqn:Ha; [|discriminate].
      apply (ancestor_app _ _ N) in Ha. rewrite Ha. exact H.
  - inversion H; subst. cbn [usable_in negb andb orb].
    rewrite map_repeat_ids.
    rewrite <- (app_nil_r (repeat "super" (List.length N))).
    rewrite module_named_supers; auto.
    rewrite ancestor_app; auto using ancestor_refl.
Qed.

Lemma self_visibility_rejected m ns v :
  starts_with "self" v -> ns <> [] ->
  usable_in (m ++ ns) (expectation_visibility v (List.length ns)) = None.
Proof.
  intros Hs Hn. destruct v as [|i [b [|[j a] l]]|]; cbn in Hs; try contradiction. subst j.
  destruct ns as [|n ns]; [congruence|]. set (N := n :: ns).
  unfold expectation_visibility.
  assert (HL : exists k, List.length N = S k) by (cbn; eauto).
  destruct HL as [k HL]. rewrite HL. rewrite <- HL.
  cbn [String.eqb Ascii.eqb Bool.eqb usable_in].
  destruct (negb b && _)%bool; auto.
  rewrite map_app, map_repeat_ids.
  unfold module_named.
  remember (repeat "super" (List.length N) ++ map seg_id (Seg "self" a :: l)) as R eqn:ER.
  assert (HR : exists r, R = "super" :: r) by (subst; rewrite HL; cbn; eauto).
  destruct HR as [r HR]. rewrite HR. cbn [String.eqb Ascii.eqb Bool.eqb].
  rewrite <- HR, ER.
  rewrite supers_repeat, skipn_repeat. cbn [map seg_id supers String.eqb Ascii.eqb Bool.eqb skipn existsb keyword orb].
  destruct (Nat.leb _ _); reflexivity.
Qed.
