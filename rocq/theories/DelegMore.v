(** * DelegMore: methods that pass their calls on *)

From Coq Require Import NArith List Bool String Lia.
From Verif Require Import Base Times Expect Mock DelegSpec DelegProofs.
Import ListNotations.
Open Scope N_scope.

Section Forward.
Context {V T : Type} (c : cfg) (sh : shuffle V T) (target : list V -> op V T).
Context (me : method V) (wr : V -> V).
Notation exp := (expectation V (others V T)).

Definition count_exp (n : N) (a : action V (others V T)) : exp :=
  Expectation (Common MtAlways false None (Times n (TRange 0 (umax c)))) a.
Definition fwd := passes_on c sh target.


Lemma call_counts d w n a : n + 1 < umax c -> 
  common_call c me (e_common (count_exp n a)) d w = (e_common (count_exp (n + 1) a), w, Ret tt).
Proof.
  intros L. unfold common_call, times_call, uadd1, uwrap1, times_is_satisfied, satisfy_sequence, verify_sequence, set_times.
  cbn. replace (n <? umax c) with true by (symmetry; apply N.ltb_lt; lia). cbn.
  replace (umax c <=? n + 1) with false by (symmetry; apply N.leb_gt; lia). cbn.
  replace (n + 1 <? umax c) with true by (symmetry; apply N.ltb_lt; lia). cbn. destruct (0 <=? n + 1); reflexivity.
Qed.

Lemma found w n a args : n + 1 < umax c ->
  find_exp c true [count_exp n a] args w = ([count_exp n a], w, Ret (Some O)).
Proof.
  intros L. cbn. unfold common_is_done, times_is_done, usub. cbn.
  replace (1 <=? umax c) with true by (symmetry; apply N.leb_le; lia). cbn. rewrite orb_true_r. reflexivity.
Qed.

(** One call that reaches the closure. *)
Lemma static_step n args w : n + 1 < umax c -> w_panicking w = false ->
  expectations_call c me [count_exp n (AStatic (SMut fwd) false)] args wr w =
  let (u, r) := fwd args (w_user w) in
  ([count_exp (n + 1) (AStatic (SMut fwd) (match r with Panic _ => true | _ => false end))], set_user w u,
   let? v := r in Ret (Some v)).
Proof.
  intros L P. unfold expectations_call. cbn [List.length Nat.eqb]. rewrite found; auto. cbn [nth_error].
  unfold expectation_call. rewrite call_counts; auto. cbn [e_action count_exp].
  unfold static_ret, srfunc_call, run_user. cbn. destruct (fwd args (w_user w)) as [u [v|m|]]; cbn; rewrite ?P; reflexivity.
Qed.
Lemma poisoned_step n args w : n + 1 < umax c ->
  expectations_call c me [count_exp n (AStatic (SMut fwd) true)] args wr w =
  ([count_exp (n + 1) (AStatic (SMut fwd) true)], w, Panic MPoison).
Proof.
  intros L. unfold expectations_call. cbn [List.length Nat.eqb]. rewrite found; auto. cbn [nth_error].
  unfold expectation_call. rewrite call_counts; auto.
Qed.
Lemma mut_step n args w o : n + 1 < umax c ->
  expectations_call c me [count_exp n (AMut (XMut fwd o))] args wr w =
  let (u, r) := fwd args (w_user w) in
  ([count_exp (n + 1) (AMut (XMut fwd (match r with Ret v => Some (wr v) | _ => o end)))], set_user w u, let? v := r in Ret (Some v)).
Proof.
  intros L. unfold expectations_call. cbn [List.length Nat.eqb]. rewrite found; auto. cbn [nth_error].
  unfold expectation_call. rewrite call_counts; auto. cbn [e_action count_exp].
  unfold mut_ret, mrfunc_call. cbn. destruct (fwd args (w_user w)) as [u [v|m|]]; cbn; reflexivity.
Qed.

Definition outer (kd : kind) (a : action V (others V T)) (n : N) (u : others V T) lv th q ss : sys V (others V T) :=
  Sys (World u lv th false) q [[Field (MDecl me kd false false) (SPlain [count_exp n a])]] ss.

Lemma passes_step s log args :
  let (y, r) := step c sh s (target args) in
  passes_on c sh target args (s, log) = ((y, log ++ [(target args, r)]), outcome r).
Proof. unfold passes_on. cbn [fst snd]. destruct (step c sh s (target args)). reflexivity. Qed.

Lemma poisoned_run sh2 kd lv th q ss : forall calls n u y rs,
  n + N.of_nat (List.length calls) < umax c ->
  run c sh2 (outer kd (AStatic (SMut fwd) true) n u lv th q ss) (map (fun args => OCall 0%nat 0%nat 0%nat args wr) calls) = (y, rs) ->
  rs = map (fun _ => Panic MPoison) calls /\ w_user (y_world y) = u.
Proof.
  induction calls as [|args calls IH]; intros n u y rs L E; cbn in E; [inversion E; subst; auto|].
  unfold field_call in E. cbn [f_decl f_slot slot_call md_me] in E.
  rewrite poisoned_step in E by (cbn [List.length] in L; lia). cbn in E.
  destruct (run c sh2 _ _) as [y2 q2] eqn:Q in E. inversion E; subst.
  destruct (IH (n + 1) u _ _ ltac:(cbn [List.length] in L; lia) Q) as [-> ->]. auto.
Qed.

Lemma forwarded_static sh2 lv th q ss : forall calls n s log y rs,
  n + N.of_nat (List.length calls) < umax c ->
  run c sh2 (outer KStatic (AStatic (SMut fwd) false) n (s, log) lv th q ss) (map (fun args => OCall 0%nat 0%nat 0%nat args wr) calls) = (y, rs) ->
  passed_on c sh target KStatic s calls = (fst (w_user (y_world y)), rs).
Proof.
  induction calls as [|args calls IH]; intros n s log y rs L E; cbn in E; [inversion E; subst; auto|].
  unfold field_call in E. cbn [f_decl f_slot slot_call md_me] in E.
  rewrite static_step in E by (cbn [List.length] in L; lia || reflexivity). cbn [w_user y_world] in E.
  pose proof (passes_step s log args) as P. unfold fwd in E. cbn [passed_on].
  destruct (step c sh s (target args)) as [y1 r] eqn:ST. rewrite P in E. destruct (outcome r) as [v|m|].
  - cbn in E. destruct (run c sh2 _ _) as [y2 q2] eqn:Q in E. inversion E; subst.
    rewrite (IH (n + 1) _ _ _ _ ltac:(cbn [List.length] in L; lia) Q). reflexivity.
  - cbn in E. destruct (run c sh2 _ _) as [y2 q2] eqn:Q in E. inversion E; subst.
    destruct (poisoned_run sh2 KStatic lv th q ss calls (n + 1) _ _ _ ltac:(cbn [List.length] in L; lia) Q) as [-> ->]. reflexivity.
  - cbn in E. destruct (run c sh2 _ _) as [y2 q2] eqn:Q in E. inversion E; subst.
    rewrite (IH (n + 1) _ _ _ _ ltac:(cbn [List.length] in L; lia) Q). reflexivity.
Qed.

Lemma forwarded_mut sh2 lv th q ss : forall calls n o s log y rs,
  n + N.of_nat (List.length calls) < umax c ->
  run c sh2 (outer KMut (AMut (XMut fwd o)) n (s, log) lv th q ss) (map (fun args => OCall 0%nat 0%nat 0%nat args wr) calls) = (y, rs) ->
  passed_on c sh target KMut s calls = (fst (w_user (y_world y)), rs).
Proof.
  induction calls as [|args calls IH]; intros n o s log y rs L E; cbn in E; [inversion E; subst; auto|].
  unfold field_call in E. cbn [f_decl f_slot slot_call md_me] in E.
  rewrite mut_step in E by (cbn [List.length] in L; lia). cbn [w_user y_world] in E.
  pose proof (passes_step s log args) as P. unfold fwd in E. cbn [passed_on].
  destruct (step c sh s (target args)) as [y1 r] eqn:ST. rewrite P in E. destruct (outcome r) as [v|m|].
  all: cbn in E; destruct (run c sh2 _ _) as [y2 q2] eqn:Q in E; inversion E; subst;
    rewrite (IH (n + 1) _ _ _ _ _ ltac:(cbn [List.length] in L; lia) Q); reflexivity.
Qed.
End Forward.
