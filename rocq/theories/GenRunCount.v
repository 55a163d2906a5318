(** * GenRunCount: one expectation with a call count, from the builder to drop *)

From Coq Require Import NArith Arith List Bool String Permutation Lia.
From Verif Require Import Base Times Expect Mock SysSpec.
Import ListNotations.
Open Scope N_scope.
Open Scope list_scope.
Open Scope N_scope.

Section Count.
Context {V U : Type}.
Context (c : cfg) (sh : shuffle V U) (F : fair sh).
Context (d : mdecl V) (K : md_kind d = KStatic).
Context (n : N) (B : n < umax c) (v : V) (k : key).

(** The expectation after [j] calls. *)
Definition counted (j : N) : expectation V U :=
  Expectation (Common MtAlways false None (Times j (TRange n (n + 1)))) (AStatic (SMut (const_fn v)) false).

Definition chain : list (setter V U) := [StTimes (ANum n); StReturnConst v].

Lemma chain_builds th t :
  apply_setters c th chain (expectation_default c (md_me d) (md_kind d)) t = (counted 0, t, Ret tt).
Proof.
  rewrite K. unfold chain, counted. cbn [apply_setters apply_setter expectation_default action_default].
  unfold lift_common, common_times, times_times, trange_from, uadd1. cbn.
  destruct (N.ltb_spec n (umax c)); [|lia]. reflexivity.
Qed.

Lemma sole_call me j args wr w :
  j < n -> expectations_call c me [counted j] args wr w = ([counted (j + 1)], w, Ret (Some v)).
Proof.
  intros J. destruct w as [u lv th pn].
  unfold expectations_call, counted, find_exp, common_matches, common_is_done, times_is_done, usub. cbn.
  destruct (N.leb_spec 1 (n + 1)); [cbn|lia].
  destruct (N.leb_spec (n + 1 - 1) j); [lia|cbn].
  unfold expectation_call, common_call, times_call, uadd1, uwrap1. cbn.
  destruct (N.ltb_spec j (umax c)); [cbn|lia].
  destruct (N.leb_spec (n + 1) (j + 1)); [lia|cbn].
  destruct (times_is_satisfied _); reflexivity.
Qed.

(** One call too many. *)
Lemma surplus_call me args wr w :
  expectations_call c me [counted n] args wr w
  = ([counted (n + 1)], w,
     Panic (MCall (me_name me) (matcher_show (V := V) (U := U) MtAlways)
                  (if n =? 0 then TeNever else TeTooMany (n + 1) n))).
Proof.
  destruct w as [u lv th pn].
  unfold expectations_call, counted, find_exp, common_matches, common_is_done, times_is_done, usub. cbn.
  destruct (N.leb_spec 1 (n + 1)); [cbn|lia].
  destruct (N.leb_spec (n + 1 - 1) n); [cbn|lia].
  unfold expectation_call, common_call, times_call, uadd1, uwrap1, usub. cbn.
  destruct (N.ltb_spec n (umax c)); [cbn|lia].
  destruct (N.leb_spec (n + 1) (n + 1)); [cbn|lia].
  destruct (N.leb_spec 1 (n + 1)); [cbn|lia].
  destruct (N.eqb_spec (n + 1) 1), (N.eqb_spec n 0); try lia; cbn; auto.
  now replace (n + 1 - 1) with n by lia.
Qed.

Definition holds (j : N) : slot V U := slot_put (slot_new d) k [counted j].

Lemma slot_expected th t :
  slot_expect c d (slot_new d) k th chain t = (holds 0, t, Ret tt).
Proof.
  unfold slot_expect. rewrite chain_builds. unfold holds, slot_new. destruct (md_generic d); reflexivity.
Qed.

Lemma slot_called j args wr w :
  j < n -> slot_call c d (holds j) k args wr w = (holds (j + 1), w, Ret (Some v)).
Proof.
  intros J. unfold holds, slot_new. destruct (md_generic d); cbn [slot_put gput slot_call gget].
  - rewrite Nat.eqb_refl, sole_call by auto. reflexivity.
  - now rewrite sole_call.
Qed.

Lemma slot_surplus args wr w :
  slot_call c d (holds n) k args wr w
  = (holds (n + 1), w,
     Panic (MCall (me_name (md_me d)) (matcher_show (V := V) (U := U) MtAlways)
                  (if n =? 0 then TeNever else TeTooMany (n + 1) n))).
Proof.
  unfold holds, slot_new. destruct (md_generic d); cbn [slot_put gput slot_call gget].
  - rewrite Nat.eqb_refl, surplus_call. reflexivity.
  - now rewrite surplus_call.
Qed.

Lemma fair_one x : sh [x] = [x].
Proof. apply Permutation_length_1_inv. symmetry. apply F. Qed.
Lemma fair_nil : sh [] = [].
Proof. apply Permutation_nil. symmetry. apply F. Qed.

Definition verdict (j : N) : res unit :=
  if j =? n then Ret tt
  else Panic (MTooFew (me_name (md_me d)) (matcher_show (V := V) (U := U) MtAlways) j n).

Lemma counted_drop j : j <= n -> drop_exps c (md_me d) [counted j] false = verdict j.
Proof.
  intros J. unfold verdict, counted. cbn. unfold times_is_satisfied. cbn.
  destruct (N.leb_spec n j), (N.eqb_spec j n); try lia; cbn; auto.
  destruct (N.ltb_spec j (n + 1)); [reflexivity|lia].
Qed.

Lemma slot_verdict j : j <= n -> slot_drop c d sh (holds j) false = verdict j.
Proof.
  intros J. unfold holds, slot_new. destruct (md_generic d); cbn [slot_put gput slot_drop].
  - rewrite fair_one. cbn [map snd drop_many]. rewrite counted_drop by auto.
    unfold verdict. destruct (j =? n); reflexivity.
  - now apply counted_drop.
Qed.

Lemma empty_drop e p : slot_drop c e sh (slot_new e) p = Ret tt.
Proof. unfold slot_new. destruct (md_generic e); cbn; auto. now rewrite fair_nil. Qed.

Lemma empties_drop l p : object_drop c sh (map (fun e => Field e (slot_new e)) l) p = Ret tt.
Proof. induction l as [|e l IH]; cbn; auto. now rewrite empty_drop. Qed.

(** The object after [j] calls. *)
Definition object_at (l : list (mdecl V)) (i : nat) (x : slot V U) : object V U :=
  set_nth (map (fun e => Field e (slot_new e)) l) i (Field d x).

Lemma object_verdict l : forall i j, nth_error l i = Some d -> j <= n ->
  object_drop c sh (object_at l i (holds j)) false = verdict j.
Proof.
  unfold object_at. induction l as [|e l IH]; intros [|i] j E J; try discriminate; cbn in *.
  - rewrite slot_verdict by auto. rewrite !empties_drop. unfold verdict. destruct (j =? n); reflexivity.
  - rewrite empty_drop. now apply IH.
Qed.

Lemma nth_set {A} (l : list A) : forall i x, (i < List.length l)%nat -> nth_error (set_nth l i x) i = Some x.
Proof. induction l as [|a l IH]; intros [|i] x L; cbn in *; try lia; auto. apply IH. lia. Qed.
Lemma set_set {A} (l : list A) : forall i x y, set_nth (set_nth l i x) i y = set_nth l i y.
Proof. induction l as [|a l IH]; intros [|i] x y; cbn; auto. now rewrite IH. Qed.

Context (sd : sdecl V) (i : nat) (E : nth_error (struct_fields sd) i = Some d).

Lemma in_range : (i < List.length (map (fun e => Field e (slot_new (U := U) e)) (struct_fields sd)))%nat.
Proof. rewrite map_length. apply nth_error_Some. now rewrite E. Qed.

Definition state_at (w : world U) t ss (x : slot V U) : sys V U :=
  Sys w t [object_at (struct_fields sd) i x] ss.

Lemma step_new w t ss : step c sh (Sys w t [] ss) (ONew sd) = (Sys w t [object_new sd] ss, Ret None).
Proof. reflexivity. Qed.

Lemma step_expected w t ss :
  step c sh (Sys w t [object_new sd] ss) (OExpect 0 i k chain) = (state_at w t ss (holds 0), Ret None).
Proof.
  cbn [step y_objs nth_error y_world y_seqs y_stats]. unfold object_new.
  rewrite (map_nth_error (fun e => Field e (slot_new e)) _ _ E). cbn [f_decl f_slot].
  rewrite slot_expected. reflexivity.
Qed.

Lemma step_called w t ss j args wr : j < n ->
  step c sh (state_at w t ss (holds j)) (OCall 0 i k args wr) = (state_at w t ss (holds (j + 1)), Ret (Some v)).
Proof.
  intros J. unfold state_at. cbn [step y_objs nth_error y_world y_seqs y_stats]. unfold object_at at 1.
  rewrite nth_set by exact in_range. unfold field_call. cbn [f_decl f_slot].
  rewrite slot_called by auto. cbn. unfold object_at. now rewrite set_set.
Qed.

Lemma step_surplus w t ss args wr :
  step c sh (state_at w t ss (holds n)) (OCall 0 i k args wr)
  = (state_at w t ss (holds (n + 1)),
     Panic (MCall (me_name (md_me d)) (matcher_show (V := V) (U := U) MtAlways)
                  (if n =? 0 then TeNever else TeTooMany (n + 1) n))).
Proof.
  unfold state_at. cbn [step y_objs nth_error y_world y_seqs y_stats]. unfold object_at at 1.
  rewrite nth_set by exact in_range. unfold field_call. cbn [f_decl f_slot].
  rewrite slot_surplus. cbn. unfold object_at. now rewrite set_set.
Qed.

Lemma calls_run w t ss args wr l : forall q j, j + N.of_nat q <= n ->
  run c sh (state_at w t ss (holds j)) (repeat (OCall 0 i k args wr) q ++ l)
  = let (y, r) := run c sh (state_at w t ss (holds (j + N.of_nat q))) l in (y, repeat (Ret (Some v)) q ++ r).
Proof.
  induction q as [|q IH]; intros j J.
  - cbn [repeat app]. replace (j + N.of_nat 0) with j by lia. now destruct (run _ _ _ l).
  - cbn [repeat app run]. rewrite step_called by lia. rewrite IH by lia.
    replace (j + 1 + N.of_nat q) with (j + N.of_nat (S q)) by lia. now destruct (run _ _ _ l).
Qed.

Lemma drop_run w t ss j : j <= n -> w_panicking w = false ->
  snd (run c sh (state_at w t ss (holds j)) [ODrop 0]) = [unit_res (verdict j)].
Proof.
  intros J P. cbn [run step state_at y_objs nth_error y_world]. rewrite P, object_verdict; auto.
Qed.

(** [q] calls, then drop. *)
Lemma test_run u decls args wr q :
  N.of_nat q <= n ->
  snd (run c sh (init u decls) (ONew sd :: OExpect 0 i k chain :: repeat (OCall 0 i k args wr) q ++ [ODrop 0]))
  = Ret None :: Ret None :: repeat (Ret (Some v)) q ++ [unit_res (verdict (N.of_nat q))].
Proof.
  intros Q. unfold init. cbn [run]. rewrite step_new, step_expected.
  rewrite calls_run by lia. replace (0 + N.of_nat q) with (N.of_nat q) by lia.
  match goal with |- context [run c sh (state_at ?w ?t ?ss _) [ODrop 0]] =>
    assert (D := drop_run w t ss (N.of_nat q) Q eq_refl)
  end.
  destruct (run _ _ _ [ODrop 0]) as [y r]. cbn [snd] in *. now rewrite D.
Qed.

(** [n] calls, and one more. *)
Lemma surplus_run u decls args wr :
  snd (run c sh (init u decls) (ONew sd :: OExpect 0 i k chain :: repeat (OCall 0 i k args wr) (S (N.to_nat n))))
  = Ret None :: Ret None :: repeat (Ret (Some v)) (N.to_nat n)
    ++ [Panic (MCall (me_name (md_me d)) (matcher_show (V := V) (U := U) MtAlways)
                     (if n =? 0 then TeNever else TeTooMany (n + 1) n))].
Proof.
  unfold init. cbn [run]. rewrite step_new, step_expected.
  replace (repeat (OCall 0 i k args wr) (S (N.to_nat n)))
    with (repeat (OCall 0 i k args wr) (N.to_nat n) ++ [OCall 0 i k args wr] : list (op V U)).
  2:{ clear. induction (N.to_nat n) as [|q IH]; cbn in *; auto. now rewrite IH. }
  rewrite calls_run by lia. replace (0 + N.of_nat (N.to_nat n)) with n by lia.
  cbn [run]. rewrite step_surplus. reflexivity.
Qed.
End Count.

(** The same for static methods and functions of modules. *)
Section StaticCount.
Context {V U : Type}.
Context (c : cfg) (sh : shuffle V U) (F : fair sh).
Context (d : mdecl V) (K : md_kind d = KStatic).
Context (n : N) (B : n < umax c) (v : V) (k : key).
Context (st : list (mdecl V)) (i : nat) (E : nth_error st i = Some d).

Definition fresh : statics V U := map (fun e => (e, smutex_new e)) st.
Definition statics_at (p : bool) (x : slot V U) : statics V U := set_nth fresh i (d, SMutex p x).

Lemma fresh_at : nth_error fresh i = Some (d, smutex_new d).
Proof. exact (map_nth_error (fun e => (e, smutex_new e)) _ _ E). Qed.

Lemma statics_there p x : nth_error (statics_at p x) i = Some (d, SMutex p x).
Proof. apply (nth_set c n B). unfold fresh. rewrite map_length. apply nth_error_Some. now rewrite E. Qed.

Lemma statics_again p x q y : set_nth (statics_at p x) i (d, SMutex q y) = statics_at q y.
Proof. apply set_set. Qed.

Definition surplus : pmsg :=
  MCall (me_name (md_me d)) (matcher_show (V := V) (U := U) MtAlways) (if n =? 0 then TeNever else TeTooMany (n + 1) n).

Lemma static_expected w t :
  step c sh (Sys w t [] fresh) (OCtxExpect i k (chain n v))
  = (Sys w t [] (statics_at false (holds d n v k 0)), Ret None).
Proof.
  cbn [step y_stats]. rewrite fresh_at. unfold context_expect. cbn [smutex_new sm_poison sm_slot y_seqs y_world y_objs].
  rewrite slot_expected by auto. reflexivity.
Qed.

Lemma static_called w t j args : j < n ->
  step c sh (Sys w t [] (statics_at false (holds d n v k j))) (OStaticCall i k args)
  = (Sys w t [] (statics_at false (holds d n v k (j + 1))), Ret (Some v)).
Proof.
  intros J. cbn [step y_stats]. rewrite statics_there. unfold static_call. cbn [sm_poison sm_slot y_seqs y_world y_objs].
  rewrite slot_called by auto. now rewrite statics_again.
Qed.

Lemma static_surplus w t args : w_panicking w = false ->
  step c sh (Sys w t [] (statics_at false (holds d n v k n))) (OStaticCall i k args)
  = (Sys w t [] (statics_at true (holds d n v k (n + 1))), Panic surplus).
Proof.
  intros P. cbn [step y_stats]. rewrite statics_there. unfold static_call. cbn [sm_poison sm_slot y_seqs y_world y_objs].
  rewrite slot_surplus by auto. rewrite P. now rewrite statics_again.
Qed.

Lemma static_calls w t args l : forall q j, j + N.of_nat q <= n ->
  run c sh (Sys w t [] (statics_at false (holds d n v k j))) (repeat (OStaticCall i k args) q ++ l)
  = let (y, r) := run c sh (Sys w t [] (statics_at false (holds d n v k (j + N.of_nat q)))) l in
    (y, repeat (Ret (Some v)) q ++ r).
Proof.
  induction q as [|q IH]; intros j J.
  - cbn [repeat app]. replace (j + N.of_nat 0) with j by lia. now destruct (run _ _ _ l).
  - cbn [repeat app run]. rewrite static_called by lia. rewrite IH by lia.
    replace (j + 1 + N.of_nat q) with (j + N.of_nat (S q)) by lia. now destruct (run _ _ _ l).
Qed.

Lemma static_verdict w t j : j <= n -> w_panicking w = false ->
  step c sh (Sys w t [] (statics_at false (holds d n v k j))) (OCtxDrop i)
  = (Sys w t [] fresh, unit_res (verdict (U := U) d n j)).
Proof.
  intros J P. cbn [step y_stats]. rewrite statics_there. unfold context_drop, static_checkpoint. cbn [y_world].
  rewrite P. cbn [sm_poison sm_slot]. rewrite slot_verdict by auto. unfold set_stats. cbn [y_world y_seqs y_objs].
  rewrite statics_again. do 2 f_equal. unfold statics_at.
  assert (X : slot_clear (holds d n v k j) = slot_new (U := U) d).
  { unfold holds, slot_new. destruct (md_generic d); reflexivity. }
  rewrite X. fold (smutex_new (U := U) d). clear - E. unfold fresh. revert i E.
  induction st as [|e l IH]; intros [|i] E; try discriminate; cbn in *; auto.
  - now injection E as ->.
  - now rewrite IH.
Qed.

(** [q] calls, then the end of the context; after that nothing is expected. *)
Lemma static_test_run u args q l :
  N.of_nat q <= n ->
  exists w t,
  run c sh (init u st) (OCtxExpect i k (chain n v) :: repeat (OStaticCall i k args) q ++ OCtxDrop i :: l)
  = let (y, r) := run c sh (Sys w t [] fresh) l in
    (y, Ret None :: repeat (Ret (Some v)) q ++ unit_res (verdict (U := U) d n (N.of_nat q)) :: r).
Proof.
  intros Q. exists (World u (fun _ => 0) 0%nat false), sequence_new.
  unfold init. fold fresh. cbn [run]. rewrite static_expected, static_calls by lia.
  replace (0 + N.of_nat q) with (N.of_nat q) by lia. cbn [run]. rewrite static_verdict by auto.
  destruct (run _ _ _ l). reflexivity.
Qed.

Lemma drop_unwinding j : slot_drop c d sh (holds d n v k j) true = Ret tt.
Proof.
  unfold holds, slot_new. destruct (md_generic d); cbn [slot_put gput slot_drop].
  - rewrite fair_one by auto. reflexivity.
  - reflexivity.
Qed.

Lemma fresh_call w t args :
  snd (step c sh (Sys w t [] fresh) (OStaticCall i k args)) = Panic (MNoMatch (call_desc (md_me d) args)).
Proof.
  cbn [step y_stats]. rewrite fresh_at. unfold static_call. cbn [smutex_new sm_poison sm_slot y_world].
  unfold slot_new. destruct (md_generic d); reflexivity.
Qed.

(** [n] calls and one more; the panic drops the context, and after that nothing is
    expected and nothing poisoned. *)
Lemma static_surplus_run u args :
  snd (run c sh (init u st)
    (OCtxExpect i k (chain n v) :: repeat (OStaticCall i k args) (S (N.to_nat n))
     ++ [OUnwinding true; OCtxDrop i; OUnwinding false; OStaticCall i k args]))
  = Ret None :: repeat (Ret (Some v)) (N.to_nat n)
    ++ [Panic surplus; Ret None; Ret None; Ret None; Panic (MNoMatch (call_desc (md_me d) args))].
Proof.
  unfold init. fold fresh. cbn [run]. rewrite static_expected.
  replace (repeat (OStaticCall i k args) (S (N.to_nat n)))
    with (repeat (OStaticCall i k args) (N.to_nat n) ++ [OStaticCall i k args] : list (op V U)).
  2:{ clear. induction (N.to_nat n) as [|q IH]; cbn in *; auto. now rewrite IH. }
  rewrite <- app_assoc, static_calls by lia. replace (0 + N.of_nat (N.to_nat n)) with n by lia.
  cbn [app run]. rewrite static_surplus by auto.
  unfold step at 1. unfold set_world. cbn [y_world y_seqs y_objs y_stats w_user w_levels w_thread].
  assert (D : forall w t, w_panicking w = true ->
    step c sh (Sys w t [] (statics_at true (holds d n v k (n + 1)))) (OCtxDrop i) = (Sys w t [] fresh, Ret None)).
  { intros w t P. cbn [step y_stats]. rewrite statics_there. unfold context_drop. cbn [y_world]. rewrite P.
    cbn [sm_slot]. rewrite drop_unwinding. unfold set_stats. cbn [y_world y_seqs y_objs].
    rewrite statics_again. do 2 f_equal. unfold statics_at.
    assert (X : slot_clear (holds d n v k (n + 1)) = slot_new (U := U) d).
    { unfold holds, slot_new. destruct (md_generic d); reflexivity. }
    rewrite X. fold (smutex_new (U := U) d). clear - E. unfold fresh. revert i E.
    induction st as [|e l IH]; intros [|i] E; try discriminate; cbn in *; auto.
    - now injection E as ->.
    - now rewrite IH. }
  rewrite D by reflexivity.
  unfold step at 1. unfold set_world. cbn [y_world y_seqs y_objs y_stats w_user w_levels w_thread].
  match goal with |- context [step c sh (Sys ?w ?t [] fresh) (OStaticCall i k args)] =>
    assert (X := fresh_call w t args); destruct (step c sh (Sys w t [] fresh) (OStaticCall i k args)) as [z r]
  end.
  cbn [snd] in *. now rewrite X.
Qed.
End StaticCount.
