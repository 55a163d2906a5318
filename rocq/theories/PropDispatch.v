(** * PropDispatch: C06 - C12, which expectation answers a call *)

From Coq Require Import NArith List Bool String Lia.
From Verif Require Import Base Times TimesSpec Expect ExpectProofs Mock Spec Samples
  DispatchProofs FifoProofs GreedyProofs SoleProofs.
Import ListNotations.
Open Scope N_scope.

(** C06.  If the matchers of the expectations up to number [i], consulted in order,
    give the verdicts [bs]; if expectation [i] accepts and is not used up (or is
    alone); and if every older expectation refuses or is used up; then the call
    is a call of expectation [i], and no other expectation changes. *)
Theorem fifo_dispatch :
  forall (V U : Type) c (me : method V) (es : list (expectation V U)) args wr w i e bs w1 e' w2 r,
  Forall proper es ->
  nth_error es i = Some e ->
  consulted (firstn (S i) es) args w bs w1 ->
  nth_error bs i = Some true ->
  takes (List.length es = 1%nat) e ->
  (forall j e' b, (j < i)%nat -> nth_error es j = Some e' -> nth_error bs j = Some b ->
     passes (List.length es = 1%nat) e' b) ->
  expectation_call c me e args wr w1 = (e', w2, r) ->
  expectations_call c me es args wr w = (set_nth es i e', w2, let? v := r in Ret (Some v)).
Proof. intros. eapply fifo_pick; eauto. Qed.
Print Assumptions fifo_dispatch.

Example fifo_dispatch_case :
  exists f t es e,
    field_setup debug64 (Field md0 (slot_new md0)) 0%nat 0%nat t0
      [[StWithf (pure_fn small); StTimes (ANum 1); StReturning adder]; [StReturning seven]] = (f, t) /\
    f_slot f = SPlain es /\ Forall proper es /\
    nth_error es 1 = Some e /\
    consulted (firstn 2 es) [50] w0 [false; true] w0 /\
    takes (List.length es = 1%nat) e /\
    snd (expectations_call debug64 me0 es [50] (fun v => v) w0) = Ret (Some 7).
Proof.
  do 4 eexists. split; [reflexivity|]. split; [reflexivity|]. split.
  { repeat constructor; unfold proper; simpl; lia. }
  split; [reflexivity|]. split.
  { simpl. exists w0. split; [split; reflexivity|]. exists w0. split; [split; reflexivity|reflexivity]. }
  split; [left; unfold saturated; simpl; lia|reflexivity].
Qed.

(** C07.  If every expectation refuses the arguments (or is used up), the call
    panics naming the function and its arguments, and leaves the mock as it
    was; the world is the one the matchers left, with the sequences untouched. *)
Theorem unmatched_call :
  forall (V U : Type) c (f : field V U) k args wr w bs w1,
  let es := slot_get (f_slot f) k in
  Forall proper es ->
  consulted es args w bs w1 ->
  (forall j e b, nth_error es j = Some e -> nth_error bs j = Some b ->
     passes (List.length es = 1%nat) e b) ->
  field_call c f k args wr w = (f, w1, Panic (MNoMatch (call_desc (md_me (f_decl f)) args))) /\
  w_levels w1 = w_levels w /\ w_thread w1 = w_thread w /\ w_panicking w1 = w_panicking w.
Proof.
  intros. split; [eapply unmatched; eauto|]. eapply consulted_frame; eauto.
Qed.
Print Assumptions unmatched_call.

Example unmatched_call_case :
  exists f t es,
    field_setup debug64 (Field md0 (slot_new md0)) 0%nat 0%nat t0
      [[StWithf (pure_fn small); StReturning adder]] = (f, t) /\
    slot_get (f_slot f) 0%nat = es /\ Forall proper es /\
    consulted es [50] w0 [false] w0 /\
    field_call debug64 f 0%nat [50] (fun v => v) w0
      = (f, w0, Panic (MNoMatch "MockFoo::bar(big)")).
Proof.
  do 3 eexists. split; [reflexivity|]. split; [reflexivity|]. split.
  { repeat constructor; unfold proper; simpl; lia. }
  split; [|reflexivity].
  simpl. exists w0. split; [split; reflexivity|reflexivity].
Qed.

(** C08.  Expectations that accept all the calls hand over to each other in
    order: call number [j] goes to [owner maxima j] (the first expectation gets the
    first [m1] calls, the second the next [m2], ...), and calls after the sum are
    unmatched.  Together with C09, of which this is the special case. *)
Theorem saturated_hand_over :
  forall (V U : Type) c (md : mdecl V) (xs : list (@xspec V U)) calls w th t f' w' rs,
  md_generic md = false -> md_kind md = KStatic ->
  (2 <= List.length xs)%nat ->
  (forall x, In x xs -> x_lo x <= x_hi x /\ x_hi x < umax c /\ total_fn (x_fun x)) ->
  (forall x a, In x xs -> In a calls -> x_match x a = true) ->
  field_calls c (fst (field_setup c (Field md (slot_new md)) 0%nat th t (map x_setters xs))) 0%nat w calls
    = (f', w', rs) ->
  (w_user w', rs)
    = answers (md_me md) xs (map (owner (map x_hi xs)) (upto 0 (List.length calls))) calls (w_user w).
Proof.
  intros V U c md xs calls w th t f' w' rs G K L HG HM E.
  assert (HG' : Forall (good c) xs) by (apply Forall_forall; intros x Hx; exact (HG x Hx)).
  destruct (histories_refine_greedy c md xs calls w th t (fun s => s) f' w' rs G K L HG' E) as [A _].
  rewrite A. rewrite handover; auto.
  apply Forall_forall. intros a Ha. apply Forall_forall. intros x Hx. auto.
Qed.
Print Assumptions saturated_hand_over.

(** [owner], in terms of sums of maxima. *)
Theorem owner_meaning :
  forall ms j i, owner ms j = Some i <->
    exists m, nth_error ms i = Some m /\ sum (firstn i ms) <= j < sum (firstn i ms) + m.
Proof.
  induction ms as [|m ms IH]; intros j i; simpl.
  - split; [discriminate|]. intros (m & H & _). destruct i; discriminate.
  - destruct (N.ltb_spec j m).
    + split.
      * intros E. inversion E; subst. exists m. simpl. split; auto; lia.
      * intros (m' & N & L). destruct i as [|i]; auto. simpl in *. exfalso. lia.
    + split.
      * destruct (owner ms (j - m)) as [o|] eqn:E; [|discriminate].
        intros Q. inversion Q; subst. apply IH in E. destruct E as (m' & N & L).
        exists m'. simpl. split; auto. lia.
      * intros (m' & N & L). destruct i as [|i]; simpl in *.
        -- inversion N; subst. lia.
        -- assert (E : owner ms (j - m) = Some i). { apply IH. exists m'. split; auto. lia. }
           rewrite E. reflexivity.
Qed.
Print Assumptions owner_meaning.

Example saturated_hand_over_case :
  let xs := [XSpec (fun _ => true) 0 2 adder; XSpec (fun _ => true) 1 1 seven] in
  (forall x, In x xs -> x_lo x <= x_hi x /\ x_hi x < umax debug64 /\ total_fn (x_fun x)) /\
  map (owner (map x_hi xs)) (upto 0 4) = [Some 0; Some 0; Some 1; None]%nat /\
  snd (field_calls debug64 (fst (field_setup debug64 (Field md0 (slot_new md0)) 0%nat 0%nat t0 (map x_setters xs)))
         0%nat w0 [[1]; [2]; [3]; [3]])
  = [Ret 1; Ret 2; Ret 7; Panic (MNoMatch "MockFoo::bar(3)")].
Proof.
  simpl. split; [|split; reflexivity].
  intros x [H|[H|[]]]; subst; simpl; (split; [lia|split; [lia|]]); [apply adder_total|apply seven_total].
Qed.

(** C09.  For any list of expectations [.withf(m).times(lo..=hi).returning(f)] on a
    new mock and any history of calls, the results and the final user state
    are those of greedy assignment ([assign]: each call goes to the
    least numbered expectation that accepts it and was given fewer than [hi] of the earlier
    calls), and dropping the mock succeeds exactly if each expectation was given
    at least [lo] calls. *)
Theorem history_refines_greedy_assignment :
  forall (V U : Type) c (md : mdecl V) (xs : list (@xspec V U)) calls w th t sh f' w' rs,
  md_generic md = false -> md_kind md = KStatic ->
  (2 <= List.length xs)%nat ->
  (forall x, In x xs -> x_lo x <= x_hi x /\ x_hi x < umax c /\ total_fn (x_fun x)) ->
  field_calls c (fst (field_setup c (Field md (slot_new md)) 0%nat th t (map x_setters xs))) 0%nat w calls
    = (f', w', rs) ->
  (w_user w', rs) = answers (md_me md) xs (assign xs [] calls) calls (w_user w) /\
  (object_drop c sh [f'] false = Ret tt <->
   forall i x, nth_error xs i = Some x -> x_lo x <= given i (assign xs [] calls)).
Proof.
  intros. eapply histories_refine_greedy; eauto. apply Forall_forall. exact H2.
Qed.
Print Assumptions history_refines_greedy_assignment.

Example history_refines_case :
  let xs := [XSpec small 1 1 adder; XSpec (fun _ => true) 1 2 seven] in
  let calls := [[1]; [50]; [2]; [3]] in
  (forall x, In x xs -> x_lo x <= x_hi x /\ x_hi x < umax debug64 /\ total_fn (x_fun x)) /\
  assign xs [] calls = [Some 0; Some 1; Some 1; None]%nat /\
  snd (field_calls debug64 (fst (field_setup debug64 (Field md0 (slot_new md0)) 0%nat 0%nat t0 (map x_setters xs)))
         0%nat w0 calls)
  = [Ret 1; Ret 7; Ret 7; Panic (MNoMatch "MockFoo::bar(3)")].
Proof.
  simpl. split; [|split; reflexivity].
  intros x [H|[H|[]]]; subst; simpl; (split; [lia|split; [lia|]]); [apply adder_total|apply seven_total].
Qed.

(** C10, [with].  Whatever matchers were set before ([pre]), after [with(p1, .., pn)] a call
    is answered if and only if every predicate holds of its argument, and is
    unmatched otherwise. *)
Theorem with_meaning :
  forall (V U : Type) c (md : mdecl V) pre (qs : list (string * (V -> bool))) (f : ucode U (list V) V)
         args w th t s t' r,
  md_generic md = false -> md_kind md = KStatic -> 2 <= umax c -> total_fn f ->
  Forall sets_matcher pre -> List.length qs = List.length args ->
  slot_expect c md (slot_new md) 0%nat th (pre ++ [StWith (map pure_pred qs)] ++ [StReturning f]) t
    = (s, t', r) ->
  (Forall2 (fun q a => snd q a = true) qs args ->
     snd (field_call c (Field md s) 0%nat args (fun v => v) w) = snd (f args (w_user w))) /\
  (~ Forall2 (fun q a => snd q a = true) qs args ->
     field_call c (Field md s) 0%nat args (fun v => v) w
       = (Field md s, w, Panic (MNoMatch (call_desc (md_me md) args)))).
Proof.
  intros V U c md pre qs f args w th t s t' r G K M T P L E.
  rewrite (chain_matcher c md pre _ (MtPred (map pure_pred qs)) f th t) in E; auto.
  2:{ right. eexists; split; reflexivity. }
  inversion E; subst.
  destruct (pure_preds_eval qs args (w_user w) L) as (bs & E1 & E2).
  assert (X : matcher_matches (MtPred (map pure_pred qs)) args w
              = (set_user w (w_user w), Ret (forallb (fun b => b) bs))).
  { simpl. rewrite E1. reflexivity. }
  rewrite (mexp_call c md _ f args w (w_user w) (forallb (fun b => b) bs)); auto.
  split; intros Q.
  - rewrite <- E2 in Q. rewrite Q. destruct (f args (w_user w)); reflexivity.
  - destruct (forallb (fun b => b) bs); [exfalso; apply Q, E2; auto|].
    rewrite set_user_id. reflexivity.
Qed.
Print Assumptions with_meaning.

(** C10, [withf]. *)
Theorem withf_meaning :
  forall (V U : Type) c (md : mdecl V) pre (p : list V -> bool) (f : ucode U (list V) V)
         args w th t s t' r,
  md_generic md = false -> md_kind md = KStatic -> 2 <= umax c -> total_fn f ->
  Forall sets_matcher pre ->
  slot_expect c md (slot_new md) 0%nat th (pre ++ [StWithf (pure_fn p)] ++ [StReturning f]) t
    = (s, t', r) ->
  (p args = true ->
     snd (field_call c (Field md s) 0%nat args (fun v => v) w) = snd (f args (w_user w))) /\
  (p args = false ->
     field_call c (Field md s) 0%nat args (fun v => v) w
       = (Field md s, w, Panic (MNoMatch (call_desc (md_me md) args)))).
Proof.
  intros V U c md pre p f args w th t s t' r G K M T P E.
  rewrite (chain_matcher c md pre _ (MtFunc (pure_fn p)) f th t) in E; auto.
  2:{ right. eexists; split; reflexivity. }
  inversion E; subst.
  rewrite (mexp_call c md _ f args w (w_user w) (p args)); auto.
  split; intros Q; rewrite Q.
  - destruct (f args (w_user w)); reflexivity.
  - rewrite set_user_id. reflexivity.
Qed.
Print Assumptions withf_meaning.

(** C10, no matcher. *)
Theorem no_matcher_accepts_everything :
  forall (V U : Type) c (md : mdecl V) (f : ucode U (list V) V) args w th t s t' r,
  md_generic md = false -> md_kind md = KStatic -> 2 <= umax c -> total_fn f ->
  slot_expect c md (slot_new md) 0%nat th [StReturning f] t = (s, t', r) ->
  snd (field_call c (Field md s) 0%nat args (fun v => v) w) = snd (f args (w_user w)).
Proof.
  intros V U c md f args w th t s t' r G K M T E.
  change [StReturning f] with ([] ++ [] ++ [StReturning f]) in E.
  rewrite (chain_matcher c md [] [] MtAlways f th t) in E; auto.
  inversion E; subst.
  rewrite (mexp_call c md _ f args w (w_user w) true); auto.
  - destruct (f args (w_user w)); reflexivity.
  - simpl. rewrite set_user_id. reflexivity.
Qed.
Print Assumptions no_matcher_accepts_everything.

Example with_meaning_case :
  let lt n : string * (N -> bool) := ("lt"%string, fun a => a <? n) in
  exists s,
    slot_expect debug64 md0 (slot_new md0) 0%nat 0%nat
      ([StWithf (pure_fn (fun _ => false))] ++ [StWith (map pure_pred [lt 5; lt 9])] ++ [StReturning adder]) t0
      = (s, t0, Ret tt) /\
    snd (field_call debug64 (Field md0 s) 0%nat [4; 8] (fun v => v) w0) = Ret 12 /\
    snd (field_call debug64 (Field md0 s) 0%nat [4; 9] (fun v => v) w0)
      = Panic (MNoMatch "MockFoo::bar(big, big)").
Proof. eexists. repeat split. Qed.

(** C11.  Whatever the call, either one expectation answers and exactly the matchers
    up to it were consulted, each once and in order; or none does and all were
    consulted, each once and in order. *)
Theorem matchers_consulted_once_in_order :
  forall (V U : Type) c (me : method V) (es : list (expectation V U)) args wr w,
  Forall live es -> Forall proper es ->
  (exists i e bs w1,
      nth_error es i = Some e /\
      consulted (firstn (S i) es) args w bs w1 /\
      nth_error bs i = Some true /\
      takes (List.length es = 1%nat) e /\
      (forall j e' b, (j < i)%nat -> nth_error es j = Some e' -> nth_error bs j = Some b ->
         passes (List.length es = 1%nat) e' b) /\
      forall e' w2 r, expectation_call c me e args wr w1 = (e', w2, r) ->
        expectations_call c me es args wr w = (set_nth es i e', w2, let? v := r in Ret (Some v)))
  \/
  (exists bs w1,
      consulted es args w bs w1 /\
      (forall j e' b, nth_error es j = Some e' -> nth_error bs j = Some b ->
         passes (List.length es = 1%nat) e' b) /\
      expectations_call c me es args wr w = (es, w1, Ret None)).
Proof.
  intros V U c me es args wr w HL HP.
  destruct (expectations_call_spec c me es args wr w HL HP)
    as [(i & e & bs & w1 & A & B & C0 & D & E & F)|(bs & w1 & A & B & C0)].
  - left. exists i, e, bs, w1. repeat (split; [assumption|]). split; [|exact F].
    intros j e' b Hj He' Hb. destruct (E j e' Hj He') as (b' & Hb' & X).
    assert (b = b') by congruence. subst b'. destruct b; [right; apply X; auto|left; auto].
  - right. exists bs, w1. split; auto. split; auto.
    intros j e' b He' Hb. destruct (B j e' He') as (b' & Hb' & X).
    assert (b = b') by congruence. subst b'. destruct b; [right; apply X; auto|left; auto].
Qed.
Print Assumptions matchers_consulted_once_in_order.

(** C11, predicates: all predicates of a consulted expectation are evaluated, in
    order, each once, whatever the earlier ones returned; the verdict is the
    conjunction. *)
Theorem all_predicates_evaluated :
  forall (V U : Type) (ps : list (pred V U)) args w bs u',
  evals ps args (w_user w) bs u' ->
  matcher_matches (MtPred ps) args w = (set_user w u', Ret (forallb (fun b => b) bs)).
Proof.
  intros V U ps args w bs u' H. simpl. rewrite (evals_eval _ _ _ _ _ H). reflexivity.
Qed.
Print Assumptions all_predicates_evaluated.

(** A predicate that logs that it was evaluated. *)
Example all_predicates_case :
  let lg (b : bool) : pred V0 U0 := ("p"%string, fun a u => (u ++ [[a]], Ret b)) in
  evals [lg false; lg true] [1; 2] [] [false; true] [[1]; [2]] /\
  matcher_matches (MtPred [lg false; lg true]) [1; 2] w0 = (set_user w0 [[1]; [2]], Ret false).
Proof.
  split; [|reflexivity]. econstructor; [reflexivity|]. econstructor; [reflexivity|]. constructor.
Qed.

Example matchers_consulted_case :
  let lg (b : bool) : ucode U0 (list V0) bool := fun a u => (u ++ [a], Ret b) in
  exists f t,
    field_setup debug64 (Field md0 (slot_new md0)) 0%nat 0%nat t0
      [[StWithf (lg false)]; [StWithf (lg true); StReturning (const_fn 5)]; [StWithf (lg true)]] = (f, t) /\
    Forall live (slot_get (f_slot f) 0%nat) /\ Forall proper (slot_get (f_slot f) 0%nat) /\
    (let '(_, w', r) := field_call debug64 f 0%nat [9] (fun v => v) w0 in (w_user w', r))
      = ([[9]; [9]], Ret 5).
Proof.
  do 2 eexists. split; [reflexivity|]. split; [|split; [|reflexivity]].
  - repeat constructor; intros args w; eexists; eexists; split; reflexivity.
  - repeat constructor; unfold proper; simpl; lia.
Qed.

(** C12.  An expectation with nothing but a return action answers every call,
    whatever the arguments, up to [usize::MAX - 1] calls; it leaves the sequences
    alone and passes validation. *)
Theorem fresh_expectation :
  forall (V U : Type) c (md : mdecl V) (f : ucode U (list V) V) calls w th t sh s t' r f' w' rs,
  md_generic md = false -> md_kind md = KStatic -> 1 <= umax c -> total_fn f ->
  N.of_nat (List.length calls) < umax c ->
  slot_expect c md (slot_new md) 0%nat th [StReturning f] t = (s, t', r) ->
  field_calls c (Field md s) 0%nat w calls = (f', w', rs) ->
  r = Ret tt /\
  (w_user w', rs) = sole_answers (md_me md) None f 0 calls (w_user w) /\
  (forall ri, In ri rs -> exists v, ri = Ret v) /\
  w_levels w' = w_levels w /\
  object_drop c sh [f'] false = Ret tt.
Proof.
  intros V U c md f calls w th t sh s t' r f' w' rs G K H1 T L E H.
  assert (E2 : slot_expect c md (slot_new md) 0%nat th [StReturning f] t
               = (SPlain [sexp (TRange 0 (umax c)) f 0], t, Ret tt)).
  { unfold slot_expect, slot_new. rewrite G, K. reflexivity. }
  rewrite E2 in E. inversion E; subst. split; auto.
  apply (sole_calls c md None) in H; simpl; auto; try lia.
  destruct H as (A1 & A2 & A3). split; auto. split; [|split].
  - intros ri Hri. apply In_nth_error in Hri. destruct Hri as [i Hi].
    assert (Q := sole_answers_spec (md_me md) None f calls 0 (w_user w) T i ri).
    rewrite <- A3 in Q. specialize (Q Hi). destruct ri; simpl in Q; eauto;
    assert (false = true) by (apply Q; exact I); discriminate.
  - rewrite A2. reflexivity.
  - subst f'. simpl. unfold common_drop, show_locked. simpl.
    unfold times_is_satisfied. simpl.
    destruct (N.ltb_spec (N.of_nat (List.length calls)) (umax c)); [|lia].
    destruct (N.leb_spec 0 (N.of_nat (List.length calls))); [|lia]. reflexivity.
Qed.
Print Assumptions fresh_expectation.

Example fresh_expectation_case :
  exists s, slot_expect debug64 md0 (slot_new md0) 0%nat 0%nat [StReturning adder] t0 = (s, t0, Ret tt) /\
  snd (field_calls debug64 (Field md0 s) 0%nat w0 [[1]; []; [2; 3]]) = [Ret 1; Ret 0; Ret 5].
Proof. eexists. split; reflexivity. Qed.
