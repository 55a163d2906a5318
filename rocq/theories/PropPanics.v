(** * PropPanics: C41, user closures that panic *)

From Coq Require Import Arith NArith List Bool String Lia Permutation.
From Verif Require Import Base Times TimesSpec Expect Mock Spec SysSpec Samples
  DispatchProofs FifoProofs CallProofs SysProofs ValidProofs StaticProofs PoisonProofs.
Import ListNotations.
Open Scope N_scope.

(** The return action runs closure [f] when called by thread [th]. *)
Definition runs {V U} (rf : srfunc V U) (th : nat) (f : ucode U (list V) V) : Prop :=
  match rf with
  | SMut g | SOnce g => g = f
  | SMutSt o g | SOnceSt o g => g = f /\ o = th
  | _ => False
  end.

(** A return closure that panics (methods returning a ['static] value).  The call
    goes to expectation [i], is within its count and sequence, and its
    closure panics.  From then on that closure is never run again - in every
    later history any other closure [rf'] in its place would give the same
    results and effects - *)
Theorem panicking_return_closure_never_runs_again :
  forall (V U : Type) c (me : method V) (es : list (expectation V U)) args wr w i e rf f bs w1 k w2 u m es' w' r,
  Forall proper es -> nth_error es i = Some e ->
  consulted (firstn (S i) es) args w bs w1 -> nth_error bs i = Some true ->
  takes (List.length es = 1%nat) e ->
  (forall j e' b, (j < i)%nat -> nth_error es j = Some e' -> nth_error bs j = Some b ->
     passes (List.length es = 1%nat) e' b) ->
  common_call c me (e_common e) (call_desc me args) w1 = (k, w2, Ret tt) ->
  e_action e = AStatic rf false -> runs rf (w_thread w2) f -> w_panicking w2 = false ->
  f args (w_user w2) = (u, Panic m) ->
  expectations_call c me es args wr w = (es', w', r) ->
  r = Panic m /\ w' = set_user w2 u /\
  exists e', nth_error es' i = Some e' /\
    (forall j, j <> i -> nth_error es' j = nth_error es j) /\
    forall l rf', exists e2,
      let '(es2, w3, rs) := exp_list_calls c me es' w' l in
      exp_list_calls c me (set_nth es' i (set_action e' (AStatic rf' true))) w' l
        = (set_nth es2 i (set_action e2 (AStatic rf' true)), w3, rs).
Proof.
  intros V U c me es args wr w i e rf f bs w1 k w2 u m es' w' r HP N C B T F CC A R W FP E.
  destruct (expectation_call c me e args wr w1) as [[e1 w3] r1] eqn:X.
  rewrite (fifo_pick c me es args wr w i e bs w1 e1 w3 r1 HP N C B T F X) in E.
  unfold expectation_call in X. rewrite CC, A in X. unfold static_ret in X.
  assert (S : exists rf', srfunc_call c me rf args w2 = (rf', set_user w2 u, Panic m)).
  { destruct rf; simpl in R; try contradiction; simpl; unfold run_user.
    - subst. rewrite FP. eauto.
    - destruct R as [-> ->]. rewrite Nat.eqb_refl, FP. eauto.
    - subst. rewrite FP. eauto.
    - destruct R as [-> ->]. rewrite Nat.eqb_refl, FP. eauto. }
  destruct S as (rf1 & S). rewrite S, W in X. simpl in X. inversion X; subst. inversion E; subst; clear E X.
  split; [auto|]. split; [auto|].
  assert (N1 : nth_error (set_nth es i (Expectation k (AStatic rf1 true))) i = Some (Expectation k (AStatic rf1 true))).
  { rewrite set_nth_nth, Nat.eqb_refl, N. auto. }
  eexists. split; [exact N1|]. split.
  { intros j D. apply nth_set_nth_other. auto. }
  intros l rf'. pose proof (poisoned_calls c me l _ i (set_user w2 u) rf1 rf' _ N1 eq_refl) as P.
  destruct (exp_list_calls c me (set_nth es i (Expectation k (AStatic rf1 true))) (set_user w2 u) l) as [[es2 w4] rs].
  destruct P as (e' & _ & _ & P). eauto.
Qed.
Print Assumptions panicking_return_closure_never_runs_again.

(** - and calls given to that expectation panic (without aborting), and leave it
    as disabled as before. *)
Theorem disabled_expectation_panics :
  forall (V U : Type) c (me : method V) (e : expectation V U) rf args wr w e' w' r,
  e_action e = AStatic rf true -> expectation_call c me e args wr w = (e', w', r) ->
  (exists m, r = Panic m) /\ e_action e' = AStatic rf true.
Proof.
  intros V U c me e rf args wr w e' w' r A E.
  destruct (poisoned_call c me e rf args wr w e' w' r A E) as (P1 & P2 & P3 & _).
  split; auto. destruct r as [v|m|]; eauto; exfalso; [apply (P3 v)|apply P2]; auto.
Qed.
Print Assumptions disabled_expectation_panics.

(** Calls that are not given to that expectation are unaffected: with any other
    return action (poisoned or not) in its place a call has the same effect and
    result, or it is given to that expectation. *)
Theorem other_expectations_unaffected :
  forall (V U : Type) c (me : method V) (es : list (expectation V U)) i e a args wr w es1 w1 r,
  nth_error es i = Some e ->
  expectations_call c me es args wr w = (es1, w1, r) ->
  (exists e1, nth_error es1 i = Some e1 /\
     expectations_call c me (set_nth es i (set_action e a)) args wr w =
       (set_nth es1 i (set_action e1 a), w1, r)) \/
  (exists bs w2, consulted (firstn (S i) es) args w bs w2 /\ nth_error bs i = Some true /\
     expectations_call c me es args wr w =
       (let '(e2, w3, r2) := expectation_call c me e args wr w2 in
        (set_nth es i e2, w3, let? v := r2 in Ret (Some v)))).
Proof.
  intros V U c me es i e a args wr w es1 w1 r N E.
  set (es' := set_nth es i (set_action e a)).
  assert (B : but_action i es es').
  { split; [unfold es'; apply set_nth_length|]. intros j x x' N1 N2. unfold es' in N2. rewrite set_nth_nth in N2.
    destruct (Nat.eqb_spec i j).
    - subst. rewrite N1 in N2. inversion N2; subst. rewrite N in N1. inversion N1; subst. simpl. split; congruence.
    - rewrite N1 in N2. inversion N2; subst. auto. }
  assert (NE' : nth_error es' i = Some (set_action e a)).
  { unfold es'. rewrite set_nth_nth, Nat.eqb_refl, N. auto. }
  destruct (call_actions c me i es es' args wr w B) as
    [(x1 & x1' & x2 & r' & E1 & E2 & B1 & K1 & K2)|(bs & w2 & C1 & C2 & e1 & N1 & E1 & _)].
  - left. rewrite E1 in E. inversion E; subst; clear E.
    assert (LE : List.length es1 = List.length es).
    { pose proof (expectations_call_any _ _ _ _ _ _ _ _ _ E1) as EA.
      destruct EA as [(? & ? & ? & ? & ? & _ & _ & _ & -> & _)|(? & F & _)]; [apply set_nth_length|].
      apply find_exp_any in F. destruct F as (F & _). apply Forall2_len in F. auto. }
    assert (LT : (i < List.length es)%nat) by (apply nth_error_Some; congruence).
    destruct (nth_error es1 i) as [x|] eqn:N1; [|apply nth_error_None in N1; lia].
    assert (LE' : List.length x1' = List.length es1) by apply B1.
    destruct (nth_error x1' i) as [x'|] eqn:N1'; [|apply nth_error_None in N1'; lia].
    specialize (K2 _ _ NE' eq_refl). exists x. split; auto. rewrite E2. f_equal. f_equal.
    apply nth_error_ext'. intros j. rewrite set_nth_nth. destruct (Nat.eqb_spec i j).
    + subst j. rewrite N1, N1'. destruct B1 as [_ BB]. destruct (BB _ _ _ N1 N1') as [C _].
      destruct x' as [k' a']. simpl in *. subst. reflexivity.
    + destruct (nth_error es1 j) as [z|] eqn:Z.
      * destruct (nth_error x1' j) as [z'|] eqn:Z'.
        -- destruct B1 as [_ BB]. destruct (BB _ _ _ Z Z') as [C D]. destruct z, z'. simpl in *.
           rewrite C, (D (fun q => n (eq_sym q))). reflexivity.
        -- apply nth_error_None in Z'. assert (nth_error es1 j <> None) by congruence. apply nth_error_Some in H. lia.
      * apply nth_error_None in Z. apply nth_error_None. lia.
  - right. exists bs, w2. split; [auto|]. split; [auto|]. rewrite N in N1. inversion N1; subst. auto.
Qed.
Print Assumptions other_expectations_unaffected.

(** Two expectations; the closure of the first one panics on its first call.  Its
    later calls panic with a poison error; the second one works. *)
Example panicking_closure_case :
  let c := Cfg 100 true false in
  let f0 := fst (field_setup c (Field md0 (slot_new md0)) 0%nat 0 t0
     [[StWithf (pure_fn small); StReturning bomb]; [StReturning seven; StTimes (ANum 3)]]) in
  snd (field_calls c f0 0%nat w0 [[3]; [3]; [30]; [3]; [30]])
    = [Panic (MUser 13); Panic MPoison; Ret 7; Panic MPoison; Ret 7] /\
  exists es e, f_slot f0 = SPlain es /\ nth_error es 0 = Some e /\ Forall proper es /\
    consulted (firstn 1 es) [3] w0 [true] w0 /\ takes (List.length es = 1%nat) e /\
    (exists k, common_call c me0 (e_common e) (call_desc me0 [3]) w0 = (k, w0, Ret tt)) /\
    e_action e = AStatic (SMut bomb) false /\ runs (V:=V0) (U:=U0) (SMut bomb) 0 bomb.
Proof.
  cbv zeta. split; [vm_compute; reflexivity|]. eexists. eexists.
  split; [vm_compute; reflexivity|]. split; [reflexivity|].
  split; [repeat constructor; vm_compute; discriminate|].
  split; [eexists; split; [split; vm_compute; reflexivity|reflexivity]|].
  split; [left; vm_compute; intros H; apply H; reflexivity|].
  split; [eexists; vm_compute; reflexivity|]. split; reflexivity.
Qed.

(** ** Matchers that panic *)

(** The matcher of expectation [i] panics when a call reaches it: the call panics
    with the same message, and the matcher is poisoned; nothing else changes. *)
Theorem panicking_matcher :
  forall (V U : Type) c (me : method V) (es : list (expectation V U)) args wr w i e bs w1 w2 m,
  Forall proper es -> nth_error es i = Some e ->
  consulted (firstn i es) args w bs w1 ->
  (forall j e' b, nth_error (firstn i es) j = Some e' -> nth_error bs j = Some b ->
     passes (List.length es = 1%nat) e' b) ->
  c_mpoison (e_common e) = false -> w_panicking w1 = false ->
  matcher_matches (c_matcher (e_common e)) args w1 = (w2, Panic m) ->
  exists e', expectations_call c me es args wr w = (set_nth es i e', w2, Panic m) /\
    e_action e' = e_action e /\ c_mpoison (e_common e') = true /\
    c_times (e_common e') = c_times (e_common e) /\ c_seq (e_common e') = c_seq (e_common e) /\
    ~ sound e'.
Proof.
  intros V U c me es args wr w i e bs w1 w2 m HP N C F P W M.
  eexists. split.
  - eapply matcher_stops; eauto. unfold common_matches. rewrite P, M, W. reflexivity.
  - simpl. repeat split; auto. intros [X _]. discriminate.
Qed.
Print Assumptions panicking_matcher.

(** A call that reaches an expectation with a poisoned matcher panics and changes
    nothing. *)
Theorem poisoned_matcher_stops_calls :
  forall (V U : Type) c (me : method V) (es : list (expectation V U)) args wr w i e bs w1,
  Forall proper es -> nth_error es i = Some e ->
  consulted (firstn i es) args w bs w1 ->
  (forall j e' b, nth_error (firstn i es) j = Some e' -> nth_error bs j = Some b ->
     passes (List.length es = 1%nat) e' b) ->
  c_mpoison (e_common e) = true ->
  expectations_call c me es args wr w = (es, w1, Panic MPoison).
Proof.
  intros V U c me es args wr w i e bs w1 HP N C F P.
  rewrite (matcher_stops c me es args wr w i e bs w1 (e_common e) w1 MPoison); auto.
  - destruct e; unfold set_common; simpl. rewrite set_nth_id; auto.
  - unfold common_matches. rewrite P. reflexivity.
Qed.
Print Assumptions poisoned_matcher_stops_calls.

(** A call that an older expectation [j] takes is not affected by expectation [i],
    whatever [i] is: [x] in its place gives the same result. *)
Theorem older_expectations_unaffected :
  forall (V U : Type) c (me : method V) (es : list (expectation V U)) i x args wr w j e bs w1 e' w2 r,
  Forall proper es -> proper x -> (j < i < List.length es)%nat -> nth_error es j = Some e ->
  consulted (firstn (S j) es) args w bs w1 -> nth_error bs j = Some true ->
  ~ saturated e ->
  (forall j' e' b, (j' < j)%nat -> nth_error es j' = Some e' -> nth_error bs j' = Some b ->
     passes False e' b) ->
  expectation_call c me e args wr w1 = (e', w2, r) ->
  expectations_call c me es args wr w = (set_nth es j e', w2, let? v := r in Ret (Some v)) /\
  expectations_call c me (set_nth es i x) args wr w
    = (set_nth (set_nth es i x) j e', w2, let? v := r in Ret (Some v)).
Proof.
  intros V U c me es i x args wr w j e bs w1 e' w2 r HP PX L N C B T F E.
  assert (L1 : List.length es <> 1%nat) by lia.
  assert (FN : forall (l : list (expectation V U)) n k, (n <= k)%nat -> firstn n (set_nth l k x) = firstn n l).
  { induction l as [|a l IH]; intros [|n] [|k] Q; simpl; auto; try lia. f_equal. apply IH. lia. }
  split.
  - eapply fifo_pick; eauto; [left; auto|].
    intros j' e0 b Q N1 N2. destruct (F j' e0 b Q N1 N2) as [|[S _]]; [left|right]; auto.
  - eapply fifo_pick; eauto.
    + apply Forall_nth_set; auto.
    + rewrite nth_set_nth_other by lia. auto.
    + rewrite FN by lia. auto.
    + left; auto.
    + intros j' e0 b Q N1 N2. rewrite nth_set_nth_other in N1 by lia. rewrite set_nth_length.
      destruct (F j' e0 b Q N1 N2) as [|[S _]]; [left|right]; auto.
Qed.
Print Assumptions older_expectations_unaffected.

(** For methods returning [&mut T] the claim about return closures fails: the
    closure is not in a mutex, and works again after it panicked. *)
Definition fuse : ucode U0 (list V0) V0 :=
  fun args u => match u with [] => (u ++ [args], Panic (MUser 13)) | _ => (u ++ [args], Ret 7) end.

Theorem panicking_mut_closure_disabled_refuted :
  exists (c : cfg) (f0 : field V0 U0),
    fst (field_setup c (Field mdmut (slot_new mdmut)) 0%nat 0 t0 [[StReturning fuse]]) = f0 /\
    snd (field_calls c f0 0%nat w0 [[1]; [2]]) = [Panic (MUser 13); Ret 7].
Proof. exists (Cfg 100 true false). eexists. split; [reflexivity|]. vm_compute. reflexivity. Qed.
Print Assumptions panicking_mut_closure_disabled_refuted.

Example panicking_matcher_case :
  let c := Cfg 100 true false in
  let f0 := fst (field_setup c (Field md0 (slot_new md0)) 0%nat 0 t0
     [[StWithf (pure_fn small); StReturning seven]; [StWithf bomb; StReturning seven]; [StReturning seven]]) in
  let '(f1, w1, rs) := field_calls c f0 0%nat w0 [[30]; [30]; [3]] in
  rs = [Panic (MUser 13); Panic MPoison; Ret 7] /\
  object_drop c idshuffle [f1] false = Panic MPoison.
Proof. vm_compute. auto. Qed.
