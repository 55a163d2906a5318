(** * PropReturns: C13 - C19, what a call returns and what the builder methods set *)

From Coq Require Import Arith NArith List Bool String Lia.
From Verif Require Import Base Times TimesSpec TimesProofs Expect ExpectProofs Mock Spec Samples
  DispatchProofs FifoProofs CallProofs ReturnProofs StProofs.
Import ListNotations.
Open Scope N_scope.

(** C13.  An answered call consults the matchers up to some expectation, which accepts;
    it then runs that expectation's closure once, on the call's arguments and the
    state the matchers left, and returns its value; the final state is the one
    the closure left, so no other closure ran.  No other expectation changes. *)
Theorem answered_call_runs_one_closure :
  forall (V U : Type) c (me : method V) (es : list (expectation V U)) args wr w es' w' v,
  expectations_call c me es args wr w = (es', w', Ret (Some v)) ->
  exists i e bs w1,
    nth_error es i = Some e /\
    consulted (firstn (S i) es) args w bs w1 /\ nth_error bs i = Some true /\
    (forall j, j <> i -> nth_error es' j = nth_error es j) /\
    match closure e with
    | Some f => f args (w_user w1) = (w_user w', Ret v)
    | None => w_user w' = w_user w1
    end.
Proof. intros. eapply one_closure; eauto. Qed.
Print Assumptions answered_call_runs_one_closure.

(** C13, any outcome: seen through any observation that the matchers do not
    change, a call does nothing, or does what one run of one expectation's closure
    on the call's arguments does, and then ends as the closure ended. *)
Theorem call_runs_at_most_one_closure :
  forall (V U O : Type) (obs : U -> O) c (me : method V) (es : list (expectation V U)) args wr w es' w' r,
  (forall e, In e es -> quiet_matcher obs (c_matcher (e_common e))) ->
  expectations_call c me es args wr w = (es', w', r) ->
  obs (w_user w') = obs (w_user w) \/
  exists i e f u rr, nth_error es i = Some e /\ closure e = Some f /\ obs u = obs (w_user w) /\
    f args u = (w_user w', rr) /\ r = (let? v := rr in Ret (Some v)).
Proof. intros. eapply at_most_one_closure; eauto. Qed.
Print Assumptions call_runs_at_most_one_closure.

Example one_closure_case :
  exists f t es,
    field_setup debug64 (Field md0 (slot_new md0)) 0%nat 0%nat t0
      [[StWithf (pure_fn small); StReturning adder]; [StReturning seven]] = (f, t) /\
    f_slot f = SPlain es /\
    (forall e, In e es -> quiet_matcher (@List.length (list N)) (c_matcher (e_common e))) /\
    (let '(_, w', r) := expectations_call debug64 me0 es [50] (fun v => v) w0 in (w_user w', r))
      = ([[50]], Ret (Some 7)).
Proof.
  do 3 eexists. split; [reflexivity|]. split; [reflexivity|]. split; [|reflexivity].
  intros e [H|[H|[]]]; subst; simpl; auto. intros a u. reflexivity.
Qed.

(** C14.  Let expectation [i] of a list have been given its value by
    [return_const(v)].  Make any calls; then make one more.  If it is answered by
    expectation [i] (whose count it changes) and returns, it returns [v]. *)
Theorem return_const_constant :
  forall (V U : Type) c (md : mdecl V) th v e0 t e t' (es : list (expectation V U)) i calls k w f1 w1 rs
         args f2 w2 u n n',
  1 <= umax c ->
  match e_action e0 with AMut _ => False | _ => True end ->
  apply_setter c th (StReturnConst v) e0 t = (e, t', Ret tt) ->
  nth_error es i = Some e ->
  field_calls c (Field md (SPlain es)) k w calls = (f1, w1, rs) ->
  field_call c f1 k args (fun x => x) w1 = (f2, w2, Ret u) ->
  count_at (slot_get (f_slot f1) k) i = Some n -> count_at (slot_get (f_slot f2) k) i = Some n' -> n <> n' ->
  u = v.
Proof.
  intros V U c md th v e0 t e t' es i calls k w f1 w1 rs args f2 w2 u n n' HU K S N H E C1 C2 D.
  apply set_const_action in S; auto.
  apply (field_calls_inv c md (fun es _ => at_pos i (const_action v) es)) in H.
  - destruct H as (es1 & -> & HI).
    unfold field_call, slot_call in E. cbn [f_decl f_slot] in E.
    destruct (expectations_call c (md_me md) es1 args (fun x => x) w1) as [[es2 w3] r3] eqn:X.
    destruct r3 as [[v3|]|m|]; simpl in E; inversion E; subst.
    simpl in C1, C2.
    destruct (answered_by _ _ _ _ _ _ _ _ _ i n n' X C1 C2 ltac:(auto)) as (e1 & e2 & w4 & r0 & N1 & N2 & Y & Z).
    destruct HI as (e3 & N3 & A3). assert (e3 = e1) by congruence. subst.
    destruct (const_call _ _ _ _ _ _ _ _ _ v A3 Y) as [_ Q].
    destruct r0; inversion Z; subst. apply Q. reflexivity.
  - intros es1 a w3 es2 w4 r A X. eapply at_pos_call; [|exact A|exact X].
    intros e1 a1 wr w5 e2 w6 r1 A1 X1. exact (proj1 (const_call _ _ _ _ _ _ _ _ _ v A1 X1)).
  - exists e. auto.
Qed.
Print Assumptions return_const_constant.

Example return_const_case :
  exists f t,
    field_setup debug64 (Field md0 (slot_new md0)) 0%nat 0%nat t0
      [[StWithf (pure_fn small); StReturning adder]; [StReturnConst 9]] = (f, t) /\
    snd (field_calls debug64 f 0%nat w0 [[1]; [50]; [2]; [60]]) = [Ret 1; Ret 9; Ret 2; Ret 9].
Proof. do 2 eexists. split; reflexivity. Qed.
Example return_const_ref_case :
  exists f t,
    field_setup debug64 (Field mdref (slot_new mdref)) 0%nat 0%nat t0 [[StReturnConst 9]] = (f, t) /\
    snd (field_calls debug64 f 0%nat w0 [[1]; [50]]) = [Ret 9; Ret 9].
Proof. do 2 eexists. split; reflexivity. Qed.

(** C15.  [cnt] is a counter in the user state that a run of [f] raises by at most
    one, and that no matcher and no other closure touches.  Over any
    history of calls it grows by at most one: [f] runs at most once. *)
Theorem return_once_at_most_once :
  forall (V U : Type) c (md : mdecl V) th f e0 t e t' (es : list (expectation V U)) i (cnt : U -> N)
         calls k w f' w' rs,
  match e_action e0 with AStatic _ _ => True | _ => False end ->
  apply_setter c th (StReturnOnce f) e0 t = (e, t', Ret tt) ->
  nth_error es i = Some e ->
  (forall args u, cnt (fst (f args u)) <= cnt u + 1) ->
  (forall e', In e' es -> quiet_matcher cnt (c_matcher (e_common e'))) ->
  (forall j e', j <> i -> nth_error es j = Some e' -> quiet_closure cnt e') ->
  field_calls c (Field md (SPlain es)) k w calls = (f', w', rs) ->
  cnt (w_user w') <= cnt (w_user w) + 1.
Proof.
  intros V U c md th f e0 t e t' es i cnt calls k w f' w' rs K S N HF QM QC H.
  apply (field_calls_inv c md (once_inv i f cnt (cnt (w_user w)))) in H.
  - destruct H as (es' & _ & _ & _ & [[_ H]|[_ H]]); lia.
  - intros. eapply once_inv_call; eauto.
  - split; [apply Forall_forall; auto|]. split; [auto|]. left. split; [|lia].
    exists e. split; auto. simpl in S. unfold set_srfunc in S.
    destruct (e_action e0) as [rf [|]| |]; try contradiction; inversion S; subst; reflexivity.
Qed.
Print Assumptions return_once_at_most_once.

(** C15, the messages.  For a sole expectation [.times(x).return_once(f)]: the first
    call runs [f]; while the count allows it the second panics with "called
    twice", later ones (and all later ones, if [f] panicked) with a
    [PoisonError]; beyond the maximum the count is reported. *)
Theorem return_once_answers :
  forall (V U : Type) c (md : mdecl V) x (f : ucode U (list V) V) calls w th t s t' r f' w' rs,
  md_generic md = false -> md_kind md = KStatic ->
  arg_below (umax c) x -> satisfiable (umax c) x -> arg_max x <> Some 0 ->
  (forall a u, snd (f a u) <> Abort) ->
  N.of_nat (List.length calls) < umax c -> w_panicking w = false ->
  slot_expect c md (slot_new md) 0%nat th [StTimes x; StReturnOnce f] t = (s, t', r) ->
  field_calls c (Field md s) 0%nat w calls = (f', w', rs) ->
  r = Ret tt /\ (w_user w', rs) = once_answers (md_me md) (arg_max x) f calls (w_user w).
Proof. intros. eapply once_history; eauto. Qed.
Print Assumptions return_once_answers.

Example return_once_case :
  exists s, slot_expect debug64 md0 (slot_new md0) 0%nat 0%nat [StTimes AFull; StReturnOnce seven] t0
              = (s, t0, Ret tt) /\
  (let '(_, w', rs) := field_calls debug64 (Field md0 s) 0%nat w0 [[1]; [2]; [3]] in (w_user w', rs))
    = ([[1]], [Ret 7; Panic (MRet "MockFoo::bar" "<anything>" ReTwice); Panic MPoison]).
Proof. eexists. split; reflexivity. Qed.
Example return_once_counter_case :
  exists f t,
    field_setup debug64 (Field md0 (slot_new md0)) 0%nat 0%nat t0
      [[StWithf (pure_fn small); StReturnOnce adder]; [StReturnConst 9]] = (f, t) /\
    (forall args u, N.of_nat (List.length (fst (adder args u))) <= N.of_nat (List.length u) + 1) /\
    (let '(_, w', rs) := field_calls debug64 f 0%nat w0 [[50]; [2]; [60]; [3]] in (w_user w', rs))
      = ([[2]], [Ret 9; Ret 2; Ret 9; Panic (MRet "MockFoo::bar" "<function>" ReTwice)]).
Proof.
  do 2 eexists. split; [reflexivity|]. split; [|reflexivity].
  intros args u. simpl. rewrite app_length. simpl. lia.
Qed.

(** C16.  A sole expectation without return action.  With the [nightly] feature and
    a type with a default, every call returns the default.  Otherwise the first
    call panics with the configuration's message; so do all later ones
    for reference return types, while for ['static] return types the first
    panic has poisoned the expectation and later calls report that. *)
Theorem no_return_action :
  forall (V U : Type) c (md : mdecl V) calls (w : world U) th t s t' r f' w' rs,
  md_generic md = false -> 1 <= umax c ->
  N.of_nat (List.length calls) < umax c -> w_panicking w = false ->
  slot_expect c md (slot_new md) 0%nat th [] t = (s, t', r) ->
  field_calls c (Field md s) 0%nat w calls = (f', w', rs) ->
  w' = w /\ rs = no_action_answers c (md_me md) (md_kind md) calls.
Proof. intros. eapply no_action_history; eauto. Qed.
Print Assumptions no_return_action.

Example no_return_action_case :
  exists s, slot_expect debug64 md0 (slot_new md0) 0%nat 0%nat [] t0 = (s, t0, Ret tt) /\
  snd (field_calls debug64 (Field md0 s) 0%nat w0 [[1]; [2]; [3]])
    = [Panic (MRet "MockFoo::bar" "<anything>" ReNeedsNightly); Panic MPoison; Panic MPoison].
Proof. eexists. repeat split. Qed.
Example no_return_action_nightly_case :
  let c := Cfg 100 true true in
  exists s, slot_expect c mdref (slot_new mdref) 0%nat 0%nat [] t0 = (s, t0, Ret tt) /\
  snd (field_calls c (Field mdref s) 0%nat w0 [[1]; [2]]) = [Ret 0; Ret 0].
Proof. eexists. repeat split. Qed.

(** C17, [return_var].  The sole expectation of a method returning [&mut T].  Each
    call comes with what the caller then does through the reference. *)
Theorem return_var_keeps_writes :
  forall (V U : Type) c (md : mdecl V) v calls (w : world U) th t s t' r f' w' rs,
  md_generic md = false -> md_kind md = KMut -> 1 <= umax c ->
  N.of_nat (List.length calls) < umax c ->
  slot_expect c md (slot_new md) 0%nat th [StReturnVar v] t = (s, t', r) ->
  field_calls_wr c (Field md s) 0%nat w calls = (f', w', rs) ->
  r = Ret tt /\ w' = w /\ rs = var_values v (map snd calls).
Proof.
  intros V U c md v calls w th t s t' r f' w' rs G K H1 L E H.
  unfold slot_expect, slot_new in E. rewrite G, K in E. simpl in E. inversion E; subst.
  split; auto. eapply (var_history c md calls 0); eauto.
Qed.
Print Assumptions return_var_keeps_writes.

(** C17, [returning]: every value is computed anew and writes are lost. *)
Theorem returning_mut_is_fresh :
  forall (V U : Type) c (md : mdecl V) (f : ucode U (list V) V) calls w th t s t' r f' w' rs,
  md_generic md = false -> md_kind md = KMut -> 1 <= umax c ->
  N.of_nat (List.length calls) < umax c ->
  slot_expect c md (slot_new md) 0%nat th [StReturning f] t = (s, t', r) ->
  field_calls_wr c (Field md s) 0%nat w calls = (f', w', rs) ->
  r = Ret tt /\ (w_user w', rs) = fresh_values f (map fst calls) (w_user w).
Proof.
  intros V U c md f calls w th t s t' r f' w' rs G K H1 L E H.
  unfold slot_expect, slot_new in E. rewrite G, K in E. simpl in E. inversion E; subst.
  split; auto. eapply (mut_returning_history c md f calls 0); eauto.
Qed.
Print Assumptions returning_mut_is_fresh.

Example return_var_case :
  exists s, slot_expect debug64 mdmut (slot_new mdmut) 0%nat 0%nat [StReturnVar 5] t0 = (s, t0, Ret tt) /\
  snd (field_calls_wr debug64 (Field mdmut s) 0%nat w0 [([], N.succ); ([], fun v => v); ([], N.double); ([], N.succ)])
    = [Ret 5; Ret 6; Ret 6; Ret 12].
Proof. eexists. split; reflexivity. Qed.
Example returning_mut_case :
  exists s, slot_expect debug64 mdmut (slot_new mdmut) 0%nat 0%nat [StReturning adder] t0 = (s, t0, Ret tt) /\
  snd (field_calls_wr debug64 (Field mdmut s) 0%nat w0 [([1], N.succ); ([1; 1], N.succ); ([], N.succ)])
    = [Ret 1; Ret 2; Ret 0].
Proof. eexists. split; reflexivity. Qed.

(** C18.  If no builder call of a chain panics, the expectation it makes is
    determined by the last matcher, the last count, the last position and the
    last return action set; each sequence has given out one position for each
    [in_sequence] in the chain. *)
Theorem last_setter_wins :
  forall (V U : Type) c (me : method V) kd th (l : list (setter V U)) t e' t',
  checks c = true -> 1 <= umax c ->
  apply_setters c th l (expectation_default c me kd) t = (e', t', Ret tt) ->
  exists r,
    trange_from c (final_count l AFull) = Ret r /\
    e' = Expectation
           (Common (final_matcher th l MtAlways) false (final_seq l t None) (Times 0 r))
           (final_action kd th l (action_default c me kd)) /\
    forall i, t' i = Sequence (sq_inner (t i)) (sq_next (t i) + positions i l).
Proof.
  intros V U c me kd th l t e' t' CK U1 H.
  destruct (last_setter_gen c th kd CK U1 l (expectation_default c me kd) t e' t' AFull
              ltac:(destruct kd; reflexivity) ltac:(destruct kd; exact I || reflexivity)
              eq_refl eq_refl H) as (A1 & A2 & A3 & A4 & A5 & A6 & A7).
  exists (trange_of (c_times (e_common e'))). split; auto. split; auto.
  destruct e' as [[m p s [n r]] a]. simpl in *. subst. reflexivity.
Qed.
Print Assumptions last_setter_wins.

(** C18, commuting.  Two chains that end with the same matcher, count, position and
    action make the same expectation. *)
Theorem setters_commute :
  forall (V U : Type) c (me : method V) kd th (l1 l2 : list (setter V U)) t e1 t1 e2 t2,
  checks c = true -> 1 <= umax c ->
  apply_setters c th l1 (expectation_default c me kd) t = (e1, t1, Ret tt) ->
  apply_setters c th l2 (expectation_default c me kd) t = (e2, t2, Ret tt) ->
  final_count l1 AFull = final_count l2 AFull ->
  final_matcher th l1 MtAlways = final_matcher th l2 MtAlways ->
  final_seq l1 t None = final_seq l2 t None ->
  final_action kd th l1 (action_default c me kd) = final_action kd th l2 (action_default c me kd) ->
  e1 = e2.
Proof.
  intros V U c me kd th l1 l2 t e1 t1 e2 t2 CK U1 H1 H2 E1 E2 E3 E4.
  apply last_setter_wins in H1; auto. apply last_setter_wins in H2; auto.
  destruct H1 as (r1 & A1 & A2 & _), H2 as (r2 & B1 & B2 & _).
  rewrite E1 in A1. assert (r1 = r2) by congruence. congruence.
Qed.
Print Assumptions setters_commute.

Example last_setter_case :
  let l1 := [StTimes (AIncl 1 3); StWithf (pure_fn small); StReturning adder; StReturnConst 4; StTimes (ANum 2);
             StInSequence 0%nat] in
  let l2 := [StReturnConst 4; StTimes (ANum 2); StInSequence 0%nat; StWith []; StWithf (pure_fn small)] in
  exists e t1,
    apply_setters debug64 0%nat l1 (expectation_default debug64 me0 KStatic) t0 = (e, t1, Ret tt) /\
    (exists t2, apply_setters debug64 0%nat l2 (expectation_default debug64 me0 KStatic) t0 = (e, t2, Ret tt)) /\
    tcount (c_times (e_common e)) = 0 /\ positions 0 l1 = 1 /\ @final_count V0 U0 l1 AFull = ANum 2.
Proof. do 2 eexists. split; [reflexivity|]. split; [eexists; reflexivity|]. auto. Qed.

(** C19, on the owning thread.  [unst] turns the single-threaded variants of an expectation
    into the ordinary ones.  On the owner's thread every call of the two
    has the same effects and the same result, up to the text of a panic
    (which names the kind of matcher). *)
Theorem st_like_ordinary_on_own_thread :
  forall (V U : Type) c (me : method V) (es : list (expectation V U)) args wr w es' w' r,
  (forall e o, In e es -> matcher_owner (c_matcher (e_common e)) = Some o \/ action_owner (e_action e) = Some o ->
     o = w_thread w) ->
  expectations_call c me es args wr w = (es', w', r) ->
  exists r', expectations_call c me (map unst es) args wr w = (map unst es', w', r') /\ same_outcome r r'.
Proof.
  intros V U c me es args wr w es' w' r O E.
  assert (F : Forall (owners_here w) es).
  { apply Forall_forall. intros e I. split; intros o Ho; apply (O e o I); auto. }
  destruct (unst_call _ _ _ _ _ _ _ _ _ F E) as (r' & A & B & _). eauto.
Qed.
Print Assumptions st_like_ordinary_on_own_thread.

(** C19, on another thread: no closure of a single-threaded matcher or action runs,
    whatever the list of expectations.  Seen through any observation that the
    ordinary matchers and closures do not change, nothing happens. *)
Theorem st_closures_stay_on_their_thread :
  forall (V U O : Type) (obs : U -> O) c (me : method V) (es : list (expectation V U)) args wr w es' w' r,
  (forall e, In e es ->
     match matcher_owner (c_matcher (e_common e)) with
     | Some o => o <> w_thread w
     | None => quiet_matcher obs (c_matcher (e_common e))
     end /\
     match action_owner (e_action e) with
     | Some o => o <> w_thread w
     | None => quiet_closure obs e
     end) ->
  expectations_call c me es args wr w = (es', w', r) ->
  obs (w_user w') = obs (w_user w).
Proof. intros. eapply foreign_call; eauto. Qed.
Print Assumptions st_closures_stay_on_their_thread.

(** C19, on another thread: a call that reaches such an action does not return. *)
Theorem st_action_refuses_other_threads :
  forall (V U : Type) c (me : method V) (es : list (expectation V U)) args wr w es' w' r i e o n n',
  1 <= umax c ->
  expectations_call c me es args wr w = (es', w', r) ->
  nth_error es i = Some e -> action_owner (e_action e) = Some o -> o <> w_thread w ->
  count_at es i = Some n -> count_at es' i = Some n' -> n <> n' ->
  forall v, r <> Ret v.
Proof.
  intros V U c me es args wr w es' w' r i e o n n' HU E N A D C1 C2 D2 v Hr.
  apply expectations_call_any in E.
  destruct E as [(j & e0 & e1 & w1 & r0 & N0 & F & X & E1 & E2)|(r0 & F & S & FR & NR & _)].
  - destruct (Nat.eq_dec j i) as [Q|Q].
    + subst j. assert (e0 = e) by congruence. subst.
      apply find_exp_any in F. destruct F as (_ & (_ & TH & _) & _).
      destruct (foreign_action _ _ _ _ _ _ _ _ _ o A (fun H => D (eq_trans H TH)) X) as [_ Y].
      destruct r0 as [v0|m|]; try discriminate. eapply Y; reflexivity.
    + subst. unfold count_at in *. rewrite nth_set_nth_other in C2 by auto. congruence.
  - unfold count_at in *. rewrite N in C1.
    destruct (Forall2_nth _ _ _ _ _ S N) as (e2 & N2 & _ & _ & _ & T). rewrite N2 in C2.
    simpl in *. rewrite T in C2. congruence.
Qed.
Print Assumptions st_action_refuses_other_threads.

(** C19: and a matcher that belongs to another thread panics when consulted. *)
Theorem st_matcher_refuses_other_threads :
  forall (V U : Type) c (me : method V) (e : expectation V U) es args wr w o,
  matcher_owner (c_matcher (e_common e)) = Some o -> o <> w_thread w -> c_mpoison (e_common e) = false ->
  let '(_, w', r) := expectations_call c me (e :: es) args wr w in
  w' = w /\ r = Panic MWrongThread.
Proof.
  intros V U c me e es args wr w o A D P. unfold expectations_call. cbn [find_exp].
  unfold common_matches. rewrite P.
  destruct (c_matcher (e_common e)); try discriminate. simpl in A. inversion A; subst.
  cbn [matcher_matches]. destruct (Nat.eqb_spec o (w_thread w)); [contradiction|]. auto.
Qed.
Print Assumptions st_matcher_refuses_other_threads.

Definition w_other : world U0 := World [] (fun _ => 0) 1%nat false.
Example st_case :
  exists f t,
    field_setup debug64 (Field md0 (slot_new md0)) 0%nat 0%nat t0
      [[StWithf (pure_fn small); StReturningSt adder]; [StWithfSt (pure_fn small); StReturning adder]] = (f, t) /\
    snd (field_calls debug64 f 0%nat w0 [[1]; [2]]) = [Ret 1; Ret 2] /\
    (let '(_, w', rs) := field_calls debug64 f 0%nat w_other [[1]; [50]] in (w', rs))
      = (w_other, [Panic MWrongThread; Panic MWrongThread]).
Proof. do 2 eexists. repeat split. Qed.
