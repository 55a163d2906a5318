(** * CountProofs: proofs for C01 - C05 *)

From Coq Require Import NArith List Bool String Lia.
From Verif Require Import Base Times TimesSpec TimesProofs Expect ExpectProofs Mock Spec
  DispatchProofs SoleProofs GreedyProofs Samples.
Import ListNotations.
Open Scope N_scope.

Lemma times_counts_proof :
  forall (V U : Type) c (md : mdecl V) x (f : ucode U (list V) V) calls w th t sh s t' r f' w' rs,
  md_generic md = false -> md_kind md = KStatic ->
  arg_below (umax c) x -> satisfiable (umax c) x -> total_fn f ->
  N.of_nat (List.length calls) < umax c ->
  slot_expect c md (slot_new md) 0%nat th [StTimes x; StReturning f] t = (s, t', r) ->
  field_calls c (Field md s) 0%nat w calls = (f', w', rs) ->
  (object_drop c sh [f'] false = Ret tt <-> in_arg x (N.of_nat (List.length calls))).
Proof.
  intros. destruct (sole_history c md x f calls w th t s t' r f' w' rs sh) as (_ & _ & D); auto.
  rewrite D. apply sole_drop_iff with (top := umax c); auto.
Qed.

Lemma times_messages_proof :
  forall (V U : Type) c (md : mdecl V) x (f : ucode U (list V) V) calls w th t sh s t' r f' w' rs,
  md_generic md = false -> md_kind md = KStatic ->
  arg_below (umax c) x -> satisfiable (umax c) x -> total_fn f ->
  N.of_nat (List.length calls) < umax c ->
  slot_expect c md (slot_new md) 0%nat th [StTimes x; StReturning f] t = (s, t', r) ->
  field_calls c (Field md s) 0%nat w calls = (f', w', rs) ->
  let n := N.of_nat (List.length calls) in
  let name := me_name (md_me md) in
  (n < arg_min x ->
     object_drop c sh [f'] false = Panic (MTooFew name "<anything>" n (arg_min x))) /\
  (forall m, arg_max x = Some m -> m < n -> arg_min x <= n ->
     object_drop c sh [f'] false = Panic (MTooMany name "<anything>" n m)).
Proof.
  intros. destruct (sole_history c md x f calls w th t s t' r f' w' rs sh) as (_ & _ & D); auto.
  rewrite D. unfold sole_drop. split.
  - intros L. subst n name. destruct (N.ltb_spec (N.of_nat (List.length calls)) (arg_min x)); [|lia].
    reflexivity.
  - intros m Hm L1 L2. subst n name.
    destruct (N.ltb_spec (N.of_nat (List.length calls)) (arg_min x)); [lia|].
    rewrite Hm. destruct (N.ltb_spec m (N.of_nat (List.length calls))); [|lia]. reflexivity.
Qed.

Lemma apply_times {V U} c th x (e : expectation V U) t :
  apply_setter c th (StTimes x) e t =
  match trange_from c x with
  | Ret r => (set_common e (set_times (e_common e) (Times (tcount (c_times (e_common e))) r)), t, Ret tt)
  | Panic m => (e, t, Panic m)
  | Abort => (e, t, Abort)
  end.
Proof.
  simpl. unfold lift_common, common_times, times_times.
  destruct e as [k a], k as [mt mp sq tm].
  destruct (trange_from c x); reflexivity.
Qed.

Lemma trange_from_total c x : trange_from c x <> Abort.
Proof.
  destruct x; simpl; unfold uadd1; ncase; simpl; try discriminate; destruct (checks c); simpl; discriminate.
Qed.

Lemma trange_from_exact c x :
  checks c = true -> 1 <= umax c -> arg_usize (umax c) x ->
  ((exists r, trange_from c x = Ret r) <->
     (satisfiable (umax c) x \/ x = ATo 0 \/ x = AFrom (umax c)) /\ ~ arg_max x = Some (umax c)) /\
  (forall m, trange_from c x = Panic m -> m = MBackwards \/ m = MOverflow).
Proof.
  intros K H1 B. unfold arg_usize in B. split.
  2:{ intros m. destruct x; simpl; unfold uadd1; rewrite ?K; ncase; simpl; intros Q; inversion Q; auto. }
  destruct x; simpl in *; unfold uadd1; rewrite ?K.
  - destruct (N.ltb_spec n (umax c)); simpl.
    + split; [|eexists; reflexivity]. intros _. split.
      * left. exists n. simpl. lia.
      * intros Q. inversion Q. lia.
    + split; [intros (r & Q); discriminate|]. intros [_ Q]. exfalso. apply Q. f_equal. lia.
  - destruct (N.ltb_spec a b).
    + split; [|eexists; reflexivity]. intros _. split.
      * left. exists a. simpl. lia.
      * intros Q. inversion Q. lia.
    + split; [intros (r & Q); discriminate|].
      intros [[(k & I & _)|[Q|Q]] _]; simpl in *; try discriminate; lia.
  - split; [|eexists; reflexivity]. intros _. split; [|discriminate].
    destruct (N.eq_dec a (umax c)); [right; right; congruence|].
    left. exists a. simpl. lia.
  - split; [|eexists; reflexivity]. intros _. split; [|discriminate].
    left. exists 0. simpl. lia.
  - destruct (N.leb_spec a b).
    + destruct (N.ltb_spec b (umax c)); simpl.
      * split; [|eexists; reflexivity]. intros _. split.
        -- left. exists a. simpl. lia.
        -- intros Q. inversion Q. lia.
      * split; [intros (r & Q); discriminate|]. intros [_ Q]. exfalso. apply Q. f_equal. lia.
    + split; [intros (r & Q); discriminate|].
      intros [[(k & I & _)|[Q|Q]] _]; simpl in *; try discriminate; lia.
  - split; [|eexists; reflexivity]. intros _. split.
    + destruct (N.eq_dec b 0); [right; left; congruence|]. left. exists 0. simpl. lia.
    + intros Q. inversion Q. lia.
  - destruct (N.ltb_spec b (umax c)); simpl.
    + split; [|eexists; reflexivity]. intros _. split.
      * left. exists 0. simpl. lia.
      * intros Q. inversion Q. lia.
    + split; [intros (r & Q); discriminate|]. intros [_ Q]. exfalso. apply Q. f_equal. lia.
Qed.

Lemma times_accepts_exact_proof :
  forall (V U : Type) c th x (e : expectation V U) t e' t' r,
  checks c = true -> 1 <= umax c -> arg_usize (umax c) x ->
  apply_setter c th (StTimes x) e t = (e', t', r) ->
  (r = Ret tt <->
     (satisfiable (umax c) x \/ x = ATo 0 \/ x = AFrom (umax c))
     /\ ~ arg_max x = Some (umax c)) /\
  (r <> Ret tt -> e' = e /\ t' = t /\ (r = Panic MBackwards \/ r = Panic MOverflow)).
Proof.
  intros V U c th x e t e' t' r K H1 B E. rewrite apply_times in E.
  destruct (trange_from_exact c x K H1 B) as [A1 A2]. rewrite <- A1. clear A1.
  pose proof (trange_from_total c x) as T.
  destruct (trange_from c x) as [rg|m|]; [| |congruence]; inversion E; subst.
  - split; [split; eauto|]. congruence.
  - split; [split; [discriminate|intros (r & Q); discriminate]|].
    intros _. split; auto. split; auto. destruct (A2 m eq_refl); subst; auto.
Qed.

Lemma trange_from_release c x :
  checks c = false -> 1 <= umax c -> arg_usize (umax c) x ->
  ((exists r, trange_from c x = Ret r) <->
     satisfiable (umax c) x \/ x = ATo 0 \/ x = AFrom (umax c) \/ arg_max x = Some (umax c)) /\
  (forall m, trange_from c x = Panic m -> m = MBackwards).
Proof.
  intros K H1 B. unfold arg_usize in B. split.
  2:{ intros m. destruct x; simpl; unfold uadd1; rewrite ?K; ncase; simpl; intros Q; inversion Q; auto. }
  destruct x; simpl in *; unfold uadd1; rewrite ?K.
  - destruct (N.ltb_spec n (umax c)); simpl; (split; [intros _|eexists; reflexivity]).
    + left. exists n. simpl. lia.
    + right. right. right. f_equal. lia.
  - destruct (N.ltb_spec a b).
    + split; [|eexists; reflexivity]. intros _. left. exists a. simpl. lia.
    + split; [intros (r & Q); discriminate|].
      intros [(k & I & _)|[Q|[Q|Q]]]; simpl in *; try discriminate; [lia|injection Q as Q; lia].
  - split; [|eexists; reflexivity]. intros _.
    destruct (N.eq_dec a (umax c)); [right; right; left; congruence|].
    left. exists a. simpl. lia.
  - split; [|eexists; reflexivity]. intros _. left. exists 0. simpl. lia.
  - destruct (N.leb_spec a b).
    + destruct (N.ltb_spec b (umax c)); simpl; (split; [intros _|eexists; reflexivity]).
      * left. exists a. simpl. lia.
      * right. right. right. f_equal. lia.
    + split; [intros (r & Q); discriminate|].
      intros [(k & I & _)|[Q|[Q|Q]]]; simpl in *; try discriminate; [lia|injection Q as Q; lia].
  - split; [|eexists; reflexivity]. intros _.
    destruct (N.eq_dec b 0); [right; left; congruence|]. left. exists 0. simpl. lia.
  - destruct (N.ltb_spec b (umax c)); simpl; (split; [intros _|eexists; reflexivity]).
    + left. exists 0. simpl. lia.
    + right. right. right. f_equal. lia.
Qed.

Lemma times_accepts_release_proof :
  forall (V U : Type) c th x (e : expectation V U) t e' t' r,
  checks c = false -> 1 <= umax c -> arg_usize (umax c) x ->
  apply_setter c th (StTimes x) e t = (e', t', r) ->
  (r = Ret tt <->
     satisfiable (umax c) x \/ x = ATo 0 \/ x = AFrom (umax c) \/ arg_max x = Some (umax c)) /\
  (r <> Ret tt -> e' = e /\ t' = t /\ r = Panic MBackwards).
Proof.
  intros V U c th x e t e' t' r K H1 B E. rewrite apply_times in E.
  destruct (trange_from_release c x K H1 B) as [A1 A2]. rewrite <- A1. clear A1.
  pose proof (trange_from_total c x) as T.
  destruct (trange_from c x) as [rg|m|]; [| |congruence]; inversion E; subst.
  - split; [split; eauto|]. congruence.
  - split; [split; [discriminate|intros (r & Q); discriminate]|].
    intros _. split; auto. split; auto. rewrite (A2 m eq_refl). reflexivity.
Qed.

Lemma times_accepts_iff_satisfiable_proof :
  forall (V U : Type) c th x (e : expectation V U) t e' t' r,
  1 <= umax c -> arg_usize (umax c) x ->
  x <> ATo 0 -> x <> AFrom (umax c) -> arg_max x <> Some (umax c) ->
  apply_setter c th (StTimes x) e t = (e', t', r) ->
  (r = Ret tt <-> satisfiable (umax c) x).
Proof.
  intros V U c th x e t e' t' r H1 B X1 X2 X3 E. destruct (checks c) eqn:K.
  - apply times_accepts_exact_proof in E; auto. destruct E as [E _]. rewrite E. tauto.
  - apply times_accepts_release_proof in E; auto. destruct E as [E _]. rewrite E. tauto.
Qed.

Lemma empty_times_accepted :
  exists x th (e e' : expectation V0 U0) t,
    arg_usize (umax debug64) x /\ (forall k, ~ in_arg x k) /\
    apply_setter debug64 th (StTimes x) e t = (e', t, Ret tt).
Proof.
  exists (ATo 0), 0%nat, (expectation_default debug64 me0 KStatic).
  eexists. exists t0. split; [|split].
  - unfold arg_usize; simpl; lia.
  - intros k; simpl; lia.
  - reflexivity.
Qed.

Lemma times_to_zero_breaks_dispatch :
  exists f t,
    field_setup debug64 (Field md0 (slot_new md0)) 0%nat 0%nat t0
      [[StTimes (ATo 0)]; [StReturning seven]] = (f, t) /\
    forall args w, exists f' w',
      field_call debug64 f 0%nat args (fun v => v) w = (f', w', Panic MOverflow).
Proof.
  eexists; eexists; split; [reflexivity|].
  intros args w. eexists; eexists; reflexivity.
Qed.

Lemma full_times_overflow :
  exists x th (e : expectation V0 U0) t,
    arg_usize (umax debug64) x /\ satisfiable (umax debug64) x /\
    apply_setter debug64 th (StTimes x) e t = (e, t, Panic MOverflow).
Proof.
  exists (AToIncl (umax debug64)), 0%nat, (expectation_default debug64 me0 KStatic), t0.
  split; [|split].
  - unfold arg_usize; simpl; lia.
  - exists 0; simpl; lia.
  - reflexivity.
Qed.

Lemma sole_expectation_answers_proof :
  forall (V U : Type) c (md : mdecl V) x (f : ucode U (list V) V) calls w th t s t' r f' w' rs,
  md_generic md = false -> md_kind md = KStatic ->
  arg_below (umax c) x -> satisfiable (umax c) x -> total_fn f ->
  N.of_nat (List.length calls) < umax c ->
  slot_expect c md (slot_new md) 0%nat th [StTimes x; StReturning f] t = (s, t', r) ->
  field_calls c (Field md s) 0%nat w calls = (f', w', rs) ->
  (w_user w', rs) = sole_answers (md_me md) (arg_max x) f 0 calls (w_user w).
Proof.
  intros. destruct (sole_history c md x f calls w th t s t' r f' w' rs (fun s => s)) as (_ & A & _); auto.
Qed.

Lemma sole_expectation_budget_proof :
  forall (V U : Type) c (md : mdecl V) x (f : ucode U (list V) V) calls w th t s t' r f' w' rs i ri,
  md_generic md = false -> md_kind md = KStatic ->
  arg_below (umax c) x -> satisfiable (umax c) x -> total_fn f ->
  N.of_nat (List.length calls) < umax c ->
  slot_expect c md (slot_new md) 0%nat th [StTimes x; StReturning f] t = (s, t', r) ->
  field_calls c (Field md s) 0%nat w calls = (f', w', rs) ->
  nth_error rs i = Some ri ->
  ((exists v, ri = Ret v) <-> (forall m, arg_max x = Some m -> N.of_nat i < m)).
Proof.
  intros V U c md x f calls w th t s t' r f' w' rs i ri G K B S T L E H N.
  assert (A := sole_expectation_answers_proof _ _ _ _ _ _ _ _ _ _ _ _ _ _ _ _ G K B S T L E H).
  pose proof (sole_answers_spec (md_me md) (arg_max x) f calls 0 (w_user w) T i ri) as Q.
  rewrite <- A in Q. specialize (Q N).
  assert (X : (exists v, ri = Ret v) <-> is_ret ri = true).
  { destruct ri; simpl; split; intros Y; try discriminate; eauto; destruct Y; discriminate. }
  rewrite X, Q. destruct (arg_max x) as [m|].
  - rewrite N.add_0_l. split; [intros Y m' E'; inversion E'; subst; auto|auto].
  - split; [intros _ m' E'; discriminate|auto].
Qed.

Lemma dying_expectation_proof :
  forall (V U : Type) c (md : mdecl V) (e : expectation V U) sh,
  object_drop c sh [Field md (SPlain [e])] true = Ret tt /\
  (object_drop c sh [Field md (SPlain [e])] false = Ret tt <->
     in_range e /\ c_mpoison (e_common e) = false).
Proof.
  intros. split; [reflexivity|]. cbn [object_drop slot_drop f_slot f_decl drop_exps].
  destruct (c_mpoison (e_common e)) eqn:P.
  - unfold common_drop, show_locked. rewrite P. simpl. split; [discriminate|]. intros [_ Q]; discriminate.
  - pose proof (common_drop_ok c (md_me md) e P) as D.
    destruct (common_drop c (md_me md) (e_common e) false) as [[]|m|] eqn:E; simpl.
    + split; [intros _; split; [apply D; reflexivity|reflexivity]|reflexivity].
    + split; [discriminate|]. intros [Q _]. apply D in Q. discriminate.
    + split; [discriminate|]. intros [Q _]. apply D in Q. discriminate.
Qed.

(** ** never *)
Lemma never_setup {V U} c (md : mdecl V) (f : ucode U (list V) V) st th t :
  md_generic md = false -> md_kind md = KStatic -> 1 < umax c ->
  st = StNever \/ st = StTimes (ANum 0) ->
  slot_expect c md (slot_new md) 0%nat th [st; StReturning f] t
    = (SPlain [sexp (TRange 0 1) f 0], t, Ret tt).
Proof.
  intros G K H1 S. unfold slot_expect, slot_new. rewrite G, K. destruct S; subst st; simpl.
  - reflexivity.
  - unfold lift_common, common_times, times_times. simpl.
    rewrite uadd1_ok by lia. reflexivity.
Qed.

Lemma never_calls {V U} c (md : mdecl V) (f : ucode U (list V) V) : forall l j w f' w' rs,
  j + N.of_nat (List.length l) < umax c ->
  field_calls c (Field md (SPlain [sexp (TRange 0 1) f j])) 0%nat w l = (f', w', rs) ->
  f' = Field md (SPlain [sexp (TRange 0 1) f (j + N.of_nat (List.length l))]) /\ w' = w /\
  rs = map (fun _ => Panic (MCall (me_name (md_me md)) "<anything>" TeNever)) l.
Proof.
  induction l as [|a l IH]; intros j w f' w' rs J H.
  - simpl in H. inversion H; subst. rewrite N.add_0_r. auto.
  - cbn [List.length] in J. cbn [field_calls] in H.
    assert (E : field_call c (Field md (SPlain [sexp (TRange 0 1) f j])) 0%nat a (fun v => v) w =
      (Field md (SPlain [sexp (TRange 0 1) f (j + 1)]), w,
       Panic (MCall (me_name (md_me md)) "<anything>" TeNever))).
    { unfold field_call, slot_call, expectations_call. cbn [f_slot f_decl List.length Nat.eqb find_exp].
      unfold common_matches. cbn -[expectation_call]. rewrite orb_true_r.
      cbn -[expectation_call]. unfold expectation_call.
      rewrite common_call_over by (simpl; auto; lia). reflexivity. }
    rewrite E in H. clear E.
    destruct (field_calls c _ 0%nat w l) as [[f2 w2] rs2] eqn:Q.
    apply IH in Q; [|lia]. destruct Q as (Q1 & Q2 & Q3). inversion H; subst.
    replace (j + N.of_nat (List.length (a :: l))) with (j + 1 + N.of_nat (List.length l))
      by (simpl List.length; lia).
    auto.
Qed.

Lemma never_alone_proof :
  forall (V U : Type) c (md : mdecl V) (f : ucode U (list V) V) st calls w th t s t' r f' w' rs sh,
  md_generic md = false -> md_kind md = KStatic -> 1 < umax c ->
  st = StNever \/ st = StTimes (ANum 0) ->
  N.of_nat (List.length calls) < umax c ->
  slot_expect c md (slot_new md) 0%nat th [st; StReturning f] t = (s, t', r) ->
  field_calls c (Field md s) 0%nat w calls = (f', w', rs) ->
  r = Ret tt /\ w' = w /\
  rs = map (fun _ => Panic (MCall (me_name (md_me md)) "<anything>" TeNever)) calls /\
  (object_drop c sh [f'] false = Ret tt <-> calls = []).
Proof.
  intros V U c md f st calls w th t s t' r f' w' rs sh G K H1 S L E H.
  rewrite (never_setup c md f st th t G K H1 S) in E. inversion E; subst.
  apply never_calls in H; [|lia]. destruct H as (A1 & A2 & A3). subst.
  repeat split; auto.
  - intros D. apply dying_expectation_proof in D. destruct D as [D _].
    unfold in_range in D. simpl in D. destruct calls; auto. simpl in D. lia.
  - intros D. subst. apply dying_expectation_proof. split; auto. unfold in_range. simpl. lia.
Qed.

Lemma never_among_others_proof :
  forall (V U : Type) c me (es : list (expectation V U)) args wr w es' w' r i e,
  (2 <= List.length es)%nat -> Forall live es -> Forall proper es ->
  nth_error es i = Some e -> saturated e ->
  expectations_call c me es args wr w = (es', w', r) ->
  nth_error es' i = Some e.
Proof.
  intros V U c me es args wr w es' w' r i e L HL HP N S E.
  destruct (expectations_call_spec c me es args wr w HL HP)
    as [(i0 & e0 & bs & w1 & N0 & _ & _ & S0 & _ & X)|(bs & w1 & _ & _ & X)].
  - destruct (expectation_call c me e0 args wr w1) as [[e1 w2] r1] eqn:Q.
    rewrite (X _ _ _ eq_refl) in E. inversion E; subst.
    destruct (PeanoNat.Nat.eq_dec i0 i) as [D|D].
    + subst. assert (e = e0) by congruence. subst. destruct S0; [contradiction|lia].
    + rewrite nth_set_nth_other by auto. auto.
  - rewrite X in E. inversion E; subst. auto.
Qed.

(** [Times::n] and [Times::range]. *)
Lemma satisfied_iff : forall k a b,
  times_is_satisfied (Times k (TRange a b)) = Satisfied <-> a <= k < b.
Proof.
  intros k a b. unfold times_is_satisfied. cbn [trange_of rstart rend tcount].
  destruct (N.leb_spec a k); destruct (N.ltb_spec k b); cbn [andb]; split; intros Q; try discriminate Q;
    try reflexivity; lia.
Qed.

Lemma number_and_range_setters_proof : forall c t n a b,
  n <= umax c ->
  (let '(t', r) := times_n c n t in
   (r = Ret tt <-> checks c = false \/ n < umax c) /\
   (r <> Ret tt -> t' = t /\ r = Panic MOverflow) /\
   times_count t' = times_count t /\
   (n < umax c -> times_is_satisfied t' = Satisfied <-> in_arg (ANum n) (times_count t))) /\
  (let '(t', r) := times_range a b t in
   (r = Ret tt <-> exists k, in_arg (ARange a b) k) /\
   (r <> Ret tt -> t' = t /\ r = Panic MBackwards) /\
   times_count t' = times_count t /\
   (r = Ret tt -> times_is_satisfied t' = Satisfied <-> in_arg (ARange a b) (times_count t))).
Proof.
  intros c t n a b L. split.
  - unfold times_n, uadd1. destruct (N.ltb_spec n (umax c)) as [H|H].
    + repeat split; try reflexivity; try (now right); try congruence; intros;
        rewrite ?satisfied_iff in *; cbn [in_arg] in *; unfold times_count in *; cbn [tcount] in *; try lia.
    + destruct (checks c) eqn:K; repeat split; try reflexivity; try (now left); try congruence; try lia;
        try (intros [X|X]; [discriminate X|lia]); intros; lia.
  - unfold times_range. destruct (N.ltb_spec a b) as [H|H].
    + repeat split; try reflexivity; try congruence; intros; rewrite ?satisfied_iff in *; cbn [in_arg] in *;
        unfold times_count in *; cbn [tcount] in *; try lia.
      exists a. lia.
    + repeat split; try reflexivity; try congruence; try (intros X; discriminate X).
      cbn [in_arg]. intros [k X]. lia.
Qed.
