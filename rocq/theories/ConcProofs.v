(** * ConcProofs: counters, locks and closures under every schedule *)

From Coq Require Import NArith List Bool String Lia Arith.
From Verif Require Import Base Times Expect Mock Conc ConcSpec.
Import ListNotations.
Open Scope N_scope.

Section ConcProofs.
Context {V U : Type}.
Notation csys := (csys V U).
Notation pc := (pc V U).
Notation ccall := (ccall V).

(** ** Updating lists *)
Lemma nth_set_nth {A} (l : list A) i j x :
  nth_error (set_nth l i x) j =
  if Nat.eqb j i then match nth_error l i with Some _ => Some x | None => None end
  else nth_error l j.
Proof.
  revert i j. induction l as [|y l IH]; intros i j.
  - simpl. destruct i, j; simpl; try reflexivity. destruct (Nat.eqb j i); reflexivity.
  - destruct i, j; simpl; auto.
Qed.

Lemma set_nth_length {A} (l : list A) i x : List.length (set_nth l i x) = List.length l.
Proof. revert i. induction l as [|y l IH]; intros [|i]; simpl; auto. Qed.

(** ** Reading expectations back *)
Lemma cexp_put_exp (s : csys) m i e m' i' :
  cexp (put_exp s m i e) m' i' =
  if (Nat.eqb m' m && Nat.eqb i' i)%bool
  then match cexp s m i with Some _ => Some e | None => None end
  else cexp s m' i'.
Proof.
  unfold put_exp, cexp, cexps. destruct (nth_error (cs_meths s) m) as [cm|] eqn:Em; simpl.
  - rewrite nth_set_nth. destruct (Nat.eqb m' m) eqn:E; simpl; auto.
    rewrite Em. simpl. rewrite nth_set_nth. apply Nat.eqb_eq in E. subst m'. rewrite Em.
    destruct (Nat.eqb i' i); reflexivity.
  - destruct (Nat.eqb m' m && Nat.eqb i' i)%bool eqn:E; auto.
    apply andb_true_iff in E as [E1 E2]. apply Nat.eqb_eq in E1, E2. subst. rewrite Em.
    destruct i; reflexivity.
Qed.

Lemma put_exp_frame (s : csys) m i e :
  let s' := put_exp s m i e in
  cs_user s' = cs_user s /\ cs_levels s' = cs_levels s /\ cs_ml s' = cs_ml s /\
  cs_rl s' = cs_rl s /\ cs_sl s' = cs_sl s /\ cs_sp s' = cs_sp s /\ cs_threads s' = cs_threads s.
Proof. unfold put_exp. destruct (nth_error _ _); simpl; auto 10. Qed.

Lemma put_exp_threads (s : csys) m i e : cs_threads (put_exp s m i e) = cs_threads s.
Proof. apply put_exp_frame. Qed.
Lemma put_exp_levels (s : csys) m i e : cs_levels (put_exp s m i e) = cs_levels s.
Proof. apply put_exp_frame. Qed.
Lemma put_exp_user (s : csys) m i e : cs_user (put_exp s m i e) = cs_user s.
Proof. apply put_exp_frame. Qed.
Lemma put_exp_ml (s : csys) m i e : cs_ml (put_exp s m i e) = cs_ml s.
Proof. apply put_exp_frame. Qed.
Lemma put_exp_rl (s : csys) m i e : cs_rl (put_exp s m i e) = cs_rl s.
Proof. apply put_exp_frame. Qed.
Lemma put_exp_sl (s : csys) m i e : cs_sl (put_exp s m i e) = cs_sl s.
Proof. apply put_exp_frame. Qed.
Lemma put_exp_sp (s : csys) m i e : cs_sp (put_exp s m i e) = cs_sp s.
Proof. apply put_exp_frame. Qed.

(** The declarations of the methods never change. *)
Definition decl_of (cm : cmeth V U) : method V * option nat * nat :=
  (cm_me cm, cm_mutex cm, List.length (cm_exps cm)).

Lemma put_exp_decls (s : csys) m i e :
  map decl_of (cs_meths (put_exp s m i e)) = map decl_of (cs_meths s).
Proof.
  unfold put_exp. destruct (nth_error (cs_meths s) m) as [cm|] eqn:Em; simpl; auto.
  assert (H : forall (l : list (cmeth V U)) m, nth_error l m = Some cm ->
    map decl_of (set_nth l m (CMeth (cm_me cm) (cm_mutex cm) (set_nth (cm_exps cm) i e))) = map decl_of l).
  { clear. induction l as [|y l IH]; intros [|m] H; simpl in *; try discriminate; auto.
    - injection H as ->. unfold decl_of at 1. simpl. rewrite set_nth_length. reflexivity.
    - f_equal. auto. }
  auto.
Qed.

(** ** Two expectations that differ at most in counter, poison and [Rfunc] *)
Definition same_setup (e e' : expectation V U) : Prop :=
  c_seq (e_common e') = c_seq (e_common e) /\
  trange_of (c_times (e_common e')) = trange_of (c_times (e_common e)) /\
  c_matcher (e_common e') = c_matcher (e_common e).

Lemma same_setup_refl e : same_setup e e.
Proof. repeat split. Qed.

Lemma common_matches_frame (k : common V U) args w k' w' r :
  common_matches k args w = (k', w', r) ->
  c_seq k' = c_seq k /\ c_times k' = c_times k /\ c_matcher k' = c_matcher k /\
  w_levels w' = w_levels w.
Proof.
  unfold common_matches. destruct (c_mpoison k); [intros [= <- <- <-]; auto|].
  destruct (matcher_matches (c_matcher k) args w) as [w1 r1] eqn:E.
  assert (L : w_levels w1 = w_levels w).
  { revert E. unfold matcher_matches. destruct (c_matcher k) as [|f|o f|ps].
    - intros [= <- <-]; auto.
    - destruct (f args (w_user w)). intros [= <- <-]; auto.
    - destruct (Nat.eqb o (w_thread w)); [destruct (f args (w_user w))|]; intros [= <- <-]; auto.
    - destruct (eval_preds ps args (w_user w)). intros [= <- <-]; auto. }
  destruct r1; intros [= <- <- <-]; auto.
Qed.

Lemma mut_ret_levels c me (k : common V U) rf args wr w rf' w' r :
  mut_ret c me k rf args wr w = (rf', w', r) -> w_levels w' = w_levels w.
Proof.
  unfold mut_ret. destruct (show_locked k); try (intros [= <- <- <-]; auto).
  destruct (mrfunc_call c rf args wr w) as [[rf1 w1] r1] eqn:E. intros [= <- <- <-].
  revert E. unfold mrfunc_call. destruct rf as [[v|]|f o|o f ov|v]; try (intros [= <- <- <-]; reflexivity).
  - destruct (f args (w_user w)) as [u [v|m|]]; intros [= <- <- <-]; reflexivity.
  - destruct (Nat.eqb o (w_thread w)); [destruct (f args (w_user w)) as [u [v|m|]]|];
      intros [= <- <- <-]; reflexivity.
Qed.

Lemma cexp_put_ml (s : csys) x j o m i : cexp (put_ml s x j o) m i = cexp s m i.
Proof. reflexivity. Qed.
Lemma cexp_put_rl (s : csys) x j o m i : cexp (put_rl s x j o) m i = cexp s m i.
Proof. reflexivity. Qed.
Lemma cexp_put_sl (s : csys) g o b m i : cexp (put_sl s g o b) m i = cexp s m i.
Proof. reflexivity. Qed.
Lemma cexp_put_world (s : csys) w m i : cexp (put_world s w) m i = cexp s m i.
Proof. reflexivity. Qed.
Lemma cexp_put_thread (s : csys) t th m i : cexp (put_thread s t th) m i = cexp s m i.
Proof. reflexivity. Qed.

(** Bring [pstep] to its leaves. *)
Ltac leaves H :=
  unfold pstep, unlock_r in H;
  repeat match type of H with
  | context [match ?x with _ => _ end] =>
      lazymatch x with
      | context [match _ with _ => _ end] => fail
      | _ => let E := fresh "E" in destruct x eqn:E
      end
  end;
  injection H as <- <- <-.

(** ** How a step changes one expectation *)
Definition reach_here (m i : nat) (ev : event V) : bool :=
  match ev with EvReach _ x j => at_exp m i x j | _ => false end.

Lemma times_call_fst c t t' r : times_call c t = (t', r) -> t' = Times (uwrap1 c (tcount t)) (trange_of t).
Proof. unfold times_call. intros [= <- _]. reflexivity. Qed.

Lemma pstep_exp c (s : csys) t cm p s' p' ev m i e :
  pstep c s t cm p = (s', p', ev) ->
  cexp s m i = Some e ->
  exists e', cexp s' m i = Some e' /\ same_setup e e' /\
    tcount (c_times (e_common e')) =
      if existsb (reach_here m i) ev then uwrap1 c (tcount (c_times (e_common e)))
      else tcount (c_times (e_common e)).
Proof.
  intros H C. leaves H; try (exists e; split; [exact C|split; [apply same_setup_refl|reflexivity]]).
  all: rewrite ?cexp_put_ml, ?cexp_put_rl, ?cexp_put_sl, ?cexp_put_world, ?cexp_put_exp,
      ?cexp_put_ml, ?cexp_put_rl, ?cexp_put_world.
  all: cbn [existsb reach_here orb]; unfold at_exp;
    rewrite ?(Nat.eqb_sym m), ?(Nat.eqb_sym i), ?orb_false_r.
  all: match goal with |- context [(?a && ?b)%bool] => destruct (a && b)%bool eqn:Eb end;
    [|exists e; split; [exact C|split; [apply same_setup_refl|reflexivity]]].
  all: apply andb_true_iff in Eb as [Eb1 Eb2]; apply Nat.eqb_eq in Eb1, Eb2; subst m i.
  all: rewrite C; eexists; split; [reflexivity|].
  all: match goal with
       | [H1 : cexp _ _ _ = Some _, H2 : cexp _ _ _ = Some _ |- _] =>
           rewrite H1 in H2; injection H2 as H2; subst
       end.
  all: try match goal with
       | [H : common_matches _ _ _ = _ |- _] =>
           apply common_matches_frame in H as (F1 & F2 & F3 & _);
           unfold same_setup; simpl; rewrite F1, F2, F3; repeat split; reflexivity
       | [H : times_call _ _ = _ |- _] =>
           apply times_call_fst in H; subst; unfold same_setup; simpl; repeat split; reflexivity
       end.
  all: unfold same_setup; simpl; repeat split; reflexivity.
Qed.


Lemma pstep_threads c (s : csys) t cm p s' p' ev :
  pstep c s t cm p = (s', p', ev) -> cs_threads s' = cs_threads s.
Proof.
  intros H. leaves H; try reflexivity; simpl; rewrite ?put_exp_threads; reflexivity.
Qed.

Lemma pstep_decls c (s : csys) t cm p s' p' ev :
  pstep c s t cm p = (s', p', ev) -> map decl_of (cs_meths s') = map decl_of (cs_meths s).
Proof.
  intros H. leaves H; try reflexivity; simpl; rewrite ?put_exp_decls; reflexivity.
Qed.

(** ** Cases of a step *)
Inductive cstep_case (c : cfg) (s : csys) (t : nat) : csys -> list (event V) -> Prop :=
| CcNone : cstep_case c s t s []
| CcSkip th x rest :
    nth_error (cs_threads s) t = Some th -> th_pc th = PIdle -> th_todo th = x :: rest ->
    nth_error (cs_meths s) (cc_m x) = None ->
    cstep_case c s t (put_thread s t (Thread rest PIdle)) []
| CcStart th x rest cm :
    nth_error (cs_threads s) t = Some th -> th_pc th = PIdle -> th_todo th = x :: rest ->
    nth_error (cs_meths s) (cc_m x) = Some cm ->
    cstep_case c s t
      (put_thread s t (Thread rest (match cm_mutex cm with Some _ => PLockS x | None => PLockM x 0 end)))
      [EvStart t x]
| CcStep th x cm s1 p1 ev :
    nth_error (cs_threads s) t = Some th -> pc_call (th_pc th) = Some x ->
    nth_error (cs_meths s) (cc_m x) = Some cm ->
    pstep c s t cm (th_pc th) = (s1, p1, ev) ->
    cstep_case c s t (put_thread s1 t (Thread (th_todo th) p1)) ev.

Lemma cstep_cases c s t s' ev : cstep c s t = (s', ev) -> cstep_case c s t s' ev.
Proof.
  unfold cstep. destruct (nth_error (cs_threads s) t) as [th|] eqn:Et; [|intros [= <- <-]; constructor].
  destruct (pc_call (th_pc th)) as [x|] eqn:Ep.
  - destruct (nth_error (cs_meths s) (cc_m x)) as [cm|] eqn:Em; [|intros [= <- <-]; constructor].
    destruct (pstep c s t cm (th_pc th)) as [[s1 p1] ev1] eqn:Es. intros [= <- <-].
    econstructor; eauto.
  - assert (P : th_pc th = PIdle) by (destruct (th_pc th); simpl in Ep; congruence).
    destruct (th_todo th) as [|x rest] eqn:Ed; [intros [= <- <-]; constructor|].
    destruct (nth_error (cs_meths s) (cc_m x)) as [cm|] eqn:Em; intros [= <- <-];
      econstructor; eauto.
Qed.

Lemma cstep_exp c s t s' ev m i e :
  cstep c s t = (s', ev) -> cexp s m i = Some e ->
  exists e', cexp s' m i = Some e' /\ same_setup e e' /\
    tcount (c_times (e_common e')) =
      if existsb (reach_here m i) ev then uwrap1 c (tcount (c_times (e_common e)))
      else tcount (c_times (e_common e)).
Proof.
  intros H C. apply cstep_cases in H.
  destruct H as [|th x rest Ht Hp Hd Hm|th x rest cm Ht Hp Hd Hm|th x cm s1 p1 ev Ht Hp Hm Hs].
  1-3: exists e; split; [exact C|split; [apply same_setup_refl|reflexivity]].
  destruct (pstep_exp _ _ _ _ _ _ _ _ _ _ _ Hs C) as (e' & A & B). exists e'. auto.
Qed.

(** ** Sums over the threads *)
Definition psum (w : pc -> nat) (s : csys) : nat :=
  list_sum (map (fun th => w (th_pc th)) (cs_threads s)).

Lemma psum_put (w : pc -> nat) s t th th' :
  nth_error (cs_threads s) t = Some th ->
  (psum w (put_thread s t th') + w (th_pc th) = psum w s + w (th_pc th'))%nat.
Proof.
  unfold psum. simpl. generalize (cs_threads s). clear s. intros l. revert t.
  induction l as [|y l IH]; intros [|t] H; simpl in *; try discriminate.
  - injection H as ->. lia.
  - specialize (IH _ H). lia.
Qed.

(** ** C36: counters *)
Lemma pstep_events c (s : csys) t cm p s' p' ev :
  pstep c s t cm p = (s', p', ev) ->
  ev = [] \/ (exists e, ev = [e]) \/ (exists e e', ev = [e; e'] /\
     (forall m i, reach_here m i e = false) /\ (forall m i, reach_here m i e' = false)).
Proof. intros H. leaves H; eauto; right; right; do 2 eexists; repeat split. Qed.

Lemma cstep_events c (s : csys) t s' ev :
  cstep c s t = (s', ev) ->
  ev = [] \/ (exists e, ev = [e]) \/ (exists e e', ev = [e; e'] /\
     (forall m i, reach_here m i e = false) /\ (forall m i, reach_here m i e' = false)).
Proof.
  intros H. apply cstep_cases in H. destruct H; eauto. eapply pstep_events; eauto.
Qed.

Lemma reached_app m i (a b : list (event V)) : reached m i (a ++ b) = (reached m i a + reached m i b)%nat.
Proof. unfold reached. rewrite filter_app, app_length. reflexivity. Qed.
Lemma answered_app m i (a b : list (event V)) : answered m i (a ++ b) = (answered m i a + answered m i b)%nat.
Proof. unfold answered. rewrite filter_app, app_length. reflexivity. Qed.
Lemma closure_runs_app m i (a b : list (event V)) :
  closure_runs m i (a ++ b) = (closure_runs m i a + closure_runs m i b)%nat.
Proof. unfold closure_runs. rewrite filter_app, app_length. reflexivity. Qed.

Lemma cstep_reached c (s : csys) t s' ev m i :
  cstep c s t = (s', ev) ->
  reached m i ev = if existsb (reach_here m i) ev then 1%nat else 0%nat.
Proof.
  intros H. apply cstep_events in H as [->|[[e ->]|(e & e' & -> & A & B)]]; auto.
  - unfold reached. simpl. fold (reach_here m i e). destruct (reach_here m i e); reflexivity.
  - unfold reached. simpl. fold (reach_here m i e) (reach_here m i e'). rewrite A, B. reflexivity.
Qed.

Lemma uwrap1_mod c a : a <= umax c -> uwrap1 c a = (a + 1) mod (umax c + 1).
Proof.
  unfold uwrap1. intros L. destruct (N.ltb_spec a (umax c)).
  - symmetry. apply N.mod_small. lia.
  - replace a with (umax c) by lia. rewrite N.mod_same; lia.
Qed.

Lemma crun_counts c sched : forall (s : csys) s' tr m i e,
  crun c s sched = (s', tr) -> cexp s m i = Some e ->
  tcount (c_times (e_common e)) <= umax c ->
  exists e', cexp s' m i = Some e' /\ same_setup e e' /\
    tcount (c_times (e_common e')) =
      (tcount (c_times (e_common e)) + N.of_nat (reached m i tr)) mod (umax c + 1).
Proof.
  induction sched as [|t sched IH]; simpl; intros s s' tr m i e H C L.
  - injection H as <- <-. exists e. split; [auto|]. split; [apply same_setup_refl|].
    unfold reached. simpl. rewrite N.add_0_r. symmetry. apply N.mod_small. lia.
  - destruct (cstep c s t) as [s1 ev1] eqn:E1. destruct (crun c s1 sched) as [s2 ev2] eqn:E2.
    injection H as <- <-.
    destruct (cstep_exp _ _ _ _ _ _ _ _ E1 C) as (e1 & C1 & S1 & T1).
    assert (L1 : tcount (c_times (e_common e1)) <= umax c).
    { rewrite T1. destruct (existsb _ ev1); auto. unfold uwrap1. destruct (N.ltb_spec (tcount (c_times (e_common e))) (umax c)); lia. }
    destruct (IH _ _ _ _ _ _ E2 C1 L1) as (e' & C' & S' & T').
    exists e'. split; [auto|]. split.
    { destruct S1 as (a & b & d), S' as (a' & b' & d'). repeat split; congruence. }
    rewrite T', T1, reached_app, (cstep_reached _ _ _ _ _ m i E1).
    destruct (existsb (reach_here m i) ev1); [|reflexivity].
    rewrite uwrap1_mod by auto. rewrite N.add_mod_idemp_l by lia. f_equal. lia.
Qed.

(** ** Calls that an expectation has accepted but not yet answered *)
Definition passed (m i : nat) (p : pc) : nat :=
  match p with
  | PVerify x j | PLoad1 x j | PLoad2 x j _ | PSatisfy x j | PLockR x j
  | PRun x j | PExec x j _ | PExit x j _ => if at_exp m i x j then 1%nat else 0%nat
  | _ => 0%nat
  end.

Lemma pstep_passed c (s : csys) t cm p s' p' ev m i e :
  pstep c s t cm p = (s', p', ev) -> cexp s m i = Some e ->
  (passed m i p' + answered m i ev <= passed m i p)%nat \/
  (reached m i ev = 1%nat /\ passed m i p = 0%nat /\ answered m i ev = 0%nat /\ passed m i p' = 1%nat /\
   snd (times_call c (c_times (e_common e))) = Ret (Ok tt)).
Proof.
  intros H C. leaves H; try (left; reflexivity); try (left; simpl; lia).
  all: unfold answered, reached; simpl; unfold at_exp.
  all: match goal with |- context [(?a && ?b)%bool] => destruct (a && b)%bool eqn:Eb end; simpl; try lia.
  all: try (left; lia).
  right. apply andb_true_iff in Eb as [Eb1 Eb2]. apply Nat.eqb_eq in Eb1, Eb2. subst m i.
  match goal with
  | [H1 : cexp _ _ _ = Some _, H2 : cexp _ _ _ = Some _ |- _] =>
      rewrite H1 in H2; injection H2 as H2; subst
  end.
  repeat split.
  match goal with [ H : times_call _ _ = (_, Ret (Ok ?a)) |- _ ] => unfold times_call in H; injection H as _ ->; destruct a; reflexivity end.
Qed.

Lemma times_call_ok c t : tcount t < umax c -> snd (times_call c t) = Ret (Ok tt) ->
  tcount t + 1 < rend (trange_of t).
Proof.
  unfold times_call, uadd1. simpl. intros L. destruct (N.ltb_spec (tcount t) (umax c)); [|lia]. simpl.
  destruct (N.leb_spec (rend (trange_of t)) (tcount t + 1)); [|intros _; lia].
  destruct (_ =? 1); [discriminate|]. unfold usub. destruct (_ <=? _); [discriminate|].
  destruct (checks c); discriminate.
Qed.

Lemma crun_budget_gen c sched : forall (s : csys) s' tr m i e n0 A,
  crun c s sched = (s', tr) -> cexp s m i = Some e ->
  (psum (passed m i) s + A = 0)%nat \/
     n0 + N.of_nat (psum (passed m i) s + A) < rend (trange_of (c_times (e_common e))) ->
  n0 + N.of_nat (psum (passed m i) s + A) <= tcount (c_times (e_common e)) ->
  tcount (c_times (e_common e)) + N.of_nat (reached m i tr) <= umax c ->
  (psum (passed m i) s' + A + answered m i tr = 0)%nat \/
     n0 + N.of_nat (psum (passed m i) s' + A + answered m i tr) < rend (trange_of (c_times (e_common e))).
Proof.
  induction sched as [|t sched IH]; simpl; intros s s' tr m i e n0 A H C B1 B2 L.
  - injection H as <- <-. unfold answered. simpl. rewrite Nat.add_0_r. auto.
  - destruct (cstep c s t) as [s1 ev1] eqn:E1. destruct (crun c s1 sched) as [s2 ev2] eqn:E2.
    injection H as <- <-.
    destruct (cstep_exp _ _ _ _ _ _ _ _ E1 C) as (e1 & C1 & (S1a & S1b & S1c) & T1).
    rewrite reached_app in L. pose proof (cstep_reached _ _ _ _ _ m i E1) as R1.
    assert (T1' : tcount (c_times (e_common e1)) = tcount (c_times (e_common e)) + N.of_nat (reached m i ev1)).
    { rewrite T1, R1. destruct (existsb (reach_here m i) ev1); [|simpl; lia].
      unfold uwrap1. destruct (N.ltb_spec (tcount (c_times (e_common e))) (umax c)); lia. }
    rewrite answered_app.
    assert (STEP : (psum (passed m i) s1 + answered m i ev1 <= psum (passed m i) s)%nat \/
      (reached m i ev1 = 1%nat /\ (psum (passed m i) s1 + answered m i ev1 = psum (passed m i) s + 1)%nat /\
       snd (times_call c (c_times (e_common e))) = Ret (Ok tt))).
    { apply cstep_cases in E1. destruct E1 as [|th x rest Ht Hp Hd Hm|th x rest cm Ht Hp Hd Hm|th x cm s1 p1 ev Ht Hp Hm Hs].
      - left. unfold answered. simpl. lia.
      - left. pose proof (psum_put (passed m i) _ _ _ (Thread rest PIdle) Ht) as P. rewrite Hp in P. simpl in P.
        unfold answered. simpl. lia.
      - left. pose proof (psum_put (passed m i) _ _ _ (Thread rest (match cm_mutex cm with Some _ => PLockS x | None => PLockM x 0 end)) Ht) as P.
        rewrite Hp in P. simpl in P. unfold answered. simpl. destruct (cm_mutex cm); simpl in *; lia.
      - pose proof (pstep_threads _ _ _ _ _ _ _ _ Hs) as TH.
        rewrite <- TH in Ht. pose proof (psum_put (passed m i) _ _ _ (Thread (th_todo th) p1) Ht) as P. simpl in P.
        assert (Q : psum (passed m i) s1 = psum (passed m i) s) by (unfold psum; rewrite TH; reflexivity).
        destruct (pstep_passed _ _ _ _ _ _ _ _ m i e Hs C) as [X|(X1 & X2 & X3 & X4 & X5)]; [left; lia|].
        right. repeat split; auto. lia. }
    assert (G : (psum (passed m i) s2 + (A + answered m i ev1) + answered m i ev2 = 0)%nat \/
      n0 + N.of_nat (psum (passed m i) s2 + (A + answered m i ev1) + answered m i ev2)
        < rend (trange_of (c_times (e_common e1)))).
    { apply (IH _ _ _ _ _ _ n0 (A + answered m i ev1)%nat E2 C1).
      - rewrite S1b. destruct STEP as [X|(X1 & X2 & X3)].
        + destruct B1 as [B1|B1]; [left; lia|]. right. lia.
        + right. apply times_call_ok in X3; [|lia]. lia.
      - rewrite T1'. destruct STEP as [X|(X1 & X2 & X3)]; lia.
      - rewrite T1'. lia. }
    rewrite S1b in G. destruct G as [G|G]; [left|right]; lia.
Qed.

End ConcProofs.
