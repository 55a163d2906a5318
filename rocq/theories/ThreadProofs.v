(** * ThreadProofs: closures, sequences and progress under every schedule *)

From Coq Require Import NArith List Bool String Lia Arith.
From Verif Require Import Base Times Expect Mock Conc ConcSpec ConcProofs LockProofs.
Import ListNotations.
Open Scope N_scope.

Section ThreadProofs.
Context {V U : Type}.
Notation csys := (csys V U).
Notation pc := (pc V U).
Notation ccall := (ccall V).

(** Bring [pstep] to its leaves. *)
Ltac leaves H :=
  unfold pstep, unlock_r in H;
  repeat match type of H with
  | context [match ?x with _ => _ end] =>
      lazymatch x with
      | context [match _ with _ => _ end] => fail
      | _ => let E := fresh "E" in destruct x eqn:E
      end
  end;
  injection H as <- <- <-.

(** ** C37: closures of [return_once] *)
Definition once_like (e : expectation V U) : Prop :=
  match e_action e with
  | AStatic (SOnce _) _ | AStatic (SOnceSt _ _) _ | AStatic SExpired _ => True
  | _ => False
  end.
Definition once_left (e : expectation V U) : nat :=
  match e_action e with
  | AStatic (SOnce _) _ | AStatic (SOnceSt _ _) _ => 1%nat
  | _ => 0%nat
  end.
Definition execing (m i : nat) (p : pc) : nat :=
  match p with PExec x j _ => if at_exp m i x j then 1%nat else 0%nat | _ => 0%nat end.

Lemma pstep_once c (s : csys) t cm p s' p' ev m i e :
  pstep c s t cm p = (s', p', ev) -> cexp s m i = Some e -> once_like e ->
  exists e', cexp s' m i = Some e' /\ once_like e' /\
    (once_left e' + execing m i p' + closure_runs m i ev <= once_left e + execing m i p)%nat.
Proof.
  intros H C O. leaves H; subst; try (exists e; split; [exact C|split; [exact O|simpl; unfold closure_runs; simpl; lia]]).
  all: rewrite ?cexp_put_ml, ?cexp_put_rl, ?cexp_put_sl, ?cexp_put_world, ?cexp_put_exp,
      ?cexp_put_ml, ?cexp_put_rl, ?cexp_put_world.
  all: unfold execing, closure_runs; simpl; unfold at_exp.
  all: try (rewrite (Nat.eqb_sym m), (Nat.eqb_sym i)).
  all: match goal with |- context [(?a && ?b)%bool] => destruct (a && b)%bool eqn:Eb end; simpl;
    try (exists e; split; [exact C|split; [exact O|lia]]).
  all: apply andb_true_iff in Eb as [Eb1 Eb2]; apply Nat.eqb_eq in Eb1, Eb2; subst m i.
  all: rewrite C.
  all: match goal with
       | [H1 : cexp _ _ _ = Some _, H2 : cexp _ _ _ = Some _ |- _] =>
           rewrite H1 in H2; injection H2 as H2; subst
       end.
  all: unfold once_like, once_left in *.
  all: try match goal with [H1 : e_action _ = _ |- _] => rewrite H1 in * end; try contradiction.
  all: eexists; (split; [reflexivity|]); simpl; (split; [auto|]).
  all: try match goal with [H1 : e_action _ = _ |- _] => rewrite H1 in * end; auto; lia.
Qed.

Lemma crun_once c sched : forall (s : csys) s' tr m i e n,
  crun c s sched = (s', tr) -> cexp s m i = Some e -> once_like e ->
  (once_left e + psum (execing m i) s + n <= 1)%nat -> (closure_runs m i tr + n <= 1)%nat.
Proof.
  induction sched as [|t sched IH]; simpl; intros s s' tr m i e n H C O L.
  - injection H as <- <-. unfold closure_runs. simpl. lia.
  - destruct (cstep c s t) as [s1 e1] eqn:E1. destruct (crun c s1 sched) as [s2 e2] eqn:E2.
    injection H as <- <-. rewrite closure_runs_app.
    assert (ST : exists e', cexp s1 m i = Some e' /\ once_like e' /\
      (once_left e' + psum (execing m i) s1 + closure_runs m i e1 <= once_left e + psum (execing m i) s)%nat).
    { apply cstep_cases in E1.
      destruct E1 as [|th x rest Ht Hp Hd Hm|th x rest cm Ht Hp Hd Hm|th x cm s1 p1 ev Ht Hp Hm Hs].
      - exists e. unfold closure_runs. simpl. repeat split; auto. lia.
      - exists e. split; [exact C|]. split; [auto|].
        pose proof (psum_put (execing m i) _ _ _ (Thread rest PIdle) Ht) as P. rewrite Hp in P. simpl in P.
        unfold closure_runs. simpl. lia.
      - exists e. split; [exact C|]. split; [auto|].
        pose proof (psum_put (execing m i) _ _ _ (Thread rest (match cm_mutex cm with Some _ => PLockS x | None => PLockM x 0 end)) Ht) as P.
        rewrite Hp in P. unfold closure_runs. simpl in *. destruct (cm_mutex cm); simpl in *; lia.
      - pose proof (pstep_threads _ _ _ _ _ _ _ _ Hs) as TH.
        rewrite <- TH in Ht. pose proof (psum_put (execing m i) _ _ _ (Thread (th_todo th) p1) Ht) as P. simpl in P.
        assert (Q : psum (execing m i) s1 = psum (execing m i) s) by (unfold psum; rewrite TH; reflexivity).
        destruct (pstep_once _ _ _ _ _ _ _ _ _ _ _ Hs C O) as (e' & A & B & D).
        exists e'. split; [exact A|]. split; [auto|]. lia. }
    destruct ST as (e' & A & B & D).
    pose proof (IH _ _ _ _ _ _ (closure_runs m i e1 + n)%nat E2 A B). lia.
Qed.

(** ** Two runs of one closure never overlap *)
Definition exiting (m i : nat) (p : pc) : bool :=
  match p with PExit x j _ => at_exp m i x j | _ => false end.

Definition pairs (ts : list nat) : list (bool * nat) :=
  List.concat (map (fun t => [(true, t); (false, t)]) ts).

Lemma pairs_snoc ts t : pairs (ts ++ [t]) = pairs ts ++ [(true, t); (false, t)].
Proof. unfold pairs. rewrite map_app, concat_app. reflexivity. Qed.

Lemma pairs_one ts : one_at_a_time (pairs ts).
Proof. induction ts as [|t ts IH]; simpl; auto. Qed.
Lemma pairs_one' ts t : one_at_a_time (pairs ts ++ [(true, t)]).
Proof. induction ts as [|t' ts IH]; simpl; auto. Qed.

Lemma closure_events_app m i (a b : list (event V)) :
  closure_events m i (a ++ b) = closure_events m i a ++ closure_events m i b.
Proof.
  induction a as [|ev a IH]; simpl; auto. destruct ev; auto; destruct (at_exp m i x i0); simpl; congruence.
Qed.

Lemma pstep_closure c (s : csys) t cm p s' p' ev m i :
  pstep c s t cm p = (s', p', ev) -> pc_ok s p ->
  (closure_events m i ev = [] /\ exiting m i p' = exiting m i p) \/
  (closure_events m i ev = [(true, t)] /\ rheld s p = Some (m, i) /\ exiting m i p = false /\ exiting m i p' = true) \/
  (closure_events m i ev = [(false, t)] /\ exiting m i p = true /\ exiting m i p' = false).
Proof.
  intros H (_ & PC & _). leaves H; subst; try (left; split; reflexivity).
  all: simpl; unfold at_exp.
  all: match goal with |- context [(?a && ?b)%bool] => destruct (a && b)%bool eqn:Eb end; simpl; auto 10.
  apply andb_true_iff in Eb as [Eb1 Eb2]; apply Nat.eqb_eq in Eb1, Eb2; subst m i; auto 10.
Qed.

Definition closure_inv (m i : nat) (s : csys) (tr : list (event V)) : Prop :=
  (exists ts, closure_events m i tr = pairs ts /\
     forall t th, nth_error (cs_threads s) t = Some th -> exiting m i (th_pc th) = false) \/
  (exists ts t th, closure_events m i tr = pairs ts ++ [(true, t)] /\
     nth_error (cs_threads s) t = Some th /\ exiting m i (th_pc th) = true).

Lemma exiting_rheld (s : csys) m i p : exiting m i p = true -> rheld s p = Some (m, i).
Proof.
  destruct p; simpl; try discriminate. unfold at_exp. intros E.
  apply andb_true_iff in E as [Eb1 Eb2]; apply Nat.eqb_eq in Eb1, Eb2; subst. reflexivity.
Qed.

Lemma cstep_closure c (s : csys) t s' ev m i tr :
  locks_ok s -> closure_inv m i s tr -> cstep c s t = (s', ev) -> closure_inv m i s' (tr ++ ev).
Proof.
  intros L I H. unfold closure_inv in *. rewrite closure_events_app. apply cstep_cases in H.
  destruct H as [|th x rest Ht Hp Hd Hm|th x rest cm Ht Hp Hd Hm|th x cm s1 p1 ev Ht Hp Hm Hs].
  - simpl. rewrite app_nil_r. auto.
  - simpl. rewrite app_nil_r. destruct I as [(ts & A & B)|(ts & t' & th' & A & B & C)]; [left|right].
    + exists ts. split; auto. intros t0 th0. rewrite nth_set_nth, Ht. destruct (Nat.eqb_spec t0 t).
      * intros [= <-]. reflexivity.
      * eauto.
    + exists ts, t', th'. split; auto. split; auto. rewrite nth_set_nth. destruct (Nat.eqb_spec t' t); auto.
      subst. rewrite Ht in B. injection B as <-. rewrite Hp in C. discriminate.
  - simpl. rewrite app_nil_r. destruct I as [(ts & A & B)|(ts & t' & th' & A & B & C)]; [left|right].
    + exists ts. split; auto. intros t0 th0. rewrite nth_set_nth, Ht. destruct (Nat.eqb_spec t0 t).
      * intros [= <-]. simpl. destruct (cm_mutex cm); reflexivity.
      * eauto.
    + exists ts, t', th'. split; auto. split; auto. rewrite nth_set_nth. destruct (Nat.eqb_spec t' t); auto.
      subst. rewrite Ht in B. injection B as <-. rewrite Hp in C. discriminate.
  - pose proof (pstep_threads _ _ _ _ _ _ _ _ Hs) as TH. simpl. rewrite TH.
    pose proof (lo_pc _ L _ _ Ht) as PC.
    destruct (pstep_closure _ _ _ _ _ _ _ _ m i Hs PC) as [(Q1 & Q2)|[(Q1 & Q2 & Q3 & Q4)|(Q1 & Q2 & Q3)]]; rewrite Q1.
    + rewrite app_nil_r. destruct I as [(ts & A & B)|(ts & t' & th' & A & B & C)]; [left|right].
      * exists ts. split; auto. intros t0 th0. rewrite nth_set_nth, Ht. destruct (Nat.eqb_spec t0 t); eauto.
        intros [= <-]. simpl. rewrite Q2. eauto.
      * destruct (Nat.eq_dec t' t) as [->|N].
        -- rewrite Ht in B. injection B as <-. exists ts, t. eexists. split; [auto|]. split.
           { rewrite nth_set_nth, Nat.eqb_refl, Ht. reflexivity. } simpl. congruence.
        -- exists ts, t', th'. split; [auto|]. split; auto. rewrite nth_set_nth.
           destruct (Nat.eqb_spec t' t); [contradiction|auto].
    + destruct I as [(ts & A & B)|(ts & t' & th' & A & B & C)].
      * right. exists ts, t. eexists. rewrite A. split; [auto|]. split.
        { rewrite nth_set_nth, Nat.eqb_refl, Ht. reflexivity. } auto.
      * exfalso.
        assert (X1 : cs_rl s m i = Some t).
        { apply (lo_r _ L (m, i)). unfold at_thread. rewrite Ht. auto. }
        assert (X2 : cs_rl s m i = Some t').
        { apply (lo_r _ L (m, i)). unfold at_thread. rewrite B. apply exiting_rheld. auto. }
        assert (t' = t) by congruence. subst. rewrite Ht in B. injection B as <-. congruence.
    + destruct I as [(ts & A & B)|(ts & t' & th' & A & B & C)].
      * specialize (B _ _ Ht). congruence.
      * assert (X1 : cs_rl s m i = Some t).
        { apply (lo_r _ L (m, i)). unfold at_thread. rewrite Ht. apply exiting_rheld. auto. }
        assert (X2 : cs_rl s m i = Some t').
        { apply (lo_r _ L (m, i)). unfold at_thread. rewrite B. apply exiting_rheld. auto. }
        assert (t' = t) by congruence. subst t'.
        left. exists (ts ++ [t]). rewrite A, pairs_snoc, <- app_assoc. split; [reflexivity|].
        intros t0 th0. rewrite nth_set_nth, Ht. destruct (Nat.eqb_spec t0 t).
        { intros [= <-]. auto. }
        intros N0. destruct (exiting m i (th_pc th0)) eqn:E0; auto. exfalso.
        assert (X3 : cs_rl s m i = Some t0).
        { apply (lo_r _ L (m, i)). unfold at_thread. rewrite N0. apply exiting_rheld. auto. }
        congruence.
Qed.

Lemma crun_closure c m i sched : forall (s : csys) s' tr tr',
  locks_ok s -> closure_inv m i s tr -> crun c s sched = (s', tr') -> closure_inv m i s' (tr ++ tr').
Proof.
  induction sched as [|t sched IH]; simpl; intros s s' tr tr' L I H.
  - injection H as <- <-. rewrite app_nil_r. auto.
  - destruct (cstep c s t) as [s1 e1] eqn:E1. destruct (crun c s1 sched) as [s2 e2] eqn:E2.
    injection H as <- <-. rewrite app_assoc. eapply IH; [| |eauto].
    + eapply cstep_locks; eauto.
    + eapply cstep_closure; eauto.
Qed.

Lemma closure_inv_one m i (s : csys) tr : closure_inv m i s tr -> one_at_a_time (closure_events m i tr).
Proof.
  intros [(ts & -> & _)|(ts & t & th & -> & _)]; [apply pairs_one|apply pairs_one'].
Qed.

(** ** C40: sequences *)
Section Sequences.
Context (c : cfg) (s0 : csys).

Definition violated (tr : list (event V)) : bool :=
  existsb (fun ev => match ev with EvViolation _ _ _ => true | _ => false end) tr.

(** Expectation [i] of [m] has been called its minimum number of times. *)
Definition called_enough (m i : nat) (tr : list (event V)) : Prop :=
  forall e, cexp s0 m i = Some e ->
    rstart (trange_of (c_times (e_common e))) <= tcount (c_times (e_common e)) + N.of_nat (reached m i tr).

Definition about_to_satisfy (p : pc) : option (nat * nat) :=
  match p with
  | PLoad2 x i true | PSatisfy x i => Some (cc_m x, i)
  | _ => None
  end.

Record seq_inv (s : csys) (tr : list (event V)) : Prop := {
  si_setup : forall m i e, cexp s0 m i = Some e -> exists e', cexp s m i = Some e' /\ same_setup e e' /\
     tcount (c_times (e_common e')) <= tcount (c_times (e_common e)) + N.of_nat (reached m i tr);
  si_dom : forall m i, cexp s0 m i = None -> cexp s m i = None;
  si_level : forall m i e h, cexp s0 m i = Some e -> c_seq (e_common e) = Some h ->
     sh_seq h < cs_levels s (sh_inner h) -> called_enough m i tr;
  si_pc : forall t th m i, nth_error (cs_threads s) t = Some th ->
     about_to_satisfy (th_pc th) = Some (m, i) -> called_enough m i tr
}.

Lemma called_enough_mono m i tr ev : called_enough m i tr -> called_enough m i (tr ++ ev).
Proof. intros H e C. specialize (H _ C). rewrite reached_app. lia. Qed.

Lemma called_enough_nil m i tr : called_enough m i tr <-> called_enough m i (tr ++ []).
Proof. rewrite app_nil_r. tauto. Qed.

Context (DIST : forall m1 i1 e1 h1 m2 i2 e2 h2,
  cexp s0 m1 i1 = Some e1 -> c_seq (e_common e1) = Some h1 ->
  cexp s0 m2 i2 = Some e2 -> c_seq (e_common e2) = Some h2 ->
  sh_inner h1 = sh_inner h2 -> sh_seq h1 = sh_seq h2 -> m1 = m2 /\ i1 = i2).

(** Which steps move a level. *)
Lemma pstep_levels (s : csys) t cm p s' p' ev :
  pstep c s t cm p = (s', p', ev) ->
  cs_levels s' = cs_levels s \/
  exists x i e h, p = PSatisfy x i /\ cexp s (cc_m x) i = Some e /\ c_seq (e_common e) = Some h /\
    cs_levels s' = set_level (cs_levels s) (sh_inner h) (uwrap1 c (cs_levels s (sh_inner h))) /\
    (violated ev = false -> cs_levels s (sh_inner h) = sh_seq h).
Proof.
  intros H. leaves H; subst; auto.
  all: simpl; rewrite ?put_exp_levels; auto.
  all: try (match goal with [H : common_matches _ _ _ = _ |- _] =>
         apply common_matches_frame in H as (_ & _ & _ & H); left; exact H end).
  all: try (match goal with [H : mut_ret _ _ _ _ _ _ _ = _ |- _] =>
         apply mut_ret_levels in H; left; exact H end).
  all: match goal with [H : satisfy_sequence _ _ _ = _ |- _] => revert H end;
    unfold satisfy_sequence; destruct (c_seq (e_common e)) as [h|] eqn:Eh;
    [|intros HH; injection HH; intros; subst; auto].
  all: unfold handle_satisfy, inner_satisfy, cworld; simpl.
  all: intros HH; injection HH; intros HH1 HH2; subst w; simpl; right;
    exists x, i, e, h; repeat split; auto.
  all: try (simpl; discriminate).
  all: intros _; destruct (N.eqb_spec (cs_levels s (sh_inner h)) (sh_seq h)); congruence.
Qed.

Lemma pstep_about (s : csys) t cm p s' p' ev m i :
  pstep c s t cm p = (s', p', ev) -> about_to_satisfy p' = Some (m, i) ->
  about_to_satisfy p = Some (m, i) \/
  (ev = [] /\ exists e, cexp s m i = Some e /\
   rstart (trange_of (c_times (e_common e))) <= tcount (c_times (e_common e))).
Proof.
  intros H. leaves H; subst; simpl; try discriminate; auto.
  all: try (destruct lower; simpl in *; try discriminate; auto; fail).
  destruct (_ <=? _) eqn:L; [|discriminate]. intros [= <- <-]. right. split; auto.
  eexists. split; [eassumption|]. apply N.leb_le. auto.
Qed.

Lemma cstep_seq_inv (s : csys) t s' ev tr :
  seq_inv s tr -> cstep c s t = (s', ev) -> violated ev = false -> seq_inv s' (tr ++ ev).
Proof.
  intros [I1 I2 I3 I4] H NV.
  assert (SET : forall m i e, cexp s0 m i = Some e -> exists e', cexp s' m i = Some e' /\ same_setup e e' /\
     tcount (c_times (e_common e')) <= tcount (c_times (e_common e)) + N.of_nat (reached m i (tr ++ ev))).
  { intros m i e C. destruct (I1 _ _ _ C) as (e1 & C1 & S1 & T1).
    destruct (cstep_exp _ _ _ _ _ _ _ _ H C1) as (e2 & C2 & S2 & T2).
    exists e2. split; auto. split.
    { destruct S1 as (a & b & d), S2 as (a' & b' & d'). repeat split; congruence. }
    rewrite reached_app, (cstep_reached _ _ _ _ _ m i H), T2.
    destruct (existsb _ ev); [|lia]. unfold uwrap1. destruct (_ <? _); lia. }
  assert (DOM : forall m i, cexp s0 m i = None -> cexp s' m i = None).
  { intros m i C. apply I2 in C. apply cstep_cases in H.
    destruct H as [|th x rest Ht Hp Hd Hm|th x rest cm Ht Hp Hd Hm|th x cm s1 p1 ev Ht Hp Hm Hs]; auto.
    rewrite cexp_put_thread. destruct (cexp s1 m i) eqn:Q; auto. exfalso.
    apply (proj1 (pstep_index _ _ _ _ _ _ _ _ m i Hs)); congruence. }
  apply cstep_cases in H.
  destruct H as [|th x rest Ht Hp Hd Hm|th x rest cm Ht Hp Hd Hm|th x cm s1 p1 ev Ht Hp Hm Hs].
  - rewrite app_nil_r in *. split; auto.
  - split; auto; simpl.
    + intros m i e h C Q L. apply called_enough_mono. eauto.
    + intros t' th' m i. rewrite nth_set_nth, Ht. destruct (Nat.eqb_spec t' t).
      * intros [= <-]. discriminate.
      * intros. apply called_enough_mono. eauto.
  - split; auto; simpl.
    + intros m i e h C Q L. apply called_enough_mono. eauto.
    + intros t' th' m i. rewrite nth_set_nth, Ht. destruct (Nat.eqb_spec t' t).
      * intros [= <-]. simpl. destruct (cm_mutex cm); discriminate.
      * intros. apply called_enough_mono. eauto.
  - pose proof (pstep_threads _ _ _ _ _ _ _ _ Hs) as TH.
    split; auto; simpl.
    + intros m i e h C Q L. apply called_enough_mono.
      destruct (pstep_levels _ _ _ _ _ _ _ Hs) as [LV|(y & j & e1 & h1 & P & C1 & Q1 & LV & OLD)].
      { rewrite LV in L. eauto. }
      rewrite LV in L. unfold set_level in L. destruct (Nat.eqb_spec (sh_inner h) (sh_inner h1)) as [SI|SI]; [|eauto].
      rewrite (OLD NV) in L.
      assert (L' : sh_seq h < sh_seq h1 \/ sh_seq h = sh_seq h1).
      { unfold uwrap1 in L. destruct (_ <? _); lia. }
      destruct L' as [L'|L'].
      { apply (I3 m i e h); auto. rewrite SI, (OLD NV). auto. }
      destruct (cexp s0 (cc_m y) j) as [e0|] eqn:C0.
      2:{ apply I2 in C0. congruence. }
      destruct (I1 _ _ _ C0) as (e1' & C1' & (S1 & _) & _).
      assert (e1' = e1) by congruence. subst e1'.
      destruct (DIST m i e h (cc_m y) j e0 h1) as [-> ->]; auto; [congruence|].
      apply (I4 t th); auto. rewrite P. reflexivity.
    + intros t' th' m i. rewrite nth_set_nth, TH, Ht. destruct (Nat.eqb_spec t' t).
      * intros [= <-]. simpl. intros AB.
        destruct (pstep_about _ _ _ _ _ _ _ _ _ Hs AB) as [A|(NE & e1 & C1 & LE)].
        { apply called_enough_mono. eauto. }
        rewrite NE, app_nil_r. intros e0 C0. destruct (I1 _ _ _ C0) as (e2 & C1' & (_ & S1 & _) & T1).
        assert (e2 = e1) by congruence. subst e2. rewrite S1 in LE. lia.
      * intros. apply called_enough_mono. eauto.
Qed.

Lemma pstep_enter (s : csys) t cm p s' p' ev t' x i :
  pstep c s t cm p = (s', p', ev) -> In (EvEnter t' x i) ev ->
  ev = [EvEnter t' x i] /\ t' = t /\ exists e, cexp s (cc_m x) i = Some e /\
    forall h, c_seq (e_common e) = Some h -> sh_seq h = cs_levels s (sh_inner h).
Proof.
  intros H. leaves H; subst; simpl; try tauto; intros I; repeat (destruct I as [I|I]; try discriminate I); try contradiction.
  injection I as -> -> ->. split; auto. split; auto. eexists. split; [eassumption|].
  intros h Q. unfold verify_sequence in *. rewrite Q in *.
  unfold handle_verify, inner_verify, cworld in *. simpl in *.
  match goal with [H : (if ?a =? ?b then _ else _) = _ |- _] => destruct (N.eqb_spec a b) end; [auto|discriminate].
Qed.

Lemma cstep_enter (s : csys) t s' ev t' x i :
  cstep c s t = (s', ev) -> In (EvEnter t' x i) ev ->
  ev = [EvEnter t' x i] /\ t' = t /\ exists e, cexp s (cc_m x) i = Some e /\
    forall h, c_seq (e_common e) = Some h -> sh_seq h = cs_levels s (sh_inner h).
Proof.
  intros H. apply cstep_cases in H. destruct H; simpl; try tauto.
  - intros [I|I]; [discriminate|contradiction].
  - eapply pstep_enter; eauto.
Qed.

Lemma violated_app a b : violated (a ++ b) = (violated a || violated b)%bool.
Proof. apply existsb_app. Qed.

Lemma crun_enter sched : forall (s : csys) s' tr0 tr pre t x i post,
  seq_inv s tr0 -> crun c s sched = (s', tr) -> tr = pre ++ EvEnter t x i :: post ->
  violated pre = false ->
  forall e h m' i' e' h',
    cexp s0 (cc_m x) i = Some e -> c_seq (e_common e) = Some h ->
    cexp s0 m' i' = Some e' -> c_seq (e_common e') = Some h' ->
    sh_inner h' = sh_inner h -> sh_seq h' < sh_seq h ->
    called_enough m' i' (tr0 ++ pre).
Proof.
  induction sched as [|t0 sched IH]; simpl; intros s s' tr0 tr pre t x i post I H TR NV e h m' i' e' h' C Q C' Q' SI LT.
  - injection H as <- <-. destruct pre; discriminate.
  - destruct (cstep c s t0) as [s1 e1] eqn:E1. destruct (crun c s1 sched) as [s2 e2] eqn:E2.
    injection H as <- <-.
    assert (CASE : In (EvEnter t x i) e1 \/ exists pre', pre = e1 ++ pre' /\ e2 = pre' ++ EvEnter t x i :: post).
    { clear - TR. revert pre TR. induction e1 as [|a e1 IHe]; intros pre TR; simpl in *.
      - right. exists pre. auto.
      - destruct pre as [|b pre]; simpl in TR; injection TR as -> TR.
        + left. auto.
        + destruct (IHe _ TR) as [A|(pre' & -> & B)]; [auto|]. right. exists pre'. auto. }
    destruct CASE as [IN|(pre' & -> & ->)].
    + destruct (cstep_enter _ _ _ _ _ _ _ E1 IN) as (-> & -> & e1' & C1 & LV).
      destruct pre as [|b pre].
      2:{ simpl in TR. injection TR as <- TR.
          (* the trace continues with the same event: it is the first one *)
          destruct I as [I1 I2 I3 I4]. destruct (I1 _ _ _ C) as (e1'' & C1'' & (S1 & _) & _).
          assert (e1'' = e1') by congruence. subst.
          apply called_enough_mono. apply (I3 m' i' e' h'); auto. rewrite SI.
          rewrite <- (LV h); auto. congruence. }
      rewrite app_nil_r. destruct I as [I1 I2 I3 I4]. destruct (I1 _ _ _ C) as (e1'' & C1'' & (S1 & _) & _).
      assert (e1'' = e1') by congruence. subst.
      apply (I3 m' i' e' h'); auto. rewrite SI. rewrite <- (LV h); auto. congruence.
    + rewrite violated_app in NV. apply orb_false_iff in NV as [NV1 NV2].
      rewrite app_assoc. eapply IH; eauto. eapply cstep_seq_inv; eauto.
Qed.

Lemma start_seq_inv (s : csys) :
  s = s0 ->
  (forall t th, nth_error (cs_threads s) t = Some th -> th_pc th = PIdle) ->
  (forall m i e h, cexp s0 m i = Some e -> c_seq (e_common e) = Some h ->
     sh_seq h < cs_levels s (sh_inner h) ->
     rstart (trange_of (c_times (e_common e))) <= tcount (c_times (e_common e))) ->
  seq_inv s [].
Proof.
  intros -> ID LV. split.
  - intros m i e C. exists e. split; auto. split; [apply same_setup_refl|]. unfold reached. simpl. lia.
  - auto.
  - intros m i e h C Q L e1 C1. assert (e1 = e) by congruence. subst. specialize (LV _ _ _ _ C Q L).
    unfold reached. simpl. lia.
  - intros t th m i N. rewrite (ID _ _ N). discriminate.
Qed.
End Sequences.

(** ** Progress *)
Definition explen (s : csys) (m : nat) : nat := List.length (cexps s m).

Definition pcost (s : csys) (p : pc) : nat :=
  match p with
  | PIdle => 0
  | PLockS x => 13 + 3 * explen s (cc_m x)
  | PLockM x i => 12 + 3 * (explen s (cc_m x) - i)
  | PEval x i => 11 + 3 * (explen s (cc_m x) - i)
  | PDone x i => 10 + 3 * (explen s (cc_m x) - i)
  | PCount _ _ => 10
  | PVerify _ _ => 9
  | PLoad1 _ _ => 8
  | PLoad2 _ _ _ => 7
  | PSatisfy _ _ => 6
  | PLockR _ _ => 5
  | PRun _ _ => 4
  | PExec _ _ _ => 3
  | PExit _ _ _ => 2
  | PShow _ _ _ => 2
  | PShowR _ _ _ => 2
  | PFin _ _ => 1
  end%nat.

Definition ccost (s : csys) (x : ccall) : nat := (14 + 3 * explen s (cc_m x))%nat.

Definition tcost (s : csys) (th : thread V U) : nat :=
  (pcost s (th_pc th) + list_sum (map (ccost s) (th_todo th)))%nat.

Definition cost (s : csys) : nat := list_sum (map (tcost s) (cs_threads s)).

Lemma decls_len (s s' : csys) m :
  map decl_of (cs_meths s') = map decl_of (cs_meths s) -> explen s' m = explen s m.
Proof.
  intros H. unfold explen, cexps. pose proof (f_equal (fun x => nth_error x m) H) as E. simpl in E.
  rewrite !nth_error_map in E.
  destruct (nth_error (cs_meths s') m), (nth_error (cs_meths s) m); simpl in E; try discriminate; auto.
  injection E as _ _ E. auto.
Qed.

Lemma cost_same (s s' : csys) th :
  (forall m, explen s' m = explen s m) -> tcost s' th = tcost s th.
Proof.
  intros H. unfold tcost. f_equal.
  - destruct (th_pc th); simpl; rewrite ?H; reflexivity.
  - f_equal. apply map_ext. intros x. unfold ccost. rewrite H. reflexivity.
Qed.

Lemma list_sum_set (l : list (thread V U)) f t th th' :
  nth_error l t = Some th ->
  (list_sum (map f (set_nth l t th')) + f th = list_sum (map f l) + f th')%nat.
Proof.
  revert t. induction l as [|y l IH]; intros [|t] H; simpl in *; try discriminate.
  - injection H as ->. lia.
  - specialize (IH _ H). lia.
Qed.

Lemma cost_put (s s1 : csys) t th th' :
  cs_threads s1 = cs_threads s -> (forall m, explen s1 m = explen s m) ->
  nth_error (cs_threads s) t = Some th -> (tcost s th' < tcost s th)%nat ->
  (cost (put_thread s1 t th') < cost s)%nat.
Proof.
  intros TH EL N LT. unfold cost. simpl. rewrite TH.
  assert (E : map (tcost (put_thread s1 t th')) (set_nth (cs_threads s) t th') =
              map (tcost s) (set_nth (cs_threads s) t th')).
  { apply map_ext. intros y. apply cost_same. auto. }
  rewrite E. pose proof (list_sum_set (cs_threads s) (tcost s) t th th' N). lia.
Qed.

(** A thread that cannot move. *)
Definition blocked (s : csys) (p : pc) : Prop :=
  match p with
  | PLockS x => exists cm g, nth_error (cs_meths s) (cc_m x) = Some cm /\ cm_mutex cm = Some g /\ cs_sl s g <> None
  | PLockM x i | PShow x i _ | PShowR x i _ => cs_ml s (cc_m x) i <> None
  | PLockR x i => cs_rl s (cc_m x) i <> None
  | _ => False
  end.

Lemma cexp_len (s : csys) m i e : cexp s m i = Some e -> (i < explen s m)%nat.
Proof. unfold cexp, explen. intros H. apply nth_error_Some. congruence. Qed.

Lemma free_none o : free o = false -> o <> None.
Proof. destruct o; simpl; congruence. Qed.

Lemma pstep_progress c (s : csys) t cm p s' p' ev x :
  pc_call p = Some x -> nth_error (cs_meths s) (cc_m x) = Some cm ->
  pc_ok s p -> pstep c s t cm p = (s', p', ev) ->
  blocked s p \/ (pcost s p' < pcost s p)%nat.
Proof.
  intros PX CM (_ & PC2 & PC3 & PC4) H. leaves H; subst; simpl in PX; try discriminate PX; injection PX as PX; subst.
  all: try (right; simpl; lia).
  all: try (exfalso; eapply PC2; [reflexivity|assumption]).
  all: try (exfalso;
    match goal with
    | [H1 : cexp ?s (cc_m ?x) ?i = Some ?e, H2 : e_action ?e = _ |- _] =>
        assert (Q : static_at s (cc_m x) i = true) by (apply PC4; eauto);
        unfold static_at in Q; rewrite H1, H2 in Q; discriminate
    end).
  all: try (left; simpl; match goal with [H : free _ = false |- _] => apply free_none in H; eauto end; fail).
  all: try (right; simpl; match goal with [H : cexp _ _ _ = Some _ |- _] => apply cexp_len in H; lia end).
  destruct (PC3 _ eq_refl) as (cm' & g & A & B). congruence.
Qed.

(** A thread that can move brings the end nearer. *)
Lemma cstep_progress c (s : csys) t th :
  locks_ok s -> nth_error (cs_threads s) t = Some th ->
  (th_pc th <> PIdle \/ th_todo th <> []) -> ~ blocked s (th_pc th) ->
  (cost (fst (cstep c s t)) < cost s)%nat.
Proof.
  intros L Ht NF NB. unfold cstep. rewrite Ht.
  destruct (pc_call (th_pc th)) as [x|] eqn:Ep.
  - destruct (lo_pc _ L _ _ Ht) as (PC & _). destruct (PC _ Ep) as [cm Hm]. rewrite Hm.
    destruct (pstep c s t cm (th_pc th)) as [[s1 p1] ev] eqn:Es. simpl.
    destruct (pstep_progress _ _ _ _ _ _ _ _ _ Ep Hm (lo_pc _ L _ _ Ht) Es) as [B|D]; [contradiction|].
    apply cost_put with (th := th); auto.
    + eapply pstep_threads; eauto.
    + intros m. apply decls_len. eapply pstep_decls; eauto.
    + unfold tcost. simpl. lia.
  - assert (P : th_pc th = PIdle) by (destruct (th_pc th); simpl in Ep; congruence).
    destruct (th_todo th) as [|x rest] eqn:Ed; [tauto|].
    destruct (nth_error (cs_meths s) (cc_m x)) as [cm|] eqn:Em; simpl; apply cost_put with (th := th); auto;
      unfold tcost; rewrite P, Ed; simpl; unfold ccost; [destruct (cm_mutex cm); simpl|]; lia.
Qed.

Lemma not_finished (l : list (thread V U)) :
  (forall t th, nth_error l t = Some th -> th_pc th = PIdle /\ th_todo th = []) \/
  exists t th, nth_error l t = Some th /\ (th_pc th <> PIdle \/ th_todo th <> []).
Proof.
  induction l as [|y l IH].
  - left. intros [|t] th; discriminate.
  - destruct (th_pc y) eqn:P; try (right; exists 0%nat, y; split; [reflexivity|left; congruence]).
    destruct (th_todo y) eqn:D; [|right; exists 0%nat, y; split; [reflexivity|right; congruence]].
    destruct IH as [A|(t & th & A & B)].
    + left. intros [|t] th; simpl; [intros [= <-]; auto|eauto].
    + right. exists (S t), th. auto.
Qed.

(** Some thread can always move. *)
Lemma somebody_moves c (s : csys) :
  locks_ok s -> ~ finished s -> exists t, (cost (fst (cstep c s t)) < cost s)%nat.
Proof.
  intros L NF.
  assert (MOVE : forall t th, nth_error (cs_threads s) t = Some th -> (th_pc th <> PIdle \/ th_todo th <> []) ->
     ~ blocked s (th_pc th) -> exists t, (cost (fst (cstep c s t)) < cost s)%nat).
  { intros t th A B C. exists t. eapply cstep_progress; eauto. }
  (* a thread that holds a matcher moves *)
  assert (HM : forall m i t, cs_ml s m i = Some t -> exists t, (cost (fst (cstep c s t)) < cost s)%nat).
  { intros m i t E. apply (lo_m _ L (m, i)) in E. unfold at_thread in E.
    destruct (nth_error (cs_threads s) t) as [th|] eqn:Ht; [|discriminate].
    apply (MOVE t th Ht); destruct (th_pc th); try discriminate; simpl; auto. left; discriminate. }
  assert (HR : forall m i t, cs_rl s m i = Some t -> exists t, (cost (fst (cstep c s t)) < cost s)%nat).
  { intros m i t E. apply (lo_r _ L (m, i)) in E. unfold at_thread in E.
    destruct (nth_error (cs_threads s) t) as [th|] eqn:Ht; [|discriminate].
    destruct (th_pc th) eqn:P; try discriminate.
    1-3: apply (MOVE t th Ht); rewrite P; simpl; auto; left; discriminate.
    destruct (cs_ml s (cc_m x) i0) as [t'|] eqn:E'; [eauto|].
    apply (MOVE t th Ht); rewrite P; simpl; [left; discriminate|congruence]. }
  (* a thread in a call, not waiting for a static store, moves or waits for one that moves *)
  assert (HP : forall t th, nth_error (cs_threads s) t = Some th -> (th_pc th <> PIdle \/ th_todo th <> []) ->
     (forall x, th_pc th <> PLockS x) -> exists t, (cost (fst (cstep c s t)) < cost s)%nat).
  { intros t th Ht NI NS. destruct (th_pc th) eqn:P;
      try (apply (MOVE t th Ht); rewrite P; simpl; auto; fail).
    - exfalso. eapply NS; eauto.
    - destruct (cs_ml s (cc_m x) i) as [t'|] eqn:E'; [eauto|].
      apply (MOVE t th Ht); rewrite P; simpl; auto.
    - destruct (cs_ml s (cc_m x) i) as [t'|] eqn:E'; [eauto|].
      apply (MOVE t th Ht); rewrite P; simpl; auto.
    - destruct (cs_rl s (cc_m x) i) as [t'|] eqn:E'; [eauto|].
      apply (MOVE t th Ht); rewrite P; simpl; auto.
    - destruct (cs_ml s (cc_m x) i) as [t'|] eqn:E'; [eauto|].
      apply (MOVE t th Ht); rewrite P; simpl; auto. }
  destruct (not_finished (cs_threads s)) as [F|(t & th & Ht & NI)]; [contradiction|].
  destruct (th_pc th) eqn:P;
    try (apply (HP t th Ht); rewrite ?P; [assumption|discriminate]).
  destruct (lo_pc _ L _ _ Ht) as (_ & _ & PC3 & _). rewrite P in PC3.
  destruct (PC3 _ eq_refl) as (cm & g & Hm & Hg).
  destruct (cs_sl s g) as [t'|] eqn:E'.
  - apply (lo_s _ L) in E'. unfold at_thread in E'.
    destruct (nth_error (cs_threads s) t') as [th'|] eqn:Ht'; [|discriminate].
    apply (HP t' th' Ht').
    + left. intros Q. rewrite Q in E'. discriminate.
    + intros y Q. rewrite Q in E'. discriminate.
  - apply (MOVE t th Ht); rewrite P; auto. simpl. intros (cm' & g' & A & B & C). congruence.
Qed.

Lemma can_finish c : forall n (s : csys), (cost s < n)%nat -> locks_ok s ->
  exists sched, finished (fst (crun c s sched)).
Proof.
  induction n as [|n IH]; intros s LT L; [lia|].
  destruct (not_finished (cs_threads s)) as [F|NF]; [exists []; exact F|].
  assert (NF' : ~ finished s).
  { intros F. destruct NF as (t & th & A & B). destruct (F _ _ A). tauto. }
  destruct (somebody_moves c s L NF') as [t LT'].
  destruct (cstep c s t) as [s1 e1] eqn:E1. simpl in LT'.
  destruct (IH s1) as [sched F].
  - lia.
  - eapply cstep_locks; eauto.
  - exists (t :: sched). simpl. rewrite E1. destruct (crun c s1 sched) as [s2 e2]. exact F.
Qed.

(** A step either changes nothing or brings the end nearer. *)
Lemma pstep_moves c (s : csys) t cm p s' p' ev x :
  pc_call p = Some x -> nth_error (cs_meths s) (cc_m x) = Some cm ->
  pc_ok s p -> pstep c s t cm p = (s', p', ev) ->
  (s' = s /\ p' = p) \/ (pcost s p' < pcost s p)%nat.
Proof.
  intros PX CM (_ & PC2 & PC3 & PC4) H. leaves H; subst; simpl in PX; try discriminate PX; injection PX as PX; subst.
  all: try (left; split; reflexivity).
  all: try (right; simpl; lia).
  all: try (right; simpl; match goal with [H : cexp _ _ _ = Some _ |- _] => apply cexp_len in H; lia end).
Qed.

Lemma set_nth_self {A} (l : list A) i x : nth_error l i = Some x -> set_nth l i x = l.
Proof. revert i. induction l as [|a l IH]; intros [|i]; simpl; try discriminate; [congruence|]. intros. f_equal. auto. Qed.

Lemma cstep_moves c (s : csys) t :
  locks_ok s -> fst (cstep c s t) = s \/ (cost (fst (cstep c s t)) < cost s)%nat.
Proof.
  intros L. unfold cstep. destruct (nth_error (cs_threads s) t) as [th|] eqn:Ht; [|auto].
  destruct (pc_call (th_pc th)) as [x|] eqn:Ep.
  - destruct (nth_error (cs_meths s) (cc_m x)) as [cm|] eqn:Hm; [|auto].
    destruct (pstep c s t cm (th_pc th)) as [[s1 p1] ev] eqn:Es. simpl.
    destruct (pstep_moves _ _ _ _ _ _ _ _ _ Ep Hm (lo_pc _ L _ _ Ht) Es) as [[-> ->]|D].
    + left. unfold put_thread. rewrite set_nth_self; [destruct s; reflexivity|]. rewrite Ht. destruct th; reflexivity.
    + right. apply cost_put with (th := th); auto.
      * eapply pstep_threads; eauto.
      * intros m. apply decls_len. eapply pstep_decls; eauto.
      * unfold tcost. simpl. lia.
  - assert (P : th_pc th = PIdle) by (destruct (th_pc th); simpl in Ep; congruence).
    destruct (th_todo th) as [|x rest] eqn:Ed; [auto|]. right.
    destruct (nth_error (cs_meths s) (cc_m x)) as [cm|] eqn:Em; simpl; apply cost_put with (th := th); auto;
      unfold tcost; rewrite P, Ed; simpl; unfold ccost; [destruct (cm_mutex cm); simpl|]; lia.
Qed.

Lemma crun_moves c sched : forall (s : csys), locks_ok s ->
  (fst (crun c s sched) = s /\ forall t, In t sched -> fst (cstep c s t) = s) \/
  (cost (fst (crun c s sched)) < cost s)%nat.
Proof.
  induction sched as [|t sched IH]; intros s L; simpl.
  - left. split; [reflexivity|]. intros t [].
  - destruct (cstep c s t) as [s1 e1] eqn:E1. destruct (crun c s1 sched) as [s2 e2] eqn:E2. simpl.
    assert (L1 : locks_ok s1) by (eapply cstep_locks; eauto).
    specialize (IH s1 L1). rewrite E2 in IH. simpl in IH.
    pose proof (cstep_moves c s t L) as M. rewrite E1 in M. simpl in M.
    destruct M as [->|M].
    + destruct IH as [[A B]|A]; [|auto]. left. split; [auto|]. intros t' [<-|I]; [rewrite E1; reflexivity|auto].
    + right. destruct IH as [[-> _]|A]; lia.
Qed.

Lemma crun_app c l1 l2 (s : csys) :
  crun c s (l1 ++ l2) =
  let (s1, tr1) := crun c s l1 in let (s2, tr2) := crun c s1 l2 in (s2, tr1 ++ tr2).
Proof.
  revert s. induction l1 as [|t l1 IH]; intros s; simpl.
  - destruct (crun c s l2); reflexivity.
  - destruct (cstep c s t) as [s1 e1]. rewrite IH. destruct (crun c s1 l1) as [s2 e2].
    destruct (crun c s2 l2) as [s3 e3]. rewrite app_assoc. reflexivity.
Qed.

Lemma cstep_nthreads c (s : csys) t : List.length (cs_threads (fst (cstep c s t))) = List.length (cs_threads s).
Proof.
  destruct (cstep c s t) as [s1 e1] eqn:E. apply cstep_cases in E. simpl.
  destruct E as [|th x rest Ht Hp Hd Hm|th x rest cm Ht Hp Hd Hm|th x cm s1 p1 ev Ht Hp Hm Hs]; simpl;
    rewrite ?set_nth_length; auto. rewrite (pstep_threads _ _ _ _ _ _ _ _ Hs). reflexivity.
Qed.
Lemma crun_nthreads c sched : forall (s : csys),
  List.length (cs_threads (fst (crun c s sched))) = List.length (cs_threads s).
Proof.
  induction sched as [|t sched IH]; intros s; simpl; auto.
  pose proof (cstep_nthreads c s t) as N. destruct (cstep c s t) as [s1 e1]. specialize (IH s1).
  destruct (crun c s1 sched). simpl in *. congruence.
Qed.

Lemma fair_finish c rounds : forall (s : csys), locks_ok s ->
  Forall (fun r => forall t, (t < List.length (cs_threads s))%nat -> In t r) rounds ->
  (cost s <= List.length rounds)%nat ->
  finished (fst (crun c s (List.concat rounds))).
Proof.
  induction rounds as [|r rounds IH]; intros s L F C; simpl in *.
  - destruct (not_finished (cs_threads s)) as [A|NF]; [exact A|].
    destruct (somebody_moves c s L) as [t M]; [|lia].
    intros X. destruct NF as (t & th & A & B). destruct (X _ _ A). tauto.
  - rewrite crun_app. destruct (crun c s r) as [s1 tr1] eqn:E1.
    assert (L1 : locks_ok s1) by (eapply crun_locks; eauto).
    assert (NT : List.length (cs_threads s1) = List.length (cs_threads s))
      by (pose proof (crun_nthreads c r s) as N; rewrite E1 in N; exact N).
    apply Forall_cons_iff in F as [F1 F2].
    pose proof (crun_moves c r s L) as M. rewrite E1 in M. simpl in M.
    destruct (crun c s1 (List.concat rounds)) as [s2 tr2] eqn:E2. simpl.
    destruct M as [[-> M]|M].
    + (* nothing moved: everybody has finished *)
      destruct (not_finished (cs_threads s)) as [A|NF].
      * pose proof (crun_moves c (List.concat rounds) s L) as M'. rewrite E2 in M'. simpl in M'.
        destruct M' as [[-> _]|M']; [exact A|].
        exfalso. assert (Z : cost s = 0%nat).
        { unfold cost.           assert (G : forall l, (forall t th, nth_error l t = Some th -> th_pc th = PIdle /\ th_todo th = []) ->
            list_sum (map (tcost s) l) = 0%nat).
          { induction l as [|y l IHl]; intros A1; simpl; auto.
            destruct (A1 0%nat y eq_refl) as [P D]. rewrite IHl.
            - unfold tcost. rewrite P, D. reflexivity.
            - intros t th N. apply (A1 (S t) th N). }
          apply G. exact A. }
        lia.
      * destruct (somebody_moves c s L) as [t M']; [intros X; destruct NF as (t & th & A & B); destruct (X _ _ A); tauto|].
        assert (IN : In t r).
        { apply F1. destruct (Nat.lt_ge_cases t (List.length (cs_threads s))) as [?|GE]; [auto|].
          unfold cstep in M'. apply nth_error_None in GE. rewrite GE in M'. simpl in M'. lia. }
        rewrite (M _ IN) in M'. lia.
    + specialize (IH s1 L1). rewrite E2 in IH. simpl in IH. apply IH; [|lia].
      rewrite NT. exact F2.
Qed.

End ThreadProofs.
