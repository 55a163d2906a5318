(** * RelaxedProofs: what holds whichever old values the loads see *)

From Coq Require Import NArith List Bool String Lia Arith.
From Verif Require Import Base Times Expect Mock Conc ConcSpec ConcProofs LockProofs ThreadProofs
  LinProofs Relaxed RelaxedSpec.
Import ListNotations.
Open Scope N_scope.

Local Arguments rstep : simpl never.

Section RelaxedProofs.
Context {V U : Type}.
Notation csys := (csys V U).
Notation pc := (pc V U).
Notation ccall := (ccall V).
Notation rsys := (rsys V U).

(** Bring [pstep] to its leaves. *)
Ltac leaves H :=
  unfold pstep, unlock_r in H;
  repeat match type of H with
  | context [match ?x with _ => _ end] =>
      lazymatch x with
      | context [match _ with _ => _ end] => fail
      | _ => let E := fresh "E" in destruct x eqn:E
      end
  end;
  injection H as <- <- <-.

(** The same for a step that changes nothing. *)
Ltac loadleaves H :=
  unfold pstep, unlock_r in H;
  repeat match type of H with
  | context [match ?x with _ => _ end] =>
      lazymatch x with
      | context [match _ with _ => _ end] => fail
      | _ => let E := fresh "E" in destruct x eqn:E
      end
  end;
  injection H as <- <-.

Lemma events_app (a b : rlog V) : events (a ++ b) = events a ++ events b.
Proof. induction a as [|[|] a IH]; simpl; auto. f_equal. auto. Qed.
Lemma events_inr (ev : list (event V)) : events (map inr ev) = ev.
Proof. induction ev as [|y ev IH]; simpl; auto. f_equal. auto. Qed.

(** ** States of one execution *)

(** The same methods with the same expectations, but for counters and levels. *)
Record like (old s : csys) : Prop := {
  lk_decl : map decl_of (cs_meths old) = map decl_of (cs_meths s);
  lk_static : forall m i, static_at old m i = static_at s m i;
  lk_index : forall m i, cexp old m i <> None <-> cexp s m i <> None;
  lk_setup : forall m i e, cexp s m i = Some e -> exists e', cexp old m i = Some e' /\ same_setup e e'
}.

Lemma like_refl s : like s s.
Proof. split; auto; [tauto|]. intros m i e C. exists e. split; [auto|apply same_setup_refl]. Qed.

Lemma like_trans a b d : like a b -> like b d -> like a d.
Proof.
  intros [A1 A2 A3 A4] [B1 B2 B3 B4]. split.
  - congruence.
  - intros m i. rewrite A2. auto.
  - intros m i. rewrite A3. auto.
  - intros m i e C. destruct (B4 _ _ _ C) as (e' & C' & (s1 & s2 & s3)).
    destruct (A4 _ _ _ C') as (e'' & C'' & (t1 & t2 & t3)). exists e''. split; auto.
    repeat split; congruence.
Qed.

Lemma like_step c s t s' ev : cstep c s t = (s', ev) -> like s s'.
Proof.
  intros H.
  assert (D : map decl_of (cs_meths s) = map decl_of (cs_meths s') /\
    (forall m i, static_at s m i = static_at s' m i) /\
    (forall m i, cexp s m i <> None <-> cexp s' m i <> None)).
  { apply cstep_cases in H.
    destruct H as [|th x rest Ht Hp Hd Hm|th x rest cm Ht Hp Hd Hm|th x cm s1 p1 ev Ht Hp Hm Hs]; auto.
    1-3: split; [reflexivity|split; [reflexivity|intros m i; tauto]].
    split; [|split].
    - symmetry. apply (pstep_decls _ _ _ _ _ _ _ _ Hs).
    - intros m i. symmetry. apply (pstep_static _ _ _ _ _ _ _ _ m i Hs).
    - intros m i. pose proof (pstep_index _ _ _ _ _ _ _ _ m i Hs) as [A B].
      change (cexp (put_thread s1 t (Thread (th_todo th) p1)) m i) with (cexp s1 m i). tauto. }
  destruct D as (D1 & D2 & D3). split; auto.
  intros m i e' C'. destruct (cexp s m i) as [e|] eqn:C.
  2:{ exfalso. apply (proj2 (D3 m i)); congruence. }
  destruct (cstep_exp _ _ _ _ _ _ _ _ H C) as (e1 & C1 & (s1 & s2 & s3) & _).
  assert (e1 = e') by congruence. subst. exists e. split; auto. repeat split; congruence.
Qed.

Lemma like_put_thread (old s : csys) t th : like old s -> like old (put_thread s t th).
Proof. intros [A B C D]. split; auto. Qed.

(** ** One step *)
Lemma load_facts c (s old : csys) t cm p s1 p1 ev lc :
  loads s p = Some lc -> pstep c old t cm p = (s1, p1, ev) ->
  s1 = old /\ mheld p = None /\ mheld p1 = None /\
  (forall s', rheld s' p = None /\ rheld s' p1 = None /\ sheld s' p1 = sheld s' p) /\
  (ev = [] \/ exists x i, ev = [EvEnter t x i]) /\
  (forall m i, execing m i p = 0%nat /\ execing m i p1 = 0%nat /\ exiting m i p = false /\
     exiting m i p1 = false) /\
  (forall x, p1 <> PLockS x) /\ p1 <> PIdle /\ ~ blocked old p /\ pc_call p1 = pc_call p.
Proof.
  intros L H. destruct p; simpl in L; try discriminate L.
  all: leaves H; simpl; repeat match goal with |- _ /\ _ => split end; try discriminate; eauto; try tauto.
  all: try (intros; repeat split; reflexivity).
Qed.

(** A step of thread [t] at [r] leads to [s'] with the events [ev]. *)
Inductive rmoved (c : cfg) (r : rsys) (t : nat) : csys -> list (event V) -> Prop :=
| RmNow s' ev : cstep c (rs_now r) t = (s', ev) -> rmoved c r t s' ev
| RmOld th x cm old p1 ev lc :
    nth_error (cs_threads (rs_now r)) t = Some th -> pc_call (th_pc th) = Some x ->
    nth_error (cs_meths (rs_now r)) (cc_m x) = Some cm ->
    In old (rs_now r :: rs_past r) -> loads (rs_now r) (th_pc th) = Some lc ->
    pstep c old t cm (th_pc th) = (old, p1, ev) ->
    rmoved c r t (put_thread (rs_now r) t (Thread (th_todo th) p1)) ev.

Lemma state_at_in (r : rsys) k : In (state_at r k) (rs_now r :: rs_past r).
Proof.
  unfold state_at. destruct (Nat.lt_ge_cases k (List.length (rs_past r ++ [rs_now r]))) as [L|L].
  - apply (nth_In _ (rs_now r)) in L. apply in_app_or in L as [L|[L|[]]]; simpl; auto.
  - rewrite nth_overflow by auto. left. reflexivity.
Qed.

Lemma rstep_cases c r t k r' l :
  rstep c r (Go t k) = (r', l) ->
  exists ev, l = map inr ev /\ rmoved c r t (rs_now r') ev /\
    ((rs_past r' = rs_past r /\ rs_now r' = rs_now r) \/ rs_past r' = rs_past r ++ [rs_now r]).
Proof.
  unfold rstep. destruct (nth_error (cs_threads (rs_now r)) t) as [th|] eqn:Et.
  2:{ intros [= <- <-]. exists []. split; [reflexivity|]. split; [|auto]. apply RmNow. unfold cstep. rewrite Et. reflexivity. }
  assert (NOW : forall r' l, (let (s', ev) := cstep c (rs_now r) t in
       let v := view_after r s' t in
       let rel := released_mx (rs_now r) (th_pc th) (pc_of s' t) in
       (RSys s' (rs_past r ++ [rs_now r]) (set_at (rs_view r) t v)
             (fun mx => if existsb (mutex_eqb mx) rel then join (rs_mx r mx) v else rs_mx r mx), map inr ev)) = (r', l) ->
     exists ev, l = map (@inr (nat * nat) (event V)) ev /\ rmoved c r t (rs_now r') ev /\
     ((rs_past r' = rs_past r /\ rs_now r' = rs_now r) \/ rs_past r' = rs_past r ++ [rs_now r])).
  { intros r1 l1. destruct (cstep c (rs_now r) t) as [s' ev] eqn:E. intros [= <- <-]. exists ev.
    split; [reflexivity|]. split; [|auto]. apply RmNow. exact E. }
  destruct (pc_call (th_pc th)) as [x|] eqn:Ep; [|apply NOW].
  destruct (loads (rs_now r) (th_pc th)) as [lc|] eqn:El; [|apply NOW].
  destruct (nth_error (cs_meths (rs_now r)) (cc_m x)) as [cm|] eqn:Em.
  2:{ intros [= <- <-]. exists []. split; [reflexivity|]. split; [|auto]. apply RmNow. unfold cstep. rewrite Et, Ep, Em. reflexivity. }
  match goal with |- context [state_at r ?k'] => set (kk := k') end.
  destruct (pstep c (state_at r kk) t cm (th_pc th)) as [[s1 p1] ev] eqn:Es.
  intros [= <- <-]. exists ev. split; [reflexivity|]. split; [|auto].
  destruct (load_facts _ _ _ _ _ _ _ _ _ _ El Es) as (-> & _).
  eapply RmOld; eauto. apply state_at_in.
Qed.

(** ** Every reachable state *)
Definition good (r : rsys) : Prop :=
  locks_ok (rs_now r) /\ forall old, In old (rs_past r) -> like old (rs_now r).

Lemma good_old r old : good r -> In old (rs_now r :: rs_past r) -> like old (rs_now r).
Proof. intros [_ G] [<-|I]; [apply like_refl|auto]. Qed.

Lemma good_pc_old r old t th : good r -> In old (rs_now r :: rs_past r) ->
  nth_error (cs_threads (rs_now r)) t = Some th -> pc_ok old (th_pc th).
Proof.
  intros G I N. pose proof (good_old _ _ G I) as [A B C D].
  apply (pc_ok_same (rs_now r)); auto. apply (lo_pc _ (proj1 G) _ _ N).
Qed.

Lemma put_locks (s : csys) t th p1 :
  locks_ok s -> nth_error (cs_threads s) t = Some th ->
  mheld p1 = mheld (th_pc th) -> rheld s p1 = rheld s (th_pc th) -> sheld s p1 = sheld s (th_pc th) ->
  pc_ok s p1 -> locks_ok (put_thread s t (Thread (th_todo th) p1)).
Proof.
  intros [LM LR LS LP] Ht M R S P.
  assert (AT : forall A (f : pc -> option A) t', f p1 = f (th_pc th) ->
    at_thread f (put_thread s t (Thread (th_todo th) p1)) t' = at_thread f s t').
  { intros A f t' F. unfold at_thread. simpl. rewrite nth_set_nth, Ht.
    destruct (Nat.eqb_spec t' t); [|auto]. subst. rewrite Ht. simpl. auto. }
  split.
  - intros k t'. rewrite AT by auto. apply LM.
  - intros k t'. change (rheld (put_thread s t (Thread (th_todo th) p1))) with (rheld s). rewrite AT by auto. apply LR.
  - intros k t'. change (sheld (put_thread s t (Thread (th_todo th) p1))) with (sheld s). rewrite AT by auto. apply LS.
  - intros t' th' N. simpl in N. rewrite nth_set_nth, Ht in N. destruct (Nat.eqb_spec t' t).
    + injection N as <-. exact P.
    + apply (LP _ _ N).
Qed.

Lemma rmoved_locks c r t s' ev : good r -> rmoved c r t s' ev -> locks_ok s'.
Proof.
  intros G H. destruct H as [s' ev H|th x cm old p1 ev lc Ht Hp Hm Ho Hl Hs].
  - eapply cstep_locks; [apply G|eauto].
  - destruct (load_facts _ _ _ _ _ _ _ _ _ _ Hl Hs) as (_ & M & M1 & F & _).
    destruct (F (rs_now r)) as (R & R1 & S1).
    apply put_locks; auto; try congruence. { apply G. }
    pose proof (good_old _ _ G Ho) as [A B C D].
    apply (pc_ok_same old); auto.
    { intros m i. symmetry. apply C. }
    assert (M' : exists cm', nth_error (cs_meths old) (cc_m x) = Some cm').
    { pose proof (proj2 (decls_mutex _ _ (cc_m x) A)) as Q. rewrite Hm in Q.
      destruct (nth_error (cs_meths old) (cc_m x)) as [cm'|]; [eauto|discriminate]. }
    pose proof (good_pc_old _ _ _ _ G Ho Ht) as (P1 & P2 & P3 & P4).
    destruct (th_pc th) eqn:P; simpl in Hl; try discriminate Hl; simpl in Hp; injection Hp as ->.
    all: loadleaves Hs.
    all: split; [|split; [|split]]; try discriminate.
    all: try (intros y [= <-]; auto; fail).
    all: try (intros y j [[f' EQ]|[[r' EQ]|EQ]]; discriminate EQ).
    all: try (intros y j [= <- <-]; congruence).
  all: exact P2.
Qed.

Lemma rmoved_like c r t s' ev : rmoved c r t s' ev -> like (rs_now r) s'.
Proof.
  intros H. destruct H as [s' ev H|th x cm old p1 ev lc Ht Hp Hm Ho Hl Hs].
  - eapply like_step; eauto.
  - apply like_put_thread, like_refl.
Qed.

Lemma rstep_good c r mv r' l : good r -> rstep c r mv = (r', l) -> good r'.
Proof.
  intros G H. destruct mv as [t k|t t'].
  - destruct (rstep_cases _ _ _ _ _ _ H) as (ev & -> & M & P). split.
    + eapply rmoved_locks; eauto.
    + destruct P as [[P1 P2]|P]; intros old I.
      * rewrite P1 in I. rewrite P2. apply G. auto.
      * rewrite P in I. apply (like_trans _ (rs_now r)); [|eapply rmoved_like; eauto].
        apply good_old; auto. apply in_app_or in I as [I|[<-|[]]]; simpl; auto.
  - unfold rstep in H. injection H as <- <-. exact G.
Qed.

Lemma start_good (u : U) l ms sp progs : good (relaxed_start (V := V) u l ms sp progs).
Proof. split; [apply start_locks|]. intros old []. Qed.

(** To prove something of every execution, prove it for each step. *)
Lemma rrun_inv c (P : rsys -> list (event V) -> Prop) mvs : forall r tr r' l,
  (forall r t k r' l tr ev, good r -> P r tr -> rstep c r (Go t k) = (r', l) ->
     rmoved c r t (rs_now r') ev -> l = map inr ev -> P r' (tr ++ ev)) ->
  (forall r t t' r' l tr, good r -> P r tr -> rstep c r (Sync t t') = (r', l) -> P r' tr) ->
  good r -> P r tr -> rrun c r mvs = (r', l) -> good r' /\ P r' (tr ++ events l).
Proof.
  induction mvs as [|mv mvs IH]; simpl; intros r tr r' l HG HS G I H.
  - injection H as <- <-. simpl. rewrite app_nil_r. auto.
  - destruct (rstep c r mv) as [r1 l1] eqn:E1. destruct (rrun c r1 mvs) as [r2 l2] eqn:E2.
    injection H as <- <-. rewrite events_app, app_assoc.
    apply (IH r1 (tr ++ events l1) r2 l2 HG HS); auto. { eapply rstep_good; eauto. }
    destruct mv as [t k|t t'].
    + destruct (rstep_cases _ _ _ _ _ _ E1) as (ev & -> & M & _). rewrite events_inr. eapply HG; eauto.
    + assert (Q : l1 = [inl (t, t')]) by (unfold rstep in E1; injection E1 as _ <-; reflexivity).
      rewrite Q. simpl. rewrite app_nil_r. eapply HS; eauto.
Qed.

(** ** Counters *)
Lemma rmoved_exp c r t s' ev m i e :
  rmoved c r t s' ev -> cexp (rs_now r) m i = Some e ->
  exists e', cexp s' m i = Some e' /\ same_setup e e' /\
    reached m i ev = (if existsb (reach_here m i) ev then 1%nat else 0%nat) /\
    tcount (c_times (e_common e')) =
      if existsb (reach_here m i) ev then uwrap1 c (tcount (c_times (e_common e)))
      else tcount (c_times (e_common e)).
Proof.
  intros H C. destruct H as [s' ev H|th x cm old p1 ev lc Ht Hp Hm Ho Hl Hs].
  - destruct (cstep_exp _ _ _ _ _ _ _ _ H C) as (e' & A & B & D). exists e'.
    pose proof (cstep_reached _ _ _ _ _ m i H). auto.
  - exists e. split; [exact C|]. split; [apply same_setup_refl|].
    destruct (load_facts _ _ _ _ _ _ _ _ _ _ Hl Hs) as (_ & _ & _ & _ & [->|(y & j & ->)] & _); auto.
Qed.

Definition count_inv c (m i : nat) (e0 : expectation V U) (r : rsys) (tr : list (event V)) : Prop :=
  exists e', cexp (rs_now r) m i = Some e' /\ same_setup e0 e' /\
    tcount (c_times (e_common e')) =
      (tcount (c_times (e_common e0)) + N.of_nat (reached m i tr)) mod (umax c + 1).

Lemma rrun_counts c mvs : forall (r : rsys) r' l m i e,
  good r -> rrun c r mvs = (r', l) -> cexp (rs_now r) m i = Some e ->
  tcount (c_times (e_common e)) <= umax c ->
  count_inv c m i e r' (events l).
Proof.
  intros r r' l m i e G H C L.
  refine (proj2 (rrun_inv c (count_inv c m i e) mvs r [] r' l _ _ G _ H)).
  - clear. intros r t k r' l tr ev G (e' & C & (S1 & S2 & S3) & T) _ M _.
    destruct (rmoved_exp _ _ _ _ _ _ _ _ M C) as (e2 & C2 & (Z1 & Z2 & Z3) & R & T2).
    exists e2. split; auto. split; [repeat split; congruence|].
    rewrite reached_app, R, T2. destruct (existsb (reach_here m i) ev); [|rewrite T; f_equal; lia].
    rewrite uwrap1_mod; rewrite T; [|pose proof (N.mod_lt (tcount (c_times (e_common e)) + N.of_nat (reached m i tr)) (umax c + 1)); lia].
    rewrite N.add_mod_idemp_l by lia. f_equal. lia.
  - clear. intros r t t' r' l tr _ I H. unfold rstep in H. injection H as <- <-. exact I.
  - exists e. split; [exact C|]. split; [apply same_setup_refl|]. unfold reached. simpl.
    rewrite N.add_0_r. symmetry. apply N.mod_small. lia.
Qed.

(** ** Calls that are answered *)
Definition budget_inv c (m i : nat) (e0 : expectation V U) (r : rsys) (tr : list (event V)) : Prop :=
  tcount (c_times (e_common e0)) + N.of_nat (reached m i tr) <= umax c ->
  let n0 := tcount (c_times (e_common e0)) in
  let k := (psum (passed m i) (rs_now r) + answered m i tr)%nat in
  exists e', cexp (rs_now r) m i = Some e' /\ same_setup e0 e' /\
    tcount (c_times (e_common e')) = n0 + N.of_nat (reached m i tr) /\
    (k = 0%nat \/ n0 + N.of_nat k < rend (trange_of (c_times (e_common e0)))) /\
    n0 + N.of_nat k <= tcount (c_times (e_common e')).

Lemma rmoved_passed c r t s' ev m i e :
  good r -> rmoved c r t s' ev -> cexp (rs_now r) m i = Some e ->
  (psum (passed m i) s' + answered m i ev <= psum (passed m i) (rs_now r))%nat \/
  (reached m i ev = 1%nat /\ (psum (passed m i) s' + answered m i ev = psum (passed m i) (rs_now r) + 1)%nat /\
   snd (times_call c (c_times (e_common e))) = Ret (Ok tt)).
Proof.
  intros G H C. destruct H as [s' ev H|th x cm old p1 ev lc Ht Hp Hm Ho Hl Hs].
  - revert C. generalize (rs_now r) as s, H. clear. intros s E1 C.
    apply cstep_cases in E1. destruct E1 as [|th x rest Ht Hp Hd Hm|th x rest cm Ht Hp Hd Hm|th x cm s1 p1 ev Ht Hp Hm Hs].
    + left. unfold answered. simpl. lia.
    + left. pose proof (psum_put (passed m i) _ _ _ (Thread rest PIdle) Ht) as P. rewrite Hp in P. simpl in P.
      unfold answered. simpl. lia.
    + left. pose proof (psum_put (passed m i) _ _ _ (Thread rest (match cm_mutex cm with Some _ => PLockS x | None => PLockM x 0 end)) Ht) as P.
      rewrite Hp in P. simpl in P. unfold answered. simpl. destruct (cm_mutex cm); simpl in *; lia.
    + pose proof (pstep_threads _ _ _ _ _ _ _ _ Hs) as TH.
      rewrite <- TH in Ht. pose proof (psum_put (passed m i) _ _ _ (Thread (th_todo th) p1) Ht) as P. simpl in P.
      assert (Q : psum (passed m i) s1 = psum (passed m i) s) by (unfold psum; rewrite TH; reflexivity).
      destruct (pstep_passed _ _ _ _ _ _ _ _ m i e Hs C) as [X|(X1 & X2 & X3 & X4 & X5)]; [left; lia|].
      right. repeat split; auto. lia.
  - left. pose proof (psum_put (passed m i) _ _ _ (Thread (th_todo th) p1) Ht) as P. simpl in P.
    destruct (lk_setup _ _ (good_old _ _ G Ho) _ _ _ C) as (e1 & C1 & _).
    destruct (load_facts _ _ _ _ _ _ _ _ _ _ Hl Hs) as (_ & _ & _ & _ & EV & _).
    destruct (pstep_passed _ _ _ _ _ _ _ _ m i e1 Hs C1) as [X|(X1 & _)]; [lia|].
    exfalso. destruct EV as [->|(y & j & ->)]; discriminate.
Qed.

Lemma rrun_budget c mvs : forall (r : rsys) r' l m i e,
  good r -> rrun c r mvs = (r', l) -> cexp (rs_now r) m i = Some e ->
  psum (passed m i) (rs_now r) = 0%nat ->
  budget_inv c m i e r' (events l).
Proof.
  intros r r' l m i e G H C Z.
  refine (proj2 (rrun_inv c (budget_inv c m i e) mvs r [] r' l _ _ G _ H)).
  - clear. intros r t k r' l tr ev G I _ M _ L. cbv zeta.
    rewrite reached_app in L. destruct I as (e1 & C1 & (S1 & S2 & S3) & T1 & B1 & B2); [lia|].
    destruct (rmoved_exp _ _ _ _ _ _ _ _ M C1) as (e2 & C2 & (Z1 & Z2 & Z3) & R & T2).
    destruct (rmoved_passed _ _ _ _ _ _ _ _ G M C1) as [X|(X1 & X2 & X3)];
      exists e2; (split; [exact C2|]); (split; [repeat split; congruence|]);
      rewrite reached_app, answered_app.
    + assert (T2' : tcount (c_times (e_common e2)) = tcount (c_times (e_common e1)) + N.of_nat (reached m i ev)).
      { rewrite T2, R. rewrite R in L. destruct (existsb (reach_here m i) ev); [|simpl; lia].
        unfold uwrap1. destruct (N.ltb_spec (tcount (c_times (e_common e1))) (umax c)); lia. }
      rewrite T2', T1. split; [lia|]. split; [|lia]. destruct B1 as [B1|B1]; [left; lia|right; lia].
    + assert (T2' : tcount (c_times (e_common e2)) = tcount (c_times (e_common e1)) + N.of_nat (reached m i ev)).
      { rewrite T2, R. rewrite R in L, X1. destruct (existsb (reach_here m i) ev); [|simpl; lia].
        unfold uwrap1. destruct (N.ltb_spec (tcount (c_times (e_common e1))) (umax c)); lia. }
      rewrite T2', T1. split; [lia|]. split; [|lia]. right.
      apply times_call_ok in X3; [|lia]. rewrite S2 in X3. lia.
  - clear. intros r t t' r' l tr _ I H. unfold rstep in H. injection H as <- <-. exact I.
  - intros L. cbv zeta. exists e. split; [exact C|]. split; [apply same_setup_refl|].
    unfold reached, answered in *. simpl in *. rewrite Z. split; [lia|]. split; [left; reflexivity|]. simpl. lia.
Qed.

(** ** [return_once] *)
Definition once_inv (m i : nat) (r : rsys) (tr : list (event V)) : Prop :=
  exists e, cexp (rs_now r) m i = Some e /\ once_like e /\
    (once_left e + psum (execing m i) (rs_now r) + closure_runs m i tr <= 1)%nat.

Lemma rrun_once c mvs : forall (r : rsys) r' l m i,
  good r -> rrun c r mvs = (r', l) -> once_inv m i r [] -> (closure_runs m i (events l) <= 1)%nat.
Proof.
  intros r r' l m i G H I.
  cut (once_inv m i r' ([] ++ events l)). { intros (e & _ & _ & L). simpl in L. lia. }
  refine (proj2 (rrun_inv c (once_inv m i) mvs r [] r' l _ _ G I H)).
  2:{ clear. intros r t t' r' l tr _ I H. unfold rstep in H. injection H as <- <-. exact I. }
  clear. intros r t k r' l tr ev G (e & C & O & L) _ M _. unfold once_inv. rewrite closure_runs_app.
  destruct M as [s' ev H|th x cm old p1 ev lc Ht Hp Hm Ho Hl Hs].
  - apply cstep_cases in H.
    destruct H as [|th x rest Ht Hp Hd Hm|th x rest cm Ht Hp Hd Hm|th x cm s1 p1 ev Ht Hp Hm Hs].
    + exists e. split; [exact C|]. split; [auto|]. unfold closure_runs in *. simpl. lia.
    + exists e. split; [exact C|]. split; [auto|].
      pose proof (psum_put (execing m i) _ _ _ (Thread rest PIdle) Ht) as P. rewrite Hp in P. simpl in P.
      unfold closure_runs in *. simpl. lia.
    + exists e. split; [exact C|]. split; [auto|].
      pose proof (psum_put (execing m i) _ _ _ (Thread rest (match cm_mutex cm with Some _ => PLockS x | None => PLockM x 0 end)) Ht) as P.
      rewrite Hp in P. unfold closure_runs in *. simpl in *. destruct (cm_mutex cm); simpl in *; lia.
    + pose proof (pstep_threads _ _ _ _ _ _ _ _ Hs) as TH.
      rewrite <- TH in Ht. pose proof (psum_put (execing m i) _ _ _ (Thread (th_todo th) p1) Ht) as P. simpl in P.
      assert (Q : psum (execing m i) s1 = psum (execing m i) (rs_now r)) by (unfold psum; rewrite TH; reflexivity).
      destruct (pstep_once _ _ _ _ _ _ _ _ _ _ _ Hs C O) as (e' & A & B & D).
      exists e'. split; [exact A|]. split; [auto|]. lia.
  - exists e. split; [exact C|]. split; [auto|].
    pose proof (psum_put (execing m i) _ _ _ (Thread (th_todo th) p1) Ht) as P. simpl in P.
    destruct (load_facts _ _ _ _ _ _ _ _ _ _ Hl Hs) as (_ & _ & _ & _ & EV & EX & _).
    destruct (EX m i) as (X1 & X2 & _). rewrite X1, X2 in P.
    assert (Z : closure_runs m i ev = 0%nat) by (destruct EV as [->|(y & j & ->)]; reflexivity).
    rewrite Z. lia.
Qed.

(** ** Closures do not overlap *)
Lemma rrun_closure c mvs : forall (r : rsys) r' l m i,
  good r -> rrun c r mvs = (r', l) -> closure_inv m i (rs_now r) [] ->
  closure_inv m i (rs_now r') (events l).
Proof.
  intros r r' l m i G H I.
  refine (proj2 (rrun_inv c (fun r => closure_inv m i (rs_now r)) mvs r [] r' l _ _ G I H)).
  2:{ clear. intros r t t' r' l tr _ I H. unfold rstep in H. injection H as <- <-. exact I. }
  clear. intros r t k r' l tr ev G I _ M _.
  destruct M as [s' ev H|th x cm old p1 ev lc Ht Hp Hm Ho Hl Hs].
  - eapply cstep_closure; eauto. apply G.
  - destruct (load_facts _ _ _ _ _ _ _ _ _ _ Hl Hs) as (_ & _ & _ & _ & EV & EX & _).
    destruct (EX m i) as (_ & _ & X1 & X2).
    assert (Z : closure_events m i ev = []) by (destruct EV as [->|(y & j & ->)]; reflexivity).
    unfold closure_inv in *. rewrite closure_events_app, Z, app_nil_r.
    destruct I as [(ts & A & B)|(ts & t' & th' & A & B & C)]; [left|right].
    + exists ts. split; auto. simpl. intros t0 th0. rewrite nth_set_nth, Ht. destruct (Nat.eqb_spec t0 t); eauto.
      intros [= <-]. exact X2.
    + exists ts, t', th'. split; auto. split; auto. simpl. rewrite nth_set_nth.
      destruct (Nat.eqb_spec t' t); auto. subst. rewrite Ht in B. injection B as <-. congruence.
Qed.

(** ** Sequences *)
Section Sequences.
Context (c : cfg) (s0 : csys).
Context (DIST : forall m1 i1 e1 h1 m2 i2 e2 h2,
  cexp s0 m1 i1 = Some e1 -> c_seq (e_common e1) = Some h1 ->
  cexp s0 m2 i2 = Some e2 -> c_seq (e_common e2) = Some h2 ->
  sh_inner h1 = sh_inner h2 -> sh_seq h1 = sh_seq h2 -> m1 = m2 /\ i1 = i2).

(** What is true of a state stays true of it while time goes on. *)
Definition bounds (s : csys) (tr : list (event V)) : Prop :=
  (forall m i e, cexp s0 m i = Some e -> exists e', cexp s m i = Some e' /\ same_setup e e' /\
     tcount (c_times (e_common e')) <= tcount (c_times (e_common e)) + N.of_nat (reached m i tr)) /\
  (forall m i e h, cexp s0 m i = Some e -> c_seq (e_common e) = Some h ->
     sh_seq h < cs_levels s (sh_inner h) -> called_enough s0 m i tr).

Lemma bounds_mono s tr ev : bounds s tr -> bounds s (tr ++ ev).
Proof.
  intros [A B]. split.
  - intros m i e C. destruct (A _ _ _ C) as (e' & C' & S' & T'). exists e'. split; auto. split; auto.
    rewrite reached_app. lia.
  - intros m i e h C Q L. apply called_enough_mono. eauto.
Qed.

Definition rseq_inv (r : rsys) (tr : list (event V)) : Prop :=
  violated tr = false ->
  seq_inv s0 (rs_now r) tr /\ forall old, In old (rs_past r) -> bounds old tr.

Lemma seq_bounds s tr : seq_inv s0 s tr -> bounds s tr.
Proof. intros [A B C D]. split; auto. Qed.

Lemma rseq_old r tr old : seq_inv s0 (rs_now r) tr -> (forall old, In old (rs_past r) -> bounds old tr) ->
  In old (rs_now r :: rs_past r) -> bounds old tr.
Proof. intros I O [<-|X]; auto. apply seq_bounds. auto. Qed.

Lemma rstep_seq r t k r' l tr ev :
  good r -> rseq_inv r tr -> rstep c r (Go t k) = (r', l) -> rmoved c r t (rs_now r') ev ->
  l = map inr ev -> rseq_inv r' (tr ++ ev).
Proof.
  intros G I H M EL NV. rewrite violated_app in NV. apply orb_false_iff in NV as [NV NE].
  destruct (I NV) as [I1 I2]. split.
  - destruct M as [s' ev H'|th x cm old p1 ev lc Ht Hp Hm Ho Hl Hs].
    + eapply cstep_seq_inv; eauto.
    + pose proof (rseq_old _ _ _ I1 I2 Ho) as [B1 B2].
      destruct (bounds_mono _ _ ev (seq_bounds _ _ I1)) as [N1 N2]. destruct I1 as [J1 J2 J3 J4].
      split; auto.
      intros t' th' m i. simpl. rewrite nth_set_nth, Ht. destruct (Nat.eqb_spec t' t).
      * intros [= <-]. simpl. intros AB.
        destruct (pstep_about c _ _ _ _ _ _ _ _ _ Hs AB) as [A|(EE & e1 & C1 & LE)].
        { apply called_enough_mono. eauto. }
        rewrite EE, app_nil_r. intros e0 C0. destruct (B1 _ _ _ C0) as (e2 & C1' & (_ & S1 & _) & T1).
        assert (e2 = e1) by congruence. subst e2. rewrite S1 in LE. lia.
      * intros. apply called_enough_mono. eauto.
  - intros old IN. apply bounds_mono. apply (rseq_old r); auto.
    destruct (rstep_cases _ _ _ _ _ _ H) as (_ & _ & _ & [[P _]|P]); rewrite P in IN.
    + right. auto.
    + apply in_app_or in IN as [IN|[<-|[]]]; simpl; auto.
Qed.

Lemma rrun_enter mvs : forall (r : rsys) r' tr0 l pre t x i post,
  good r -> rseq_inv r tr0 -> rrun c r mvs = (r', l) -> events l = pre ++ EvEnter t x i :: post ->
  violated (tr0 ++ pre) = false ->
  forall e h m' i' e' h',
    cexp s0 (cc_m x) i = Some e -> c_seq (e_common e) = Some h ->
    cexp s0 m' i' = Some e' -> c_seq (e_common e') = Some h' ->
    sh_inner h' = sh_inner h -> sh_seq h' < sh_seq h ->
    called_enough s0 m' i' (tr0 ++ pre).
Proof.
  induction mvs as [|mv mvs IH]; simpl; intros r r' tr0 l pre t x i post G I H TR NV e h m' i' e' h' C Q C' Q' SI LT.
  - injection H as <- <-. destruct pre; discriminate.
  - destruct (rstep c r mv) as [r1 l1] eqn:E1. destruct (rrun c r1 mvs) as [r2 l2] eqn:E2.
    injection H as <- <-. rewrite events_app in TR.
    assert (G1 : good r1) by (eapply rstep_good; eauto).
    destruct mv as [t0 k|t0 t0'].
    2:{ unfold rstep in E1. injection E1 as <- <-. simpl in TR. eapply IH; eauto. }
    destruct (rstep_cases _ _ _ _ _ _ E1) as (ev & EL & M & _). rewrite EL, events_inr in TR.
    assert (CASE : In (EvEnter t x i) ev \/ exists pre', pre = ev ++ pre' /\ events l2 = pre' ++ EvEnter t x i :: post).
    { clear - TR. revert pre TR. induction ev as [|a ev IHe]; intros pre TR; simpl in *.
      - right. exists pre. auto.
      - destruct pre as [|b pre]; simpl in TR; injection TR as -> TR.
        + left. auto.
        + destruct (IHe _ TR) as [A|(pre' & -> & B)]; [auto|]. right. exists pre'. auto. }
    destruct CASE as [IN|(pre' & -> & E3)].
    + apply called_enough_mono. rewrite violated_app in NV. apply orb_false_iff in NV as [NV _].
      destruct (I NV) as [I1 I2].
      assert (X : exists old e1, In old (rs_now r :: rs_past r) /\ cexp old (cc_m x) i = Some e1 /\
         forall h, c_seq (e_common e1) = Some h -> sh_seq h = cs_levels old (sh_inner h)).
      { destruct M as [s' ev H'|th y cm old p1 ev lc Ht Hp Hm Ho Hl Hs].
        - destruct (cstep_enter _ _ _ _ _ _ _ _ H' IN) as (_ & _ & e1 & A & B). exists (rs_now r), e1. simpl. auto.
        - destruct (pstep_enter c _ _ _ _ _ _ _ _ _ _ Hs IN) as (_ & _ & e1 & A & B). exists old, e1. auto. }
      destruct X as (old & e1 & Ho & C1 & LV).
      destruct (rseq_old _ _ _ I1 I2 Ho) as [B1 B2].
      destruct (B1 _ _ _ C) as (e2 & C2 & (S2 & _) & _). assert (e2 = e1) by congruence. subst e2.
      apply (B2 m' i' e' h'); auto. rewrite SI, <- (LV h); auto. congruence.
    + rewrite app_assoc in *. eapply IH; eauto. apply (rstep_seq r t0 k r1 l1 tr0 ev G I E1 M EL).
Qed.
End Sequences.

(** ** Progress *)
Lemma load_progress c r t s' ev th lc :
  good r -> rmoved c r t s' ev -> nth_error (cs_threads (rs_now r)) t = Some th ->
  loads (rs_now r) (th_pc th) = Some lc -> (cost s' < cost (rs_now r))%nat.
Proof.
  intros G M Ht Hl. destruct M as [s' ev H|th1 x cm old p1 ev lc1 Ht1 Hp Hm Ho Hl1 Hs].
  - assert (X : fst (cstep c (rs_now r) t) = s') by (rewrite H; reflexivity). rewrite <- X.
    apply (cstep_progress c _ _ th); auto. { apply G. }
    + destruct (th_pc th); try discriminate Hl; left; discriminate.
    + destruct (th_pc th); try discriminate Hl; simpl; auto.
  - assert (th1 = th) by congruence. subst th1.
    assert (P : (pcost old p1 < pcost old (th_pc th))%nat).
    { pose proof (good_pc_old _ _ _ _ G Ho Ht) as (_ & PC & _).
      destruct (th_pc th) eqn:P; simpl in Hl; try discriminate Hl; clear Hp Hl1.
      all: loadleaves Hs; simpl; try lia.
      all: try (exfalso; eapply PC; [reflexivity|assumption]).
      all: match goal with [H : cexp _ _ _ = Some _ |- _] => apply cexp_len in H; lia end. }
    assert (EL : forall m, explen old m = explen (rs_now r) m).
    { intros m. apply decls_len. apply (lk_decl _ _ (good_old _ _ G Ho)). }
    apply cost_put with (th := th); auto.
    assert (PE : forall p : pc, pcost old p = pcost (rs_now r) p).
    { intros p. destruct p; simpl; rewrite ?EL; reflexivity. }
    unfold tcost. simpl. rewrite !PE in P. lia.
Qed.

Lemma rmoved_moves c r t s' ev :
  good r -> rmoved c r t s' ev -> s' = rs_now r \/ (cost s' < cost (rs_now r))%nat.
Proof.
  intros G M. inversion M as [s1 ev1 H|th x cm old p1 ev1 lc Ht Hp Hm Ho Hl Hs]; subst.
  - pose proof (cstep_moves c (rs_now r) t (proj1 G)) as X. rewrite H in X. exact X.
  - right. eapply load_progress; eauto.
Qed.

(** A thread that would make progress with the last values makes progress with any. *)
Lemma rmoved_progress c r t s' ev :
  good r -> rmoved c r t s' ev -> (cost (fst (cstep c (rs_now r) t)) < cost (rs_now r))%nat ->
  (cost s' < cost (rs_now r))%nat.
Proof.
  intros G M L. inversion M as [s1 ev1 H|th x cm old p1 ev1 lc Ht Hp Hm Ho Hl Hs]; subst.
  - rewrite H in L. exact L.
  - eapply load_progress; eauto.
Qed.

Lemma rrun_moves c mvs : forall (r : rsys), good r ->
  (rs_now (fst (rrun c r mvs)) = rs_now r /\
   forall t, In t (movers mvs) -> ~ (cost (fst (cstep c (rs_now r) t)) < cost (rs_now r))%nat) \/
  (cost (rs_now (fst (rrun c r mvs))) < cost (rs_now r))%nat.
Proof.
  induction mvs as [|mv mvs IH]; intros r G; simpl.
  - left. split; [reflexivity|]. intros t [].
  - destruct (rstep c r mv) as [r1 l1] eqn:E1. destruct (rrun c r1 mvs) as [r2 l2] eqn:E2. simpl.
    assert (G1 : good r1) by (eapply rstep_good; eauto).
    specialize (IH r1 G1). rewrite E2 in IH. simpl in IH.
    destruct mv as [t k|t t'].
    + destruct (rstep_cases _ _ _ _ _ _ E1) as (ev & _ & M & _).
      destruct (rmoved_moves _ _ _ _ _ G M) as [X|X].
      * rewrite X in IH. destruct IH as [[A B]|A]; [|auto]. left. split; [auto|]. simpl.
        intros t' [<-|I]; [|auto]. intros L. pose proof (rmoved_progress _ _ _ _ _ G M L). rewrite X in H. lia.
      * right. destruct IH as [[A _]|A]; [rewrite A|]; lia.
    + unfold rstep in E1. injection E1 as <- <-. exact IH.
Qed.

Lemma rrun_app c l1 l2 (r : rsys) :
  rrun c r (l1 ++ l2) =
  let (r1, tr1) := rrun c r l1 in let (r2, tr2) := rrun c r1 l2 in (r2, tr1 ++ tr2).
Proof.
  revert r. induction l1 as [|t l1 IH]; intros r; simpl.
  - destruct (rrun c r l2); reflexivity.
  - destruct (rstep c r t) as [r1 e1]. rewrite IH. destruct (rrun c r1 l1) as [r2 e2].
    destruct (rrun c r2 l2) as [r3 e3]. rewrite app_assoc. reflexivity.
Qed.

Lemma rrun_good c mvs : forall (r : rsys), good r -> good (fst (rrun c r mvs)).
Proof.
  induction mvs as [|mv mvs IH]; intros r G; simpl; auto.
  destruct (rstep c r mv) as [r1 l1] eqn:E1. specialize (IH r1 (rstep_good _ _ _ _ _ G E1)).
  destruct (rrun c r1 mvs) as [r2 l2]. exact IH.
Qed.

Lemma rrun_nthreads c mvs : forall (r : rsys),
  List.length (cs_threads (rs_now (fst (rrun c r mvs)))) = List.length (cs_threads (rs_now r)).
Proof.
  induction mvs as [|mv mvs IH]; intros r; simpl; auto.
  destruct (rstep c r mv) as [r1 l1] eqn:E1. specialize (IH r1).
  destruct (rrun c r1 mvs) as [r2 l2]. simpl in *. rewrite IH.
  destruct mv as [t k|t t']; [|unfold rstep in E1; injection E1 as <- <-; reflexivity].
  destruct (rstep_cases _ _ _ _ _ _ E1) as (ev & _ & M & _).
  inversion M as [s1 ev1 H|th x cm old p1 ev1 lc Ht Hp Hm Ho Hl Hs].
  - pose proof (cstep_nthreads c (rs_now r) t) as N. rewrite H in N. exact N.
  - simpl. apply set_nth_length.
Qed.

Lemma finished_cost (s : csys) : finished s -> cost s = 0%nat.
Proof.
  intros A. unfold cost.
  assert (G : forall l, (forall t th, nth_error l t = Some th -> th_pc th = PIdle /\ th_todo th = []) ->
    list_sum (map (tcost s) l) = 0%nat).
  { induction l as [|y l IHl]; intros A1; simpl; auto.
    destruct (A1 0%nat y eq_refl) as [P D]. rewrite IHl.
    - unfold tcost. rewrite P, D. reflexivity.
    - intros t th N. apply (A1 (S t) th N). }
  apply G. exact A.
Qed.

Lemma finished_dec (s : csys) : finished s \/ ~ finished s.
Proof.
  destruct (not_finished (cs_threads s)) as [A|(t & th & A & B)]; [left; exact A|right].
  intros X. destruct (X _ _ A). tauto.
Qed.

Lemma fair_finish_r c rounds : forall (r : rsys), good r ->
  Forall (fun rd => forall t, (t < List.length (cs_threads (rs_now r)))%nat -> In t (movers rd)) rounds ->
  (cost (rs_now r) <= List.length rounds)%nat ->
  finished (rs_now (fst (rrun c r (List.concat rounds)))).
Proof.
  induction rounds as [|rd rounds IH]; intros r G F C; simpl in *.
  - destruct (finished_dec (rs_now r)) as [A|NF]; [exact A|].
    destruct (somebody_moves c (rs_now r) (proj1 G) NF) as [t M]. lia.
  - rewrite rrun_app. destruct (rrun c r rd) as [r1 l1] eqn:E1.
    assert (G1 : good r1) by (pose proof (rrun_good c rd r G) as X; rewrite E1 in X; exact X).
    assert (NT : List.length (cs_threads (rs_now r1)) = List.length (cs_threads (rs_now r)))
      by (pose proof (rrun_nthreads c rd r) as N; rewrite E1 in N; exact N).
    apply Forall_cons_iff in F as [F1 F2].
    pose proof (rrun_moves c rd r G) as M. rewrite E1 in M. simpl in M.
    destruct (rrun c r1 (List.concat rounds)) as [r2 l2] eqn:E2. simpl.
    destruct M as [[EQ M]|M].
    + destruct (finished_dec (rs_now r)) as [A|NF].
      * pose proof (rrun_moves c (List.concat rounds) r1 G1) as M'. rewrite E2 in M'. simpl in M'.
        rewrite EQ in M'. destruct M' as [[-> _]|M']; [exact A|].
        apply finished_cost in A. lia.
      * destruct (somebody_moves c (rs_now r) (proj1 G) NF) as [t M'].
        exfalso. apply (M t); auto. apply F1.
        destruct (Nat.lt_ge_cases t (List.length (cs_threads (rs_now r)))) as [?|GE]; [auto|].
        unfold cstep in M'. apply nth_error_None in GE. rewrite GE in M'. simpl in M'. lia.
    + specialize (IH r1 G1). rewrite E2 in IH. simpl in IH. apply IH; [|lia].
      rewrite NT. exact F2.
Qed.

End RelaxedProofs.
