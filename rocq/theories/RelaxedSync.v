(** * RelaxedSync: where relaxed loads see the last value *)

From Coq Require Import NArith List Bool String Lia Arith.
From Verif Require Import Base Times Expect Mock Conc ConcSpec ConcProofs LockProofs ThreadProofs
  LinProofs Relaxed RelaxedSpec RelaxedProofs PropSerial.
Import ListNotations.
Open Scope N_scope.

Local Arguments rstep : simpl never.
Local Arguments cstep : simpl never.

Section RelaxedSync.
Context {V U : Type}.
Notation csys := (csys V U).
Notation pc := (pc V U).
Notation ccall := (ccall V).
Notation rsys := (rsys V U).

(** Bring [pstep] to its leaves. *)
Ltac leaves H :=
  unfold pstep, unlock_r in H;
  repeat match type of H with
  | context [match ?x with _ => _ end] =>
      lazymatch x with
      | context [match _ with _ => _ end] => fail
      | _ => let E := fresh "E" in destruct x eqn:E
      end
  end;
  injection H as <- <- <-.

(** The value of a variable. *)
Definition lval (s : csys) (lc : loc) : N :=
  match lc with
  | LCount m i => match cexp s m i with Some e => tcount (c_times (e_common e)) | None => 0 end
  | LLevel q => cs_levels s q
  end.

Lemma loc_eqb_eq a b : loc_eqb a b = true <-> a = b.
Proof.
  destruct a, b; simpl; split; try discriminate; try congruence.
  - intros E. apply andb_true_iff in E as [E1 E2]. apply Nat.eqb_eq in E1, E2. congruence.
  - intros [= -> ->]. rewrite !Nat.eqb_refl. reflexivity.
  - intros E. apply Nat.eqb_eq in E. congruence.
  - intros [= ->]. apply Nat.eqb_refl.
Qed.

(** A load gives what the variable's value makes it give. *)
Lemma load_same c (old s : csys) t cm p p1 ev lc :
  like old s -> loads s p = Some lc -> lval old lc = lval s lc ->
  pc_ok s p -> pstep c old t cm p = (old, p1, ev) -> pstep c s t cm p = (s, p1, ev).
Proof.
  intros [A B C D] L E PC H.
  assert (EL : forall m, List.length (cexps old m) = List.length (cexps s m))
    by (intros m; apply (decls_len s old m A)).
  destruct p; simpl in L; try discriminate L.
  all: destruct PC as (_ & PC & _); specialize (PC _ _ eq_refl).
  all: destruct (cexp s (cc_m x) i) as [e|] eqn:C1; [|congruence].
  all: destruct (D _ _ _ C1) as (e' & C1' & (s1 & s2 & s3)).
  2:{ unfold level_of in L. rewrite C1 in L. destruct (c_seq (e_common e)) as [h|] eqn:Q; [|discriminate].
      injection L as <-. simpl in E. simpl in H |- *. rewrite C1' in H. rewrite C1.
      unfold verify_sequence in *. rewrite s1 in H. rewrite Q in *. unfold handle_verify, inner_verify in *. simpl in *. rewrite E in H.
      destruct (_ =? _); injection H as <- <-; reflexivity. }
  all: injection L as <-; simpl in E; rewrite C1, C1' in E; simpl in H |- *; rewrite C1' in H; rewrite C1.
  - unfold common_is_done, times_is_done in *. rewrite EL, s2, E in H. injection H as <- <-. reflexivity.
  - rewrite s2, E in H. injection H as <- <-. reflexivity.
  - rewrite s2, E in H. injection H as <- <-. reflexivity.
Qed.

(** A step only changes the variable that it adds to. *)
Lemma pstep_reach c (s : csys) t cm p s' p' ev m i :
  pstep c s t cm p = (s', p', ev) -> existsb (reach_here m i) ev = true -> adds s p = Some (LCount m i).
Proof.
  intros H. leaves H; simpl; try discriminate.
  all: rewrite orb_false_r; unfold at_exp; intros X.
  all: apply andb_true_iff in X as [X1 X2]; apply Nat.eqb_eq in X1, X2; congruence.
Qed.

Lemma cstep_lval c (s : csys) t s' ev lc :
  cstep c s t = (s', ev) -> adds s (pc_of s t) <> Some lc -> lval s' lc = lval s lc.
Proof.
  intros H N. pose proof (like_step _ _ _ _ _ H) as LK.
  assert (X : existsb (fun e => match lc with LCount m i => reach_here m i e | _ => false end) ev = false /\
    match lc with LLevel q => cs_levels s' q = cs_levels s q | _ => True end).
  { apply cstep_cases in H.
    destruct H as [|th x rest Ht Hp Hd Hm|th x rest cm Ht Hp Hd Hm|th x cm s1 p1 ev Ht Hp Hm Hs].
    1-3: destruct lc; split; auto.
    unfold pc_of in N. rewrite Ht in N. destruct lc as [m i|q].
    - split; [|exact I]. destruct (existsb (fun e => reach_here m i e) ev) eqn:E; auto.
      exfalso. apply N. eapply pstep_reach; eauto.
    - split; [clear; induction ev; simpl; auto|].
      destruct (pstep_levels _ _ _ _ _ _ _ _ Hs) as [L|(y & j & e1 & h1 & P & C1 & Q1 & L & _)]; simpl; rewrite L; auto.
      unfold set_level. destruct (Nat.eqb_spec q (sh_inner h1)); auto. exfalso. apply N. rewrite P. simpl.
      unfold level_of. rewrite C1, Q1. congruence. }
  destruct X as [X1 X2]. destruct lc as [m i|q]; simpl; [|exact X2].
  destruct (cexp s m i) as [e|] eqn:C.
  - destruct (cstep_exp _ _ _ _ _ _ _ _ H C) as (e' & C' & _ & T).
    change (existsb (reach_here m i) ev = false) in X1. rewrite C', T, X1. reflexivity.
  - destruct (cexp s' m i) eqn:C'; auto. exfalso.
    apply (proj2 (lk_index _ _ LK m i)); congruence.
Qed.

(** ** Views that are up to date *)
Definition fresh_view (r : rsys) (v : view) : Prop :=
  forall lc k, (v lc <= k <= rs_time r)%nat -> lval (state_at r k) lc = lval (rs_now r) lc.

Definition view_le (a b : view) : Prop := forall lc, (a lc <= b lc)%nat.

Lemma fresh_le r a b : fresh_view r a -> view_le a b -> fresh_view r b.
Proof. intros F L lc k K. apply F. specialize (L lc). lia. Qed.

Lemma state_at_now (r : rsys) : state_at r (rs_time r) = rs_now r.
Proof. unfold state_at, rs_time. rewrite app_nth2, Nat.sub_diag by lia. reflexivity. Qed.

Lemma state_at_next (r r' : rsys) k :
  rs_past r' = rs_past r ++ [rs_now r] -> (k <= rs_time r)%nat -> state_at r' k = state_at r k.
Proof.
  intros P L. unfold state_at, rs_time in *. rewrite P.
  rewrite (app_nth1 (rs_past r ++ [rs_now r])) by (rewrite app_length; simpl; lia).
  apply nth_indep. rewrite app_length. simpl. lia.
Qed.

(** After a step a view is up to date if it was so before and if it includes the
    change. *)
Lemma fresh_step r r' v v' :
  fresh_view r v -> rs_past r' = rs_past r ++ [rs_now r] -> view_le v v' ->
  (forall lc, lval (rs_now r') lc = lval (rs_now r) lc \/ (S (rs_time r) <= v' lc)%nat) ->
  fresh_view r' v'.
Proof.
  intros F P L D lc k K.
  assert (T : rs_time r' = S (rs_time r)) by (unfold rs_time; rewrite P, app_length; simpl; lia).
  rewrite T in K. destruct (Nat.eq_dec k (S (rs_time r))) as [->|NE].
  - rewrite <- T, state_at_now. reflexivity.
  - rewrite (state_at_next r r') by (auto; lia). destruct (D lc) as [E|E]; [|lia].
    rewrite E. apply F. specialize (L lc). lia.
Qed.

Lemma fresh_same r r' v : rs_past r' = rs_past r -> rs_now r' = rs_now r -> fresh_view r v -> fresh_view r' v.
Proof.
  intros P N F lc k K. unfold state_at, rs_time in *. rewrite P, N in *. apply F. exact K.
Qed.

Lemma join_le_r a b : view_le b (join a b).
Proof. intros lc. unfold join. lia. Qed.
Lemma join_le_l a b : view_le a (join a b).
Proof. intros lc. unfold join. lia. Qed.
Lemma view_le_refl a : view_le a a.
Proof. intros lc. lia. Qed.
Lemma view_le_trans a b d : view_le a b -> view_le b d -> view_le a d.
Proof. intros A B lc. specialize (A lc). specialize (B lc). lia. Qed.

Lemma fold_join_le v vs : view_le v (fold_right join v vs).
Proof. induction vs as [|w vs IH]; simpl; [apply view_le_refl|]. eapply view_le_trans; [exact IH|apply join_le_r]. Qed.
Lemma fold_join_in v vs w : In w vs -> view_le w (fold_right join v vs).
Proof.
  induction vs as [|w' vs IH]; simpl; [tauto|]. intros [->|I]; [apply join_le_l|].
  eapply view_le_trans; [apply IH; auto|apply join_le_r].
Qed.

(** What no thread has seen lies in the past: views never run ahead of the time. *)
Definition bounded (r : rsys) : Prop :=
  (forall t lc, (rs_view r t lc <= rs_time r)%nat) /\ (forall mx lc, (rs_mx r mx lc <= rs_time r)%nat).

Lemma fold_join_bound v vs n : (forall lc, (v lc <= n)%nat) -> (forall w, In w vs -> forall lc, (w lc <= n)%nat) ->
  forall lc, (fold_right join v vs lc <= n)%nat.
Proof.
  intros A B lc. induction vs as [|w vs IH]; simpl; auto. unfold join at 1.
  pose proof (B w (or_introl eq_refl) lc). specialize (IH (fun w' I => B w' (or_intror I))). lia.
Qed.

(** ** A step, with its views *)
Record moved (c : cfg) (r : rsys) (t k : nat) (r' : rsys) : Prop := {
  mv_past : rs_past r' = rs_past r ++ [rs_now r];
  mv_others : forall t', t' <> t -> rs_view r' t' = rs_view r t';
  mv_mine : view_le (rs_view r t) (rs_view r' t);
  mv_mx : forall mx, view_le (rs_mx r mx) (rs_mx r' mx);
  (* what is acquired is known *)
  mv_acq : forall mx, In mx (acquired (rs_now r) (pc_of (rs_now r) t) (pc_of (rs_now r') t)) ->
     view_le (rs_mx r mx) (rs_view r' t);
  (* what is released is handed on *)
  mv_rel : forall mx, In mx (released_mx (rs_now r) (pc_of (rs_now r) t) (pc_of (rs_now r') t)) ->
     view_le (rs_view r' t) (rs_mx r' mx);
  mv_add : forall lc, adds (rs_now r) (pc_of (rs_now r) t) = Some lc -> rs_view r' t lc = S (rs_time r)
}.

Lemma mutex_eqb_refl mx : mutex_eqb mx mx = true.
Proof. destruct mx; simpl; rewrite ?Nat.eqb_refl; reflexivity. Qed.

Lemma load_pc c (s old : csys) t cm p s1 p1 ev lc q :
  loads s p = Some lc -> pstep c old t cm p = (s1, p1, ev) ->
  acquired q p p1 = [] /\ released_mx q p p1 = [] /\ adds q p = None.
Proof.
  intros L H. destruct p; simpl in L; try discriminate L.
  all: split; [reflexivity|split; [|reflexivity]]; leaves H; reflexivity.
Qed.

Lemma pc_of_put (s : csys) t th th' : nth_error (cs_threads s) t = Some th -> pc_of (put_thread s t th') t = th_pc th'.
Proof. intros H. unfold pc_of. simpl. rewrite nth_set_nth, Nat.eqb_refl, H. reflexivity. Qed.

Lemma rstep_bounded c r mv r' l : bounded r -> rstep c r mv = (r', l) -> bounded r'.
Proof.
  intros [B1 B2] H. unfold rstep in H. destruct mv as [t k|t t'].
  2:{ injection H as <- <-. split; simpl; auto. intros t0 lc. unfold set_at.
      change (rs_time (RSys (rs_now r) (rs_past r) (set_at (rs_view r) t (join (rs_view r t) (rs_view r t'))) (rs_mx r))) with (rs_time r).
      destruct (Nat.eqb t0 t); auto. unfold join. pose proof (B1 t lc). pose proof (B1 t' lc). unfold rs_time in *. simpl in *. lia. }
  destruct (nth_error (cs_threads (rs_now r)) t) as [th|] eqn:Et.
  2:{ injection H as <- <-. split; auto. }
  assert (NOW : forall r1 l1, (let (s', ev) := cstep c (rs_now r) t in
       let v := view_after r s' t in
       let rel := released_mx (rs_now r) (th_pc th) (pc_of s' t) in
       (RSys s' (rs_past r ++ [rs_now r]) (set_at (rs_view r) t v)
             (fun mx => if existsb (mutex_eqb mx) rel then join (rs_mx r mx) v else rs_mx r mx), map (@inr (nat * nat) (event V)) ev)) = (r1, l1) ->
     bounded r1).
  { intros r1 l1. destruct (cstep c (rs_now r) t) as [s' ev]. intros [= <- _].
    assert (VA : forall lc, (view_after r s' t lc <= S (rs_time r))%nat).
    { intros lc. unfold view_after.
      assert (FJ : forall vs lc, (forall w, In w vs -> exists mx, w = rs_mx r mx) ->
         (fold_right join (rs_view r t) vs lc <= rs_time r)%nat).
      { intros vs lc' IN. apply fold_join_bound; auto. intros w I. destruct (IN _ I) as [mx ->]. auto. }
      assert (IN : forall l w, In w (map (rs_mx r) l) -> exists mx, w = rs_mx r mx).
      { intros l0 w I. apply in_map_iff in I as (mx & <- & _). eauto. }
      destruct (adds _ _) as [lc'|].
      - unfold set_view. destruct (loc_eqb lc lc'); [lia|]. apply Nat.le_le_succ_r. apply FJ. apply IN.
      - apply Nat.le_le_succ_r. apply FJ. apply IN. }
    split; simpl; unfold rs_time; simpl; rewrite app_length, Nat.add_1_r.
    - intros t0 lc. unfold set_at. destruct (Nat.eqb t0 t); [apply VA|]. specialize (B1 t0 lc). unfold rs_time in B1. lia.
    - intros mx lc. specialize (B2 mx lc). specialize (VA lc). unfold rs_time in *.
      destruct (existsb _ _); [unfold join|]; lia. }
  destruct (pc_call (th_pc th)) as [x|] eqn:Ep; [|eapply NOW; eauto].
  destruct (loads (rs_now r) (th_pc th)) as [lc|] eqn:El; [|eapply NOW; eauto].
  destruct (nth_error (cs_meths (rs_now r)) (cc_m x)) as [cm|] eqn:Em.
  2:{ injection H as <- <-. split; auto. }
  match type of H with context [state_at r ?k'] => set (kk := k') in * end.
  assert (KK : (kk <= rs_time r)%nat).
  { unfold kk. destruct (Nat.leb_spec (rs_view r t lc) k), (Nat.leb_spec k (rs_time r)); simpl; lia. }
  destruct (pstep c (state_at r kk) t cm (th_pc th)) as [[s1 p1] ev] eqn:Es.
  injection H as <- _. unfold rs_time in *. split; simpl; unfold rs_time; simpl; rewrite app_length, Nat.add_1_r.
  - intros t0 lc0. unfold set_at, set_view. specialize (B1 t0 lc0) as B1'. specialize (B1 t lc0).
    destruct (Nat.eqb t0 t); [|lia]. destruct (loc_eqb lc0 lc); lia.
  - intros mx lc0. specialize (B2 mx lc0). lia.
Qed.

(** If the view of the thread is up to date, the step is one of [Conc.v]. *)
Lemma rstep_fresh c r t k r' l :
  good r -> bounded r ->
  (forall lc, loads (rs_now r) (pc_of (rs_now r) t) = Some lc -> fresh_view r (rs_view r t)) ->
  rstep c r (Go t k) = (r', l) ->
  cstep c (rs_now r) t = (rs_now r', events l) /\
  (r' = r \/ moved c r t k r').
Proof.
  intros G BD F H.
  destruct (nth_error (cs_threads (rs_now r)) t) as [th|] eqn:Et.
  2:{ unfold rstep in H. unfold cstep. rewrite Et in *. injection H as <- <-. auto. }
  assert (PO : pc_of (rs_now r) t = th_pc th) by (unfold pc_of; rewrite Et; reflexivity).
  rewrite PO in F.
  assert (NOW : forall r1 l1, (let (s', ev) := cstep c (rs_now r) t in
       let v := view_after r s' t in
       let rel := released_mx (rs_now r) (th_pc th) (pc_of s' t) in
       (RSys s' (rs_past r ++ [rs_now r]) (set_at (rs_view r) t v)
             (fun mx => if existsb (mutex_eqb mx) rel then join (rs_mx r mx) v else rs_mx r mx), map (@inr (nat * nat) (event V)) ev)) = (r1, l1) ->
     cstep c (rs_now r) t = (rs_now r1, events l1) /\ (r1 = r \/ moved c r t k r1)).
  { intros r1 l1. destruct (cstep c (rs_now r) t) as [s' ev]. intros [= <- <-]. rewrite events_inr.
    split; [reflexivity|]. right.
    assert (VW : set_at (rs_view r) t (view_after r s' t) t = view_after r s' t)
      by (unfold set_at; rewrite Nat.eqb_refl; reflexivity).
    assert (FJ : forall v, view_le v (fold_right join (rs_view r t) (map (rs_mx r) (acquired (rs_now r) (th_pc th) (pc_of s' t)))) ->
       (forall lc, (v lc <= rs_time r)%nat) -> view_le v (view_after r s' t)).
    { intros v L BV. unfold view_after. rewrite PO. destruct (adds _ _) as [lc'|]; auto.
      intros lc. unfold set_view. destruct (loc_eqb lc lc'); [|apply L]. specialize (BV lc). lia. }
    split; simpl; rewrite ?VW, ?PO; auto.
    - intros t' N. unfold set_at. destruct (Nat.eqb_spec t' t); [contradiction|auto].
    - apply FJ; [apply fold_join_le|apply BD].
    - intros mx. destruct (existsb _ _); [apply join_le_l|apply view_le_refl].
    - intros mx I. apply FJ; [|apply BD]. apply fold_join_in. apply in_map. exact I.
    - intros mx I. assert (E : existsb (mutex_eqb mx) (released_mx (rs_now r) (th_pc th) (pc_of s' t)) = true).
      { apply existsb_exists. exists mx. split; auto. apply mutex_eqb_refl. }
      rewrite E. apply join_le_r.
    - intros lc A. unfold view_after. rewrite PO, A. unfold set_view.
      rewrite (proj2 (loc_eqb_eq lc lc) eq_refl). reflexivity. }
  unfold rstep in H. rewrite Et in H.
  destruct (pc_call (th_pc th)) as [x|] eqn:Ep; [|apply NOW; auto].
  destruct (loads (rs_now r) (th_pc th)) as [lc|] eqn:El; [|apply NOW; auto].
  clear NOW. unfold cstep. rewrite Et, Ep.
  destruct (nth_error (cs_meths (rs_now r)) (cc_m x)) as [cm|] eqn:Em.
  2:{ injection H as <- <-. auto. }
  match type of H with context [state_at r ?k'] => set (kk := k') in * end.
  assert (KK : (rs_view r t lc <= kk /\ kk <= rs_time r)%nat).
  { unfold kk. pose proof (proj1 BD t lc).
    destruct (Nat.leb_spec (rs_view r t lc) k), (Nat.leb_spec k (rs_time r)); simpl; lia. }
  destruct (pstep c (state_at r kk) t cm (th_pc th)) as [[s1 p1] ev] eqn:Es.
  destruct (load_facts _ _ _ _ _ _ _ _ _ _ El Es) as (-> & _).
  assert (SAME : pstep c (rs_now r) t cm (th_pc th) = (rs_now r, p1, ev)).
  { apply (load_same c (state_at r kk) _ _ _ _ _ _ lc); auto.
    - apply good_old; auto. apply state_at_in.
    - apply (F lc eq_refl). lia.
    - apply (lo_pc _ (proj1 G) _ _ Et). }
  rewrite SAME. injection H as <- <-. rewrite events_inr. split; [reflexivity|]. right.
  destruct (load_pc _ _ _ _ _ _ _ _ _ _ (rs_now r) El Es) as (A1 & A2 & A3).
  split; simpl; rewrite ?PO, ?(pc_of_put _ _ _ _ Et); simpl; rewrite ?A1, ?A2, ?A3; simpl; auto; try tauto; try discriminate.
  - intros t' N. unfold set_at. destruct (Nat.eqb_spec t' t); [contradiction|auto].
  - intros lc0. unfold set_at, set_view. rewrite Nat.eqb_refl. destruct (loc_eqb lc0 lc) eqn:E; [|lia].
    apply loc_eqb_eq in E. subst. lia.
  - intros mx. apply view_le_refl.
Qed.

(** The view of a thread that makes a step stays up to date. *)
Lemma fresh_mine c r t k r' ev v :
  cstep c (rs_now r) t = (rs_now r', ev) -> moved c r t k r' ->
  fresh_view r v -> view_le v (rs_view r' t) -> fresh_view r' (rs_view r' t).
Proof.
  intros H M F L. apply (fresh_step r r' v); auto. { apply M. }
  intros lc. destruct (adds (rs_now r) (pc_of (rs_now r) t)) as [lc'|] eqn:A.
  - destruct (loc_eqb lc' lc) eqn:E.
    + apply loc_eqb_eq in E. subst. right. rewrite (mv_add _ _ _ _ _ M _ A). auto.
    + left. eapply cstep_lval; eauto. rewrite A. intros [= ->]. rewrite (proj2 (loc_eqb_eq lc lc) eq_refl) in E. discriminate.
  - left. eapply cstep_lval; eauto. congruence.
Qed.

(** A step that adds to nothing leaves all views as they are. *)
Lemma fresh_quiet c r t k r' ev v v' :
  cstep c (rs_now r) t = (rs_now r', ev) -> moved c r t k r' ->
  adds (rs_now r) (pc_of (rs_now r) t) = None ->
  fresh_view r v -> view_le v v' -> fresh_view r' v'.
Proof.
  intros H M A F L. apply (fresh_step r r' v); auto. { apply M. }
  intros lc. left. eapply cstep_lval; eauto. congruence.
Qed.

(** ** Static functions: the mutex of the store *)
Definition holder_inv (g : nat) (r : rsys) : Prop :=
  match cs_sl (rs_now r) g with
  | Some t => fresh_view r (rs_view r t)
  | None => fresh_view r (rs_mx r (MxStore g))
  end.

Lemma sheld_one g (s : csys) p : one_store g s -> pc_ok s p -> sheld s p = None \/ sheld s p = Some g.
Proof.
  intros O (PC & _). unfold sheld. destruct (pc_call p) as [x|] eqn:E.
  - destruct (PC _ eq_refl) as [cm M]. rewrite M, (O _ _ M). destruct p; auto.
  - destruct p; auto.
Qed.

Lemma inside_held g (s : csys) p x : one_store g s -> pc_ok s p -> pc_call p = Some x -> (forall y, p <> PLockS y) ->
  sheld s p = Some g.
Proof.
  intros O (PC & _) E N. unfold sheld. destruct (PC _ E) as [cm M]. rewrite E, M, (O _ _ M).
  destruct p; auto. exfalso. eapply N; eauto.
Qed.

Lemma store_of_one g (s : csys) m cm : one_store g s -> nth_error (cs_meths s) m = Some cm -> store_of s m = [MxStore g].
Proof. intros O M. unfold store_of. rewrite M, (O _ _ M). reflexivity. Qed.

Lemma step_store c g (s : csys) t s' ev :
  locks_ok s -> one_store g s -> cstep c s t = (s', ev) ->
  let p := pc_of s t in let p' := pc_of s' t in
  (sheld s p = None -> adds s p = None /\ (sheld s p' = Some g -> In (MxStore g) (acquired s p p'))) /\
  (sheld s p = Some g -> sheld s p' = None -> In (MxStore g) (released_mx s p p')).
Proof.
  intros LO O H. cbv zeta. apply cstep_cases in H.
  destruct H as [|th x rest Ht Hp Hd Hm|th x rest cm Ht Hp Hd Hm|th x cm s1 p1 ev Ht Hp Hm Hs].
  - split; [|congruence]. intros N. split; [|congruence].
    unfold pc_of in *. destruct (nth_error (cs_threads s) t) as [th|] eqn:Ht; [|reflexivity].
    destruct (adds s (th_pc th)) eqn:A; auto. exfalso.
    assert (X : sheld s (th_pc th) = Some g); [|congruence].
    destruct (pc_call (th_pc th)) as [x|] eqn:PX; [|destruct (th_pc th); discriminate].
    eapply inside_held; eauto. { apply (lo_pc _ LO _ _ Ht). }
    intros y Y. rewrite Y in A. discriminate.
  - rewrite (pc_of_put _ _ _ _ Ht). unfold pc_of. rewrite Ht, Hp. simpl. split; [|discriminate].
    intros _. split; [reflexivity|discriminate].
  - rewrite (pc_of_put _ _ _ _ Ht). unfold pc_of. rewrite Ht, Hp, (O _ _ Hm). simpl. split; [|discriminate].
    intros _. split; [reflexivity|discriminate].
  - pose proof (pstep_threads _ _ _ _ _ _ _ _ Hs) as TS. pose proof Ht as Ht'. rewrite <- TS in Ht'.
    rewrite (pc_of_put _ _ _ _ Ht'). unfold pc_of. rewrite Ht. simpl.
    pose proof (lo_pc _ LO _ _ Ht) as PC.
    pose proof (pstep_pc_ok _ _ _ _ _ _ _ _ _ Hp Hm Hs PC) as PC1.
    destruct (th_pc th) eqn:P; simpl in Hp; try discriminate Hp; injection Hp as ->.
    + (* waiting for the store *)
      split.
      * intros _. split; [reflexivity|]. cbn [pstep] in Hs. rewrite (O _ _ Hm) in Hs.
        destruct (free (cs_sl s g)); [destruct (cs_sp s g)|]; injection Hs as <- <- <-; try discriminate.
        intros _. simpl. rewrite (store_of_one _ _ _ _ O Hm). left. reflexivity.
      * intros X. discriminate.
    + split; [intros X; exfalso; simpl in X; rewrite Hm, (O _ _ Hm) in X; discriminate|].
      intros _ X. leaves Hs; simpl in X; rewrite Hm, (O _ _ Hm) in X; discriminate.
    + split; [intros X; exfalso; simpl in X; rewrite Hm, (O _ _ Hm) in X; discriminate|].
      intros _ X. leaves Hs; simpl in X; rewrite Hm, (O _ _ Hm) in X; discriminate.
    + split; [intros X; exfalso; simpl in X; rewrite Hm, (O _ _ Hm) in X; discriminate|].
      intros _ X. leaves Hs; simpl in X; rewrite Hm, (O _ _ Hm) in X; discriminate.
    + split; [intros X; exfalso; simpl in X; rewrite Hm, (O _ _ Hm) in X; discriminate|].
      intros _ X. leaves Hs; simpl in X; rewrite Hm, (O _ _ Hm) in X; discriminate.
    + split; [intros X; exfalso; simpl in X; rewrite Hm, (O _ _ Hm) in X; discriminate|].
      intros _ X. leaves Hs; simpl in X; rewrite Hm, (O _ _ Hm) in X; discriminate.
    + split; [intros X; exfalso; simpl in X; rewrite Hm, (O _ _ Hm) in X; discriminate|].
      intros _ X. leaves Hs; simpl in X; rewrite Hm, (O _ _ Hm) in X; discriminate.
    + split; [intros X; exfalso; simpl in X; rewrite Hm, (O _ _ Hm) in X; discriminate|].
      intros _ X. leaves Hs; simpl in X; rewrite Hm, (O _ _ Hm) in X; discriminate.
    + split; [intros X; exfalso; simpl in X; rewrite Hm, (O _ _ Hm) in X; discriminate|].
      intros _ X. leaves Hs; simpl in X; rewrite Hm, (O _ _ Hm) in X; discriminate.
    + split; [intros X; exfalso; simpl in X; rewrite Hm, (O _ _ Hm) in X; discriminate|].
      intros _ X. leaves Hs; simpl in X; rewrite Hm, (O _ _ Hm) in X; discriminate.
    + split; [intros X; exfalso; simpl in X; rewrite Hm, (O _ _ Hm) in X; discriminate|].
      intros _ X. leaves Hs; simpl in X; rewrite Hm, (O _ _ Hm) in X; discriminate.
    + split; [intros X; exfalso; simpl in X; rewrite Hm, (O _ _ Hm) in X; discriminate|].
      intros _ X. leaves Hs; simpl in X; rewrite Hm, (O _ _ Hm) in X; discriminate.
    + split; [intros X; exfalso; simpl in X; rewrite Hm, (O _ _ Hm) in X; discriminate|].
      intros _ X. leaves Hs; simpl in X; rewrite Hm, (O _ _ Hm) in X; discriminate.
    + split; [intros X; exfalso; simpl in X; rewrite Hm, (O _ _ Hm) in X; discriminate|].
      intros _ X. leaves Hs; simpl in X; rewrite Hm, (O _ _ Hm) in X; discriminate.
    + split; [intros X; exfalso; simpl in X; rewrite Hm, (O _ _ Hm) in X; discriminate|].
      intros _ X. leaves Hs; simpl in X; rewrite Hm, (O _ _ Hm) in X; discriminate.
    + split; [intros X; exfalso; simpl in X; rewrite Hm, (O _ _ Hm) in X; discriminate|].
      intros _ _. cbn [pstep] in Hs. injection Hs as <- <- <-. simpl.
      rewrite (store_of_one _ _ _ _ O Hm). left. reflexivity.
Qed.

Lemma one_store_like g (s s' : csys) : like s s' -> one_store g s -> one_store g s'.
Proof.
  intros L O m cm M. pose proof (proj1 (decls_mutex _ _ m (lk_decl _ _ L))) as D. rewrite M in D.
  destruct (nth_error (cs_meths s) m) as [cm1|] eqn:M1; [rewrite (O _ _ M1) in D; auto|].
  pose proof (proj2 (decls_mutex _ _ m (lk_decl _ _ L))) as D2. rewrite M, M1 in D2. discriminate.
Qed.

Lemma holds_at (s : csys) g t : locks_ok s -> (cs_sl s g = Some t <-> sheld s (pc_of s t) = Some g).
Proof.
  intros L. rewrite (lo_s _ L g t). unfold at_thread, pc_of.
  destruct (nth_error (cs_threads s) t); simpl; tauto.
Qed.

Lemma cstep_other c (s : csys) t s' ev t' : cstep c s t = (s', ev) -> t' <> t -> pc_of s' t' = pc_of s t'.
Proof.
  intros H N. apply cstep_cases in H. unfold pc_of.
  destruct H as [|th x rest Ht Hp Hd Hm|th x rest cm Ht Hp Hd Hm|th x cm s1 p1 ev Ht Hp Hm Hs]; auto; simpl.
  3: rewrite (pstep_threads _ _ _ _ _ _ _ _ Hs).
  all: rewrite nth_set_nth; destruct (Nat.eqb_spec t' t); [contradiction|reflexivity].
Qed.

Lemma pc_ok_of (s : csys) t : locks_ok s -> pc_ok s (pc_of s t).
Proof.
  intros L. unfold pc_of. destruct (nth_error (cs_threads s) t) as [th|] eqn:E; [apply (lo_pc _ L _ _ E)|].
  split; [|split; [|split]]; try discriminate.
  intros y j [[f' EQ]|[[r' EQ]|EQ]]; discriminate EQ.
Qed.

Lemma rstep_static c g (r : rsys) t k r' l :
  good r -> bounded r -> one_store g (rs_now r) -> holder_inv g r -> rstep c r (Go t k) = (r', l) ->
  cstep c (rs_now r) t = (rs_now r', events l) /\ holder_inv g r'.
Proof.
  intros G B O I H.
  assert (L : locks_ok (rs_now r)) by apply G.
  assert (F : forall lc, loads (rs_now r) (pc_of (rs_now r) t) = Some lc -> fresh_view r (rs_view r t)).
  { intros lc LD. unfold holder_inv in I.
    assert (X : cs_sl (rs_now r) g = Some t).
    { apply holds_at; auto. destruct (pc_call (pc_of (rs_now r) t)) as [x|] eqn:PX.
      - eapply inside_held; eauto; [apply pc_ok_of; auto|]. intros y Y. rewrite Y in LD. discriminate.
      - destruct (pc_of (rs_now r) t); discriminate. }
    rewrite X in I. exact I. }
  destruct (rstep_fresh _ _ _ _ _ _ G B F H) as [CS [->|M]]; [auto|]. split; [exact CS|].
  assert (L' : locks_ok (rs_now r')) by (eapply cstep_locks; eauto).
  pose proof (like_step _ _ _ _ _ CS) as LK.
  assert (SS : forall p, sheld (rs_now r') p = sheld (rs_now r) p).
  { intros p. apply sheld_same. symmetry. apply LK. }
  pose proof (step_store _ _ _ _ _ _ L O CS) as [S1 S2].
  (* another thread holds the store before the step iff it does so afterwards *)
  assert (OT : forall t', t' <> t -> (cs_sl (rs_now r') g = Some t' <-> cs_sl (rs_now r) g = Some t')).
  { intros t' N. rewrite (holds_at _ g t' L), (holds_at _ g t' L'), SS, (cstep_other _ _ _ _ _ _ CS N). tauto. }
  pose proof (holds_at _ g t L) as HT. pose proof (holds_at _ g t L') as HT'. rewrite SS in HT'.
  unfold holder_inv in *.
  destruct (sheld_one g (rs_now r) (pc_of (rs_now r) t) O (pc_ok_of _ _ L)) as [SH|SH].
  - (* the thread does not hold the store *)
    destruct (S1 SH) as [A ACQ].
    destruct (cs_sl (rs_now r) g) as [h|] eqn:CS0.
    + assert (NE : h <> t) by (intros ->; rewrite (proj1 HT eq_refl) in SH; discriminate).
      rewrite (proj2 (OT h NE) eq_refl).
      rewrite (mv_others _ _ _ _ _ M h NE). eapply fresh_quiet; eauto. apply view_le_refl.
    + destruct (cs_sl (rs_now r') g) as [h|] eqn:CS1.
      * destruct (Nat.eq_dec h t) as [->|NE]; [|pose proof (proj1 (OT h NE) eq_refl) as Q; discriminate Q].
        apply (fresh_mine c r t k r' _ (rs_mx r (MxStore g)) CS M I).
        apply M. apply ACQ. apply HT'. reflexivity.
      * eapply fresh_quiet; eauto. apply M.
  - (* it does *)
    rewrite (proj2 HT SH) in I.
    assert (FM : fresh_view r' (rs_view r' t)) by (eapply fresh_mine; eauto; apply M).
    destruct (cs_sl (rs_now r') g) as [h|] eqn:CS1.
    + destruct (Nat.eq_dec h t) as [->|NE]; [exact FM|].
      rewrite (proj1 (OT h NE) eq_refl) in HT. apply HT in SH. congruence.
    + apply (fresh_le _ _ _ FM). apply M. apply S2; auto.
      destruct (sheld_one g (rs_now r') (pc_of (rs_now r') t)) as [X|X].
      * eapply one_store_like; eauto.
      * apply pc_ok_of. auto.
      * rewrite SS in X. auto.
      * rewrite SS in X. apply HT' in X. discriminate.
Qed.

Lemma sync_views (r : rsys) t t' r' l c t0 : rstep c r (Sync t t') = (r', l) ->
  rs_now r' = rs_now r /\ rs_past r' = rs_past r /\ rs_mx r' = rs_mx r /\ view_le (rs_view r t0) (rs_view r' t0) /\
  view_le (rs_view r t') (rs_view r' t) /\ l = [inl (t, t')] /\ (t0 <> t -> rs_view r' t0 = rs_view r t0).
Proof.
  unfold rstep. intros [= <- <-]. simpl. unfold set_at. rewrite Nat.eqb_refl. repeat split; auto.
  - destruct (Nat.eqb_spec t0 t); [subst; apply join_le_l|apply view_le_refl].
  - apply join_le_r.
  - intros N. destruct (Nat.eqb_spec t0 t); [contradiction|reflexivity].
Qed.

(** ** With a store, or with synchronisation, the execution is one of [Conc.v] *)
Lemma rrun_static c g mvs : forall (r : rsys) r' l,
  good r -> bounded r -> one_store g (rs_now r) -> holder_inv g r -> rrun c r mvs = (r', l) ->
  crun c (rs_now r) (movers mvs) = (rs_now r', events l).
Proof.
  induction mvs as [|mv mvs IH]; simpl; intros r r' l G B O I H.
  - injection H as <- <-. reflexivity.
  - destruct (rstep c r mv) as [r1 l1] eqn:E1. destruct (rrun c r1 mvs) as [r2 l2] eqn:E2.
    injection H as <- <-. rewrite events_app.
    pose proof (rstep_good _ _ _ _ _ G E1) as G1. pose proof (rstep_bounded _ _ _ _ _ B E1) as B1.
    destruct mv as [t k|t t'].
    + destruct (rstep_static _ _ _ _ _ _ _ G B O I E1) as [CS I1]. simpl. rewrite CS.
      assert (O1 : one_store g (rs_now r1)) by (eapply one_store_like; [eapply like_step; eauto|auto]).
      rewrite (IH _ _ _ G1 B1 O1 I1 E2). reflexivity.
    + destruct (sync_views _ _ _ _ _ _ t E1) as (N & P & X & _ & _ & -> & _). simpl. rewrite <- N.
      eapply IH; eauto. { rewrite N. auto. }
      unfold holder_inv in *. rewrite N, X.
      destruct (cs_sl (rs_now r) g) as [h|]; [|apply (fresh_same r); auto].
      apply (fresh_same r); auto. apply (fresh_le _ _ _ I). apply (sync_views _ _ _ _ _ _ h E1).
Qed.

Fixpoint know_after (know : option (list nat)) (l : rlog V) : option (list nat) :=
  match l with
  | [] => know
  | inl (t, t') :: l' =>
      know_after (match know with
                   | Some ts => Some (if is_in t' ts then t :: ts else ts)
                   | None => None
                   end) l'
  | inr (EvReturn t _ _) :: l' => know_after (Some [t]) l'
  | inr _ :: l' => know_after know l'
  end.

Lemma handed_from_app k (a b : rlog V) :
  handed_from k (a ++ b) = (handed_from k a && handed_from (know_after k a) b)%bool.
Proof.
  revert k. induction a as [|[[t t']|[]] a IH]; intros k; simpl; auto. rewrite IH, andb_assoc. reflexivity.
Qed.
Lemma know_after_app k (a b : rlog V) : know_after k (a ++ b) = know_after (know_after k a) b.
Proof. revert k. induction a as [|[[t t']|[]] a IH]; intros k; simpl; auto. Qed.

Definition may_begin (k : option (list nat)) (t : nat) : bool :=
  match k with Some ts => is_in t ts | None => true end.

Definition hand_inv (r : rsys) (log : rlog V) : Prop :=
  (busy_after false (events log) = false /\ others_idle (rs_now r) None /\
   forall t, may_begin (know_after None log) t = true -> fresh_view r (rs_view r t)) \/
  (busy_after false (events log) = true /\
   exists t x, others_idle (rs_now r) (Some t) /\ pc_call (pc_of (rs_now r) t) = Some x /\
     fresh_view r (rs_view r t)).

Lemma pstep_return_known c (s : csys) t cm p s' p' ev x k :
  pc_call p = Some x -> pstep c s t cm p = (s', p', ev) -> pc_call p' = None ->
  know_after k (map inr ev) = Some [t].
Proof. intros P H. leaves H; simpl in *; try discriminate; reflexivity. Qed.

Lemma idle_of (s : csys) o t : others_idle s o -> o <> Some t -> pc_of s t = PIdle.
Proof.
  intros O N. unfold pc_of. destruct (nth_error (cs_threads s) t) as [th|] eqn:E; [|reflexivity]. eapply O; eauto.
Qed.

Lemma rstep_hand c (r : rsys) mv r' l log :
  good r -> bounded r -> hand_inv r log -> rstep c r mv = (r', l) ->
  apart (events (log ++ l)) = true -> handed_over (log ++ l) = true ->
  (match mv with Go t k => cstep c (rs_now r) t = (rs_now r', events l) | Sync _ _ => rs_now r' = rs_now r end) /\
  hand_inv r' (log ++ l).
Proof.
  intros G B I H AP HO.
  unfold apart in AP. rewrite events_app, apart_from_app in AP. apply andb_true_iff in AP as [_ AP].
  unfold handed_over in HO. rewrite handed_from_app in HO. apply andb_true_iff in HO as [_ HO].
  destruct mv as [t k|t t'].
  2:{ destruct (sync_views _ _ _ _ _ _ t H) as (N & P & X & _ & _ & -> & _). split; [exact N|].
      unfold hand_inv in *. rewrite events_app, know_after_app, N. simpl. rewrite app_nil_r.
      destruct I as [(I1 & I2 & I3)|(I1 & t0 & x & I2 & I3 & I4)]; [left|right]; (split; [auto|]).
      - split; [auto|]. intros t0 MB. apply (fresh_same r); auto.
        destruct (sync_views _ _ _ _ _ _ t0 H) as (_ & _ & _ & LE & LE2 & _ & EQ).
        destruct (know_after None log) as [ts|]; simpl in MB, I3.
        + destruct (is_in t0 ts) eqn:E; [apply (fresh_le _ _ _ (I3 t0 E)); auto|].
          destruct (is_in t' ts) eqn:E'; [|congruence]. simpl in MB. rewrite E, orb_false_r in MB.
          apply Nat.eqb_eq in MB. subst t0. apply (fresh_le _ _ _ (I3 _ E')). auto.
        + apply (fresh_le _ _ _ (I3 t0 eq_refl)); auto.
      - exists t0, x. split; [auto|]. split; [auto|]. apply (fresh_same r); auto.
        apply (fresh_le _ _ _ I4). apply (sync_views _ _ _ _ _ _ t0 H). }
  assert (F : forall lc, loads (rs_now r) (pc_of (rs_now r) t) = Some lc -> fresh_view r (rs_view r t)).
  { intros lc LD. destruct I as [(I1 & I2 & I3)|(I1 & t0 & x & I2 & I3 & I4)].
    - rewrite (idle_of _ _ t I2) in LD by discriminate. discriminate.
    - destruct (Nat.eq_dec t0 t) as [->|NE]; [auto|].
      rewrite (idle_of _ _ t I2) in LD by congruence. discriminate. }
  destruct (rstep_fresh _ _ _ _ _ _ G B F H) as [CS MV]. split; [exact CS|].
  destruct (rstep_cases _ _ _ _ _ _ H) as (ev & -> & _ & _). rewrite events_inr in *.
  unfold hand_inv. rewrite events_app, events_inr, busy_after_app, know_after_app.
  assert (TH : forall th, nth_error (cs_threads (rs_now r)) t = Some th -> pc_of (rs_now r) t = th_pc th)
    by (intros th E; unfold pc_of; rewrite E; reflexivity).
  destruct (pc_call (pc_of (rs_now r) t)) as [x|] eqn:PX.
  - (* the thread that makes the call *)
    destruct I as [(I1 & I2 & I3)|(I1 & t0 & x0 & I2 & I3 & I4)].
    { rewrite (idle_of _ _ t I2) in PX by discriminate. discriminate. }
    destruct (Nat.eq_dec t0 t) as [->|NE]; [|rewrite (idle_of _ _ t I2) in PX by congruence; discriminate].
    assert (FM : fresh_view r' (rs_view r' t)).
    { destruct MV as [->|MV]; [auto|]. eapply fresh_mine; eauto. apply MV. }
    rewrite I1. apply cstep_cases in CS.
    inversion CS as [E1 E2|th y rest Ht Hp Hd Hm E1 E2|th y rest cm Ht Hp Hd Hm E1 E2|th y cm s1 p1 ev0 Ht Hp Hm Hs E1 E2].
    + right. split; [reflexivity|]. exists t, x. split; [auto|]. split; [auto|auto].
    + rewrite (TH _ Ht), Hp in PX. discriminate.
    + rewrite (TH _ Ht), Hp in PX. discriminate.
    + subst ev0. destruct (pstep_busy _ _ _ _ _ _ _ _ _ Hp Hs) as [BU _]. rewrite BU.
      assert (OI : others_idle s1 (Some t)).
      { intros t1 th1 N1 NE1. rewrite (pstep_threads _ _ _ _ _ _ _ _ Hs) in N1. eapply I2; eauto. }
      assert (LT : nth_error (cs_threads s1) t = Some th) by (rewrite (pstep_threads _ _ _ _ _ _ _ _ Hs); auto).
      destruct (pc_call p1) as [z|] eqn:PZ.
      * right. split; [reflexivity|]. exists t, z.
        split; [apply others_put; auto|]. split; [|exact FM].
        unfold pc_of. simpl. rewrite nth_set_nth, Nat.eqb_refl, LT. exact PZ.
      * left. split; [reflexivity|]. split.
        { intros t1 th1 N1 _. simpl in N1. rewrite nth_set_nth in N1.
          destruct (Nat.eqb_spec t1 t) as [->|NE1].
          - rewrite LT in N1. injection N1 as <-. simpl. destruct p1; discriminate || reflexivity.
          - eapply OI; eauto. congruence. }
        rewrite (pstep_return_known _ _ _ _ _ _ _ _ _ _ Hp Hs PZ). intros t1. simpl.
        rewrite orb_false_r. intros EQ. apply Nat.eqb_eq in EQ. subst t1. exact FM.
  - (* a thread that is between calls *)
    assert (PI : pc_of (rs_now r) t = PIdle) by (destruct (pc_of (rs_now r) t); discriminate || reflexivity).
    assert (FQ : forall t0, fresh_view r (rs_view r t0) -> fresh_view r' (rs_view r' t0)).
    { intros t0 FV. destruct MV as [->|MV]; [auto|]. eapply fresh_quiet; eauto.
      - rewrite PI. reflexivity.
      - destruct (Nat.eq_dec t0 t) as [->|NE]; [apply MV|]. rewrite (mv_others _ _ _ _ _ MV _ NE). apply view_le_refl. }
    assert (OTH : forall t0, t0 <> t -> pc_of (rs_now r') t0 = pc_of (rs_now r) t0)
      by (intros; eapply cstep_other; eauto).
    apply cstep_cases in CS.
    inversion CS as [E1 E2|th y rest Ht Hp Hd Hm E1 E2|th y rest cm Ht Hp Hd Hm E1 E2|th y cm s1 p1 ev0 Ht Hp Hm Hs E1 E2].
    + simpl. destruct I as [(I1 & I2 & I3)|(I1 & t0 & x0 & I2 & I3 & I4)]; [left|right]; eauto 8.
    + simpl. destruct I as [(I1 & I2 & I3)|(I1 & t0 & x0 & I2 & I3 & I4)]; [left|right].
      * split; [auto|]. split; [apply others_put; auto|]. auto.
      * split; [auto|]. exists t0, x0. split; [apply others_put; auto|]. split; [|auto].
        rewrite E1, OTH; auto. intros ->. rewrite PI in I3. discriminate.
    + destruct I as [(I1 & I2 & I3)|(I1 & t0 & x0 & I2 & I3 & I4)].
      2:{ rewrite <- E2, I1 in AP. discriminate. }
      rewrite <- E2 in HO. simpl in HO. rewrite andb_true_r in HO.
      right. split; [reflexivity|]. exists t, y.
      split; [apply others_put; [|auto]; intros t1 th1 N1 _; eapply I2; eauto; discriminate|].
      split; [|apply FQ, I3, HO].
      unfold pc_of. simpl. rewrite nth_set_nth, Nat.eqb_refl, Ht. destruct (cm_mutex cm); reflexivity.
    + rewrite (TH _ Ht) in PX. congruence.
Qed.

Lemma rrun_hand c mvs : forall (r : rsys) log r' l,
  good r -> bounded r -> hand_inv r log -> rrun c r mvs = (r', l) ->
  apart (events (log ++ l)) = true -> handed_over (log ++ l) = true ->
  crun c (rs_now r) (movers mvs) = (rs_now r', events l).
Proof.
  induction mvs as [|mv mvs IH]; simpl; intros r log r' l G B I H AP HO.
  - injection H as <- <-. reflexivity.
  - destruct (rstep c r mv) as [r1 l1] eqn:E1. destruct (rrun c r1 mvs) as [r2 l2] eqn:E2.
    injection H as <- <-.
    pose proof (rstep_good _ _ _ _ _ G E1) as G1. pose proof (rstep_bounded _ _ _ _ _ B E1) as B1.
    rewrite app_assoc in AP, HO.
    assert (AP1 : apart (events (log ++ l1)) = true).
    { rewrite events_app in AP. unfold apart in *. rewrite apart_from_app in AP. apply andb_true_iff in AP. apply AP. }
    assert (HO1 : handed_over (log ++ l1) = true).
    { unfold handed_over in *. rewrite handed_from_app in HO. apply andb_true_iff in HO. apply HO. }
    destruct (rstep_hand _ _ _ _ _ _ G B I E1 AP1 HO1) as [CS I1].
    pose proof (IH _ _ _ _ G1 B1 I1 E2 AP HO) as R. rewrite events_app. destruct mv as [t k|t t'].
    + simpl. rewrite CS, R. reflexivity.
    + simpl. destruct (sync_views _ _ _ _ _ _ t E1) as (N & _ & _ & _ & _ & -> & _). rewrite <- N. exact R.
Qed.

(** ** The beginning *)
Lemma start_fresh u l ms sp progs v : fresh_view (relaxed_start u l ms sp progs : rsys) v.
Proof.
  intros lc k [_ K]. unfold rs_time in K. simpl in K. assert (k = 0%nat) by lia. subst k. reflexivity.
Qed.

Lemma start_bounded u l ms sp progs : bounded (relaxed_start u l ms sp progs : rsys).
Proof. split; intros; apply Nat.le_refl. Qed.

Lemma start_hand u l ms sp progs : hand_inv (relaxed_start u l ms sp progs : rsys) [].
Proof.
  left. split; [reflexivity|]. split; [|intros; apply start_fresh].
  intros t th N _. simpl in N. apply nth_error_In in N. apply in_map_iff in N as (p & <- & _). reflexivity.
Qed.

Lemma start_holder g u l ms sp progs : holder_inv g (relaxed_start u l ms sp progs : rsys).
Proof. unfold holder_inv. simpl. apply start_fresh. Qed.

(** ** Loads of the last value *)
Lemma rstep_latest c (r : rsys) t r' l :
  rstep c r (Go t (rs_time r)) = (r', l) -> cstep c (rs_now r) t = (rs_now r', events l).
Proof.
  unfold rstep, cstep. destruct (nth_error (cs_threads (rs_now r)) t) as [th|] eqn:Et.
  2:{ intros [= <- <-]. reflexivity. }
  destruct (pc_call (th_pc th)) as [x|] eqn:Ep.
  2:{ destruct (match th_todo th with [] => _ | _ => _ end) as [s' ev]. intros [= <- <-]. rewrite events_inr. reflexivity. }
  destruct (nth_error (cs_meths (rs_now r)) (cc_m x)) as [cm|] eqn:Em.
  2:{ destruct (loads (rs_now r) (th_pc th)); intros [= <- <-]; reflexivity. }
  destruct (loads (rs_now r) (th_pc th)) as [lc|] eqn:El.
  - rewrite Nat.leb_refl, andb_true_r. destruct (Nat.leb (rs_view r t lc) (rs_time r)); rewrite state_at_now.
    all: destruct (pstep c (rs_now r) t cm (th_pc th)) as [[s1 p1] ev] eqn:Es.
    all: destruct (load_facts _ _ _ _ _ _ _ _ _ _ El Es) as (-> & _); intros [= <- <-]; rewrite events_inr; reflexivity.
  - destruct (pstep c (rs_now r) t cm (th_pc th)) as [[s1 p1] ev] eqn:Es.
    intros [= <- <-]. rewrite events_inr. reflexivity.
Qed.

Lemma crun_relaxed c sched : forall (r : rsys) s' tr, crun c (rs_now r) sched = (s', tr) ->
  exists mvs r' l, movers mvs = sched /\ rrun c r mvs = (r', l) /\ rs_now r' = s' /\ events l = tr.
Proof.
  induction sched as [|t sched IH]; simpl; intros r s' tr H.
  - injection H as <- <-. exists [], r, []. auto.
  - destruct (rstep c r (Go t (rs_time r))) as [r1 l1] eqn:E1. rewrite (rstep_latest _ _ _ _ _ E1) in H.
    destruct (crun c (rs_now r1) sched) as [s2 tr2] eqn:E2. injection H as <- <-.
    destruct (IH r1 _ _ E2) as (mvs & r' & l & M & R & N & EV).
    exists (Go t (rs_time r) :: mvs), r', (l1 ++ l). simpl. rewrite E1, R, events_app, EV, M, N. auto.
Qed.

End RelaxedSync.
