(** * LockProofs: who holds which mutex, and that nobody waits forever *)

From Coq Require Import NArith List Bool String Lia Arith.
From Verif Require Import Base Times Expect Mock Conc ConcSpec ConcProofs.
Import ListNotations.
Open Scope N_scope.

(** ** A mutex map that agrees with where the threads are *)
Section Lock.
Context {K : Type} (keq : forall a b : K, {a = b} + {a <> b}).

Definition holds (o : option K) (k : K) : bool :=
  match o with Some a => if keq a k then true else false | None => false end.

Lemma holds_iff o k : holds o k = true <-> o = Some k.
Proof.
  unfold holds. destruct o as [a|]; [destruct (keq a k)|]; split; congruence.
Qed.

Definition agree (lk : K -> option nat) (h : nat -> option K) : Prop :=
  forall k t, lk k = Some t <-> h t = Some k.

Lemma agree_step lk lk' h h' t :
  agree lk h ->
  (forall t', t' <> t -> h' t' = h t') ->
  (forall k, lk' k = if holds (h' t) k then Some t else if holds (h t) k then None else lk k) ->
  (forall k, h' t = Some k -> h t = Some k \/ lk k = None) ->
  agree lk' h'.
Proof.
  intros A O L F k t'. rewrite L. destruct (Nat.eq_dec t' t) as [->|N].
  - destruct (holds (h' t) k) eqn:E; [apply holds_iff in E; rewrite E; tauto|].
    assert (E' : h' t <> Some k) by (intros X; apply holds_iff in X; congruence).
    destruct (holds (h t) k) eqn:E2; [split; congruence|].
    split; [|congruence]. intros X. apply A in X. apply holds_iff in X. congruence.
  - rewrite (O _ N). destruct (holds (h' t) k) eqn:E.
    + apply holds_iff in E. split; [congruence|]. intros X. apply A in X.
      destruct (F _ E) as [Y|Y]; [|congruence]. apply A in Y. congruence.
    + destruct (holds (h t) k) eqn:E2; [|apply A].
      apply holds_iff, A in E2. split; [discriminate|]. intros X. apply A in X. congruence.
Qed.
End Lock.

Definition eq2 : forall a b : nat * nat, {a = b} + {a <> b}.
Proof. decide equality; apply Nat.eq_dec. Defined.

Arguments holds : simpl never.
Arguments eq2 : simpl never.

Section LockProofs.
Context {V U : Type}.
Notation csys := (csys V U).
Notation pc := (pc V U).
Notation ccall := (ccall V).

Definition is_static (a : action V U) : bool :=
  match a with AStatic _ _ => true | _ => false end.
Definition static_at (s : csys) (m i : nat) : bool :=
  match cexp s m i with Some e => is_static (e_action e) | None => false end.

(** The mutexes that a thread at [p] holds. *)
Definition mheld (p : pc) : option (nat * nat) :=
  match p with PEval x i => Some (cc_m x, i) | _ => None end.
Definition rheld (s : csys) (p : pc) : option (nat * nat) :=
  match p with
  | PRun x i | PExec x i _ | PExit x i _ => Some (cc_m x, i)
  | PShowR x i _ => if static_at s (cc_m x) i then Some (cc_m x, i) else None
  | _ => None
  end.
Definition sheld (s : csys) (p : pc) : option nat :=
  match p with
  | PLockS _ => None
  | _ => match pc_call p with
         | Some x => match nth_error (cs_meths s) (cc_m x) with
                     | Some cm => cm_mutex cm
                     | None => None
                     end
         | None => None
         end
  end.

Definition at_thread {A} (f : pc -> option A) (s : csys) (t : nat) : option A :=
  match nth_error (cs_threads s) t with Some th => f (th_pc th) | None => None end.

(** Every thread is inside a method that exists, at an expectation that exists,
    and only waits for a static store or an [Rfunc] that exists. *)
Definition pc_index (p : pc) : option (nat * nat) :=
  match p with
  | PEval x i | PDone x i | PCount x i | PShow x i _ | PVerify x i | PLoad1 x i
  | PLoad2 x i _ | PSatisfy x i | PLockR x i | PRun x i | PExec x i _ | PExit x i _
  | PShowR x i _ => Some (cc_m x, i)
  | _ => None
  end.
Definition pc_ok (s : csys) (p : pc) : Prop :=
  (forall x, pc_call p = Some x -> exists cm, nth_error (cs_meths s) (cc_m x) = Some cm) /\
  (forall m i, pc_index p = Some (m, i) -> cexp s m i <> None) /\
  (forall x, p = PLockS x -> exists cm g, nth_error (cs_meths s) (cc_m x) = Some cm /\ cm_mutex cm = Some g) /\
  (forall x i, (exists f, p = PExec x i f) \/ (exists r, p = PExit x i r) \/ p = PRun x i ->
     static_at s (cc_m x) i = true).

Record locks_ok (s : csys) : Prop := {
  lo_m : agree (fun k => cs_ml s (fst k) (snd k)) (at_thread mheld s);
  lo_r : agree (fun k => cs_rl s (fst k) (snd k)) (at_thread (rheld s) s);
  lo_s : agree (cs_sl s) (at_thread (sheld s) s);
  lo_pc : forall t th, nth_error (cs_threads s) t = Some th -> pc_ok s (th_pc th)
}.

Lemma set2_spec f m i o m' i' :
  set2 f m i o m' i' = if holds eq2 (Some (m, i)) (m', i') then o else f m' i'.
Proof.
  unfold set2, holds. destruct (eq2 (m, i) (m', i')) as [E|E].
  - injection E as -> ->. rewrite !Nat.eqb_refl. reflexivity.
  - destruct (Nat.eqb_spec m' m), (Nat.eqb_spec i' i); simpl; auto. subst. congruence.
Qed.

(** Bring [pstep] to its leaves. *)
Ltac leaves H :=
  unfold pstep, unlock_r in H;
  repeat match type of H with
  | context [match ?x with _ => _ end] =>
      lazymatch x with
      | context [match _ with _ => _ end] => fail
      | _ => let E := fresh "E" in destruct x eqn:E
      end
  end;
  injection H as <- <- <-.

Lemma pstep_static c (s : csys) t cm p s' p' ev m i :
  pstep c s t cm p = (s', p', ev) -> static_at s' m i = static_at s m i.
Proof.
  intros H. unfold static_at. leaves H; try reflexivity.
  all: rewrite ?cexp_put_ml, ?cexp_put_rl, ?cexp_put_sl, ?cexp_put_world, ?cexp_put_exp,
      ?cexp_put_ml, ?cexp_put_rl, ?cexp_put_world.
  all: match goal with |- context [(?a && ?b)%bool] => destruct (a && b)%bool eqn:Eb end; [|reflexivity].
  all: apply andb_true_iff in Eb as [Eb1 Eb2]; apply Nat.eqb_eq in Eb1, Eb2; subst m i.
  all: match goal with [H1 : cexp _ _ _ = Some _ |- _] => rewrite H1 end.
  all: try reflexivity.
  all: simpl; match goal with [H1 : e_action _ = _ |- _] => rewrite H1 end; reflexivity.
Qed.

Lemma pstep_index c (s : csys) t cm p s' p' ev m i :
  pstep c s t cm p = (s', p', ev) -> (cexp s' m i <> None <-> cexp s m i <> None).
Proof.
  intros H. leaves H; try tauto.
  all: rewrite ?cexp_put_ml, ?cexp_put_rl, ?cexp_put_sl, ?cexp_put_world, ?cexp_put_exp,
      ?cexp_put_ml, ?cexp_put_rl, ?cexp_put_world.
  all: match goal with |- context [(?a && ?b)%bool] => destruct (a && b)%bool eqn:Eb end; [|tauto].
  all: apply andb_true_iff in Eb as [Eb1 Eb2]; apply Nat.eqb_eq in Eb1, Eb2; subst m i.
  all: match goal with [H1 : cexp _ _ _ = Some _ |- _] => rewrite H1 end.
  all: split; discriminate.
Qed.

Lemma decls_mutex (l l' : list (cmeth V U)) m :
  map decl_of l = map decl_of l' ->
  match nth_error l m with Some cm => cm_mutex cm | None => None end =
  match nth_error l' m with Some cm => cm_mutex cm | None => None end /\
  match nth_error l m with Some cm => Some (cm_me cm) | None => None end =
  match nth_error l' m with Some cm => Some (cm_me cm) | None => None end.
Proof.
  intros H. pose proof (f_equal (fun x => nth_error x m) H) as E. simpl in E.
  rewrite !nth_error_map in E. destruct (nth_error l m), (nth_error l' m); simpl in E; try discriminate; auto.
  injection E as E1 E2 _. rewrite E1, E2. auto.
Qed.

Lemma sheld_same (s s' : csys) p :
  map decl_of (cs_meths s') = map decl_of (cs_meths s) -> sheld s' p = sheld s p.
Proof.
  intros H. unfold sheld. destruct (pc_call p) as [x|] eqn:E; [|destruct p; reflexivity].
  pose proof (proj1 (decls_mutex _ _ (cc_m x) H)) as D. destruct p; auto.
Qed.

Lemma rheld_same (s s' : csys) p :
  (forall m i, static_at s' m i = static_at s m i) -> rheld s' p = rheld s p.
Proof. intros H. unfold rheld. destruct p; auto. rewrite H. reflexivity. Qed.

Lemma pc_ok_same (s s' : csys) p :
  map decl_of (cs_meths s') = map decl_of (cs_meths s) ->
  (forall m i, static_at s' m i = static_at s m i) ->
  (forall m i, cexp s' m i <> None <-> cexp s m i <> None) ->
  pc_ok s p -> pc_ok s' p.
Proof.
  intros D ST IX (A & B & C & E). split; [|split; [|split]].
  - intros x P. destruct (A x P) as [cm M].
    pose proof (proj2 (decls_mutex _ _ (cc_m x) D)) as Q. rewrite M in Q.
    destruct (nth_error (cs_meths s') (cc_m x)); [eauto|discriminate].
  - intros m i P. apply IX. apply B. auto.
  - intros x P. destruct (C x P) as (cm & g & M & G).
    pose proof (decls_mutex _ _ (cc_m x) D) as [Q1 Q2]. rewrite M in Q1, Q2.
    destruct (nth_error (cs_meths s') (cc_m x)) as [cm'|]; [|discriminate]. exists cm', g. split; auto. congruence.
  - intros x i P. rewrite ST. apply E. auto.
Qed.


Lemma pstep_rl c (s : csys) t cm p s' p' ev :
  pc_ok s p -> pstep c s t cm p = (s', p', ev) ->
  (forall m i, rheld s p = Some (m, i) -> cs_rl s m i = Some t) ->
  (forall m i, cs_rl s' m i =
     if holds eq2 (rheld s p') (m, i) then Some t
     else if holds eq2 (rheld s p) (m, i) then None else cs_rl s m i) /\
  (forall m i, rheld s p' = Some (m, i) -> rheld s p = Some (m, i) \/ cs_rl s m i = None).
Proof.
  intros PC H HR. destruct PC as (_ & _ & _ & PC).
  assert (ID : forall o m i, (o = Some (m, i) -> cs_rl s m i = Some t) ->
     cs_rl s m i = (if holds eq2 o (m, i) then Some t else if holds eq2 o (m, i) then None else cs_rl s m i)).
  { intros o m i X. destruct (holds eq2 o (m, i)) eqn:Y; auto. apply holds_iff in Y. auto. }
  leaves H; subst.
  all: try (split; [intros m' i'; apply ID; auto | auto]).
  all: try (exfalso;
    match goal with
    | [H1 : cexp ?s (cc_m ?x) ?i = Some ?e, H2 : e_action ?e = _ |- _] =>
        assert (Q : static_at s (cc_m x) i = true) by (apply PC; eauto);
        unfold static_at in Q; rewrite H1, H2 in Q; discriminate
    end).
  all: unfold rheld in *; unfold static_at in *;
    repeat match goal with
    | [H1 : cexp ?s ?m ?i = Some ?e |- _] => rewrite ?H1 in *; clear H1
    | [H2 : e_action ?e = _ |- _] => rewrite ?H2 in *; clear H2
    end; cbn [is_static] in *.
  all: unfold put_rl; simpl; rewrite ?put_exp_rl; simpl; rewrite ?put_exp_rl.
  all: try (split; [reflexivity|auto]; fail).
  all: try (split; [intros m' i'; rewrite ?set2_spec; auto|intros m' i'; auto; discriminate]; fail).
  all: try (split; [intros m' i'; apply ID; auto | auto]; fail).
  all: try (match goal with |- context [free (cs_rl ?s ?m ?i)] => idtac | [H : free (cs_rl ?s ?m ?i) = true |- _] =>
     split; [intros m' i'; rewrite ?set2_spec; auto|intros m' i' [= <- <-]; right; destruct (cs_rl s m i); [discriminate|auto]] end; fail).
  all: try (match goal with |- context [match ?d with _ => _ end] => destruct d end;
     split; [intros m' i'; try apply ID; auto | auto]; fail).
  all: split; [intros m' i'; apply (ID (Some (cc_m x, i))); auto|auto].
Qed.

Lemma pstep_ml c (s : csys) t cm p s' p' ev :
  pstep c s t cm p = (s', p', ev) -> (pc_ok s p) ->
  (forall m i, mheld p = Some (m, i) -> cs_ml s m i = Some t) ->
  (forall m i, cs_ml s' m i =
     if holds eq2 (mheld p') (m, i) then Some t
     else if holds eq2 (mheld p) (m, i) then None else cs_ml s m i) /\
  (forall m i, mheld p' = Some (m, i) -> mheld p = Some (m, i) \/ cs_ml s m i = None).
Proof.
  intros H PC HR. destruct PC as (_ & PC & _ & _).
  leaves H; subst.
  all: try (split; [reflexivity|discriminate]).
  all: try (exfalso; eapply PC; [reflexivity|assumption]).
  all: unfold put_rl; simpl; rewrite ?put_exp_ml; simpl; rewrite ?put_exp_ml.
  all: try (split; [reflexivity|discriminate]; fail).
  all: try (split; [intros m' i'; rewrite ?set2_spec; auto|intros m' i'; auto; discriminate]; fail).
  split; [intros m' i'; rewrite ?set2_spec; auto|].
  intros m' i' [= <- <-]. right.
  match goal with [H : free (cs_ml ?s ?m ?i) = true |- _] => destruct (cs_ml s m i); [discriminate|auto] end.
Qed.

Lemma pstep_sl c (s : csys) t cm p s' p' ev x :
  pc_call p = Some x -> nth_error (cs_meths s) (cc_m x) = Some cm ->
  pstep c s t cm p = (s', p', ev) -> (pc_ok s p) ->
  (forall g, sheld s p = Some g -> cs_sl s g = Some t) ->
  (forall g, cs_sl s' g =
     if holds Nat.eq_dec (sheld s p') g then Some t
     else if holds Nat.eq_dec (sheld s p) g then None else cs_sl s g) /\
  (forall g, sheld s p' = Some g -> sheld s p = Some g \/ cs_sl s g = None).
Proof.
  intros PX CM H PC HR. destruct PC as (_ & PC & _ & _).
  assert (ID : forall o g, (o = Some g -> cs_sl s g = Some t) ->
     cs_sl s g = (if holds Nat.eq_dec o g then Some t else if holds Nat.eq_dec o g then None else cs_sl s g)).
  { intros o g X. destruct (holds Nat.eq_dec o g) eqn:Y; auto. apply holds_iff in Y. auto. }
  leaves H; subst.
  all: try (simpl in PX; discriminate PX).
  all: try (split; [intros g'; apply ID; auto | auto]).
  all: simpl in PX; injection PX as PX; subst.
  all: unfold sheld in *; simpl pc_call in *; cbv beta iota in *; rewrite ?CM in *.
  all: unfold put_rl; simpl; rewrite ?put_exp_sl; simpl; rewrite ?put_exp_sl.
  all: try (split; [intros g'; apply ID; auto | auto]; fail).
  all: try match goal with [H : cm_mutex _ = _ |- _] => rewrite H in * end.
  all: try (split; [reflexivity|auto]; fail).
  all: assert (HN : forall g, holds Nat.eq_dec (Some n) g = Nat.eqb g n)
    by (intros g'; unfold holds; destruct (Nat.eq_dec n g'), (Nat.eqb_spec g' n); congruence).
  all: split; [intros g'; rewrite HN; reflexivity|]; try discriminate.
  intros g' [= <-]. right. destruct (cs_sl s n); [discriminate|auto].
Qed.

Lemma pstep_pc_ok c (s : csys) t cm p s' p' ev x :
  pc_call p = Some x -> nth_error (cs_meths s) (cc_m x) = Some cm ->
  pstep c s t cm p = (s', p', ev) -> pc_ok s p -> pc_ok s p'.
Proof.
  intros PX CM H PC. leaves H; subst; auto; simpl in PX; try discriminate PX;
    injection PX as PX; subst; destruct PC as (PC1 & PC2 & PC3 & PC4).
  all: split; [|split; [|split]].
  all: try (intros y [= <-]; eauto; fail).
  all: try (intros y EQ; discriminate EQ).
  all: try (intros m' i' EQ; simpl in EQ; try discriminate EQ; injection EQ as <- <-;
            first [congruence | apply PC2; reflexivity]; fail).
  all: try (intros y j [[f' EQ]|[[r' EQ]|EQ]]; try discriminate EQ; injection EQ; intros; subst;
            unfold static_at;
            repeat match goal with
            | [H1 : cexp ?s ?m ?i = Some ?e |- _] => rewrite ?H1 in *; clear H1
            | [H2 : e_action ?e = _ |- _] => rewrite ?H2 in *; clear H2
            end; reflexivity).
Qed.

Lemma cstep_locks c (s : csys) t s' ev : locks_ok s -> cstep c s t = (s', ev) -> locks_ok s'.
Proof.
  intros [LM LR LS LP] H. apply cstep_cases in H.
  destruct H as [|th x rest Ht Hp Hd Hm|th x rest cm Ht Hp Hd Hm|th x cm s1 p1 ev Ht Hp Hm Hs].
  - split; auto.
  - assert (AT : forall A (f : pc -> option A) t', f PIdle = None ->
      at_thread f (put_thread s t (Thread rest PIdle)) t' = at_thread f s t').
    { intros A f t' F. unfold at_thread. simpl. rewrite nth_set_nth, Ht.
      destruct (Nat.eqb_spec t' t); [|auto]. subst. rewrite Ht, Hp. reflexivity. }
    split.
    + intros k t'. rewrite AT by reflexivity. apply LM.
    + intros k t'. rewrite AT by reflexivity. apply LR.
    + intros k t'. rewrite AT by reflexivity. apply LS.
    + intros t' th'. simpl. rewrite nth_set_nth, Ht. destruct (Nat.eqb_spec t' t); [|apply LP].
      intros [= <-]. simpl. rewrite <- Hp. eapply LP; eauto.
  - set (p := match cm_mutex cm with Some _ => PLockS x | None => PLockM x 0 end).
    assert (AT : forall A (f : pc -> option A) t', f PIdle = None -> f p = None ->
      at_thread f (put_thread s t (Thread rest p)) t' = at_thread f s t').
    { intros A f t' F1 F2. unfold at_thread. simpl. rewrite nth_set_nth, Ht.
      destruct (Nat.eqb_spec t' t); [|auto]. subst. rewrite Ht, Hp. simpl. congruence. }
    split.
    + intros k t'. rewrite AT; [apply LM|reflexivity|unfold p; destruct (cm_mutex cm); reflexivity].
    + intros k t'. rewrite AT; [apply LR|reflexivity|unfold p; destruct (cm_mutex cm); reflexivity].
    + intros k t'. rewrite AT; [apply LS|reflexivity|unfold p].
      destruct (cm_mutex cm) eqn:E; simpl; auto. rewrite Hm. auto.
    + intros t' th'. simpl. rewrite nth_set_nth, Ht. destruct (Nat.eqb_spec t' t); [|apply LP].
      intros [= <-]. simpl. unfold p. destruct (cm_mutex cm) as [g|] eqn:E.
      * split; [|split; [|split]]; try discriminate.
        -- intros y [= <-]. eauto.
        -- intros y [= <-]. eauto.
        -- intros y j [[f' EQ]|[[r' EQ]|EQ]]; discriminate EQ.
      * split; [|split; [|split]]; try discriminate.
        -- intros y [= <-]. eauto.
        -- intros y j [[f' EQ]|[[r' EQ]|EQ]]; discriminate EQ.
  - pose proof (pstep_threads _ _ _ _ _ _ _ _ Hs) as TH.
    pose proof (pstep_decls _ _ _ _ _ _ _ _ Hs) as DE.
    pose proof (fun m i => pstep_static _ _ _ _ _ _ _ _ m i Hs) as ST.
    pose proof (fun m i => pstep_index _ _ _ _ _ _ _ _ m i Hs) as IX.
    pose proof (LP _ _ Ht) as PC.
    set (s2 := put_thread s1 t (Thread (th_todo th) p1)).
    assert (NE : forall A (f : pc -> option A) t', t' <> t -> at_thread f s2 t' = at_thread f s t').
    { intros A f t' N. unfold at_thread, s2. simpl. rewrite nth_set_nth, TH.
      destruct (Nat.eqb_spec t' t); [contradiction|auto]. }
    assert (NT : forall A (f : pc -> option A), at_thread f s2 t = f p1).
    { intros A f. unfold at_thread, s2. simpl. rewrite nth_set_nth, TH, Nat.eqb_refl, Ht. reflexivity. }
    assert (OT : forall A (f : pc -> option A), at_thread f s t = f (th_pc th)).
    { intros A f. unfold at_thread. rewrite Ht. reflexivity. }
    assert (RS : forall p, rheld s2 p = rheld s p) by (intros p; apply rheld_same; auto).
    assert (SS : forall p, sheld s2 p = sheld s p) by (intros p; apply sheld_same; auto).
    assert (ATR : forall t', at_thread (rheld s2) s2 t' = at_thread (rheld s) s2 t').
    { intros t'. unfold at_thread. destruct (nth_error (cs_threads s2) t'); auto. }
    assert (ATS : forall t', at_thread (sheld s2) s2 t' = at_thread (sheld s) s2 t').
    { intros t'. unfold at_thread. destruct (nth_error (cs_threads s2) t'); auto. }
    split.
    + destruct (pstep_ml _ _ _ _ _ _ _ _ Hs PC) as [A B].
      { intros m i X. apply (LM (m, i)). rewrite OT. auto. }
      apply (agree_step eq2 (fun k => cs_ml s (fst k) (snd k)) _ (at_thread mheld s) _ t); auto.
      * intros [m i]. rewrite NT, OT. simpl. apply A.
      * intros [m i]. rewrite NT, OT. apply B.
    + destruct (pstep_rl _ _ _ _ _ _ _ _ PC Hs) as [A B].
      { intros m i X. apply (LR (m, i)). rewrite OT. auto. }
      apply (agree_step eq2 (fun k => cs_rl s (fst k) (snd k)) _ (at_thread (rheld s) s) _ t); auto.
      * intros t' N. rewrite ATR. auto.
      * intros [m i]. rewrite ATR, NT, OT. simpl. apply A.
      * intros [m i]. rewrite ATR, NT, OT. apply B.
    + destruct (pstep_sl _ _ _ _ _ _ _ _ _ Hp Hm Hs PC) as [A B].
      { intros g X. apply LS. rewrite OT. auto. }
      apply (agree_step Nat.eq_dec (cs_sl s) _ (at_thread (sheld s) s) _ t); auto.
      * intros t' N. rewrite ATS. auto.
      * intros g. rewrite ATS, NT, OT. simpl. apply A.
      * intros g. rewrite ATS, NT, OT. apply B.
    + intros t' th' N'. apply (pc_ok_same s); auto.
      unfold s2 in N'. simpl in N'. rewrite nth_set_nth, TH, Ht in N'.
      destruct (Nat.eqb_spec t' t); [|eauto]. injection N' as <-. simpl.
      eapply pstep_pc_ok; eauto.
Qed.

Lemma start_locks (u : U) l ms sp progs : locks_ok (cstart (V := V) u l ms sp progs).
Proof.
  assert (P : forall t th, nth_error (cs_threads (cstart (V := V) u l ms sp progs)) t = Some th -> th_pc th = PIdle).
  { intros t th. simpl. rewrite nth_error_map. destruct (nth_error progs t); simpl; [|discriminate].
    intros [= <-]. reflexivity. }
  assert (AT : forall A (f : pc -> option A) t, f PIdle = None -> at_thread f (cstart u l ms sp progs) t = None).
  { intros A f t F. unfold at_thread. destruct (nth_error _ _) eqn:E; auto. apply P in E. rewrite E. auto. }
  split.
  - intros k t. rewrite AT by reflexivity. simpl. split; discriminate.
  - intros k t. rewrite AT by reflexivity. simpl. split; discriminate.
  - intros k t. rewrite AT by reflexivity. simpl. split; discriminate.
  - intros t th E. apply P in E. rewrite E. split; [|split; [|split]]; try discriminate.
    intros y j [[f' EQ]|[[r' EQ]|EQ]]; discriminate EQ.
Qed.

Lemma crun_locks c sched : forall (s : csys) s' tr, locks_ok s -> crun c s sched = (s', tr) -> locks_ok s'.
Proof.
  induction sched as [|t sched IH]; simpl; intros s s' tr L H.
  - injection H as <- <-. auto.
  - destruct (cstep c s t) as [s1 e1] eqn:E1. destruct (crun c s1 sched) as [s2 e2] eqn:E2.
    injection H as <- <-. eapply IH; [|eauto]. eapply cstep_locks; eauto.
Qed.

End LockProofs.
