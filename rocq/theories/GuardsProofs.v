(** * GuardsProofs: proofs about guards that are kept in variables *)

From Coq Require Import NArith List Bool String Lia Arith.
From Verif Require Import Base Times Expect Mock Conc ConcSpec ConcProofs LockProofs ThreadProofs LinProofs
  Contexts ContextsSpec ContextsProofs ContextsEnd Guards GuardsSpec.
Import ListNotations.
Open Scope nat_scope.

Local Arguments apply_setter : simpl never.
Local Arguments set_nth : simpl never.
Local Arguments drop_store : simpl never.
Local Arguments put_exp : simpl never.
Local Arguments pstep : simpl never.

Section Guards.
Context {V U : Type} (c : cfg) (g : nat) (sh : list (cmeth V U) -> list (cmeth V U)).
Notation csys := (csys V U).
Notation xsys := (xsys V U).
Notation xpc := (xpc V U).
Notation gsys := (gsys V U).
Notation gthread := (gthread V U).

Lemma pstep_lock_kept (y : csys) t cm p y' p' ev :
  pstep c y t cm p = (y', p', ev) -> inside p = true -> inside p' = true -> cs_sl y' g = cs_sl y g.
Proof.
  intros H I I'. destruct p; try discriminate I; unfold pstep in H;
  repeat match goal with
  | H : context [match ?x with _ => _ end] |- _ => destruct x eqn:?; try discriminate
  end; inversion H; subst; try discriminate I'; try reflexivity;
  unfold unlock_r, put_exp, put_world, put_ml, put_rl; repeat match goal with
  | |- context [match ?x with _ => _ end] => destruct x eqn:?
  end; reflexivity.
Qed.

Lemma qstep_outside (s : xsys) t (q : xpc) s' out l :
  one_store g (x_sys s) -> qinside q = false -> qstep c g sh s t q = (s', out, l) ->
  (cs_meths (x_sys s') = cs_meths (x_sys s) /\ cs_sl (x_sys s') g = cs_sl (x_sys s) g /\
   (forall q', out = inl q' -> qinside q' = false) /\
   (x_seqs s' = x_seqs s \/ exists u, l = [(t, ASetup u)]) /\
   (cs_sl (x_sys s) g <> None -> forall t' a, In (t', a) l -> touches a = false)) \/
  (cs_sl (x_sys s) g = None /\ one_store g (x_sys s') /\ exists q', out = inl q' /\ qinside q' = true /\ cs_sl (x_sys s') g = Some t).
Proof.
  intros O I H.
  assert (ST : (s, @inl xpc (answer V) q, @nil (nat * atom V U)) = (s', out, l) ->
    cs_meths (x_sys s') = cs_meths (x_sys s) /\ cs_sl (x_sys s') g = cs_sl (x_sys s) g /\
    (forall q', out = inl q' -> qinside q' = false) /\
    (x_seqs s' = x_seqs s \/ exists u, l = [(t, ASetup u)]) /\
    (cs_sl (x_sys s) g <> None -> forall t' a, In (t', a) l -> touches a = false)).
  { intros [= <- <- <-]. repeat split; auto. - intros q' [= <-]. auto. - contradiction. }
  destruct s as [y sq mx ths].
  destruct q as [p|m l0|m l0| | | |b|l0 b| | |u]; try discriminate I; cbn [qstep x_sys x_seqs x_mutex x_threads] in *.
  - destruct p; try discriminate I; cbn [pc_call] in H; [left; auto|].
    destruct (nth_error (cs_meths y) (cc_m x)) as [cm|] eqn:N; [|left; auto].
    unfold pstep in H. rewrite (O _ _ N) in H. destruct (free (cs_sl y g)) eqn:F; [|left; auto].
    apply free_none in F. destruct (cs_sp y g); cbn in H; injection H as <- <- <-.
    + left. cbn. repeat split; auto; try discriminate. congruence.
    + right. split; [auto|]. split; [exact O|]. eexists. split; [reflexivity|]. cbn. rewrite Nat.eqb_refl. auto.
  - destruct (nth_error (cs_meths y) m) as [cm|] eqn:N; [|left; auto].
    destruct (free (cs_sl y g)) eqn:F; [|left; auto].
    apply free_none in F. destruct (cs_sp y g); injection H as <- <- <-.
    + left. repeat split; auto; try discriminate. congruence.
    + right. split; [auto|]. split. { intros m' cm'. cbn. eapply one_store_set; eauto. }
      eexists. split; [reflexivity|]. cbn. rewrite Nat.eqb_refl. auto.
  - destruct (free (cs_sl y g)) eqn:F; [|left; auto].
    apply free_none in F. destruct (cs_sp y g); injection H as <- <- <-.
    + left. repeat split; auto; try discriminate. congruence.
    + right. split; [auto|]. split; [exact O|]. eexists. split; [reflexivity|]. cbn. rewrite Nat.eqb_refl. auto.
  - injection H as <- <- <-. left. cbn. rewrite Nat.eqb_refl. repeat split; auto.
    + intros q' [= <-]. auto.
    + intros _ t' a. destruct (cs_sp y g); cbn; [|tauto]. intros [[= <- <-]|[]]. auto.
  - destruct (free (cs_sl y g)) eqn:F; [|left; auto].
    apply free_none in F. destruct (cs_sp y g); injection H as <- <- <-.
    + left. repeat split; auto; try discriminate. congruence.
    + right. split; [auto|]. split; [exact O|]. eexists. split; [reflexivity|]. cbn. rewrite Nat.eqb_refl. auto.
  - injection H as <- <- <-. left. repeat split; auto; try discriminate. contradiction.
  - destruct (mx); [left; auto|]. injection H as <- <- <-. left. cbn. repeat split; auto; try discriminate.
    intros _ t' a [[= <- <-]|[]]. auto.
  - injection H as <- <- <-. left. cbn. repeat split; auto; try discriminate.
    intros _ t' a [[= <- <-]|[]]. auto.
  - injection H as <- <- <-. left. cbn. repeat split; eauto; try discriminate.
    intros _ t' a [[= <- <-]|[]]. auto.
Qed.

Lemma qstep_inside (s : xsys) t (q : xpc) s' out l :
  one_store g (x_sys s) -> qinside q = true -> cs_sl (x_sys s) g = Some t -> qstep c g sh s t q = (s', out, l) ->
  one_store g (x_sys s') /\ (forall q', out = inl q' -> qinside q' = true -> cs_sl (x_sys s') g = Some t).
Proof.
  intros O I L H. destruct q as [p|m l0|m l0| | | |b|l0 b| | |u]; try discriminate I; cbn [qstep] in H.
  - destruct (inside_call _ I) as [x PX]. rewrite PX in H.
    destruct (nth_error (cs_meths (x_sys s)) (cc_m x)) as [cm|] eqn:N; [|injection H as <- <- <-; auto].
    destruct (pstep c (x_sys s) t cm p) as [[y' p'] ev] eqn:PS.
    injection H as <- <- <-. split; [exact (proj1 (pstep_one c g _ _ _ _ _ _ _ O PS))|].
    intros q' E I'. destruct (call_answer ev); [discriminate|]. injection E as <-. cbn in *.
    rewrite (pstep_lock_kept _ _ _ _ _ _ _ PS); auto.
  - destruct l0 as [|st l0].
    + injection H as <- <- <-. split; [exact O|discriminate].
    + destruct (cexp _ _ _) as [e|]; [|injection H as <- <- <-; auto].
      destruct (apply_setter _ _ _ _ _) as [[e' sq] r].
      destruct r as [[]|msg|]; injection H as <- <- <-; cbn; (split; [apply (one_put_exp g _ _ _ _ O)|try discriminate]).
      intros q' _ _. unfold put_exp. destruct (nth_error _ _); auto.
  - injection H as <- <- <-. split.
    + intros m cm. cbn. rewrite nth_error_map. destruct (nth_error (cs_meths (x_sys s)) m) eqn:N; [|discriminate].
      intros [= <-]. cbn. eapply O; eauto.
    + intros q' [= <-]. discriminate.
Qed.

(** ** The invariant: who holds the store *)
Definition gholds (th : gthread) : bool :=
  match guard_of th with
  | Some _ => true
  | None => match th with GIn _ _ _ q => qinside q | _ => false end
  end.
Definition gfine (s : xsys) (t : nat) (th : gthread) : Prop :=
  (gholds th = true -> cs_sl (x_sys s) g = Some t) /\
  (forall m i, guard_of th = Some (m, i) ->
     cexp (x_sys s) m i <> None /\ S i = List.length (cexps (x_sys s) m)) /\
  match th with GIn (Some _) _ _ q => qinside q = false | _ => True end.
Definition GI (s : gsys) : Prop :=
  one_store g (x_sys (g_x s)) /\ forall t th, nth_error (g_threads s) t = Some th -> gfine (g_x s) t th.

(** What a step of thread [t] does to the rest. *)
Definition calm (s s' : xsys) : Prop :=
  cs_meths (x_sys s') = cs_meths (x_sys s) /\ cs_sl (x_sys s') g = cs_sl (x_sys s) g.

Lemma gfine_calm s s' t th : calm s s' -> gfine s t th -> gfine s' t th.
Proof.
  intros [M L] (A & B & D). split; [rewrite L; auto|]. split; [|exact D].
  unfold cexp, cexps in *. rewrite M. auto.
Qed.
Lemma gfine_other s s' t t' th :
  t' <> t -> cs_sl (x_sys s) g = None \/ cs_sl (x_sys s) g = Some t -> gfine s t' th -> gfine s' t' th.
Proof.
  intros N L (A & B & D).
  assert (F : gholds th = false). { destruct (gholds th); auto. specialize (A eq_refl). destruct L; congruence. }
  split; [congruence|]. split; [|exact D]. intros m i E. unfold gholds in F. rewrite E in F. discriminate.
Qed.

Lemma gtstep_step s t th s' th' ev :
  one_store g (x_sys s) -> gfine s t th -> gtstep c g sh s t th = (s', th', ev) ->
  one_store g (x_sys s') /\ gfine s' t th' /\
  (calm s s' \/ cs_sl (x_sys s) g = None \/ cs_sl (x_sys s) g = Some t).
Proof.
  intros O F H. pose proof F as (A & B & D).
  assert (ST : (s, th, @nil (gevent V U)) = (s', th', ev) -> one_store g (x_sys s') /\ gfine s' t th' /\
    (calm s s' \/ cs_sl (x_sys s) g = None \/ cs_sl (x_sys s) g = Some t)).
  { intros [= <- <- <-]. split; [exact O|]. split; [exact F|]. left. split; reflexivity. }
  assert (ST2 : forall th2, gholds th2 = gholds th -> guard_of th2 = guard_of th ->
    match th2 with GIn (Some _) _ _ q => qinside q = false | _ => True end ->
    (s, th2, ev) = (s', th', ev) -> one_store g (x_sys s') /\ gfine s' t th' /\
    (calm s s' \/ cs_sl (x_sys s) g = None \/ cs_sl (x_sys s) g = Some t)).
  { intros th2 E1 E2 E3 [= <- <-]. split; [exact O|]. split; [|left; split; reflexivity].
    split; [rewrite E1; auto|]. split; [rewrite E2; auto|auto]. }
  assert (FO : forall o : xop V U, qinside (first o) = false) by (intros [| | |[]| | |]; reflexivity).
  destruct th as [gd p|gd o k q|gd m k].
  - destruct p as [|o k|m k|st k|f k|b k]; cbn [gtstep] in H.
    + destruct gd as [[m i]|]; auto.
    + assert (E : ev = []) by (destruct gd as [[m i]|]; congruence). subst ev.
      apply (ST2 (GIn gd o k (first o))); [unfold gholds; cbn; rewrite FO; destruct gd; auto|reflexivity| |destruct gd as [[? ?]|]; auto].
      rewrite FO. destruct gd; auto.
    + assert (E : ev = []) by (destruct gd as [[? i]|]; congruence). subst ev.
      apply (ST2 (GLock gd m k)); auto. destruct gd as [[? ?]|]; auto.
    + destruct gd as [[m i]|]; [|auto].
      destruct (cexp (x_sys s) m i) as [e|] eqn:CE; [|auto].
      destruct (apply_setter c t st e (x_seqs s)) as [[e' sq] r].
      specialize (A eq_refl). destruct (B m i eq_refl) as [B1 B2].
      assert (LE : cs_sl (put_exp (x_sys s) m i e') g = Some t).
      { unfold put_exp. destruct (nth_error _ _); auto. }
      destruct r as [[]|msg|]; injection H as <- <- <-; cbn.
      * split; [apply one_put_exp, O|]. split; [|auto]. split; [auto|]. split; [|auto].
        intros m0 i0 [= <- <-]. cbn. rewrite cexp_put_exp. split.
        -- rewrite CE. destruct (_ && _)%bool; discriminate.
        -- rewrite cexps_put_exp, set_nth_length. exact B2.
      * split; [apply one_put_exp, O|]. split; [|auto]. split; [discriminate|]. split; [discriminate|auto].
      * split; [apply one_put_exp, O|]. split; [|auto]. split; [discriminate|]. split; [discriminate|auto].
    + assert (E : (put_sys s (put_world (x_sys s) (World (f (cs_user (x_sys s))) (cs_levels (x_sys s)) t false)) (x_seqs s), GIdle gd k, @nil (gevent V U)) = (s', th', ev))
        by (destruct gd as [[m i]|]; exact H).
      injection E as <- <- <-. split; [exact O|].
      assert (C : calm s (put_sys s (put_world (x_sys s) (World (f (cs_user (x_sys s))) (cs_levels (x_sys s)) t false)) (x_seqs s))) by (split; reflexivity).
      split; [|left; exact C].
      split; [exact A|]. split; [exact B|auto].
    + destruct gd as [[m i]|]; [|auto]. injection H as <- <- <-. split; [exact O|].
      split; [split; [discriminate|split; [discriminate|auto]]|]. right. right. apply A. reflexivity.
  - cbn [gtstep] in H. destruct (qstep c g sh s t q) as [[s1 out] l] eqn:QS.
    destruct (qinside q) eqn:I.
    + assert (L : cs_sl (x_sys s) g = Some t). { apply A. unfold gholds. cbn. rewrite I. destruct gd; auto. }
      destruct gd as [mi|]; [congruence|].
      destruct (qstep_inside _ _ _ _ _ _ O I L QS) as [O' K].
      destruct out as [q'|r]; injection H as <- <- <-; (split; [exact O'|]); (split; [|auto]).
      * split; [|split; [discriminate|auto]]. unfold gholds. cbn. eauto.
      * split; [discriminate|split; [discriminate|auto]].
    + destruct (qstep_outside _ _ _ _ _ _ O I QS) as [(M & L & Q & _ & _)|(L & O' & q' & -> & I' & L')].
      * assert (C : calm s s1) by (split; auto).
        assert (O' : one_store g (x_sys s1)) by (intros m cm; rewrite M; apply O).
        assert (G : forall th2, gholds th2 = gholds (GIn gd o k q) -> guard_of th2 = gd ->
          match th2 with GIn (Some _) _ _ q => qinside q = false | _ => True end -> gfine s1 t th2).
        { intros th2 E1 E2 E3. apply (gfine_calm s); auto. split; [rewrite E1; auto|]. split; [rewrite E2; auto|auto]. }
        destruct out as [q'|r]; injection H as <- <- <-; (split; [exact O'|]); (split; [|left; exact C]); apply G; auto.
        -- unfold gholds. cbn. rewrite I. rewrite (Q _ eq_refl). reflexivity.
        -- rewrite (Q _ eq_refl). destruct gd; auto.
        -- unfold gholds. cbn. rewrite I. reflexivity.
      * destruct gd as [mi|]. { specialize (A eq_refl). congruence. }
        injection H as <- <- <-. split; [exact O'|]. split; [|auto].
        split; [auto|]. split; [discriminate|auto].
  - cbn [gtstep] in H. destruct (nth_error (cs_meths (x_sys s)) m) as [cm|] eqn:N; [|auto].
    destruct (free (cs_sl (x_sys s) g)) eqn:FR; [|auto]. apply free_none in FR.
    destruct gd as [mi|]. { specialize (A eq_refl). congruence. }
    destruct (cs_sp (x_sys s) g); injection H as <- <- <-.
    + split; [exact O|]. split; [split; [discriminate|split; [discriminate|auto]]|auto].
    + split. { intros m' cm'. cbn. eapply one_store_set; eauto. }
      split; [|auto]. split; [cbn; rewrite Nat.eqb_refl; auto|]. split; [|auto].
      intros m0 i0 [= <- <-]. unfold cexp, cexps. cbn. rewrite nth_set_nth, Nat.eqb_refl, N. cbn.
      rewrite nth_error_app2, Nat.sub_diag by lia. split; [discriminate|]. rewrite app_length. cbn. lia.
Qed.

Lemma gstep_inv s t s' ev : GI s -> gstep c g sh s t = (s', ev) -> GI s'.
Proof.
  intros [O F] H. unfold gstep in H. destruct (nth_error (g_threads s) t) as [th|] eqn:N.
  2:{ injection H as <- <-. split; auto. }
  destruct (gtstep c g sh (g_x s) t th) as [[x th'] ev'] eqn:G. injection H as <- <-.
  destruct (gtstep_step _ _ _ _ _ _ O (F _ _ N) G) as (O' & F' & K). split; [exact O'|].
  intros t0 th0 N0. cbn in N0. rewrite nth_set_nth in N0. destruct (Nat.eqb_spec t0 t) as [->|NE].
  - rewrite N in N0. injection N0 as <-. exact F'.
  - specialize (F _ _ N0). destruct K as [K|K]; [exact (gfine_calm _ _ _ _ K F)|exact (gfine_other _ _ _ _ _ NE K F)].
Qed.

Lemma grun_inv sched s s' tr : GI s -> grun c g sh s sched = (s', tr) -> GI s'.
Proof.
  revert s s' tr. induction sched as [|t sched IH]; intros s s' tr I H; cbn in H.
  - injection H as <- <-. auto.
  - destruct (gstep c g sh s t) as [s1 e1] eqn:S1. destruct (grun c g sh s1 sched) as [s2 e2] eqn:S2.
    injection H as <- <-. eapply IH; [|exact S2]. eapply gstep_inv; eauto.
Qed.

Lemma gstart_inv u l q ms poison progs :
  (forall cm, In cm ms -> cm_mutex cm = Some g) -> GI (gstart u l q ms poison progs).
Proof.
  intros H. split.
  - intros m cm N. apply H. eapply nth_error_In. exact N.
  - intros t th N. cbn in N. rewrite nth_error_map in N. destruct (nth_error progs t); [|discriminate].
    injection N as <-. split; [discriminate|]. split; [discriminate|auto].
Qed.

(** ** Nobody else gets to the store *)
Lemma setters_app t (a b : list (gevent V U)) : setters_of t (a ++ b) = setters_of t a ++ setters_of t b.
Proof. induction a as [|[] a IH]; cbn; auto. destruct (Nat.eqb _ _); cbn; [f_equal|]; auto. Qed.
Lemma setters_atoms t (l : list (nat * atom V U)) :
  setters_of t (map (fun ta => GvAtom (fst ta) (snd ta)) l) = [].
Proof. induction l; cbn; auto. Qed.
Lemma apply_setters_app th l1 l2 (e : expectation V U) q e1 q1 :
  apply_setters c th l1 e q = (e1, q1, Ret tt) ->
  apply_setters c th (l1 ++ l2) e q = apply_setters c th l2 e1 q1.
Proof.
  revert e q. induction l1 as [|st l1 IH]; intros e q H; cbn in *.
  - injection H as <- <-. auto.
  - destruct (apply_setter c th st e q) as [[e0 q0] r]. destruct r as [[]|m|]; try discriminate. auto.
Qed.

Lemma with_exp_same (y : csys) m i e : cexp y m i = Some e -> with_exp (cs_meths y) m i e = cs_meths y.
Proof.
  unfold cexp, cexps, with_exp. destruct (nth_error (cs_meths y) m) as [cm|] eqn:N; auto.
  intros E. rewrite (set_nth_same (cm_exps cm)) by auto. apply set_nth_same. rewrite N. destruct cm; auto.
Qed.
Lemma with_exp_put (y : csys) m i e : cs_meths (put_exp y m i e) = with_exp (cs_meths y) m i e.
Proof. unfold put_exp, with_exp. destruct (nth_error _ _); auto. Qed.
Lemma with_exp_twice ms m i (e e' : expectation V U) : with_exp (with_exp ms m i e) m i e' = with_exp ms m i e'.
Proof.
  unfold with_exp. destruct (nth_error ms m) as [cm|] eqn:N.
  - rewrite nth_set_nth, Nat.eqb_refl, N. cbn. rewrite !set_nth_twice. reflexivity.
  - rewrite N. reflexivity.
Qed.
Lemma with_exp_cexp (y : csys) ms m i (e : expectation V U) :
  cs_meths y = with_exp ms m i e ->
  match nth_error ms m with Some cm => nth_error (cm_exps cm) i <> None | None => False end ->
  cexp y m i = Some e.
Proof.
  clear c g sh. unfold cexp, cexps, with_exp. intros ->. destruct (nth_error ms m) as [cm|] eqn:N; [|tauto].
  intros E. rewrite nth_set_nth, Nat.eqb_refl, N. cbn. rewrite nth_set_nth, Nat.eqb_refl.
  destruct (nth_error (cm_exps cm) i); congruence.
Qed.

Lemma atom_in t' a (l : list (nat * atom V U)) (rest : list (gevent V U)) :
  In (GvAtom t' a) (map (fun ta => GvAtom (fst ta) (snd ta)) l ++ rest) -> In (t', a) l \/ In (GvAtom t' a) rest.
Proof.
  rewrite in_app_iff, in_map_iff. intros [([t0 a0] & E & I)|H]; [|auto]. cbn in E. injection E as <- <-. auto.
Qed.
Lemma atoms_only (l : list (nat * atom V U)) x :
  In x (map (fun ta => GvAtom (fst ta) (snd ta)) l) -> exists t a, x = GvAtom t a /\ In (t, a) l.
Proof. rewrite in_map_iff. intros ([t a] & <- & I). eauto. Qed.

Definition kept (s s' : xsys) (t m i : nat) (ev : list (gevent V U)) : Prop :=
  only_by_guard t ev /\
  (no_new_sequences ev -> forall e, cexp (x_sys s) m i = Some e ->
   exists e', apply_setters c t (setters_of t ev) e (x_seqs s) = (e', x_seqs s', Ret tt) /\
              cs_meths (x_sys s') = with_exp (cs_meths (x_sys s)) m i e' ) /\
  (exists e', cs_meths (x_sys s') = with_exp (cs_meths (x_sys s)) m i e').

Lemma kept_nil s t m i : cexp (x_sys s) m i <> None -> kept s s t m i [].
Proof.
  intros N. split; [|split].
  - split; [intros ? ? []|]. split; [intros ? ? ? []|intros ? ? []].
  - intros _ e E. exists e. split; [reflexivity|]. symmetry. apply with_exp_same. auto.
  - destruct (cexp (x_sys s) m i) as [e|] eqn:E; [|congruence]. exists e. symmetry. apply with_exp_same. auto.
Qed.

Lemma kept_quiet s s' t m i ev :
  cexp (x_sys s) m i <> None -> cs_meths (x_sys s') = cs_meths (x_sys s) ->
  (no_new_sequences ev -> x_seqs s' = x_seqs s) ->
  (forall t' a, In (GvAtom t' a) ev -> touches a = false) ->
  (forall t' m i, ~ In (GvGuard t' m i) ev) -> (forall t' st, ~ In (GvSet t' st) ev) ->
  setters_of t ev = [] -> kept s s' t m i ev.
Proof.
  intros N M Q A1 A2 A3 S0. split; [|split].
  - split; [exact A1|]. split; [exact A2|]. intros t' st I. destruct (A3 _ _ I).
  - intros NS e E. exists e. rewrite S0, Q by auto. split; [reflexivity|]. rewrite M. symmetry. apply with_exp_same. auto.
  - destruct (cexp (x_sys s) m i) as [e|] eqn:E; [|congruence]. exists e. rewrite M. symmetry. apply with_exp_same. auto.
Qed.

(** A step inside an operation while somebody holds the store. *)
Lemma qstep_kept s t t0 q s' out l m i (o : xop V U) :
  one_store g (x_sys s) -> qinside q = false -> cs_sl (x_sys s) g <> None -> cexp (x_sys s) m i <> None ->
  qstep c g sh s t0 q = (s', out, l) ->
  kept s s' t m i (map (fun ta => GvAtom (fst ta) (snd ta)) l) /\
  forall r, kept s s' t m i (map (fun ta => GvAtom (fst ta) (snd ta)) l ++ [GvReturn t0 o r]).
Proof.
  intros O I NL CE H. destruct (qstep_outside _ _ _ _ _ _ O I H) as [(M & L & _ & Q & T)|(L & _)]; [|congruence].
  specialize (T NL).
  assert (Q' : forall rest, no_new_sequences (map (fun ta => GvAtom (fst ta) (snd ta)) l ++ rest) -> x_seqs s' = x_seqs s).
  { intros rest NS. destruct Q as [Q|[u Q]]; auto. subst l. exfalso. apply (NS t0 u). left. reflexivity. }
  split; [|intros r]; apply kept_quiet; auto.
  - intros NS. apply (Q' []). rewrite app_nil_r. auto.
  - intros t' a I'. destruct (atoms_only _ _ I') as (? & ? & E & I2). injection E as -> ->. eauto.
  - intros t' m0 i0 I'. destruct (atoms_only _ _ I') as (? & ? & E & _). discriminate.
  - intros t' st I'. destruct (atoms_only _ _ I') as (? & ? & E & _). discriminate.
  - apply setters_atoms.
  - intros NS. eapply Q'. eauto.
  - intros t' a I'. apply atom_in in I'. destruct I' as [I'|[E|[]]]; [eauto|discriminate].
  - intros t' m0 i0 I'. apply in_app_iff in I'. destruct I' as [I'|[E|[]]]; [|discriminate].
    destruct (atoms_only _ _ I') as (? & ? & E & _). discriminate.
  - intros t' st I'. apply in_app_iff in I'. destruct I' as [I'|[E|[]]]; [|discriminate].
    destruct (atoms_only _ _ I') as (? & ? & E & _). discriminate.
  - rewrite setters_app, setters_atoms. reflexivity.
Qed.

Lemma guard_step s t0 s' ev t m i :
  GI s -> has_guard s t m i -> gstep c g sh s t0 = (s', ev) -> guard_stays t ev ->
  has_guard s' t m i /\ kept (g_x s) (g_x s') t m i ev.
Proof.
  intros [O F] (tg & Ng & G) H ST. destruct (F _ _ Ng) as (A & B & D).
  assert (HL : cs_sl (x_sys (g_x s)) g = Some t). { apply A. unfold gholds. rewrite G. auto. }
  destruct (B _ _ G) as [CE _].
  assert (NL : cs_sl (x_sys (g_x s)) g <> None) by congruence.
  unfold gstep in H. destruct (nth_error (g_threads s) t0) as [th|] eqn:N.
  2:{ injection H as <- <-. split; [exists tg; auto|apply kept_nil; auto]. }
  destruct (gtstep c g sh (g_x s) t0 th) as [[x th'] ev'] eqn:GT. injection H as <- <-.
  assert (KEEP : (t0 = t -> guard_of th' = Some (m, i)) -> has_guard (GSys x (set_nth (g_threads s) t0 th')) t m i).
  { intros K. unfold has_guard. cbn. destruct (Nat.eq_dec t t0) as [<-|NE].
    - exists th'. rewrite nth_set_nth, Nat.eqb_refl, N. auto.
    - exists tg. rewrite nth_set_nth. destruct (Nat.eqb_spec t t0); [congruence|auto]. }
  assert (GO : (t0 = t /\ guard_of th = Some (m, i)) \/ (t0 <> t /\ guard_of th = None)).
  { destruct (Nat.eq_dec t0 t) as [->|NE]; [left; split; congruence|right; split; auto].
    destruct (guard_of th) eqn:E; auto. destruct (F _ _ N) as (A0 & _).
    unfold gholds in A0. rewrite E in A0. specialize (A0 eq_refl). congruence. }
  assert (QI : match th with GIn _ _ _ q => qinside q = false | _ => True end).
  { destruct (F _ _ N) as (A0 & _ & D0). destruct th as [|gd o k q|]; auto. destruct gd as [mi|]; [auto|].
    destruct (qinside q) eqn:I; auto. unfold gholds in A0. cbn in A0. specialize (A0 I). destruct GO as [[-> GG]|[NE _]]; [discriminate|congruence]. }
  assert (STUCK : (g_x s, th, @nil (gevent V U)) = (x, th', ev') ->
    has_guard (GSys x (set_nth (g_threads s) t0 th')) t m i /\ kept (g_x s) x t m i ev').
  { intros [= <- <- <-]. split; [|apply kept_nil; auto]. apply KEEP. destruct GO; tauto. }
  assert (MOVE : forall th2, guard_of th2 = guard_of th -> (g_x s, th2, @nil (gevent V U)) = (x, th', ev') ->
    has_guard (GSys x (set_nth (g_threads s) t0 th')) t m i /\ kept (g_x s) x t m i ev').
  { intros th2 E [= <- <- <-]. split; [|apply kept_nil; auto]. apply KEEP. rewrite E. destruct GO; tauto. }
  cbn [g_x]. destruct th as [gd p|gd o k q|gd m0 k]; cbn [gtstep guard_of] in *.
  - destruct p as [|o k|m0 k|st k|f k|b k].
    + destruct gd as [[? ?]|]; auto.
    + apply (MOVE (GIn gd o k (first o))); [reflexivity|]. destruct gd as [[? ?]|]; auto.
    + apply (MOVE (GLock gd m0 k)); [reflexivity|]. destruct gd as [[? ?]|]; auto.
    + destruct GO as [[-> ->]|[_ ->]]; [|auto].
      destruct (cexp (x_sys (g_x s)) m i) as [e|] eqn:EE; [|auto].
      destruct (apply_setter c t st e (x_seqs (g_x s))) as [[e' sq] r] eqn:AS.
      destruct r as [[]|msg|]; injection GT as <- <- <-.
      * split; [apply KEEP; auto|]. split; [|split].
        -- split; [intros t' a [E|[]]; discriminate|]. split; [intros ? ? ? [E|[]]; discriminate|].
           intros t' st' [E|[]]. congruence.
        -- intros _ e0 E0. rewrite EE in E0. injection E0 as <-. exists e'. cbn. rewrite Nat.eqb_refl. cbn. rewrite AS.
           split; [reflexivity|]. apply with_exp_put.
        -- exists e'. cbn. apply with_exp_put.
      * exfalso. apply (ST true). right. left. reflexivity.
      * exfalso. apply (ST false). right. left. reflexivity.
    + assert (E : (put_sys (g_x s) (put_world (x_sys (g_x s)) (World (f (cs_user (x_sys (g_x s)))) (cs_levels (x_sys (g_x s))) t0 false)) (x_seqs (g_x s)), GIdle gd k, @nil (gevent V U)) = (x, th', ev'))
        by (destruct gd as [[? ?]|]; exact GT).
      injection E as <- <- <-. split; [apply KEEP; destruct GO; tauto|].
      apply kept_quiet; auto; try (intros ? ? []); try (intros ? ? ? []).
    + destruct GO as [[-> ->]|[_ ->]]; [|auto]. injection GT as <- <- <-.
      exfalso. apply (ST b). left. reflexivity.
  - destruct (qstep c g sh (g_x s) t0 q) as [[s1 out] l] eqn:QS.
    destruct (qstep_kept _ t _ _ _ _ _ m i o O QI NL CE QS) as [K1 K2].
    destruct out as [q'|r]; injection GT as <- <- <-; (split; [apply KEEP; destruct GO; tauto|auto]).
  - destruct (nth_error (cs_meths (x_sys (g_x s))) m0) as [cm|]; [|auto].
    rewrite HL in GT. cbn in GT. auto.
Qed.

Lemma kept_trans s s1 s2 t m i e1 e2 :
  cexp (x_sys s) m i <> None ->
  kept s s1 t m i e1 -> kept s1 s2 t m i e2 -> kept s s2 t m i (e1 ++ e2).
Proof.
  intros CE ((A1 & A2 & A3) & K1 & X1) ((B1 & B2 & B3) & K2 & X2). split; [|split].
  - split; [|split].
    + intros t' a I. apply in_app_iff in I. destruct I; eauto.
    + intros t' m0 i0 I. apply in_app_iff in I. destruct I as [I|I]; [eapply A2|eapply B2]; eauto.
    + intros t' st I. apply in_app_iff in I. destruct I; eauto.
  - intros NS e E. destruct (K1) with (e := e) as (e' & S1 & M1); auto.
    { intros t' u I. apply (NS t' u). apply in_app_iff. auto. }
    assert (E1 : cexp (x_sys s1) m i = Some e').
    { apply (with_exp_cexp _ _ _ _ _ M1). unfold cexp, cexps in E.
      destruct (nth_error (cs_meths (x_sys s)) m) as [cm|]; [congruence|destruct i; discriminate]. }
    destruct K2 with (e := e') as (e'' & S2 & M2); auto.
    { intros t' u I. apply (NS t' u). apply in_app_iff. auto. }
    exists e''. rewrite setters_app. rewrite (apply_setters_app _ _ _ _ _ _ _ S1). split; [auto|].
    rewrite M2, M1, with_exp_twice. reflexivity.
  - destruct X1 as [e' M1], X2 as [e'' M2]. exists e''. rewrite M2, M1, with_exp_twice. reflexivity.
Qed.

Lemma guard_cexp s t m i : GI s -> has_guard s t m i ->
  cexp (x_sys (g_x s)) m i <> None /\ S i = List.length (cexps (x_sys (g_x s)) m) /\ cs_sl (x_sys (g_x s)) g = Some t.
Proof.
  intros [_ F] (th & N & G). destruct (F _ _ N) as (A & B & _). destruct (B _ _ G). repeat split; auto.
  apply A. unfold gholds. rewrite G. auto.
Qed.

Lemma guard_run sched s s' tr t m i :
  GI s -> has_guard s t m i -> grun c g sh s sched = (s', tr) -> guard_stays t tr ->
  has_guard s' t m i /\ kept (g_x s) (g_x s') t m i tr.
Proof.
  revert s s' tr. induction sched as [|t0 sched IH]; intros s s' tr I HG H ST; cbn in H.
  - injection H as <- <-. split; [auto|]. apply kept_nil. eapply guard_cexp; eauto.
  - destruct (gstep c g sh s t0) as [s1 e1] eqn:S1. destruct (grun c g sh s1 sched) as [s2 e2] eqn:S2.
    injection H as <- <-.
    destruct (guard_step _ _ _ _ _ _ _ I HG S1) as [HG1 K1]. { intros b X. apply (ST b). apply in_app_iff. auto. }
    destruct (IH _ _ _ (gstep_inv _ _ _ _ I S1) HG1 S2) as [HG2 K2]. { intros b X. apply (ST b). apply in_app_iff. auto. }
    split; [auto|]. eapply kept_trans; eauto. eapply guard_cexp; eauto.
Qed.
End Guards.
