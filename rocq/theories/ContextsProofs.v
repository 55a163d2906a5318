(** * ContextsProofs: the operations on a static store happen one piece at a time *)

From Coq Require Import NArith List Bool String Lia Arith.
From Verif Require Import Base Times Expect Mock Conc ConcSpec ConcProofs LockProofs LinProofs Contexts ContextsSpec.
Import ListNotations.
Open Scope N_scope.

Local Arguments apply_setter : simpl never.
Local Arguments set_nth : simpl never.
Local Arguments drop_store : simpl never.
Local Arguments put_exp : simpl never.
Local Arguments cworld : simpl never.
Local Arguments fin : simpl never.
Local Arguments pstep : simpl never.

Section Sim.
Context {V U : Type} (c : cfg) (g : nat) (sh : list (cmeth V U) -> list (cmeth V U)).
Notation csys := (csys V U).
Notation xop := (xop V U).
Notation prog := (prog V U).
Notation atom := (atom V U).
Notation xevent := (xevent V U).
Notation answer := (answer V).
Notation xstate := (xstate V U).
Notation xsys := (xsys V U).
Notation xpc := (xpc V U).

(** ** The abstract system: pieces are atomic *)
Inductive phase : Type :=
| PhIdle (p : prog)
| PhBefore (o : xop) (k : answer -> prog)
| PhCleared (k : answer -> prog) (seen : bool)       (* [XDrop true], [clear_poison] done *)
| PhAfter (o : xop) (k : answer -> prog) (r : answer).

Record axs : Type := AXs { a_st : xstate; a_mx : option nat; a_ph : list phase }.

Definition poisoned (st : xstate) : bool := let '((_, b, _, _), _) := st in b.

Definition mx_ok (mx : option nat) (t : nat) (o : xop) (mx' : option nat) : Prop :=
  match o with
  | XLockU => mx = None /\ mx' = Some t
  | XUnlockU => mx' = None
  | _ => mx' = mx
  end.

(** The operation works on the store. *)
Definition uses (o : xop) : bool :=
  match o with XLockU | XUnlockU | XSetup _ => false | _ => true end.

Inductive astep : axs -> list xevent -> axs -> Prop :=
| as_start st mx ph t o k :
    nth_error ph t = Some (PhIdle (Do o k)) ->
    astep (AXs st mx ph) [XStart t o] (AXs st mx (set_nth ph t (PhBefore o k)))
| as_clear st mx ph t k :
    nth_error ph t = Some (PhBefore (XDrop true) k) -> poisoned st = true ->
    astep (AXs st mx ph) [XAtom t AClear]
          (AXs (fst (atomic_op c sh st (t, AClear))) mx (set_nth ph t (PhCleared k true)))
| as_skip st mx ph t k :
    nth_error ph t = Some (PhBefore (XDrop true) k) ->
    poisoned st = false \/
      (exists t' o' k' r', t' <> t /\ nth_error ph t' = Some (PhAfter o' k' r') /\ uses o' = true) ->
    astep (AXs st mx ph) [] (AXs st mx (set_nth ph t (PhCleared k false)))
| as_final st mx ph t o k mx' st' r :
    (nth_error ph t = Some (PhBefore o k) /\ o <> XDrop true) \/
    (exists b, nth_error ph t = Some (PhCleared k b) /\ o = XDrop true) ->
    mx_ok mx t o mx' -> atomic_op c sh st (t, final o) = (st', r) ->
    astep (AXs st mx ph) [XAtom t (final o)] (AXs st' mx' (set_nth ph t (PhAfter o k r)))
| as_return st mx ph t o k r :
    nth_error ph t = Some (PhAfter o k r) ->
    astep (AXs st mx ph) [XReturn t o r] (AXs st mx (set_nth ph t (PhIdle (k r)))).

Inductive asteps : axs -> list xevent -> axs -> Prop :=
| as_nil a : asteps a [] a
| as_cons a e1 a1 e2 a2 : astep a e1 a1 -> asteps a1 e2 a2 -> asteps a (e1 ++ e2) a2.

Lemma asteps_one a e a' : astep a e a' -> asteps a e a'.
Proof. intros H. rewrite <- (app_nil_r e). eapply as_cons; [exact H|constructor]. Qed.
Lemma asteps_two a e1 a1 e2 a2 : astep a e1 a1 -> astep a1 e2 a2 -> asteps a (e1 ++ e2) a2.
Proof. intros H H2. eapply as_cons; [exact H|]. apply asteps_one. auto. Qed.
Lemma asteps_app a e1 a1 e2 a2 : asteps a e1 a1 -> asteps a1 e2 a2 -> asteps a (e1 ++ e2) a2.
Proof. intros H. revert e2 a2. induction H; intros e3 a3 H3; auto. rewrite <- app_assoc. econstructor; eauto. Qed.

(** ** How the two systems correspond *)
Definition view (y : csys) (q : seqtab) : xstate :=
  ((cs_meths y, cs_sp y g, cs_user y, cs_levels y), q).

(** The thread is at a place where it holds the store. *)
Definition qinside (q : xpc) : bool :=
  match q with
  | QCall p => inside p
  | QSet _ _ | QDrain _ => true
  | _ => false
  end.

(** What a thread that holds the store will have done when it gives it up. *)
Definition finishes (y : csys) (q : seqtab) (t : nat) (z : xpc) (st : xstate) (r : answer) : Prop :=
  match z with
  | QCall p =>
      exists x cm, pc_call p = Some x /\ nth_error (cs_meths y) (cc_m x) = Some cm /\ pc_ok y p /\
      let '(es, w, r0) := fin c (cm_me cm) (cc_args x) p (cexps y (cc_m x)) (cworld y t) in
      st = ((set_nth (cs_meths y) (cc_m x) (CMeth (cm_me cm) (cm_mutex cm) es),
             match r0 with Panic _ => true | _ => false end, w_user w, w_levels w), q) /\
      r = let? v := (let? o := r0 in
                     match o with
                     | Some v => Ret v
                     | None => Panic (MNoMatch (call_desc (cm_me cm) (cc_args x)))
                     end) in Ret (Some v)
  | QSet m l =>
      exists cm es e, nth_error (cs_meths y) m = Some cm /\ cm_exps cm = es ++ [e] /\
      let '(e', q', r0) := apply_setters c t l e q in
      st = ((set_nth (cs_meths y) m (CMeth (cm_me cm) (cm_mutex cm) (es ++ [e'])),
             match r0 with Panic _ => true | _ => false end, cs_user y, cs_levels y), q') /\
      r = let? x := r0 in Ret None
  | QDrain b =>
      st = ((map emptied (cs_meths y), false, cs_user y, cs_levels y), q) /\
      r = unit_answer (drop_store c (sh (cs_meths y)) b)
  | _ => False
  end.

Lemma finishes_same y y' q t z st r :
  cs_meths y' = cs_meths y -> cs_user y' = cs_user y -> cs_levels y' = cs_levels y ->
  finishes y q t z st r -> finishes y' q t z st r.
Proof.
  intros M E L F. destruct z; simpl in *; try tauto.
  - destruct F as (x & cm & A & B & D & F). exists x, cm. rewrite M. split; [auto|]. split; [auto|].
    split.
    { revert D. unfold pc_ok, static_at, cexp, cexps. rewrite M. auto. }
    replace (cexps y' (cc_m x)) with (cexps y (cc_m x)) by (unfold cexps; rewrite M; reflexivity).
    replace (cworld y' t) with (cworld y t) by (unfold cworld; rewrite E, L; reflexivity). exact F.
  - rewrite M, E, L. exact F.
  - rewrite M, E, L. exact F.
Qed.

Inductive th_ok (hold : option nat) (t : nat) : xthread V U -> phase -> Prop :=
| to_idle p : th_ok hold t (TIdle p) (PhIdle p)
| to_before o k : th_ok hold t (TIn o k (first o)) (PhBefore o k)
| to_cleared k b : th_ok hold t (TIn (XDrop true) k QLockD) (PhCleared k b)
| to_inside o k q r : qinside q = true -> hold = Some t -> uses o = true -> th_ok hold t (TIn o k q) (PhAfter o k r)
| to_vec o k l b : th_ok hold t (TIn o k (QVec l b)) (PhAfter o k (unit_answer (drop_store c l b))).

Definition orel {A B} (P : A -> B -> Prop) (x : option A) (y : option B) : Prop :=
  match x, y with Some a, Some b => P a b | None, None => True | _, _ => False end.

Record R (s : xsys) (a : axs) : Prop := MkR {
  r_mx : x_mutex s = a_mx a;
  r_one : one_store g (x_sys s);
  r_th : forall t, orel (th_ok (cs_sl (x_sys s) g) t) (nth_error (x_threads s) t) (nth_error (a_ph a) t);
  r_st : match cs_sl (x_sys s) g with
         | None => a_st a = view (x_sys s) (x_seqs s)
         | Some t =>
             cs_sp (x_sys s) g = false /\
             exists o k q r, nth_error (x_threads s) t = Some (TIn o k q) /\
               nth_error (a_ph a) t = Some (PhAfter o k r) /\ qinside q = true /\
               finishes (x_sys s) (x_seqs s) t q (a_st a) r
         end
}.

Lemma th_ok_hold h h' t th ph : th_ok h t th ph -> h <> Some t -> th_ok h' t th ph.
Proof. intros T N. destruct T; first [congruence|apply to_vec|constructor]. Qed.

Lemma r_th_set s a t th ph h' :
  (forall t, orel (th_ok (cs_sl (x_sys s) g) t) (nth_error (x_threads s) t) (nth_error (a_ph a) t)) ->
  (h' = cs_sl (x_sys s) g \/ (forall t', cs_sl (x_sys s) g = Some t' -> t' = t)) ->
  th_ok h' t th ph ->
  forall t', orel (th_ok h' t') (nth_error (set_nth (x_threads s) t th) t') (nth_error (set_nth (a_ph a) t ph) t').
Proof.
  intros RT H T t'. specialize (RT t'). rewrite !nth_set_nth. destruct (Nat.eqb_spec t' t) as [->|N].
  - destruct (nth_error (x_threads s) t), (nth_error (a_ph a) t); simpl in *; tauto.
  - destruct (nth_error (x_threads s) t'), (nth_error (a_ph a) t'); simpl in *; try tauto.
    destruct H as [->|H]; [auto|]. eapply th_ok_hold; [exact RT|]. intros E. apply H in E. congruence.
Qed.

(** A step of a thread that leaves the store alone. *)
Lemma R_frame s a t th ph mx :
  R s a -> cs_sl (x_sys s) g <> Some t -> th_ok (cs_sl (x_sys s) g) t th ph ->
  R (XSys (x_sys s) (x_seqs s) mx (set_nth (x_threads s) t th)) (AXs (a_st a) mx (set_nth (a_ph a) t ph)).
Proof.
  intros [E1 E2 E3 E4] N T. split; simpl; auto.
  - eapply r_th_set; eauto.
  - destruct (cs_sl (x_sys s) g) as [t1|]; auto.
    destruct E4 as (SP & o & k & q & r & A & B & D). split; auto. exists o, k, q, r.
    rewrite !nth_set_nth. destruct (Nat.eqb_spec t1 t); [congruence|auto].
Qed.

Lemma R_at s a t th : R s a -> nth_error (x_threads s) t = Some th ->
  exists ph, nth_error (a_ph a) t = Some ph /\ th_ok (cs_sl (x_sys s) g) t th ph.
Proof.
  intros r E. pose proof (r_th _ _ r t) as T. rewrite E in T.
  destruct (nth_error (a_ph a) t) as [ph|]; simpl in T; [eauto|tauto].
Qed.

Lemma call_answer_none (ev : list (event V)) : returned ev = [] -> call_answer ev = None.
Proof. induction ev as [|[] ev IH]; simpl; auto. discriminate. Qed.
Lemma call_atoms_none (ev : list (event V)) : locked ev = [] -> call_atoms (U := U) ev = [].
Proof. induction ev as [|[] ev IH]; simpl; auto. discriminate. Qed.

Lemma one_store_set (y : csys) m cm cm' :
  one_store g y -> nth_error (cs_meths y) m = Some cm -> cm_mutex cm' = cm_mutex cm ->
  forall i x, nth_error (set_nth (cs_meths y) m cm') i = Some x -> cm_mutex x = Some g.
Proof.
  intros O M E i x. rewrite nth_set_nth. destruct (Nat.eqb_spec i m) as [->|N].
  - rewrite M. intros [= <-]. rewrite E. eapply O; eauto.
  - apply O.
Qed.

Lemma free_none o : free o = true -> o = None.
Proof. destruct o; [discriminate|auto]. Qed.

Lemma last_snoc {A} (l : list A) x : nth_error (l ++ [x]) (Nat.pred (List.length (l ++ [x]))) = Some x.
Proof.
  rewrite app_length. simpl. replace (Nat.pred (List.length l + 1)) with (List.length l) by lia.
  rewrite nth_error_app2 by lia. rewrite Nat.sub_diag. reflexivity.
Qed.
Lemma set_last {A} (l : list A) x y : set_nth (l ++ [x]) (Nat.pred (List.length (l ++ [x]))) y = l ++ [y].
Proof.
  rewrite app_length. simpl. replace (Nat.pred (List.length l + 1)) with (List.length l) by lia.
  induction l; simpl; [reflexivity|]. unfold set_nth in *; fold (@set_nth A) in *. f_equal. auto.
Qed.

Definition done (t : nat) (o : xop) (out : xpc + answer) : list xevent :=
  match out with inl _ => [] | inr r => [XReturn t o r] end.
Definition next (o : xop) (k : answer -> prog) (out : xpc + answer) : xthread V U :=
  match out with inl q => TIn o k q | inr r => TIdle (k r) end.

(** The thread that holds the store moves. *)
Lemma holder_sim s a t o k q s' out l :
  R s a -> nth_error (x_threads s) t = Some (TIn o k q) -> qinside q = true ->
  qstep c g sh s t q = (s', out, l) ->
  exists a', asteps a (map (fun ta => XAtom (fst ta) (snd ta)) l ++ done t o out) a' /\
             R (put_xthread s' t (next o k out)) a'.
Proof.
  intros RR Ht IN H. pose proof RR as [E1 E2 E3 E4].
  destruct (R_at _ _ _ _ RR Ht) as (ph & Hph & T).
  assert (SL : cs_sl (x_sys s) g = Some t).
  { inversion T; subst; auto; try discriminate IN. destruct o as [| | |[]| | |]; discriminate IN. }
  rewrite SL in E4. destruct E4 as (SP & o' & k' & q' & r & Ht' & Hph' & _ & F).
  rewrite Ht in Ht'. injection Ht' as <- <- <-.
  assert (US : uses o = true).
  { rewrite Hph in Hph'. injection Hph' as ->. inversion T; subst; auto; discriminate IN. }
  destruct a as [st mx phs]. cbn [a_st a_mx a_ph] in *.
  assert (RET : forall y' q2 r0, cs_sl y' g = None -> one_store g y' -> st = view y' q2 -> r0 = r ->
    exists a', asteps (AXs st mx phs) [XReturn t o r0] a' /\
      R (put_xthread (XSys y' q2 (x_mutex s) (x_threads s)) t (TIdle (k r0))) a').
  { intros y' q2 r0 N O V0 ->. eexists. split; [apply asteps_one, as_return; eauto|].
    split; simpl; auto.
    - rewrite N. apply (r_th_set s (AXs st mx phs) t (TIdle (k r)) (PhIdle (k r)) None); auto.
      + right. intros t' X. congruence.
      + constructor.
    - rewrite N. auto. }
  assert (GO : forall y' q2 z, cs_sl y' g = Some t -> cs_sp y' g = false -> one_store g y' -> qinside z = true ->
    finishes y' q2 t z st r ->
    exists a', asteps (AXs st mx phs) [] a' /\
      R (put_xthread (XSys y' q2 (x_mutex s) (x_threads s)) t (TIn o k z)) a').
  { intros y' q2 z N P O Z F'. exists (AXs st mx phs). split; [constructor|].
    split; simpl; auto.
    - rewrite N. intros t'.
      pose proof (r_th_set s (AXs st mx phs) t (TIn o k z) (PhAfter o k r) (Some t) E3) as Q. simpl in Q.
      rewrite (set_nth_same phs t) in Q by auto. apply Q; [right; intros ? X; congruence|].
      constructor; auto.
    - rewrite N. split; auto. exists o, k, z, r. rewrite nth_set_nth, Nat.eqb_refl, Ht. auto. }
  destruct q as [p|m l0|m l0| | | |b|l0 b| | |u]; try discriminate IN.
  - (* a call *)
    destruct F as (x & cm & PC & HM & PO & F).
    cbn [qstep] in H. rewrite PC, HM in H.
    destruct (pstep c (x_sys s) t cm p) as [[y' p'] ev] eqn:PS.
    assert (FIN : (exists r0, p = PFin x r0) \/ (forall r0, p <> PFin x r0)).
    { destruct p; try (right; intros r1 X; discriminate X). left. eexists. simpl in PC. injection PC as ->. reflexivity. }
    destruct FIN as [[r0 ->]|NF].
    + (* it ends *)
      unfold pstep in PS. injection PS as <- <- <-. rewrite (E2 _ _ HM) in H. simpl in H.
      injection H as <- <- <-. simpl. unfold fin in F. destruct F as [F1 F2].
      apply RET; auto.
      * simpl. rewrite Nat.eqb_refl. reflexivity.
      * unfold view. simpl. rewrite Nat.eqb_refl, F1. cbn [w_user w_levels cworld].
        rewrite <- meths_same by auto. reflexivity.
    + pose proof (pstep_kept _ _ _ _ _ _ _ _ _ PC HM PS PO IN NF) as [K1 [K2 K3] K4 [K5 K6] [K7 K8]].
      rewrite (call_answer_none _ K8), (call_atoms_none _ K7) in H. injection H as <- <- <-. simpl.
      apply GO.
      * rewrite K5. auto.
      * rewrite K6. auto.
      * intros m' cm'. rewrite K4. eapply one_store_set; eauto.
      * exact K3.
      * simpl. exists x, (CMeth (cm_me cm) (cm_mutex cm) (cexps y' (cc_m x))). split; [auto|].
        split; [rewrite K4, nth_set_nth, Nat.eqb_refl, HM; reflexivity|]. split.
        { apply (pc_ok_same (x_sys s)).
          - exact (pstep_decls _ _ _ _ _ _ _ _ PS).
          - intros m0 i0. exact (pstep_static _ _ _ _ _ _ _ _ m0 i0 PS).
          - intros m0 i0. exact (pstep_index _ _ _ _ _ _ _ _ m0 i0 PS).
          - exact (pstep_pc_ok _ _ _ _ _ _ _ _ _ PC HM PS PO). }
        cbn [cm_me cm_mutex]. rewrite K1.
        destruct (fin c (cm_me cm) (cc_args x) p (cexps (x_sys s) (cc_m x)) (cworld (x_sys s) t)) as [[es w] r0].
        rewrite K4, set_nth_twice. exact F.
  - (* a builder chain *)
    destruct F as (cm & es & e & HM & EE & F). cbn [qstep] in H.
    destruct l0 as [|st0 l0].
    + injection H as <- <- <-. simpl. simpl in F. destruct F as [F1 F2]. apply RET; auto.
      * simpl. rewrite Nat.eqb_refl. reflexivity.
      * unfold view. simpl. rewrite Nat.eqb_refl, F1, <- EE. rewrite set_nth_same; [reflexivity|].
        rewrite HM. destruct cm; reflexivity.
    + assert (CE : cexps (x_sys s) m = es ++ [e]) by (unfold cexps; rewrite HM; auto).
      unfold cexp in H. rewrite CE, last_snoc in H. simpl in F.
      destruct (apply_setter c t st0 e (x_seqs s)) as [[e1 q1] r1] eqn:AS.
      set (y1 := put_exp (x_sys s) m (Nat.pred (List.length (es ++ [e]))) e1) in *.
      assert (MM : cs_meths y1 = set_nth (cs_meths (x_sys s)) m (CMeth (cm_me cm) (cm_mutex cm) (es ++ [e1]))).
      { unfold y1. rewrite (meths_put_exp _ _ _ _ _ HM), CE, set_last. reflexivity. }
      assert (OY : one_store g y1).
      { intros m' cm'. rewrite MM. eapply one_store_set; eauto. }
      assert (YU : cs_user y1 = cs_user (x_sys s) /\ cs_levels y1 = cs_levels (x_sys s) /\
                   cs_sl y1 = cs_sl (x_sys s) /\ cs_sp y1 = cs_sp (x_sys s)).
      { unfold y1, put_exp. rewrite HM. auto. }
      destruct YU as (Y1 & Y2 & Y3 & Y4).
      destruct r1 as [[]|msg|]; injection H as <- <- <-; simpl.
      * apply GO; try (rewrite ?Y3, ?Y4; auto; fail). simpl.
        exists (CMeth (cm_me cm) (cm_mutex cm) (es ++ [e1])), es, e1.
        split; [rewrite MM, nth_set_nth, Nat.eqb_refl, HM; reflexivity|]. split; [reflexivity|].
        destruct (apply_setters c t l0 e1 q1) as [[e2 q2] r2]. simpl. rewrite MM, set_nth_twice, Y1, Y2. exact F.
      * destruct F as [F1 F2]. apply RET; auto.
        -- simpl. rewrite Nat.eqb_refl. reflexivity.
        -- unfold view. simpl. rewrite Nat.eqb_refl, F1, MM, Y1, Y2. reflexivity.
      * destruct F as [F1 F2]. apply RET; auto.
        -- simpl. rewrite Nat.eqb_refl. reflexivity.
        -- unfold view. simpl. rewrite Nat.eqb_refl, F1, MM, Y1, Y2. reflexivity.
  - (* draining *)
    injection H as <- <- <-. destruct F as [F1 F2]. simpl.
    exists (AXs st mx phs). split; [constructor|]. split; simpl; auto.
    + intros m cm. simpl. rewrite nth_error_map. destruct (nth_error (cs_meths (x_sys s)) m) eqn:N; [|discriminate].
      intros [= <-]. simpl. eapply E2; eauto.
    + rewrite Nat.eqb_refl. intros t'.
      pose proof (r_th_set s (AXs st mx phs) t (TIn o k (QVec (sh (cs_meths (x_sys s))) b)) (PhAfter o k r) None E3) as Q. simpl in Q.
      rewrite (set_nth_same phs t) in Q by auto. apply Q; [right; intros ? X; congruence|].
      rewrite F2. apply to_vec.
    + rewrite Nat.eqb_refl. rewrite F1. unfold view. simpl. rewrite Nat.eqb_refl. reflexivity.
Qed.

(** Any thread moves inside an operation. *)
Lemma qstep_sim s a t o k q s' out l :
  R s a -> nth_error (x_threads s) t = Some (TIn o k q) ->
  (forall u, q = QSetup u -> cs_sl (x_sys s) g = None) ->
  qstep c g sh s t q = (s', out, l) ->
  exists a', asteps a (map (fun ta => XAtom (fst ta) (snd ta)) l ++ done t o out) a' /\
             R (put_xthread s' t (next o k out)) a'.
Proof.
  intros RR Ht SU H. destruct (qinside q) eqn:IN; [eapply holder_sim; eauto|].
  destruct (R_at _ _ _ _ RR Ht) as (ph & Hph & T). pose proof RR as [E1 E2 E3 E4].
  destruct a as [st mx phs], s as [y qs mu ths]. cbn [a_st a_mx a_ph x_sys x_seqs x_mutex x_threads] in *. subst mu.
  assert (NH : cs_sl y g <> Some t).
  { intros X. rewrite X in E4. destruct E4 as (_ & o' & k' & q' & r & A & _ & B & _). congruence. }
  assert (STAY : exists a', asteps (AXs st mx phs) [] a' /\ R (put_xthread (XSys y qs mx ths) t (TIn o k q)) a').
  { exists (AXs st mx phs). split; [constructor|]. unfold put_xthread. rewrite set_nth_same by auto.
    exact RR. }
  (* got the store *)
  assert (GOT : forall z y' st' r, nth_error phs t = Some (PhBefore o k) /\ o <> XDrop true \/
      (exists b, nth_error phs t = Some (PhCleared k b) /\ o = XDrop true) ->
    mx_ok mx t o mx -> atomic_op c sh st (t, final o) = (st', r) ->
    cs_sl y g = None -> uses o = true ->
    cs_sl y' g = Some t -> cs_sp y' g = false -> one_store g y' -> qinside z = true ->
    finishes y' qs t z st' r ->
    exists a', asteps (AXs st mx phs) [XAtom t (final o)] a' /\
      R (put_xthread (XSys y' qs mx ths) t (TIn o k z)) a').
  { intros z y' st' r PH MX AT FR US N P O Z F. eexists. split; [apply asteps_one; eapply as_final; eauto|].
    split; simpl; auto.
    - rewrite N. apply (r_th_set (XSys y qs mx ths) (AXs st mx phs)); auto; [right; intros ? X; simpl in X; congruence|]. constructor; auto.
    - rewrite N. split; auto. exists o, k, z, r. rewrite !nth_set_nth, Nat.eqb_refl, Ht.
      destruct PH as [[PH _]|[b [PH _]]]; rewrite PH; auto. }
  (* done at once *)
  assert (ONCE : forall y' q' mx' st' r, nth_error phs t = Some (PhBefore o k) /\ o <> XDrop true \/
      (exists b, nth_error phs t = Some (PhCleared k b) /\ o = XDrop true) ->
    mx_ok mx t o mx' -> atomic_op c sh st (t, final o) = (st', r) ->
    one_store g y' -> cs_sl y' g = cs_sl y g ->
    (cs_sl y g = None -> st' = view y' q') ->
    (cs_sl y g <> None -> st' = st /\ y' = y /\ q' = qs) ->
    exists a', asteps (AXs st mx phs) ([XAtom t (final o)] ++ [XReturn t o r]) a' /\
      R (put_xthread (XSys y' q' mx' ths) t (TIdle (k r))) a').
  { intros y' q' mx' st' r PH MX AT O N F1 F2. eexists. split.
    { eapply asteps_two; [eapply as_final; eauto|]. eapply as_return. rewrite nth_set_nth, Nat.eqb_refl.
      destruct PH as [[PH _]|[b [PH _]]]; rewrite PH; reflexivity. }
    rewrite set_nth_twice. split; simpl; auto.
    - rewrite N. apply (r_th_set (XSys y qs mx ths) (AXs st mx phs)); auto. constructor.
    - rewrite N. destruct (cs_sl y g) as [t1|] eqn:SL; [|apply F1; auto].
      destruct F2 as (-> & -> & ->); [discriminate|].
      destruct E4 as (SP & o1 & k1 & q1 & r1 & A & B & D). split; auto. exists o1, k1, q1, r1.
      rewrite !nth_set_nth. destruct (Nat.eqb_spec t1 t); [congruence|auto]. }
  inversion T as [|o1 k1 A1 B1|k1 b1 A1 B1|o1 k1 q1 r1 I1 H1 US1 A1 B1|o1 k1 l1 b1 A1 B1]; subst.
  - (* not yet at the store *)
    assert (PB : o <> XDrop true -> nth_error phs t = Some (PhBefore o k) /\ o <> XDrop true \/
      (exists b, nth_error phs t = Some (PhCleared k b) /\ o = XDrop true)) by auto.
    destruct o as [x|m l0| |[]| | |u]; cbn [first] in *.
    + (* XCall *)
      cbn [qstep pc_call x_sys x_seqs x_mutex x_threads] in H. destruct (nth_error (cs_meths y) (cc_m x)) as [cm|] eqn:HM;
        [|injection H as <- <- <-; exact STAY].
      unfold pstep in H. rewrite (E2 _ _ HM) in H.
      destruct (free (cs_sl y g)) eqn:FR; [|injection H as <- <- <-; exact STAY].
      apply free_none in FR. rewrite FR in E4. subst st.
      destruct (cs_sp y g) eqn:SP; simpl in H; injection H as <- <- <-.
      * apply (ONCE y qs mx (view y qs) (Panic MPoison)); auto.
        -- solve [apply PB; discriminate].
        -- reflexivity.
        -- unfold atomic_op, view, final. simpl. rewrite HM, SP. reflexivity.
      * destruct (atomic_op c sh (view y qs) (t, final (XCall x))) as [st' r] eqn:AT.
        apply (GOT (QCall (PLockM x 0)) (put_sl y g (Some t) false) st' r); auto.
        -- solve [apply PB; discriminate].
        -- reflexivity.
        -- simpl. rewrite Nat.eqb_refl. reflexivity.
        -- simpl. rewrite Nat.eqb_refl. reflexivity.
        -- simpl. exists x, cm. split; [reflexivity|]. split; [auto|]. split.
           { split; [|split; [|split]]; simpl; try discriminate.
             - intros x0 [= <-]. exists cm. auto.
             - intros x0 i [[f X]|[[r0 X]|X]]; discriminate X. }
           unfold fin. rewrite fin_start.
           unfold atomic_op, view, final in AT. simpl in AT. rewrite HM, SP in AT.
           unfold cexps. simpl. rewrite HM. unfold cworld. simpl.
           destruct (expectations_call c (cm_me cm) (cm_exps cm) (cc_args x) (fun v => v)
             (World (cs_user y) (cs_levels y) t false)) as [[es w] r0].
           injection AT as <- <-. split; reflexivity.
    + (* XExpect *)
      cbn [qstep x_sys x_seqs x_mutex x_threads] in H. destruct (nth_error (cs_meths y) m) as [cm|] eqn:HM;
        [|injection H as <- <- <-; exact STAY].
      destruct (free (cs_sl y g)) eqn:FR; [|injection H as <- <- <-; exact STAY].
      apply free_none in FR. rewrite FR in E4. subst st.
      destruct (cs_sp y g) eqn:SP; simpl in H; injection H as <- <- <-.
      * apply (ONCE y qs mx (view y qs) (Panic MPoison)); auto.
        -- solve [apply PB; discriminate].
        -- reflexivity.
        -- unfold atomic_op, view, final. simpl. rewrite HM, SP. reflexivity.
      * destruct (atomic_op c sh (view y qs) (t, final (XExpect m l0))) as [st' r] eqn:AT.
        apply (GOT (QSet m l0) (put_sl (put_meths y (set_nth (cs_meths y) m (push_exp c cm))) g (Some t) false) st' r); auto.
        -- solve [apply PB; discriminate].
        -- reflexivity.
        -- simpl. rewrite Nat.eqb_refl. reflexivity.
        -- simpl. rewrite Nat.eqb_refl. reflexivity.
        -- intros m' cm'. simpl. eapply one_store_set; eauto.
        -- simpl. exists (push_exp c cm), (cm_exps cm), (expectation_default c (cm_me cm) KStatic).
           split; [rewrite nth_set_nth, Nat.eqb_refl, HM; reflexivity|]. split; [reflexivity|].
           unfold atomic_op, view, final in AT. rewrite HM, SP in AT.
           destruct (apply_setters c t l0 (expectation_default c (cm_me cm) KStatic) qs) as [[e q'] r0].
           injection AT as <- <-. rewrite set_nth_twice. split; reflexivity.
    + (* XCheckpoint *)
      cbn [qstep x_sys x_seqs x_mutex x_threads] in H.
      destruct (free (cs_sl y g)) eqn:FR; [|injection H as <- <- <-; exact STAY].
      apply free_none in FR. rewrite FR in E4. subst st.
      destruct (cs_sp y g) eqn:SP; simpl in H; injection H as <- <- <-.
      * apply (ONCE y qs mx (view y qs) (Panic MPoison)); auto.
        -- solve [apply PB; discriminate].
        -- reflexivity.
        -- unfold atomic_op, view, final. rewrite SP. reflexivity.
      * eapply (GOT (QDrain false) (put_sl y g (Some t) false)); auto.
        -- solve [apply PB; discriminate].
        -- reflexivity.
        -- unfold atomic_op, view, final. rewrite SP. reflexivity.
        -- simpl. rewrite Nat.eqb_refl. reflexivity.
        -- simpl. rewrite Nat.eqb_refl. reflexivity.
        -- simpl. split; reflexivity.
    + (* XDrop true *)
      cbn [qstep x_sys x_seqs x_mutex x_threads] in H. injection H as <- <- <-.
      assert (TH : forall h b, h = cs_sl y g -> forall t', orel (th_ok h t')
        (nth_error (set_nth ths t (TIn (XDrop true) k QLockD)) t')
        (nth_error (set_nth phs t (PhCleared k b)) t')).
      { intros h b ->. apply (r_th_set (XSys y qs mx ths) (AXs st mx phs)); auto. constructor. }
      destruct (cs_sl y g) as [t1|] eqn:SL.
      * destruct E4 as (SP & o1 & k1 & q1 & r1 & A & B & I1 & F). rewrite SP. simpl.
        eexists. split.
        { apply asteps_one. apply as_skip; [exact Hph|]. right. exists t1, o1, k1, r1.
          split; [congruence|]. split; [exact B|]. specialize (E3 t1). rewrite A, B in E3. simpl in E3.
          inversion E3; subst; auto; discriminate I1. }
        split; simpl; auto.
        -- rewrite Nat.eqb_refl. apply TH. auto.
        -- rewrite Nat.eqb_refl. split; auto. exists o1, k1, q1, r1.
           rewrite !nth_set_nth. destruct (Nat.eqb_spec t1 t); [congruence|].
           split; [auto|]. split; [auto|]. split; [auto|]. revert F. apply finishes_same; reflexivity.
      * destruct (cs_sp y g) eqn:SP.
        -- eexists. split; [simpl; apply asteps_one; apply as_clear; [exact Hph|subst st; exact SP]|].
           split; simpl; auto; rewrite Nat.eqb_refl.
           ++ apply TH. auto.
           ++ subst st. unfold view. simpl. rewrite Nat.eqb_refl. reflexivity.
        -- eexists. split; [simpl; apply asteps_one; apply as_skip; [exact Hph|left; subst st; exact SP]|].
           split; simpl; auto; rewrite Nat.eqb_refl.
           ++ apply TH. auto.
           ++ subst st. unfold view. simpl. rewrite Nat.eqb_refl, SP. reflexivity.
    + (* XDrop false *)
      cbn [qstep x_sys x_seqs x_mutex x_threads] in H.
      destruct (free (cs_sl y g)) eqn:FR; [|injection H as <- <- <-; exact STAY].
      apply free_none in FR. rewrite FR in E4. subst st.
      destruct (cs_sp y g) eqn:SP; simpl in H; injection H as <- <- <-.
      * apply (ONCE y qs mx (view y qs) (Panic MPoison)); auto.
        -- solve [apply PB; discriminate].
        -- reflexivity.
        -- unfold atomic_op, view, final. rewrite SP. reflexivity.
      * eapply (GOT (QDrain false) (put_sl y g (Some t) false)); auto.
        -- solve [apply PB; discriminate].
        -- reflexivity.
        -- unfold atomic_op, view, final. rewrite SP. reflexivity.
        -- simpl. rewrite Nat.eqb_refl. reflexivity.
        -- simpl. rewrite Nat.eqb_refl. reflexivity.
        -- simpl. split; reflexivity.
    + (* XLockU *)
      cbn [qstep x_sys x_seqs x_mutex x_threads] in H. destruct mx as [t1|].
      * injection H as <- <- <-. exact STAY.
      * injection H as <- <- <-. apply (ONCE y qs (Some t) st (Ret None)); auto.
        -- solve [apply PB; discriminate].
        -- split; reflexivity.
        -- destruct st as [[[[ms0 b0] u0] l0] q0]. reflexivity.
        -- intros X. rewrite X in E4. exact E4.
    + (* XUnlockU *)
      cbn [qstep x_sys x_seqs x_mutex x_threads] in H. injection H as <- <- <-.
      apply (ONCE y qs None st (Ret None)); auto.
      * solve [apply PB; discriminate].
      * reflexivity.
      * destruct st as [[[[ms0 b0] u0] l0] q0]. reflexivity.
      * intros X. rewrite X in E4. exact E4.
    + (* XSetup *)
      cbn [qstep x_sys x_seqs x_mutex x_threads] in H. injection H as <- <- <-.
      pose proof (SU u eq_refl) as FR. rewrite FR in E4.
      eapply (ONCE (put_world y (World u (fun _ => 0) t false)) sequence_new mx); auto.
      * solve [apply PB; discriminate].
      * reflexivity.
      * rewrite E4. reflexivity.
      * intros X. congruence.
  - (* the poison flag is cleared *)
    assert (PB : nth_error phs t = Some (PhBefore (XDrop true) k) /\ XDrop true <> XDrop true (V := V) (U := U) \/
      (exists b, nth_error phs t = Some (PhCleared k b) /\ XDrop true = XDrop true (V := V) (U := U))) by eauto.
    cbn [qstep x_sys x_seqs x_mutex x_threads] in H.
    destruct (free (cs_sl y g)) eqn:FR; [|injection H as <- <- <-; exact STAY].
    apply free_none in FR. rewrite FR in E4. subst st.
    destruct (cs_sp y g) eqn:SP; simpl in H; injection H as <- <- <-.
    + apply (ONCE y qs mx (view y qs) (Ret None)); auto.
      * reflexivity.
      * unfold atomic_op, view, final. rewrite SP. reflexivity.
    + eapply (GOT (QDrain true) (put_sl y g (Some t) false)); auto.
      * reflexivity.
      * unfold atomic_op, view, final. rewrite SP. reflexivity.
      * simpl. rewrite Nat.eqb_refl. reflexivity.
      * simpl. rewrite Nat.eqb_refl. reflexivity.
      * simpl. split; reflexivity.
  - congruence.
  - (* what was drained is dropped *)
    cbn [qstep x_sys x_seqs x_mutex x_threads] in H. injection H as <- <- <-. simpl.
    eexists. split; [apply asteps_one; eapply as_return; exact Hph|].
    apply (R_frame _ _ _ _ (PhIdle (k (unit_answer (drop_store c l1 b1)))) mx RR NH). constructor.
Qed.
End Sim.
