(** * ValidProofs: proofs for C25 - C35 *)

From Coq Require Import Arith NArith List Bool String Lia Permutation.
From Verif Require Import Base Times TimesSpec TimesProofs Expect ExpectProofs Mock Spec SysSpec
  DispatchProofs FifoProofs CallProofs SysProofs.
Import ListNotations.
Open Scope N_scope.

Section P.
Context {V U : Type}.
Implicit Types (w : world U) (me : method V) (md : mdecl V) (e : expectation V U)
  (es : list (expectation V U)) (y : sys V U) (st : gstore V U) (s : slot V U).

Lemma sound_dec e : {sound e} + {~ sound e}.
Proof.
  unfold sound, in_range. destruct (c_mpoison (e_common e)).
  - right. intros [A _]. discriminate.
  - destruct (N.leb_spec0 (rstart (trange_of (c_times (e_common e)))) (tcount (c_times (e_common e))));
    destruct (N.ltb_spec0 (tcount (c_times (e_common e))) (rend (trange_of (c_times (e_common e)))));
    [left|right|right|right]; intuition lia.
Qed.

Lemma common_drop_sound c me e : sound e -> common_drop c me (e_common e) false = Ret tt.
Proof.
  intros [A B]. unfold common_drop, show_locked. rewrite A. cbn [rbind].
  pose proof (is_satisfied_spec (c_times (e_common e))) as S. unfold in_range in B.
  destruct (times_is_satisfied _); auto; lia.
Qed.

Lemma common_drop_unsound c me e :
  ~ sound e -> common_drop c me (e_common e) false = Panic (complaint c me e).
Proof.
  intros S. unfold common_drop, show_locked, complaint, sound, in_range, count_of in *.
  destruct (c_mpoison (e_common e)); [reflexivity|]. cbn [rbind].
  pose proof (is_satisfied_spec (c_times (e_common e))) as Q.
  destruct (times_is_satisfied _).
  - exfalso. apply S. split; auto.
  - destruct (N.ltb_spec (tcount (c_times (e_common e))) (rstart (trange_of (c_times (e_common e))))); [lia|].
    unfold times_maximum, usub. destruct (N.eqb_spec (rend (trange_of (c_times (e_common e)))) 0) as [E|E].
    + rewrite E. cbn [N.leb N.compare]. destruct (checks c); [reflexivity|]. cbn [rbind].
      f_equal. unfold times_count. f_equal. lia.
    + destruct (N.leb_spec 1 (rend (trange_of (c_times (e_common e))))); [reflexivity|lia].
  - destruct (N.ltb_spec (tcount (c_times (e_common e))) (rstart (trange_of (c_times (e_common e))))); [reflexivity|lia].
Qed.

(** ** Vectors of expectations *)
Lemma drop_exps_unwinding c me es : drop_exps c me es true = Ret tt.
Proof. induction es; simpl; auto. Qed.

Lemma drop_exps_sound c me es : Forall sound es -> drop_exps c me es false = Ret tt.
Proof.
  induction es as [|e es IH]; intros H; cbn [drop_exps]; auto. inversion H; subst.
  rewrite common_drop_sound by auto. auto.
Qed.

Lemma drop_exps_first c me es e :
  first_unsound es e -> drop_exps c me es false = Panic (complaint c me e).
Proof.
  intros (es1 & es2 & -> & F & N). induction es1 as [|e1 es1 IH]; cbn [drop_exps app].
  - rewrite common_drop_unsound by auto. rewrite drop_exps_unwinding. reflexivity.
  - inversion F; subst. rewrite common_drop_sound by auto. auto.
Qed.

Lemma first_unsound_or es : Forall sound es \/ exists e, first_unsound es e.
Proof.
  induction es as [|e es IH]; [left; constructor|].
  destruct (sound_dec e) as [S|S].
  - destruct IH as [IH|(e1 & es1 & es2 & E & F & N)].
    + left. constructor; auto.
    + right. exists e1, (e :: es1), es2. subst. split; auto.
  - right. exists e, [], es. auto.
Qed.

Lemma first_unsound_not es e : first_unsound es e -> ~ Forall sound es.
Proof.
  intros (es1 & es2 & -> & F & N) H. apply N. rewrite Forall_forall in H. apply H.
  apply in_or_app. right. left. auto.
Qed.

Lemma drop_exps_iff c me es :
  (drop_exps c me es false = Ret tt <-> Forall sound es) /\
  (forall b, drop_exps c me es b <> Abort).
Proof.
  split.
  - split; [|apply drop_exps_sound]. intros H.
    destruct (first_unsound_or es) as [S|(e & F)]; auto. rewrite (drop_exps_first c me es e F) in H. discriminate.
  - intros [|]; [rewrite drop_exps_unwinding; discriminate|].
    destruct (first_unsound_or es) as [S|(e & F)].
    + rewrite drop_exps_sound by auto. discriminate.
    + rewrite (drop_exps_first c me es e F). discriminate.
Qed.

(** ** Several vectors *)
Lemma drop_many_concat c me (l : list (list (expectation V U))) b : drop_many c me l b = drop_exps c me (List.concat l) b.
Proof.
  assert (APP : forall es1 es2 (b : bool), drop_exps c me (es1 ++ es2) b =
            match drop_exps c me es1 b with
            | Ret _ => drop_exps c me es2 b
            | Panic m => match drop_exps c me es2 true with Ret _ => Panic m | _ => Abort end
            | Abort => Abort
            end).
  { induction es1 as [|e es1 IH]; intros es2 b'; simpl; auto.
    destruct (common_drop c me (e_common e) b') as [[]|m|]; auto.
    rewrite !drop_exps_unwinding. reflexivity. }
  revert b. induction l as [|es l IH]; intros b; simpl; auto.
  rewrite APP, !IH. destruct (drop_exps c me es b) as [[]|m|]; reflexivity.
Qed.

(** ** Stores *)

(** The shape of a store is the one its method declares, and a [HashMap] has no
    duplicate keys. *)
Definition slot_ok md s : Prop :=
  match s with
  | SPlain _ => md_generic md = false
  | SGeneric st => md_generic md = true /\ NoDup (map fst st)
  end.

Lemma gput_keys st k es k' : In k' (map fst (gput st k es)) <-> k' = k \/ In k' (map fst st).
Proof.
  induction st as [|[k1 es1] st IH]; simpl.
  - intuition.
  - destruct (Nat.eqb_spec k1 k).
    + subst. simpl. intuition.
    + simpl. rewrite IH. intuition.
Qed.

Lemma gput_nodup st k es : NoDup (map fst st) -> NoDup (map fst (gput st k es)).
Proof.
  induction st as [|[k1 es1] st IH]; simpl; intros H.
  - repeat constructor. simpl. auto.
  - inversion H; subst. destruct (Nat.eqb_spec k1 k); simpl; constructor; auto.
    rewrite gput_keys. intuition.
Qed.

Lemma gget_in st k es : NoDup (map fst st) -> (gget st k = Some es <-> In (k, es) st).
Proof.
  induction st as [|[k1 es1] st IH]; simpl; intros ND.
  - split; [discriminate|contradiction].
  - inversion ND; subst. destruct (Nat.eqb_spec k1 k).
    + subst. split.
      * intros H. inversion H. auto.
      * intros [H|H]; [inversion H; auto|]. exfalso. apply H1. apply (in_map fst) in H. exact H.
    + rewrite IH by auto. intuition congruence.
Qed.

Lemma in_slot_generic st e : NoDup (map fst st) ->
  (in_slot (SGeneric st) e <-> In e (List.concat (map snd st))).
Proof.
  intros ND. unfold in_slot. simpl. split.
  - intros (k & H). destruct (gget st k) as [es|] eqn:G; [|contradiction].
    apply gget_in in G; auto. apply in_concat. exists es. split; auto.
    apply (in_map snd) in G. exact G.
  - intros H. apply in_concat in H. destruct H as (es & H1 & H2).
    apply in_map_iff in H1. destruct H1 as ([k es'] & E & I). simpl in E. subst es'.
    exists k. apply gget_in in I; auto. rewrite I. auto.
Qed.

Lemma slot_ok_new md : slot_ok md (slot_new md : slot V U).
Proof. unfold slot_new. destruct (md_generic md) eqn:G; simpl; auto. split; auto. constructor. Qed.
Lemma slot_ok_clear md s : slot_ok md s -> slot_ok md (slot_clear s).
Proof. destruct s; simpl; auto. intros [A B]. split; auto. constructor. Qed.
Lemma slot_ok_put md s k es : slot_ok md s -> slot_ok md (slot_put s k es).
Proof. destruct s; simpl; auto. intros [A B]. split; auto. apply gput_nodup; auto. Qed.
Lemma slot_ok_expect c md md' s k th l t s' t' r :
  slot_ok md' s -> slot_expect c md s k th l t = (s', t', r) -> slot_ok md' s'.
Proof.
  unfold slot_expect. destruct (apply_setters _ _ _ _ _) as [[e t1] r1].
  intros A H. inversion H; subst. apply slot_ok_put; auto.
Qed.
Lemma slot_ok_call c md md' s k args wr w s' w' r :
  slot_ok md' s -> slot_call c md s k args wr w = (s', w', r) -> slot_ok md' s'.
Proof.
  unfold slot_call. destruct s as [es|st].
  - destruct (expectations_call _ _ _ _ _ _) as [[es' w1] r1]. intros A H; inversion H; subst; auto.
  - destruct (gget st k) as [es|].
    + destruct (expectations_call _ _ _ _ _ _) as [[es' w1] r1]. intros [A B] H; inversion H; subst.
      split; auto. apply gput_nodup; auto.
    + intros A H; inversion H; subst; auto.
Qed.

Lemma slot_clear_new md s : slot_ok md s -> slot_clear s = slot_new md.
Proof.
  unfold slot_new. destruct s; simpl.
  - intros ->. reflexivity.
  - intros [-> _]. reflexivity.
Qed.

(** All expectations of a store in the order in which they are dropped. *)
Definition slot_list (sh : shuffle V U) s : list (expectation V U) :=
  match s with SPlain es => es | SGeneric st => List.concat (map snd (sh st)) end.

Lemma slot_drop_list c md sh s b : slot_drop c md sh s b = drop_exps c (md_me md) (slot_list sh s) b.
Proof. destruct s; simpl; auto. apply drop_many_concat. Qed.

Lemma slot_list_in md sh s e : fair sh -> slot_ok md s -> (In e (slot_list sh s) <-> in_slot s e).
Proof.
  intros F O. destruct s as [es|st]; simpl in *.
  - unfold in_slot. simpl. split; [intros H; exists 0%nat; auto|intros [_ H]; auto].
  - destruct O as [_ ND]. rewrite in_slot_generic by auto.
    assert (P : Permutation (map snd (sh st)) (map snd st)) by (apply Permutation_map, F).
    rewrite !in_concat. split; intros (l & A & B); exists l; split; auto.
    + eapply Permutation_in; eauto.
    + eapply Permutation_in; [apply Permutation_sym|]; eauto.
Qed.

Lemma slot_drop_iff c md md' sh s :
  fair sh -> slot_ok md' s ->
  (slot_drop c md sh s false = Ret tt <-> forall e, in_slot s e -> sound e).
Proof.
  intros F O. rewrite slot_drop_list. rewrite (proj1 (drop_exps_iff c (md_me md) _)).
  rewrite Forall_forall. split; intros H e I; apply H; [apply (slot_list_in md' sh s e F O)|apply (slot_list_in md' sh s e F O)]; auto.
Qed.

Lemma slot_drop_total c md sh s b : slot_drop c md sh s b <> Abort.
Proof. rewrite slot_drop_list. apply drop_exps_iff. Qed.

Lemma slot_drop_unwinding c md sh s : slot_drop c md sh s true = Ret tt.
Proof. rewrite slot_drop_list. apply drop_exps_unwinding. Qed.

Lemma slot_drop_panic c md md' sh s m :
  fair sh -> slot_ok md' s -> slot_drop c md sh s false = Panic m ->
  exists e, in_slot s e /\ ~ sound e /\ m = complaint c (md_me md) e /\
    (forall es, s = SPlain es -> first_unsound es e).
Proof.
  intros F O. rewrite slot_drop_list.
  destruct (first_unsound_or (slot_list sh s)) as [S|(e & FU)].
  - rewrite drop_exps_sound by auto. discriminate.
  - rewrite (drop_exps_first _ _ _ _ FU). intros H. inversion H; subst. exists e.
    pose proof FU as (es1 & es2 & E & _ & NS). split.
    + apply (slot_list_in md' sh s e F O). rewrite E. apply in_or_app. right. left. auto.
    + split; auto. split; auto. intros es ->. exact FU.
Qed.

(** ** Objects *)
Definition field_ok (f : field V U) : Prop := slot_ok (f_decl f) (f_slot f).
Definition field_sound (f : field V U) : Prop := forall e, in_slot (f_slot f) e -> sound e.

Lemma object_drop_unwinding c sh (o : object V U) : object_drop c sh o true = Ret tt.
Proof. induction o; simpl; auto. rewrite slot_drop_unwinding. auto. Qed.

Lemma field_sound_or c sh f : fair sh -> field_ok f ->
  (field_sound f /\ slot_drop c (f_decl f) sh (f_slot f) false = Ret tt) \/
  (~ field_sound f /\ exists m, slot_drop c (f_decl f) sh (f_slot f) false = Panic m).
Proof.
  intros F O. pose proof (slot_drop_iff c (f_decl f) (f_decl f) sh (f_slot f) F O) as I.
  destruct (slot_drop c (f_decl f) sh (f_slot f) false) as [[]|m|] eqn:E.
  - left. split; auto. exact (proj1 I eq_refl).
  - right. split; [|eauto]. intros S. apply (proj2 I) in S. discriminate.
  - exfalso. eapply slot_drop_total; eauto.
Qed.

Lemma object_drop_iff c sh (o : object V U) :
  fair sh -> Forall field_ok o ->
  (object_drop c sh o false = Ret tt <-> Forall field_sound o) /\
  (forall b, object_drop c sh o b <> Abort).
Proof.
  intros F. induction o as [|f o IH]; intros O.
  - simpl. split; [split; auto|]; try discriminate.
  - inversion O as [|? ? O1 O2]; subst. specialize (IH O2). destruct IH as [IH1 IH2]. split.
    + simpl. destruct (field_sound_or c sh f F O1) as [[S E]|[S [m E]]]; rewrite E.
      * rewrite IH1. split; [constructor; auto|]. intros H; inversion H; auto.
      * rewrite object_drop_unwinding. split; [discriminate|]. intros H; inversion H; contradiction.
    + intros [|]; [rewrite object_drop_unwinding; discriminate|]. simpl.
      destruct (field_sound_or c sh f F O1) as [[S E]|[S [m E]]]; rewrite E; auto.
      rewrite object_drop_unwinding. discriminate.
Qed.

Lemma object_drop_total c sh (o : object V U) b : object_drop c sh o b <> Abort.
Proof.
  revert b. induction o as [|f o IH]; intros b; simpl; [discriminate|].
  pose proof (slot_drop_total c (f_decl f) sh (f_slot f) b).
  destruct (slot_drop c (f_decl f) sh (f_slot f) b) as [[]|m|]; auto.
  rewrite object_drop_unwinding. discriminate.
Qed.

Definition cleared (f : field V U) : field V U := Field (f_decl f) (slot_clear (f_slot f)).

Lemma object_checkpoint_spec c sh (o : object V U) :
  fair sh -> Forall field_ok o ->
  (Forall field_sound o /\ object_checkpoint c sh o false = (map cleared o, Ret tt)) \/
  (exists o1 f o2 m, o = o1 ++ f :: o2 /\ Forall field_sound o1 /\ ~ field_sound f /\
     slot_drop c (f_decl f) sh (f_slot f) false = Panic m /\
     object_checkpoint c sh o false = (map cleared o1 ++ cleared f :: o2, Panic m)).
Proof.
  intros F. induction o as [|f o IH]; intros O.
  - left. split; auto.
  - inversion O as [|? ? O1 O2]; subst. specialize (IH O2). cbn [object_checkpoint]. unfold slot_checkpoint.
    destruct (field_sound_or c sh f F O1) as [[S E]|[S [m E]]]; rewrite E.
    + destruct IH as [[A B]|(o1 & f' & o2 & m & A & B & C & D & G)].
      * left. rewrite B. split; auto.
      * right. exists (f :: o1), f', o2, m. rewrite G. subst o. repeat split; auto.
    + right. exists [], f, o, m. repeat split; auto.
Qed.

Lemma object_checkpoint_unwinding c sh (o : object V U) : object_checkpoint c sh o true = (map cleared o, Ret tt).
Proof. induction o as [|f o IH]; auto. cbn [object_checkpoint]. unfold slot_checkpoint. rewrite slot_drop_unwinding, IH. auto. Qed.

Lemma object_checkpoint_total c sh (o : object V U) b : snd (object_checkpoint c sh o b) <> Abort.
Proof.
  induction o as [|f o IH]; cbn [object_checkpoint]; [discriminate|]. unfold slot_checkpoint.
  pose proof (slot_drop_total c (f_decl f) sh (f_slot f) b).
  destruct (slot_drop c (f_decl f) sh (f_slot f) b) as [[]|m|]; try contradiction; [|discriminate].
  destruct (object_checkpoint c sh o b) as [o2 r2]. auto.
Qed.

(** ** Modules *)
Definition stat := (mdecl V * smutex V U)%type.
Definition stat_ok (p : stat) : Prop := slot_ok (fst p) (sm_slot (snd p)).
Definition stat_sound (p : stat) : Prop :=
  sm_poison (snd p) = false /\ forall e, in_slot (sm_slot (snd p)) e -> sound e.
Definition wiped (p : stat) : stat := (fst p, SMutex false (slot_clear (sm_slot (snd p)))).

Lemma static_checkpoint_cases c sh (p : stat) : fair sh -> stat_ok p ->
  (stat_sound p /\ static_checkpoint c (fst p) sh (snd p) false = (snd (wiped p), Ret tt)) \/
  (sm_poison (snd p) = true /\ static_checkpoint c (fst p) sh (snd p) false = (snd p, Panic MPoison)) \/
  (sm_poison (snd p) = false /\ ~ stat_sound p /\
   exists m, slot_drop c (fst p) sh (sm_slot (snd p)) false = Panic m /\
   static_checkpoint c (fst p) sh (snd p) false = (snd (wiped p), Panic m)).
Proof.
  intros F O. unfold static_checkpoint, stat_sound. destruct p as [md sm]. cbn [fst snd wiped] in *.
  destruct (sm_poison sm) eqn:P; [auto|].
  pose proof (slot_drop_iff c md md sh (sm_slot sm) F O) as I.
  pose proof (slot_drop_total c md sh (sm_slot sm) false) as T.
  destruct (slot_drop c md sh (sm_slot sm) false) as [[]|m|]; [|right; right|contradiction].
  - left. split; auto. split; auto. apply I. auto.
  - split; auto. split; [|exists m; auto]. intros [_ S]. apply I in S. discriminate.
Qed.

Lemma module_checkpoint_spec c sh (ss : statics V U) :
  fair sh -> Forall stat_ok ss ->
  (Forall stat_sound ss /\ module_checkpoint c sh ss false = (map wiped ss, Ret tt)) \/
  (exists ss1 p ss2 m, ss = ss1 ++ p :: ss2 /\ Forall stat_sound ss1 /\ ~ stat_sound p /\
     (sm_poison (snd p) = true /\ m = MPoison /\
        module_checkpoint c sh ss false = (map wiped ss1 ++ p :: ss2, Panic m) \/
      sm_poison (snd p) = false /\ slot_drop c (fst p) sh (sm_slot (snd p)) false = Panic m /\
        module_checkpoint c sh ss false = (map wiped ss1 ++ wiped p :: ss2, Panic m))).
Proof.
  intros F. induction ss as [|p ss IH]; intros O.
  - left. auto.
  - inversion O as [|? ? O1 O2]; subst. specialize (IH O2).
    destruct p as [md sm]. cbn [module_checkpoint].
    destruct (static_checkpoint_cases c sh (md, sm) F O1) as [[S E]|[[S E]|[S [NS [m [D E]]]]]]; cbn [fst snd] in E; rewrite E.
    + destruct IH as [[A B]|(ss1 & p' & ss2 & m & A & B & C & D)].
      * left. rewrite B. split; auto.
      * right. exists ((md, sm) :: ss1), p', ss2, m. subst ss. split; [auto|]. split; [auto|]. split; [auto|].
        destruct D as [(D1 & D2 & D3)|(D1 & D2 & D3)]; rewrite D3; [left|right]; auto.
    + right. exists [], (md, sm), ss, MPoison. split; [auto|]. split; [auto|].
      split; [intros [X _]; cbn [snd] in *; congruence|]. left. auto.
    + right. exists [], (md, sm), ss, m. split; [auto|]. split; [auto|]. split; [auto|]. right. auto.
Qed.

(** ** Reachable states *)
Definition sys_ok y : Prop :=
  Forall (Forall field_ok) (y_objs y) /\ Forall stat_ok (y_stats y).

Lemma Forall_nth_set {A} (P : A -> Prop) l i x : Forall P l -> P x -> Forall P (set_nth l i x).
Proof. apply Forall_set_nth. Qed.

Lemma cleared_ok f : field_ok f -> field_ok (cleared f).
Proof. unfold field_ok. simpl. apply slot_ok_clear. Qed.

Lemma object_checkpoint_ok c sh : forall (o : object V U) b,
  Forall field_ok o -> Forall field_ok (fst (object_checkpoint c sh o b)).
Proof.
  induction o as [|f o IH]; intros b O; cbn [object_checkpoint]; auto. unfold slot_checkpoint.
  inversion O; subst.
  destruct (slot_drop c (f_decl f) sh (f_slot f) b) as [[]|m|].
  - specialize (IH b H2). destruct (object_checkpoint c sh o b) as [o2 r2]. simpl. constructor; auto.
    apply cleared_ok; auto.
  - simpl. constructor; auto. apply (cleared_ok f); auto.
  - simpl. constructor; auto. apply (cleared_ok f); auto.
Qed.

Lemma static_checkpoint_ok c sh md md' (sm : smutex V U) b :
  slot_ok md (sm_slot sm) -> slot_ok md (sm_slot (fst (static_checkpoint c md' sh sm b))).
Proof. intros O. unfold static_checkpoint. destruct (sm_poison sm); simpl; auto. apply slot_ok_clear; auto. Qed.

Lemma module_checkpoint_ok c sh : forall (ss : statics V U) b,
  Forall stat_ok ss -> Forall stat_ok (fst (module_checkpoint c sh ss b)).
Proof.
  induction ss as [|[md sm] ss IH]; intros b O; cbn [module_checkpoint]; auto.
  inversion O; subst. pose proof (static_checkpoint_ok c sh md md sm b H1) as SO.
  destruct (static_checkpoint c md sh sm b) as [sm' [[]|m|]]; cbn [fst] in SO.
  - specialize (IH b H2). destruct (module_checkpoint c sh ss b) as [ss2 r2]. simpl. constructor; auto.
  - simpl. constructor; auto.
  - simpl. constructor; auto.
Qed.

Lemma nth_Forall {A} (P : A -> Prop) l i x : Forall P l -> nth_error l i = Some x -> P x.
Proof. intros F N. rewrite Forall_forall in F. apply F. eapply nth_error_In; eauto. Qed.

Lemma step_ok c sh y o : sys_ok y -> sys_ok (fst (step c sh y o)).
Proof.
  intros [O1 O2]. destruct o; cbn [step].
  - split; auto. cbn [fst set_objs y_objs]. apply Forall_app. split; auto. constructor; auto.
    unfold object_new. rewrite Forall_map, Forall_forall. intros md _. apply slot_ok_new.
  - destruct (nth_error (y_objs y) o) as [ob|] eqn:N1; [|split; auto].
    destruct (nth_error ob m) as [f|] eqn:N2; [|split; auto].
    pose proof (nth_Forall _ _ _ _ O1 N1) as P1. pose proof (nth_Forall _ _ _ _ P1 N2) as P2.
    destruct (slot_expect _ _ _ _ _ _ _) as [[s' t'] r] eqn:E. split; auto. cbn [fst y_objs].
    repeat apply Forall_nth_set; auto. unfold field_ok. simpl. eapply slot_ok_expect; eauto.
  - destruct (nth_error (y_objs y) o) as [ob|] eqn:N1; [|split; auto].
    destruct (nth_error ob m) as [f|] eqn:N2; [|split; auto].
    pose proof (nth_Forall _ _ _ _ O1 N1) as P1. pose proof (nth_Forall _ _ _ _ P1 N2) as P2.
    unfold field_call. destruct (slot_call _ _ _ _ _ _ _) as [[s' w'] r] eqn:E. split; auto. cbn [fst y_objs].
    repeat apply Forall_nth_set; auto. unfold field_ok. simpl. eapply slot_ok_call; eauto.
  - destruct (nth_error (y_objs y) o) as [ob|] eqn:N1; [|split; auto].
    pose proof (nth_Forall _ _ _ _ O1 N1) as P1.
    pose proof (object_checkpoint_ok c sh ob (w_panicking (y_world y)) P1) as P2.
    destruct (object_checkpoint _ _ _ _) as [ob' r]. split; auto. cbn [fst set_objs y_objs] in *.
    apply Forall_nth_set; auto.
  - destruct (nth_error (y_objs y) o) as [ob|] eqn:N1; [|split; auto].
    split; auto. cbn [fst set_objs y_objs]. apply Forall_nth_set; auto.
  - destruct (nth_error (y_stats y) s) as [[md sm]|] eqn:N1; [|split; auto].
    pose proof (nth_Forall _ _ _ _ O2 N1) as P1. unfold context_expect.
    destruct (sm_poison sm); [split; auto; cbn [fst y_stats]; apply Forall_nth_set; auto|].
    destruct (slot_expect _ _ _ _ _ _ _) as [[s' t'] r] eqn:E.
    assert (stat_ok (md, SMutex false s')) by (unfold stat_ok; simpl; eapply slot_ok_expect; eauto).
    destruct r as [[]|m|]; split; auto; cbn [fst y_stats]; apply Forall_nth_set; auto.
  - destruct (nth_error (y_stats y) s) as [[md sm]|] eqn:N1; [|split; auto].
    pose proof (nth_Forall _ _ _ _ O2 N1) as P1. unfold static_call.
    destruct (sm_poison sm); [split; auto; cbn [fst y_stats]; apply Forall_nth_set; auto|].
    destruct (slot_call _ _ _ _ _ _ _) as [[s' w'] r] eqn:E.
    assert (stat_ok (md, SMutex false s')) by (unfold stat_ok; simpl; eapply slot_ok_call; eauto).
    destruct r as [[v|]|m|]; split; auto; cbn [fst y_stats]; apply Forall_nth_set; auto.
  - destruct (nth_error (y_stats y) s) as [[md sm]|] eqn:N1; [|split; auto].
    pose proof (nth_Forall _ _ _ _ O2 N1) as P1.
    pose proof (static_checkpoint_ok c sh md md sm (w_panicking (y_world y)) P1) as P2.
    destruct (static_checkpoint _ _ _ _ _) as [sm' r]. split; auto. cbn [fst set_stats y_stats] in *.
    apply Forall_nth_set; auto.
  - destruct (nth_error (y_stats y) s) as [[md sm]|] eqn:N1; [|split; auto].
    pose proof (nth_Forall _ _ _ _ O2 N1) as P1.
    assert (P2 : slot_ok md (sm_slot (fst (context_drop c md sh sm (w_panicking (y_world y)))))).
    { unfold context_drop. destruct (w_panicking (y_world y)); [simpl; apply slot_ok_clear; auto|].
      apply static_checkpoint_ok; auto. }
    destruct (context_drop _ _ _ _ _) as [sm' r]. split; auto. cbn [fst set_stats y_stats] in *.
    apply Forall_nth_set; auto.
  - pose proof (module_checkpoint_ok c sh (y_stats y) (w_panicking (y_world y)) O2) as P.
    destruct (module_checkpoint _ _ _ _) as [ss r]. split; auto.
  - split; auto.
  - split; auto.
  - split; auto.
Qed.

Lemma run_ok c sh : forall l y, sys_ok y -> sys_ok (after c sh y l).
Proof.
  induction l as [|o l IH]; intros y O; unfold after; cbn [run]; auto.
  pose proof (step_ok c sh y o O) as S. destruct (step c sh y o) as [y1 r]. cbn [fst] in S.
  specialize (IH y1 S). unfold after in IH. destruct (run c sh y1 l) as [y2 rs]. auto.
Qed.

Lemma init_ok u (decls : list (mdecl V)) : sys_ok (init u decls : sys V U).
Proof.
  split; simpl; auto. rewrite Forall_map, Forall_forall. intros md _. apply slot_ok_new.
Qed.

Lemma reach_ok c sh u decls l : sys_ok (after c sh (init u decls : sys V U) l).
Proof. apply run_ok, init_ok. Qed.

(** ** The expectations of an object or static method, by place *)
Lemma object_places y i ob : nth_error (y_objs y) i = Some ob ->
  ((forall m k n e, at_place y (PObj i m k n) = Some e -> sound e) <-> Forall field_sound ob).
Proof.
  intros N. simpl. rewrite N. rewrite Forall_forall. split.
  - intros H f I e (k & J). apply In_nth_error in I. destruct I as [m I].
    apply In_nth_error in J. destruct J as [n J]. apply (H m k n). rewrite I. auto.
  - intros H m k n e A. destruct (nth_error ob m) as [f|] eqn:I; [|discriminate].
    apply (H f); [eapply nth_error_In; eauto|]. exists k. eapply nth_error_In; eauto.
Qed.

Lemma stat_places y i (p : stat) : nth_error (y_stats y) i = Some p ->
  ((forall k n e, at_place y (PStat i k n) = Some e -> sound e) <->
   (forall e, in_slot (sm_slot (snd p)) e -> sound e)).
Proof.
  intros N. simpl. rewrite N. split.
  - intros H e (k & J). apply In_nth_error in J. destruct J as [n J]. apply (H k n). auto.
  - intros H k n e A. apply H. exists k. eapply nth_error_In; eauto.
Qed.

End P.
