(** * PropValidation: C25 - C29, validation of expectations *)

From Coq Require Import Arith NArith List Bool String Lia Permutation.
From Verif Require Import Base Times TimesSpec Expect Mock Spec SysSpec Samples
  DispatchProofs FifoProofs CallProofs SysProofs ValidProofs StaticProofs PoisonProofs.
Import ListNotations.
Open Scope N_scope.

(** ** C25: a checkpoint validates and forgets *)

(** [Context::checkpoint], in every reachable state. *)
Theorem context_checkpoint_validates_and_forgets :
  forall (V U : Type) c (sh : shuffle V U) u decls l s md sm y' r,
  fair sh ->
  let y := after c sh (init u decls) l in
  w_panicking (y_world y) = false ->
  nth_error (y_stats y) s = Some (md, sm) -> sm_poison sm = false ->
  step c sh y (OCtxCheckpoint s) = (y', r) ->
  (* everything is forgotten and the method is usable, like new *)
  (forall k n, at_place y' (PStat s k n) = None) /\
  nth_error (y_stats y') s = Some (md, smutex_new md) /\
  (* it panics exactly if something is wrong *)
  (r = Ret None <-> forall k n e, at_place y (PStat s k n) = Some e -> sound e) /\
  (forall m, r = Panic m -> exists k n e,
     at_place y (PStat s k n) = Some e /\ ~ sound e /\ m = complaint c (md_me md) e) /\
  (* and the oldest expectation complains *)
  (forall es e, sm_slot sm = SPlain es -> first_unsound es e -> r = Panic (complaint c (md_me md) e)).
Proof.
  intros V U c sh u decls l s md sm y' r F y W N P E.
  pose proof (reach_ok c sh u decls l) as [_ OK]. fold y in OK.
  pose proof (nth_Forall _ _ _ _ OK N) as O. unfold stat_ok in O. cbn [fst snd] in O.
  cbn [step] in E. rewrite N, W in E. unfold static_checkpoint in E. rewrite P in E.
  inversion E; subst; clear E.
  assert (NS : nth_error (y_stats (set_stats y (set_nth (y_stats y) s (md, SMutex false (slot_clear (sm_slot sm)))))) s
               = Some (md, smutex_new md)).
  { cbn [set_stats y_stats]. rewrite set_nth_nth, N, Nat.eqb_refl.
    rewrite (slot_clear_new md) by auto. reflexivity. }
  pose proof (slot_drop_iff c md md sh (sm_slot sm) F O) as I.
  split; [|split; [exact NS|split; [|split]]].
  - intros k n. unfold at_place. rewrite NS. unfold smutex_new, slot_new. cbn [snd sm_slot].
    destruct (md_generic md); destruct n; reflexivity.
  - rewrite (stat_places y s (md, sm) N). rewrite <- I.
    destruct (slot_drop c md sh (sm_slot sm) false) as [[]|m|]; simpl; split; auto; discriminate.
  - intros m D. assert (D' : slot_drop c md sh (sm_slot sm) false = Panic m).
    { destruct (slot_drop c md sh (sm_slot sm) false) as [[]|m'|]; simpl in D; congruence. }
    destruct (slot_drop_panic c md md sh (sm_slot sm) m F O D') as (e & (k & IN) & NSD & EQ & _).
    apply In_nth_error in IN. destruct IN as [n IN]. exists k, n, e. split; auto.
    simpl. rewrite N. auto.
  - intros es e S FU. rewrite S. cbn [slot_drop]. rewrite (drop_exps_first _ _ _ _ FU). reflexivity.
Qed.
Print Assumptions context_checkpoint_validates_and_forgets.

(** The store of any one method: [checkpoint] empties it, and the oldest unsound
    expectation complains. *)
Theorem method_checkpoint :
  forall (V U : Type) c (md : mdecl V) (sh : shuffle V U) es,
  (Forall sound es -> slot_checkpoint c md sh (SPlain es) false = (SPlain [], Ret tt)) /\
  (forall e, first_unsound es e ->
     slot_checkpoint c md sh (SPlain es) false = (SPlain [], Panic (complaint c (md_me md) e))).
Proof.
  intros. unfold slot_checkpoint. cbn [slot_clear slot_drop]. split.
  - intros S. rewrite drop_exps_sound by auto. reflexivity.
  - intros e FU. rewrite (drop_exps_first _ _ _ _ FU). reflexivity.
Qed.
Print Assumptions method_checkpoint.

(** What it means to be sound, and the complaints, for an expectation with the
    range [lo..=hi] whose matcher did not panic. *)
Theorem complaint_meaning :
  forall (V U : Type) c (me : method V) (e : expectation V U) lo hi,
  c_mpoison (e_common e) = false -> trange_of (c_times (e_common e)) = TRange lo (hi + 1) ->
  (sound e <-> lo <= count_of e <= hi) /\
  (count_of e < lo ->
     complaint c me e = MTooFew (me_name me) (matcher_show (c_matcher (e_common e))) (count_of e) lo) /\
  (lo <= count_of e -> hi < count_of e ->
     complaint c me e = MTooMany (me_name me) (matcher_show (c_matcher (e_common e))) (count_of e) hi).
Proof.
  intros V U c me e lo hi P R. unfold sound, in_range, complaint, count_of. rewrite P, R. cbn [rstart rend].
  split; [|split].
  - split; [intros [_ ?]; lia|]. intros; split; auto; lia.
  - intros L. destruct (N.ltb_spec0 (tcount (c_times (e_common e))) lo); [auto|lia].
  - intros L H. destruct (N.ltb_spec0 (tcount (c_times (e_common e))) lo); [lia|].
    destruct (N.eqb_spec (hi + 1) 0); [lia|]. f_equal. lia.
Qed.
Print Assumptions complaint_meaning.

Lemma idshuffle_fair : fair idshuffle.
Proof. intros st. apply Permutation_refl. Qed.

(** Two expectations, the first of which is missing a call. *)
Example checkpoint_case :
  let c := Cfg 100 true false in
  let l := [OCtxExpect 0 0%nat [StTimes (ANum 2); StReturning seven];
            OCtxExpect 0 0%nat [StTimes (ANum 1); StReturning seven];
            OStaticCall 0 0%nat [3]] in
  let y := after c idshuffle (init [] [mdstat]) l in
  fair idshuffle /\ w_panicking (y_world y) = false /\
  (exists sm, nth_error (y_stats y) 0 = Some (mdstat, sm) /\ sm_poison sm = false) /\
  snd (step c idshuffle y (OCtxCheckpoint 0)) = Panic (MTooFew "MockFoo::stat" "<anything>" 1 2) /\
  snd (step c idshuffle (after c idshuffle y [OStaticCall 0 0%nat [4]; OStaticCall 0 0%nat [5]]) (OCtxCheckpoint 0))
    = Ret None.
Proof.
  split; [exact idshuffle_fair|]. split; [vm_compute; reflexivity|].
  split; [eexists; split; vm_compute; reflexivity|]. vm_compute. auto.
Qed.

(** ** C26: a mock object's checkpoint *)
Theorem object_checkpoint_covers_its_methods :
  forall (V U : Type) c (sh : shuffle V U) u decls l i ob y' r,
  fair sh ->
  let y := after c sh (init u decls) l in
  w_panicking (y_world y) = false ->
  nth_error (y_objs y) i = Some ob ->
  step c sh y (OCheckpoint i) = (y', r) ->
  (* static methods and other objects are left alone *)
  y_stats y' = y_stats y /\ y_world y' = y_world y /\ y_seqs y' = y_seqs y /\
  (forall j, j <> i -> nth_error (y_objs y') j = nth_error (y_objs y) j) /\
  (* it panics exactly if something is wrong *)
  (r = Ret None <-> forall m k n e, at_place y (PObj i m k n) = Some e -> sound e) /\
  (r = Ret None -> forall m k n, at_place y' (PObj i m k n) = None) /\
  (* where it stops when it panics *)
  (r <> Ret None -> exists m f k n e,
     nth_error ob m = Some f /\ at_place y (PObj i m k n) = Some e /\ ~ sound e /\
     r = Panic (complaint c (md_me (f_decl f)) e) /\
     (forall m' k n e, (m' < m)%nat -> at_place y (PObj i m' k n) = Some e -> sound e) /\
     (forall m' k n, (m' <= m)%nat -> at_place y' (PObj i m' k n) = None) /\
     (forall m' k n, (m < m')%nat -> at_place y' (PObj i m' k n) = at_place y (PObj i m' k n))).
Proof.
  intros V U c sh u decls l i ob y' r F y W N E.
  pose proof (reach_ok c sh u decls l) as [OK _]. fold y in OK.
  pose proof (nth_Forall _ _ _ _ OK N) as O. cbn [step] in E. rewrite N, W in E.
  pose proof (object_checkpoint_spec c sh ob F O) as SP.
  assert (CL : forall f k, @slot_get V U (slot_clear (f_slot f)) k = []).
  { intros f k. destruct (f_slot f); reflexivity. }
  assert (UNIQ : forall a b x b', a ++ x :: b = b' -> nth_error b' (List.length a) = Some (x : field V U)).
  { intros a b x b' <-. rewrite nth_error_app2, Nat.sub_diag; auto. }
  destruct (object_checkpoint c sh ob false) as [ob' r0]. inversion E; subst; clear E.
  cbn [set_objs y_stats y_world y_seqs y_objs].
  split; [auto|]. split; [auto|]. split; [auto|].
  split. { intros j D. apply nth_set_nth_other. auto. }
  rewrite (object_places y i ob N).
  assert (AT : forall m k n, at_place (set_objs y (set_nth (y_objs y) i ob')) (PObj i m k n) =
     match nth_error ob' m with Some f => nth_error (slot_get (f_slot f) k) n | None => None end).
  { intros. simpl. rewrite set_nth_nth, N, Nat.eqb_refl. reflexivity. }
  assert (AT0 : forall m k n, at_place y (PObj i m k n) =
     match nth_error ob m with Some f => nth_error (slot_get (f_slot f) k) n | None => None end).
  { intros. simpl. rewrite N. reflexivity. }
  destruct SP as [[S SP]|(o1 & f & o2 & m & D1 & D2 & D3 & D4 & SP)]; inversion SP; subst; clear SP.
  - split; [split; auto|]. split; [|intros X; exfalso; apply X; reflexivity].
    intros _ m k n. rewrite AT. rewrite nth_error_map. destruct (nth_error ob m) as [f|]; [|reflexivity].
    simpl. unfold cleared. cbn [f_slot]. rewrite CL. destruct n; reflexivity.
  - split.
    { split; [discriminate|]. intros A. exfalso. apply D3. rewrite Forall_forall in A. apply A.
      apply in_or_app. right. left. auto. }
    split; [discriminate|]. intros _.
    apply Forall_app in O. destruct O as [O1 O2]. inversion O2 as [|? ? O3 O4]; subst.
    destruct (slot_drop_panic c (f_decl f) (f_decl f) sh (f_slot f) m F O3 D4) as (e & (k & IN) & NSD & EQ & _).
    apply In_nth_error in IN. destruct IN as [n IN].
    exists (List.length o1), f, k, n, e.
    assert (NF : nth_error (o1 ++ f :: o2) (List.length o1) = Some f) by (eapply UNIQ; eauto).
    split; [auto|]. split; [rewrite AT0, NF; auto|]. split; [auto|]. split; [subst m; reflexivity|].
    split; [|split].
    + intros m' k' n' e' L A. rewrite AT0 in A. rewrite nth_error_app1 in A by auto.
      destruct (nth_error o1 m') as [f'|] eqn:N1; [|discriminate]. rewrite Forall_forall in D2.
      apply (D2 f'); [eapply nth_error_In; eauto|]. exists k'. eapply nth_error_In; eauto.
    + intros m' k' n' L. rewrite AT.
      assert (EQL : m' = List.length o1 \/ (m' < List.length o1)%nat) by lia. destruct EQL as [->|LT].
      * rewrite nth_error_app2 by (rewrite map_length; auto). rewrite map_length, Nat.sub_diag.
        simpl. rewrite CL. destruct n'; reflexivity.
      * rewrite nth_error_app1 by (rewrite map_length; auto). rewrite nth_error_map.
        destruct (nth_error o1 m') as [f'|]; [|reflexivity]. simpl. rewrite CL. destruct n'; reflexivity.
    + intros m' k' n' L. rewrite AT, AT0.
      rewrite !nth_error_app2 by (rewrite ?map_length; lia). rewrite map_length.
      destruct (m' - List.length o1)%nat eqn:Z; [lia|]. reflexivity.
Qed.
Print Assumptions object_checkpoint_covers_its_methods.

(** The methods of an object are the non-static ones of its declaration, those of
    traits first, in order. *)
Theorem object_has_exactly_the_nonstatic_methods :
  forall (V U : Type) c (sh : shuffle V U) u decls l i sd,
  nth_error (news l) i = Some sd -> ~ In (ODrop i) l ->
  exists ob, nth_error (y_objs (after c sh (init u decls) l)) i = Some ob /\
    map f_decl ob = filter nonstatic (List.concat (sd_traits sd) ++ sd_methods sd).
Proof.
  intros V U c sh u decls l i sd N D.
  destruct (created c sh u decls l i sd N D) as (ob & A & B). exists ob. split; auto.
  unfold decls_of in B. rewrite B. unfold struct_fields. rewrite filter_app. f_equal.
  clear. induction (sd_traits sd) as [|ms tr IH]; simpl; auto. rewrite filter_app.
  destruct (all_static ms) eqn:A; simpl.
  - replace (filter nonstatic ms) with (@nil (mdecl V)); auto.
    unfold all_static in A. rewrite forallb_forall in A.
    induction ms as [|md ms IHm]; simpl; auto. unfold nonstatic at 1. rewrite A by (left; auto). simpl.
    apply IHm. intros x X. apply A. right. auto.
  - rewrite IH. reflexivity.
Qed.
Print Assumptions object_has_exactly_the_nonstatic_methods.

Definition sd2 : sdecl V0 := SDecl [[mdref; mdstat]; [mdstat]] [md0; mdgen].

(** The first method of the mock has no expectation, the second one a bad
    one, the third (generic) one a bad one too: the third is not reached. *)
Example object_checkpoint_case :
  let c := Cfg 100 true false in
  let l := [ONew sd2; OExpect 0 1 0%nat [StTimes (ANum 1)]; OExpect 0 2 7%nat [StTimes (ANum 3)]] in
  let y := after c idshuffle (init [] [mdstat]) l in
  let (y', r) := step c idshuffle y (OCheckpoint 0) in
  fair idshuffle /\ nth_error (news l) 0 = Some sd2 /\ ~ In (ODrop 0) l /\
  (exists ob, nth_error (y_objs y) 0 = Some ob /\ map f_decl ob = [mdref; md0; mdgen]) /\
  r = Panic (MTooFew "MockFoo::bar" "<anything>" 0 1) /\
  at_place y' (PObj 0 1 0%nat 0) = None /\ at_place y' (PObj 0 2 7%nat 0) <> None /\
  snd (step c idshuffle y' (OCheckpoint 0)) = Panic (MTooFew "MockFoo::gen" "<anything>" 0 3).
Proof.
  cbv zeta.
  assert (ND : ~ In (ODrop 0) [ONew sd2; OExpect 0 1 0%nat [StTimes (ANum 1)]; OExpect (V:=V0) (U:=U0) 0 2 7%nat [StTimes (ANum 3)]]).
  { intros [H|[H|[H|[]]]]; discriminate. }
  pose proof idshuffle_fair as FS.
  destruct (step _ _ _ _) as [y' r] eqn:E. split; [exact FS|]. split; [reflexivity|]. split; [exact ND|].
  clear ND FS. vm_compute in E. inversion E; subst. clear E.
  split; [eexists; split; vm_compute; reflexivity|]. vm_compute. repeat split; discriminate.
Qed.

(** ** C27: no double panic *)
Theorem validation_never_aborts :
  forall (V U : Type) c (sh : shuffle V U) (y : sys V U) o,
  (match o with OCheckpoint _ | ODrop _ | OCtxCheckpoint _ | OCtxDrop _ | OModCheckpoint => True | _ => False end) ->
  snd (step c sh y o) <> Abort.
Proof.
  intros V U c sh y o H.
  assert (UR : forall r : res unit, r <> Abort -> unit_res (V := V) r <> Abort).
  { intros [[]|m|]; simpl; congruence. }
  assert (SC : forall md sm b, snd (static_checkpoint c md sh (sm : smutex V U) b) <> Abort).
  { intros md sm b. unfold static_checkpoint. destruct (sm_poison sm); [discriminate|]. apply slot_drop_total. }
  destruct o; try contradiction; cbn [step].
  - destruct (nth_error (y_objs y) o) as [ob|]; [|discriminate].
    pose proof (object_checkpoint_total c sh ob (w_panicking (y_world y))) as T.
    destruct (object_checkpoint _ _ _ _) as [ob' r]. apply UR. auto.
  - destruct (nth_error (y_objs y) o) as [ob|]; [|discriminate]. apply UR. apply object_drop_total.
  - destruct (nth_error (y_stats y) s) as [[md sm]|]; [|discriminate].
    pose proof (SC md sm (w_panicking (y_world y))) as T.
    destruct (static_checkpoint _ _ _ _ _) as [sm' r]. apply UR. auto.
  - destruct (nth_error (y_stats y) s) as [[md sm]|]; [|discriminate].
    assert (T : snd (context_drop c md sh sm (w_panicking (y_world y))) <> Abort).
    { unfold context_drop. destruct (w_panicking (y_world y)); [apply slot_drop_total|apply SC]. }
    destruct (context_drop _ _ _ _ _) as [sm' r]. apply UR. auto.
  - assert (T : forall ss b, snd (module_checkpoint (V:=V) (U:=U) c sh ss b) <> Abort).
    { induction ss as [|[md sm] ss IH]; intros b; cbn [module_checkpoint]; [discriminate|].
      pose proof (SC md sm b) as S. destruct (static_checkpoint c md sh sm b) as [sm' [[]|m|]]; simpl in *; try congruence.
      specialize (IH b). destruct (module_checkpoint c sh ss b). auto. }
    specialize (T (y_stats y) (w_panicking (y_world y))).
    destruct (module_checkpoint _ _ _ _) as [ss r]. apply UR. auto.
Qed.
Print Assumptions validation_never_aborts.

(** While the thread is unwinding, dropping or checkpointing a mock object and
    dropping a Context raise no panic at all, whatever their state. *)
Theorem no_panic_while_unwinding :
  forall (V U : Type) c (sh : shuffle V U) (y : sys V U) o,
  w_panicking (y_world y) = true ->
  (match o with OCheckpoint _ | ODrop _ | OCtxDrop _ => True | _ => False end) ->
  snd (step c sh y o) = Ret None.
Proof.
  intros V U c sh y o W H. destruct o; try contradiction; cbn [step]; rewrite W.
  - destruct (nth_error (y_objs y) o) as [ob|]; [|reflexivity]. rewrite object_checkpoint_unwinding. reflexivity.
  - destruct (nth_error (y_objs y) o) as [ob|]; [|reflexivity]. rewrite object_drop_unwinding. reflexivity.
  - destruct (nth_error (y_stats y) s) as [[md sm]|]; [|reflexivity]. unfold context_drop.
    rewrite slot_drop_unwinding. reflexivity.
Qed.
Print Assumptions no_panic_while_unwinding.

(** Three methods in need of complaint: one panic; while unwinding, none. *)
Example no_double_panic_case :
  let c := Cfg 100 true false in
  let bad := [StTimes (ANum 1)] in
  let l := [ONew sd2; OExpect 0 0 0%nat bad; OExpect 0 1 0%nat bad; OExpect 0 1 0%nat bad; OExpect 0 2 0%nat bad] in
  let y := after c idshuffle (init [] [mdstat]) l in
  snd (step c idshuffle y (ODrop 0)) = Panic (MTooFew "MockFoo::get" "<anything>" 0 1) /\
  snd (step c idshuffle (after c idshuffle y [OUnwinding true]) (ODrop 0)) = Ret None.
Proof. vm_compute. auto. Qed.

(** ** C28: dropping a mock validates everything *)
Theorem drop_validates_every_method :
  forall (V U : Type) c (sh : shuffle V U) u decls l i ob,
  fair sh ->
  let y := after c sh (init u decls) l in
  w_panicking (y_world y) = false ->
  nth_error (y_objs y) i = Some ob ->
  (snd (step c sh y (ODrop i)) = Ret None <->
     forall m k n e, at_place y (PObj i m k n) = Some e -> sound e) /\
  (forall p, snd (step c sh y (ODrop i)) = Panic p -> exists m f k n e,
     nth_error ob m = Some f /\ at_place y (PObj i m k n) = Some e /\ ~ sound e /\
     p = complaint c (md_me (f_decl f)) e /\
     (forall m' k n e, (m' < m)%nat -> at_place y (PObj i m' k n) = Some e -> sound e)).
Proof.
  intros V U c sh u decls l i ob F y W N.
  pose proof (reach_ok c sh u decls l) as [OK _]. fold y in OK.
  pose proof (nth_Forall _ _ _ _ OK N) as O.
  assert (ST : snd (step c sh y (ODrop i)) = unit_res (object_drop c sh ob false)).
  { cbn [step]. rewrite N, W. reflexivity. }
  rewrite ST. split.
  - rewrite (object_places y i ob N). destruct (object_drop_iff c sh ob F O) as [I T]. rewrite <- I.
    destruct (object_drop c sh ob false) as [[]|m|]; simpl; split; auto; discriminate.
  - intros p D. assert (D' : object_drop c sh ob false = Panic p).
    { destruct (object_drop c sh ob false) as [[]|m'|]; simpl in D; congruence. }
    clear ST D.
    assert (G : exists o1 f o2, ob = o1 ++ f :: o2 /\ Forall field_sound o1 /\
              slot_drop c (f_decl f) sh (f_slot f) false = Panic p).
    { clear N. induction ob as [|f ob IH]; [discriminate|]. inversion O as [|? ? O1 O2]; subst.
      cbn [object_drop] in D'.
      destruct (field_sound_or c sh f F O1) as [[S E]|[S [m E]]]; rewrite E in D'.
      - destruct (IH O2 D') as (o1 & f' & o2 & A & B & C). exists (f :: o1), f', o2. subst. auto.
      - rewrite object_drop_unwinding in D'. inversion D'; subst. exists [], f, ob. auto. }
    destruct G as (o1 & f & o2 & -> & S & E).
    apply Forall_app in O. destruct O as [O1 O2]. inversion O2 as [|? ? O3 O4]; subst.
    destruct (slot_drop_panic c (f_decl f) (f_decl f) sh (f_slot f) p F O3 E) as (e & (k & IN) & NSD & EQ & _).
    apply In_nth_error in IN. destruct IN as [n IN].
    assert (NF : nth_error (o1 ++ f :: o2) (List.length o1) = Some f) by (rewrite nth_error_app2, Nat.sub_diag; auto).
    exists (List.length o1), f, k, n, e. split; [auto|].
    split; [cbn [at_place]; rewrite N, NF; auto|]. split; [auto|]. split; [auto|].
    intros m' k' n' e' L A. cbn [at_place] in A. rewrite N in A. rewrite nth_error_app1 in A by auto.
    destruct (nth_error o1 m') as [f'|] eqn:N1; [|discriminate]. rewrite Forall_forall in S.
    apply (S f'); [eapply nth_error_In; eauto|]. exists k'. eapply nth_error_In; eauto.
Qed.
Print Assumptions drop_validates_every_method.

Example drop_case :
  let c := Cfg 100 true false in
  let l := [ONew sd2; OExpect 0 2 5%nat [StTimes (ANum 1); StReturning seven]] in
  let y := after c idshuffle (init [] []) l in
  w_panicking (y_world y) = false /\
  snd (step c idshuffle y (ODrop 0)) = Panic (MTooFew "MockFoo::gen" "<anything>" 0 1) /\
  snd (step c idshuffle (after c idshuffle y [OCall 0 2 5%nat [1] (fun v => v)]) (ODrop 0)) = Ret None.
Proof. vm_compute. auto. Qed.

(** ** C29: a checkpointed mock behaves like a new one *)
Theorem checkpointed_mock_is_new :
  forall (V U : Type) c (sh : shuffle V U) u decls l i sd y',
  fair sh ->
  nth_error (news l) i = Some sd -> ~ In (ODrop i) l ->
  step c sh (after c sh (init u decls) l) (OCheckpoint i) = (y', Ret None) ->
  nth_error (y_objs y') i = Some (object_new sd) /\
  forall l2,
    snd (run c sh y' (map (on i) l2)) =
    snd (run c sh (fst (step c sh y' (ONew sd))) (map (on (List.length (y_objs y'))) l2)).
Proof.
  intros V U c sh u decls l i sd y' F N D E.
  destruct (created c sh u decls l i sd N D) as (ob & A & B).
  pose proof (reach_ok c sh u decls l) as [OK _]. pose proof (nth_Forall _ _ _ _ OK A) as O.
  cbn [step] in E. rewrite A in E.
  assert (C : fst (object_checkpoint c sh ob (w_panicking (y_world (after c sh (init u decls) l)))) = map cleared ob).
  { destruct (w_panicking (y_world (after c sh (init u decls) l))).
    - rewrite object_checkpoint_unwinding. reflexivity.
    - destruct (object_checkpoint_spec c sh ob F O) as [[S Q]|(o1 & f & o2 & m & D1 & D2 & D3 & D4 & Q)].
      + rewrite Q. reflexivity.
      + rewrite Q in E. inversion E. }
  destruct (object_checkpoint c sh ob _) as [ob' r]. cbn [fst] in C. subst ob'.
  assert (X : nth_error (y_objs y') i = Some (object_new sd)).
  { inversion E; subst. cbn [set_objs y_objs]. rewrite set_nth_nth, A, Nat.eqb_refl.
    rewrite cleared_new by auto. rewrite B. reflexivity. }
  split; auto. intros l2. eapply twin_runs; eauto.
  cbn [step fst set_objs y_objs]. rewrite nth_error_app2, Nat.sub_diag; auto.
Qed.
Print Assumptions checkpointed_mock_is_new.

Example checkpointed_case :
  let c := Cfg 100 true false in
  let l := [ONew sd2; OExpect 0 1 0%nat [StTimes (ANum 1); StReturning seven]; OCall 0 1 0%nat [2] (fun v => v)] in
  nth_error (news l) 0 = Some sd2 /\ ~ In (ODrop 0) l /\
  snd (step c idshuffle (after c idshuffle (init [] []) l) (OCheckpoint 0)) = Ret None.
Proof.
  split; [reflexivity|]. split; [intros [H|[H|[H|[]]]]; discriminate|]. vm_compute. reflexivity.
Qed.
