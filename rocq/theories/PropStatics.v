(** * PropStatics: C30 - C35, generic and static methods *)

From Coq Require Import Arith NArith List Bool String Lia Permutation.
From Verif Require Import Base Times TimesSpec Expect Mock Spec SysSpec Samples
  DispatchProofs FifoProofs CallProofs SysProofs ValidProofs StaticProofs PoisonProofs PropValidation.
Import ListNotations.
Open Scope N_scope.

(** ** C30: type parameters are independent

    A generic method behaves as a family of ordinary methods, one for each tuple
    of type parameters: same results, same effects, and the expectations for
    each tuple are those of the member. *)
Theorem generic_method_is_a_family :
  forall (V U : Type) c (md : mdecl V) (st : gstore V U) t w l f' t' w' rs,
  grun c (Field md (SGeneric st)) t w l = (f', t', w', rs) ->
  exists fam',
    famrun c (fun k => Field md (SPlain (slot_get (SGeneric st) k))) t w l = (fam', t', w', rs) /\
    forall k, fam' k = Field md (SPlain (slot_get (f_slot f') k)).
Proof.
  intros V U c md st t w l f' t' w' rs E.
  destruct (family c md l st t w (fun k => Field md (SPlain (slot_get (SGeneric st) k))) (fun k => eq_refl))
    as (st2 & fam2 & t2 & w2 & rs2 & A & B & C).
  rewrite A in E. inversion E; subst. exists fam2. auto.
Qed.
Print Assumptions generic_method_is_a_family.

(** In particular an operation leaves the expectations of other type parameters
    alone. *)
Theorem other_type_parameters_untouched :
  forall (V U : Type) c (md : mdecl V) (st : gstore V U) t w o f' t' w' r k,
  gstep c (Field md (SGeneric st)) t w o = (f', t', w', r) -> k <> gop_key o ->
  slot_get (f_slot f') k = slot_get (SGeneric st) k.
Proof.
  intros V U c md st t w o f' t' w' r k E D.
  assert (G : grun c (Field md (SGeneric st)) t w [o] = (f', t', w', [r])).
  { cbn [grun]. rewrite E. reflexivity. }
  destruct (generic_method_is_a_family _ _ _ _ _ _ _ _ _ _ _ _ G) as (fam & A & B).
  cbn [famrun] in A.
  destruct (gstep c (Field md (SPlain (slot_get (SGeneric st) (gop_key o)))) t w o) as [[[f1 t1] w1] r1]. inversion A; subst; clear A.
  specialize (B k). apply Nat.eqb_neq in D. cbv beta in B. rewrite D in B. inversion B. auto.
Qed.
Print Assumptions other_type_parameters_untouched.

Example family_case :
  let c := Cfg 100 true false in
  snd (grun c (Field mdgen (slot_new mdgen)) t0 w0
         [GExpect 1%nat 0 [StTimes (ANum 1); StReturning adder]; GExpect 2%nat 0 [StReturning seven];
          GCall 2%nat [1; 1] (fun v => v); GCall 1%nat [1; 1] (fun v => v); GCall 3%nat [1] (fun v => v)])
  = [Ret None; Ret None; Ret (Some 7); Ret (Some 2); Panic (MNoMatch "MockFoo::gen(1)")].
Proof. vm_compute. reflexivity. Qed.

(** ** C31: the order of the hash map does not matter *)
Theorem hash_order_is_irrelevant :
  forall (V U : Type) c (sh1 sh2 : shuffle V U) u decls l,
  fair sh1 -> fair sh2 ->
  fst (run c sh1 (init u decls) l) = fst (run c sh2 (init u decls) l) /\
  Forall2 same_outcome (snd (run c sh1 (init u decls) l)) (snd (run c sh2 (init u decls) l)).
Proof. intros. apply run_orders; auto. apply init_ok. Qed.
Print Assumptions hash_order_is_irrelevant.

(** Two orders, one of them reversed: two expectations in need of complaint, so
    the message differs but not the outcome. *)
Example hash_order_case :
  let c := Cfg 100 true false in
  let rv : shuffle V0 U0 := fun s => rev s in
  let l := [ONew sd2; OExpect 0 2 1%nat [StTimes (ANum 1)]; OExpect 0 2 2%nat [StTimes (ANum 2)]; OCheckpoint 0] in
  fair rv /\ fair idshuffle /\
  snd (run c idshuffle (init [] []) l) = [Ret None; Ret None; Ret None; Panic (MTooFew "MockFoo::gen" "<anything>" 0 1)] /\
  snd (run c rv (init [] []) l) = [Ret None; Ret None; Ret None; Panic (MTooFew "MockFoo::gen" "<anything>" 0 2)].
Proof.
  split; [intros s; apply Permutation_sym, Permutation_rev|]. split; [exact idshuffle_fair|].
  vm_compute. auto.
Qed.

(** ** C32: a Context leaves a clean slate *)
Theorem context_drop_outcomes :
  forall (V U : Type) c (sh : shuffle V U) u decls l s md sm y' r,
  fair sh ->
  let y := after c sh (init u decls) l in
  nth_error (y_stats y) s = Some (md, sm) ->
  step c sh y (OCtxDrop s) = (y', r) ->
  nth_error decls s = Some md /\
  y_objs y' = y_objs y /\ y_world y' = y_world y /\ y_seqs y' = y_seqs y /\
  (forall s', s' <> s -> nth_error (y_stats y') s' = nth_error (y_stats y) s') /\
  (* while unwinding: clean, silently *)
  (w_panicking (y_world y) = true ->
     r = Ret None /\ nth_error (y_stats y') s = Some (md, smutex_new md)) /\
  (* otherwise: clean, with a panic exactly if something is wrong *)
  (w_panicking (y_world y) = false -> sm_poison sm = false ->
     nth_error (y_stats y') s = Some (md, smutex_new md) /\
     (r = Ret None <-> forall k n e, at_place y (PStat s k n) = Some e -> sound e)) /\
  (* a poisoned lock: panic, nothing cleared *)
  (w_panicking (y_world y) = false -> sm_poison sm = true ->
     r = Panic MPoison /\ nth_error (y_stats y') s = Some (md, sm)).
Proof.
  intros V U c sh u decls l s md sm y' r F y N E.
  pose proof (reach_ok c sh u decls l) as [_ OK]. fold y in OK.
  pose proof (nth_Forall _ _ _ _ OK N) as O. unfold stat_ok in O. cbn [fst snd] in O.
  split.
  { rewrite <- (stats_decls c sh u decls l). fold y. rewrite nth_error_map, N. reflexivity. }
  cbn [step] in E. rewrite N in E.
  destruct (context_drop c md sh sm (w_panicking (y_world y))) as [sm' r0] eqn:D. inversion E; subst; clear E.
  cbn [set_stats y_stats y_objs y_world y_seqs].
  split; [auto|]. split; [auto|]. split; [auto|].
  split; [intros s' NE; apply nth_set_nth_other; auto|].
  rewrite set_nth_nth, N, Nat.eqb_refl. unfold context_drop in D.
  split; [|split]; intros W; rewrite W in D.
  - rewrite slot_drop_unwinding in D. inversion D; subst. split; auto.
    rewrite (slot_clear_new md) by auto. reflexivity.
  - intros P. unfold static_checkpoint in D. rewrite P in D. inversion D; subst.
    rewrite (slot_clear_new md) by auto. split; [reflexivity|].
    rewrite (stat_places y s (md, sm) N), <- (slot_drop_iff c md md sh (sm_slot sm) F O).
    destruct (slot_drop c md sh (sm_slot sm) false) as [[]|m|]; simpl; split; auto; discriminate.
  - intros P. unfold static_checkpoint in D. rewrite P in D. inversion D; subst. auto.
Qed.
Print Assumptions context_drop_outcomes.

Example context_drop_case :
  let c := Cfg 100 true false in
  let y := after c idshuffle (init [] [mdstat]) [OCtxExpect 0 0%nat [StTimes (ANum 1); StReturning bomb]] in
  (* unsatisfied *)
  snd (step c idshuffle y (OCtxDrop 0)) = Panic (MTooFew "MockFoo::stat" "<anything>" 0 1) /\
  (* poisoned by a panicking closure *)
  snd (step c idshuffle (after c idshuffle y [OStaticCall 0 0%nat []]) (OCtxDrop 0)) = Panic MPoison /\
  (* the usual life: the panic of the call unwinds through the Context *)
  snd (run c idshuffle y [OStaticCall 0 0%nat []; OUnwinding true; OCtxDrop 0; OUnwinding false;
                          OCtxExpect 0 0%nat [StReturning seven]; OStaticCall 0 0%nat []])
    = [Panic (MUser 13); Ret None; Ret None; Ret None; Ret None; Ret (Some 7)].
Proof. vm_compute. auto. Qed.

(** ** C33: which panics poison a static method *)

(** An unmatched call leaves everything as it was (but for what the matchers
    did). *)
Theorem unmatched_static_call_is_harmless :
  forall (V U : Type) c (sh : shuffle V U) (y : sys V U) s md sm k args bs w1,
  nth_error (y_stats y) s = Some (md, sm) -> sm_poison sm = false ->
  let es := slot_get (sm_slot sm) k in
  Forall proper es ->
  consulted es args (y_world y) bs w1 ->
  (forall j e b, nth_error es j = Some e -> nth_error bs j = Some b ->
     passes (List.length es = 1%nat) e b) ->
  step c sh y (OStaticCall s k args) = (set_world y w1, Panic (MNoMatch (call_desc (md_me md) args))).
Proof.
  intros V U c sh y s md sm k args bs w1 N P es PR C F.
  cbn [step]. rewrite N. unfold static_call. rewrite P.
  rewrite (unmatched_slot c md (sm_slot sm) k args (fun v => v) (y_world y) bs w1 PR C F).
  replace (SMutex false (sm_slot sm)) with sm by (destruct sm; simpl in *; congruence).
  rewrite set_nth_id by auto. reflexivity.
Qed.
Print Assumptions unmatched_static_call_is_harmless.

(** Every other panic of a call (outside unwinding) poisons: if the lock is not
    poisoned afterwards, the call was unmatched. *)
Theorem dispatch_panic_poisons :
  forall (V U : Type) c (sh : shuffle V U) (y : sys V U) s md sm k args y' m,
  nth_error (y_stats y) s = Some (md, sm) -> sm_poison sm = false ->
  w_panicking (y_world y) = false ->
  let es := slot_get (sm_slot sm) k in
  Forall proper es ->
  step c sh y (OStaticCall s k args) = (y', Panic m) ->
  ~ (exists bs w1, consulted es args (y_world y) bs w1 /\
       forall j e b, nth_error es j = Some e -> nth_error bs j = Some b ->
         passes (List.length es = 1%nat) e b) ->
  exists sm', nth_error (y_stats y') s = Some (md, sm') /\ sm_poison sm' = true.
Proof.
  intros V U c sh y s md sm k args y' m N P W es PR E NM.
  cbn [step] in E. rewrite N in E.
  destruct (static_call c md sm k args (y_world y)) as [[sm' w'] r] eqn:S.
  inversion E; subst; clear E. cbn [y_stats]. rewrite set_nth_nth, N, Nat.eqb_refl.
  exists sm'. split; auto. destruct (sm_poison sm') eqn:Q; auto. exfalso. apply NM.
  destruct r as [v|m'|]; try discriminate.
  destruct (unpoisoned_call c md sm k args (y_world y) sm' w' m' PR P W S Q) as (bs & A & B). eauto.
Qed.
Print Assumptions dispatch_panic_poisons.

(** A panic while configuring an expectation poisons, too. *)
Theorem builder_panic_poisons :
  forall (V U : Type) c (sh : shuffle V U) (y : sys V U) s md sm k chain y' m,
  nth_error (y_stats y) s = Some (md, sm) -> sm_poison sm = false ->
  w_panicking (y_world y) = false ->
  step c sh y (OCtxExpect s k chain) = (y', Panic m) ->
  exists sm', nth_error (y_stats y') s = Some (md, sm') /\ sm_poison sm' = true.
Proof.
  intros V U c sh y s md sm k chain y' m N P W E.
  cbn [step] in E. rewrite N in E. unfold context_expect in E. rewrite P, W in E.
  destruct (slot_expect c md (sm_slot sm) k (w_thread (y_world y)) chain (y_seqs y)) as [[s' t'] r].
  destruct r as [[]|m'|]; inversion E; subst. cbn [y_stats]. rewrite set_nth_nth, N, Nat.eqb_refl. eauto.
Qed.
Print Assumptions builder_panic_poisons.

(** A poisoned static method panics on every use until a Context is dropped while
    the thread is unwinding. *)
Theorem poison_lasts_until_unwinding_drop :
  forall (V U : Type) c (sh : shuffle V U) (y : sys V U) s md sm l o,
  nth_error (y_stats y) s = Some (md, sm) -> sm_poison sm = true ->
  (forall l1 l2, l ++ [o] = l1 ++ OCtxDrop s :: l2 ->
     w_panicking (y_world (after c sh y l1)) = false) ->
  nth_error (y_stats (after c sh y l)) s = Some (md, sm) /\
  (touches o s = true -> o <> OModCheckpoint ->
     snd (step c sh (after c sh y l) o) = Panic MPoison) /\
  (o = OModCheckpoint -> exists m, snd (step c sh (after c sh y l) o) = Panic m).
Proof.
  intros V U c sh y s md sm l o N P D.
  assert (N' : nth_error (y_stats (after c sh y l)) s = Some (md, sm)).
  { eapply poison_persists; eauto. intros l1 l2 ->. apply (D l1 (l2 ++ [o])). rewrite <- app_assoc. reflexivity. }
  assert (D' : o = OCtxDrop s -> w_panicking (y_world (after c sh y l)) = false).
  { intros ->. apply (D l []). reflexivity. }
  destruct (poisoned_step c sh (after c sh y l) o s md sm N' P D') as (A & B & C).
  split; [auto|]. split; [auto|]. intros ->. destruct (B eq_refl) as (m & [X|X]); eauto.
  exfalso. eapply validation_never_aborts; [|exact X]. exact I.
Qed.
Print Assumptions poison_lasts_until_unwinding_drop.

(** A violated count, an impossible range given to the guard, an unmatched call and
    a failed checkpoint: the first two poison, the others do not. *)
Example poison_case :
  let c := Cfg 100 true false in
  let y := after c idshuffle (init [] [mdstat]) [OCtxExpect 0 0%nat [StWithf (pure_fn small); StTimes (ANum 1); StReturning seven]] in
  let poisoned (o : list (op V0 U0)) := option_map (fun p => sm_poison (snd p)) (nth_error (y_stats (after c idshuffle y o)) 0) in
  poisoned [OStaticCall 0 0%nat [3]; OStaticCall 0 0%nat [3]] = Some true /\
  poisoned [OCtxExpect 0 0%nat [StTimes (ARange 5 2)]] = Some true /\
  poisoned [OStaticCall 0 0%nat [30]] = Some false /\
  poisoned [OCtxCheckpoint 0] = Some false /\
  snd (step c idshuffle y (OStaticCall 0 0%nat [30])) = Panic (MNoMatch "MockFoo::stat(big)") /\
  snd (step c idshuffle y (OCtxCheckpoint 0)) = Panic (MTooFew "MockFoo::stat" "<function>" 0 1) /\
  snd (run c idshuffle y [OStaticCall 0 0%nat [3]; OStaticCall 0 0%nat [3]; OStaticCall 0 0%nat [30]; OCtxDrop 0; OUnwinding true; OCtxDrop 0; OUnwinding false; OCtxDrop 0])
   = [Ret (Some 7); Panic (MCall "MockFoo::stat" "<function>" (TeTooMany 2 1)); Panic MPoison; Panic MPoison; Ret None; Ret None; Ret None; Ret None].
Proof. vm_compute. auto 10. Qed.

(** The hypotheses of the two call theorems, on the same method. *)
Example poison_hypotheses_case :
  let c := Cfg 100 true false in
  let y := after c idshuffle (init [] [mdstat]) [OCtxExpect 0 0%nat [StWithf (pure_fn small); StTimes (ANum 1); StReturning seven]] in
  exists sm e, nth_error (y_stats y) 0 = Some (mdstat, sm) /\ sm_poison sm = false /\
    slot_get (sm_slot sm) 0%nat = [e] /\ proper e /\
    consulted [e] [30] (y_world y) [false] (y_world y) /\ passes True e false /\
    ~ (exists bs w1, consulted [e] [3] (y_world y) bs w1 /\
         forall j e0 b, nth_error [e] j = Some e0 -> nth_error bs j = Some b -> passes (1 = 1)%nat e0 b).
Proof.
  cbv zeta. eexists. eexists. split; [vm_compute; reflexivity|]. split; [reflexivity|]. split; [reflexivity|].
  split; [vm_compute; discriminate|]. split.
  - eexists. split; [split; vm_compute; reflexivity|]. reflexivity.
  - split; [left; reflexivity|]. intros (bs & w1 & C & F). destruct bs as [|b bs]; [contradiction|].
    destruct C as (w2 & [_ HV] & _). vm_compute in HV. inversion HV; subst.
    destruct (F 0%nat _ true eq_refl eq_refl) as [|[_ X]]; [discriminate|]. auto.
Qed.

(** ** C34: Contexts of one static method share one store

    A [Context] carries no data (mock_function.rs 1597-1603: only
    [PhantomData]), so an operation names the static method and not the
    [Context].  Expectations and calls on a static method, through
    whatever Contexts, are those of one ordinary method, as long as none
    of them panics. *)
Theorem static_method_is_one_method :
  forall (V U : Type) c (sh : shuffle V U) (y : sys V U) s md sm l f t w rs,
  nth_error (y_stats y) s = Some (md, sm) -> sm_poison sm = false ->
  grun c (Field md (sm_slot sm)) (y_seqs y) (y_world y)
    (map (static_gop (w_thread (y_world y))) l) = (f, t, w, rs) ->
  Forall (fun r => exists x, r = Ret x) rs ->
  exists y', run c sh y (map (static_op s) l) = (y', rs) /\
    y_seqs y' = t /\ y_world y' = w /\ y_objs y' = y_objs y /\
    nth_error (y_stats y') s = Some (md, SMutex false (f_slot f)).
Proof.
  intros V U c sh y s md sm l f t w rs N P G A.
  pose proof (static_runs c sh s md l y sm N P) as X. rewrite G in X. auto.
Qed.
Print Assumptions static_method_is_one_method.

(** An expectation is added at the end of the store, whichever Context it comes
    from. *)
Theorem context_expect_appends :
  forall (V U : Type) c (sh : shuffle V U) (y : sys V U) s md sm k chain y' r,
  nth_error (y_stats y) s = Some (md, sm) -> sm_poison sm = false ->
  step c sh y (OCtxExpect s k chain) = (y', r) ->
  exists sm' e, nth_error (y_stats y') s = Some (md, sm') /\
    slot_get (sm_slot sm') k = slot_get (sm_slot sm) k ++ [e] /\
    (forall m st, sm_slot sm = SGeneric st -> m <> k -> slot_get (sm_slot sm') m = slot_get (sm_slot sm) m).
Proof.
  intros V U c sh y s md sm k chain y' r N P E. cbn [step] in E. rewrite N in E.
  unfold context_expect in E. rewrite P in E. unfold slot_expect in E.
  destruct (apply_setters c (w_thread (y_world y)) chain (expectation_default c (md_me md) (md_kind md)) (y_seqs y))
    as [[e t'] r0].
  assert (X : forall b, exists sm' e0, nth_error (set_nth (y_stats y) s (md, SMutex b (slot_put (sm_slot sm) k (slot_get (sm_slot sm) k ++ [e])))) s = Some (md, sm') /\
    slot_get (sm_slot sm') k = slot_get (sm_slot sm) k ++ [e0] /\
    (forall m st, sm_slot sm = SGeneric st -> m <> k -> slot_get (sm_slot sm') m = slot_get (sm_slot sm) m)).
  { intros b. eexists. exists e. split; [rewrite set_nth_nth, N, Nat.eqb_refl; reflexivity|]. cbn [sm_slot]. split.
    - destruct (sm_slot sm) as [es|st]; cbn [slot_put slot_get]; auto. rewrite gget_gput_same. auto.
    - intros m st -> D. cbn [slot_put slot_get]. rewrite gget_gput_other by auto. auto. }
  destruct r0 as [[]|m|]; inversion E; subst; apply X.
Qed.
Print Assumptions context_expect_appends.

(** Operations on other static methods or on objects do not touch it. *)
Theorem other_statics_untouched :
  forall (V U : Type) c (sh : shuffle V U) (y : sys V U) o s,
  touches o s = false -> nth_error (y_stats (fst (step c sh y o))) s = nth_error (y_stats y) s.
Proof. intros. apply static_other; auto. Qed.
Print Assumptions other_statics_untouched.

(** Two expectations (from two Contexts, say); dropping either Context clears both:
    the second one is the one that complains. *)
Example contexts_case :
  let c := Cfg 100 true false in
  let l := [OCtxExpect 0 0%nat [StTimes (ANum 1); StReturning seven]; OCtxExpect 0 0%nat [StTimes (ANum 1); StReturning adder];
            OCtxExpect 1 0%nat [StReturning seven];
            OStaticCall 0 0%nat [1; 2]; OCtxDrop 0; OStaticCall 0 0%nat [1; 2]; OCtxDrop 0; OStaticCall 1 0%nat []] in
  snd (run c idshuffle (init [] [mdstat; mdstat]) l) =
   [Ret None; Ret None; Ret None; Ret (Some 7); Panic (MTooFew "MockFoo::stat" "<anything>" 0 1);
    Panic (MNoMatch "MockFoo::stat(1, 2)"); Ret None; Ret (Some 7)] /\
  snd (grun c (Field mdstat (slot_new mdstat)) t0 w0
        (map (static_gop 0) [TExpect 0%nat [StTimes (ANum 1); StReturning seven]; TExpect 0%nat [StTimes (ANum 1); StReturning adder]; TCall 0%nat [1; 2]; TCall 0%nat [1; 2]]))
   = [Ret None; Ret None; Ret (Some 7); Ret (Some 3)].
Proof. vm_compute. auto. Qed.

(** ** C35: a mock module's checkpoint *)
Theorem module_checkpoint_covers_every_function :
  forall (V U : Type) c (sh : shuffle V U) u decls l y' r,
  fair sh ->
  let y := after c sh (init u decls) l in
  w_panicking (y_world y) = false ->
  step c sh y OModCheckpoint = (y', r) ->
  let fine s := (forall md sm, nth_error (y_stats y) s = Some (md, sm) -> sm_poison sm = false) /\
                (forall k n e, at_place y (PStat s k n) = Some e -> sound e) in
  y_objs y' = y_objs y /\ y_world y' = y_world y /\ y_seqs y' = y_seqs y /\
  (r = Ret None <-> forall s, fine s) /\
  (r = Ret None -> forall s md, nth_error decls s = Some md ->
     nth_error (y_stats y') s = Some (md, smutex_new md)) /\
  (r <> Ret None -> exists s md sm,
     nth_error (y_stats y) s = Some (md, sm) /\ ~ fine s /\
     (forall s', (s' < s)%nat -> fine s' /\
        forall md', nth_error decls s' = Some md' -> nth_error (y_stats y') s' = Some (md', smutex_new md')) /\
     (sm_poison sm = true -> r = Panic MPoison /\ nth_error (y_stats y') s = Some (md, sm)) /\
     (sm_poison sm = false -> nth_error (y_stats y') s = Some (md, smutex_new md) /\
        exists k n e, at_place y (PStat s k n) = Some e /\ ~ sound e /\ r = Panic (complaint c (md_me md) e)) /\
     (forall s', (s < s')%nat -> nth_error (y_stats y') s' = nth_error (y_stats y) s')).
Proof.
  intros V U c sh u decls l y' r F y W E fine.
  pose proof (reach_ok c sh u decls l) as [_ OK]. fold y in OK.
  pose proof (stats_decls c sh u decls l) as DE. fold y in DE.
  cbn [step] in E. rewrite W in E.
  pose proof (module_checkpoint_spec c sh (y_stats y) F OK) as SP.
  assert (FI : forall s p, nth_error (y_stats y) s = Some p -> (fine s <-> stat_sound p)).
  { intros s [md sm] N. unfold fine, stat_sound. cbn [fst snd]. rewrite (stat_places y s (md, sm) N). cbn [snd]. split.
    - intros [A B]. split; eauto.
    - intros [A B]. split; auto. intros md' sm' X. congruence. }
  assert (FN : forall s, nth_error (y_stats y) s = None -> fine s).
  { intros s N. split; [congruence|]. intros k n e A. cbn [at_place] in A. rewrite N in A. discriminate. }
  assert (WI : forall s md sm, nth_error (y_stats y) s = Some (md, sm) -> wiped (md, sm) = (md, smutex_new md)).
  { intros s md sm N. unfold wiped. cbn [fst snd]. pose proof (nth_Forall _ _ _ _ OK N) as O.
    rewrite (slot_clear_new md) by exact O. reflexivity. }
  assert (DN : forall s md, nth_error decls s = Some md -> exists sm, nth_error (y_stats y) s = Some (md, sm)).
  { intros s md N. rewrite <- DE, nth_error_map in N. destruct (nth_error (y_stats y) s) as [[md' sm]|]; [|discriminate]. injection N as ->. eauto. }
  destruct (module_checkpoint c sh (y_stats y) false) as [ss r0]. inversion E; subst y' r; clear E.
  cbn [set_stats y_stats y_objs y_world y_seqs].
  split; [auto|]. split; [auto|]. split; [auto|].
  destruct SP as [[S SP]|(ss1 & p & ss2 & m & D1 & D2 & D3 & SP)].
  - injection SP as -> ->. split; [|split; [|intros X; exfalso; apply X; reflexivity]].
    + split; auto. intros _ s. destruct (nth_error (y_stats y) s) as [p|] eqn:N; [|apply FN; auto].
      apply (FI s p N). eapply nth_Forall; eauto.
    + intros _ s md N. destruct (DN s md N) as (sm & NS). rewrite nth_error_map. unfold stat. rewrite NS. simpl. f_equal. eapply WI; eauto.
  - assert (NP : nth_error (y_stats y) (List.length ss1) = Some p).
    { rewrite D1, nth_error_app2, Nat.sub_diag; auto. }
    assert (NF : ~ fine (List.length ss1)) by (rewrite (FI _ _ NP); auto).
    assert (R : unit_res (V := V) r0 = Panic m).
    { destruct SP as [(_ & _ & SP)|(_ & _ & SP)]; injection SP as X Y; rewrite Y; reflexivity. }
    assert (SS : exists x, ss = map wiped ss1 ++ x :: ss2 /\
       ((sm_poison (snd p) = true /\ m = MPoison /\ x = p) \/
        (sm_poison (snd p) = false /\ slot_drop c (fst p) sh (sm_slot (snd p)) false = Panic m /\ x = wiped p))).
    { destruct SP as [(A & B & SP)|(A & B & SP)]; injection SP as X Y; rewrite X; eexists; split; eauto. }
    clear SP. destruct SS as (x & -> & SS). rewrite R.
    split; [split; [discriminate|intros A; exfalso; apply NF, A]|]. split; [discriminate|]. intros _.
    destruct p as [md sm]. exists (List.length ss1), md, sm. cbn [fst snd] in SS.
    split; [auto|]. split; [auto|]. split; [|split; [|split]].
    + intros s' L. assert (N1 : exists q, nth_error ss1 s' = Some q).
      { destruct (nth_error ss1 s') eqn:Q; eauto. apply nth_error_None in Q. lia. }
      destruct N1 as [q N1].
      assert (NQ : nth_error (y_stats y) s' = Some q) by (rewrite D1, nth_error_app1; auto).
      split.
      * apply (FI s' q NQ). eapply nth_Forall; eauto.
      * intros md' ND. destruct (DN s' md' ND) as (sm' & NS). assert (q = (md', sm')) by congruence. subst q.
        rewrite nth_error_app1 by (rewrite map_length; auto). rewrite nth_error_map. unfold stat in *. rewrite N1. simpl. f_equal. eapply WI; eauto.
    + intros P. destruct SS as [(_ & -> & ->)|(X & _)]; [|congruence]. split; auto.
      rewrite nth_error_app2 by (rewrite map_length; auto). rewrite map_length, Nat.sub_diag. reflexivity.
    + intros P. destruct SS as [(X & _)|(_ & SD & ->)]; [congruence|]. split.
      * rewrite nth_error_app2 by (rewrite map_length; auto). rewrite map_length, Nat.sub_diag. simpl. f_equal. eapply WI; eauto.
      * pose proof (nth_Forall _ _ _ _ OK NP) as O. unfold stat_ok in O. cbn [fst snd] in O.
        destruct (slot_drop_panic c md md sh (sm_slot sm) m F O SD) as (e & (k & IN) & NSD & EQ & _).
        apply In_nth_error in IN. destruct IN as [n IN]. exists k, n, e. cbn [at_place]. rewrite NP. cbn [snd].
        split; auto. split; auto. congruence.
    + intros s' L. unfold stat, statics in *. rewrite D1.
      rewrite !nth_error_app2 by (rewrite ?map_length; lia). rewrite map_length.
      destruct (s' - List.length ss1)%nat eqn:Z; [lia|]. reflexivity.
Qed.
Print Assumptions module_checkpoint_covers_every_function.

Example module_checkpoint_case :
  let c := Cfg 100 true false in
  let l := [OCtxExpect 0 0%nat [StReturning seven]; OCtxExpect 1 0%nat [StTimes (ANum 1)]; OCtxExpect 2 0%nat [StTimes (ANum 1)]] in
  snd (run c idshuffle (init [] [mdstat; mdstat; mdstat]) (l ++ [OModCheckpoint; OModCheckpoint; OModCheckpoint])) =
   [Ret None; Ret None; Ret None; Panic (MTooFew "MockFoo::stat" "<anything>" 0 1);
    Panic (MTooFew "MockFoo::stat" "<anything>" 0 1); Ret None].
Proof. vm_compute. reflexivity. Qed.
