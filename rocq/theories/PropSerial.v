(** * PropSerial: C70, calls that do not overlap in time *)

From Coq Require Import Arith NArith List Bool String Lia.
From Verif Require Import Base Times Expect Mock Conc ConcSpec ConcProofs LockProofs ThreadProofs
  LinProofs Samples.
Import ListNotations.
Open Scope N_scope.

Local Arguments set_nth : simpl never.
Local Arguments cworld : simpl never.

Section SerialProofs.
Context {V U : Type}.
Notation csys := (csys V U).
Notation ccall := (ccall V).

Lemma single_run_snoc c (st : sstate (V := V) (U := U)) l tx :
  single_run c st (l ++ [tx]) =
  let (st1, rs) := single_run c st l in
  let (st2, r) := single_call c st1 tx in
  (st2, rs ++ [(fst tx, snd tx, r)]).
Proof.
  revert st. induction l as [|y l IH]; intros st; simpl.
  - destruct (single_call c st tx); reflexivity.
  - destruct (single_call c st y) as [st1 r1]. rewrite IH.
    destruct (single_run c st1 l) as [st2 rs]. destruct (single_call c st2 tx); reflexivity.
Qed.

Lemma single_run_length c (st : sstate (V := V) (U := U)) l :
  List.length (snd (single_run c st l)) = List.length l.
Proof.
  revert st. induction l as [|y l IH]; intros st; simpl; auto.
  destruct (single_call c st y) as [st1 r1]. specialize (IH st1).
  destruct (single_run c st1 l) as [st2 rs]. simpl in *. auto.
Qed.

Lemma begun_app (tr1 tr2 : list (event V)) : begun (tr1 ++ tr2) = begun tr1 ++ begun tr2.
Proof. induction tr1 as [|[] tr1 IH]; simpl; auto. f_equal. auto. Qed.

(** Is a call going on at the end of the trace? *)
Fixpoint busy_after (b : bool) (tr : list (event V)) : bool :=
  match tr with
  | [] => b
  | EvStart _ _ :: tr' => busy_after true tr'
  | EvReturn _ _ _ :: tr' => busy_after false tr'
  | _ :: tr' => busy_after b tr'
  end.

Lemma apart_from_app b (tr1 tr2 : list (event V)) :
  apart_from b (tr1 ++ tr2) = (apart_from b tr1 && apart_from (busy_after b tr1) tr2)%bool.
Proof.
  revert b. induction tr1 as [|[] tr1 IH]; intros b; simpl; auto. rewrite IH, andb_assoc. reflexivity.
Qed.
Lemma busy_after_app b (tr1 tr2 : list (event V)) :
  busy_after b (tr1 ++ tr2) = busy_after (busy_after b tr1) tr2.
Proof. revert b. induction tr1 as [|[] tr1 IH]; intros b; simpl; auto. Qed.

Lemma busy_quiet b (ev : list (event V)) : begun ev = [] -> returned ev = [] -> busy_after b ev = b.
Proof. induction ev as [|[] ev IH]; simpl; auto; discriminate. Qed.

(** Bring [pstep] to its leaves. *)
Ltac leaves H :=
  unfold pstep, unlock_r in H;
  repeat match type of H with
  | context [match ?x with _ => _ end] =>
      lazymatch x with
      | context [match _ with _ => _ end] => fail
      | _ => let E := fresh "E" in destruct x eqn:E
      end
  end;
  injection H as <- <- <-.

Lemma pstep_begun c (s : csys) t cm p s' p' ev :
  pstep c s t cm p = (s', p', ev) -> begun ev = [].
Proof. intros H. leaves H; try reflexivity. Qed.

Section Serial.
Context (c : cfg) (st0 : sstate (V := V) (U := U)).

Definition others_idle (s : csys) (o : option nat) : Prop :=
  forall t th, nth_error (cs_threads s) t = Some th -> o <> Some t -> th_pc th = PIdle.

Definition ser_inv (s : csys) (tr : list (event V)) : Prop :=
  (busy_after false tr = false /\ others_idle s None /\
   exists sp1,
     single_run c st0 (begun tr) = ((cs_meths s, sp1, cs_user s, cs_levels s), returned tr) /\
     forall g, sp1 g = cs_sp s g) \/
  (busy_after false tr = true /\
   exists t th x cm0 ms1 sp1 u1 l1 l,
     others_idle s (Some t) /\
     nth_error (cs_threads s) t = Some th /\ pc_call (th_pc th) = Some x /\
     begun tr = l ++ [(t, x)] /\
     single_run c st0 l = ((ms1, sp1, u1, l1), returned tr) /\
     nth_error ms1 (cc_m x) = Some cm0 /\
     (forall g, sp1 g = cs_sp s g) /\
     ((th_pc th = PLockS x /\ cs_meths s = ms1 /\ cs_user s = u1 /\ cs_levels s = l1) \/
      (inside (th_pc th) = true /\
       (forall g, cm_mutex cm0 = Some g -> sp1 g = false) /\
       cs_meths s = set_nth ms1 (cc_m x) (CMeth (cm_me cm0) (cm_mutex cm0) (cexps s (cc_m x))) /\
       fin c (cm_me cm0) (cc_args x) (th_pc th) (cexps s (cc_m x)) (cworld s t) =
       expectations_call c (cm_me cm0) (cm_exps cm0) (cc_args x) (fun v => v) (World u1 l1 t false)))).

Lemma others_put (s : csys) t th o :
  others_idle s o -> (o = Some t \/ th_pc th = PIdle) -> others_idle (put_thread s t th) o.
Proof.
  intros O D t1 th1 N NE. simpl in N. rewrite nth_set_nth in N. destruct (Nat.eqb_spec t1 t) as [->|].
  - destruct (nth_error (cs_threads s) t); [|discriminate]. injection N as <-. destruct D; congruence.
  - eapply O; eauto.
Qed.

Lemma cstep_ser s tr t s' ev :
  locks_ok s -> ser_inv s tr -> cstep c s t = (s', ev) -> apart (tr ++ ev) = true -> ser_inv s' (tr ++ ev).
Proof.
  intros LO L H AP. apply cstep_cases in H.
  unfold apart in AP. rewrite apart_from_app in AP. apply andb_true_iff in AP. destruct AP as [_ AP].
  destruct H as [|th x rest Ht Hp Hd Hm|th x rest cm Ht Hp Hd Hm|th x cm s1 p1 ev Ht Hp Hm Hs].
  - rewrite app_nil_r. auto.
  - (* a call of a method that does not exist *)
    rewrite app_nil_r. destruct L as [(B & O & R)|(B & t1 & th1 & x1 & cm0 & ms1 & sp1 & u1 & l1 & l & O & T & R)].
    + left. split; [auto|]. split; [|exact R]. apply others_put; auto.
    + right. split; [auto|]. exists t1, th1, x1, cm0, ms1, sp1, u1, l1, l.
      split; [apply others_put; auto|]. split; [|exact R]. simpl. rewrite nth_set_nth.
      destruct (Nat.eqb_spec t1 t) as [->|]; [|auto]. exfalso. rewrite Ht in T. injection T as <-.
      destruct R as (R & _). rewrite Hp in R. discriminate.
  - (* a call begins *)
    destruct L as [(B & O & sp1 & R & SP)|(B & _)].
    2: { rewrite B in AP. discriminate. }
    right. rewrite busy_after_app, B. split; [reflexivity|].
    eexists t, _, x, cm, (cs_meths s), sp1, (cs_user s), (cs_levels s), (begun tr).
    split. { apply others_put; [|auto]. intros t1 th1 N _. eapply O; eauto. discriminate. }
    simpl. rewrite nth_set_nth, Nat.eqb_refl, Ht. split; [reflexivity|].
    rewrite begun_app, returned_app. simpl. rewrite app_nil_r.
    split; [destruct (cm_mutex cm); reflexivity|]. split; [reflexivity|]. split; [exact R|].
    split; [exact Hm|]. split; [exact SP|].
    destruct (cm_mutex cm) as [g|] eqn:MU; [left; auto|]. right.
    split; [reflexivity|]. split; [discriminate|]. simpl. rewrite <- MU. split.
    + apply (meths_same s). auto.
    + rewrite fin_start. unfold cexps. simpl. rewrite Hm. reflexivity.
  - (* a call goes on *)
    destruct L as [(B & O & _)|(B & t1 & th1 & x1 & cm0 & ms1 & sp1 & u1 & l1 & l & O & T & PX & BG & R & M0 & SP & D)].
    { rewrite (O _ _ Ht) in Hp by discriminate. discriminate. }
    destruct (Nat.eq_dec t1 t) as [->|NE].
    2: { rewrite (O _ _ Ht) in Hp by congruence. discriminate. }
    rewrite Ht in T. injection T as <-. rewrite Hp in PX. injection PX as <-.
    pose proof (pstep_begun _ _ _ _ _ _ _ _ Hs) as BE.
    pose proof (pstep_threads _ _ _ _ _ _ _ _ Hs) as TS.
    assert (IDLE : p1 = PIdle -> others_idle (put_thread s1 t (Thread (th_todo th) p1)) None).
    { intros -> t2 th2 N _. simpl in N. rewrite TS, nth_set_nth in N. destruct (Nat.eqb_spec t2 t) as [->|].
      - rewrite Ht in N. injection N as <-. reflexivity.
      - eapply O; eauto. congruence. }
    assert (OTH : others_idle (put_thread s1 t (Thread (th_todo th) p1)) (Some t)).
    { apply others_put; auto. intros t2 th2. rewrite TS. apply O. }
    destruct D as [(P & MS & US & LS)|(IN & UNP & MS & FI)].
    + (* it waits for the store *)
      rewrite P in Hs. cbn [pstep] in Hs.
      rewrite MS, M0 in Hm. injection Hm as <-.
      destruct (cm_mutex cm0) as [g|] eqn:MU.
      2: { exfalso. destruct (lo_pc s LO _ _ Ht) as (_ & _ & Q & _). destruct (Q _ P) as (cm1 & g & N1 & G).
           rewrite MS, M0 in N1. congruence. }
      destruct (free (cs_sl s g)) eqn:FR.
      2: { injection Hs as <- <- <-. rewrite <- P, put_thread_same by auto. rewrite app_nil_r.
           right. split; [auto|]. exists t, th, x, cm0, ms1, sp1, u1, l1, l. auto 12. }
      destruct (cs_sp s g) eqn:SPG; injection Hs as <- <- <-.
      * left. rewrite busy_after_app. simpl. split; [reflexivity|]. split; [auto|].
        exists sp1. rewrite begun_app, returned_app, BG. simpl. rewrite app_nil_r, single_run_snoc, R.
        unfold single_call. rewrite M0, MU, SP, SPG. simpl. rewrite MS, US, LS. auto.
      * right. rewrite busy_after_app. simpl. split; [auto|].
        eexists t, _, x, cm0, ms1, sp1, u1, l1, l. split; [exact OTH|]. simpl.
        rewrite nth_set_nth, Nat.eqb_refl, Ht. split; [reflexivity|]. split; [reflexivity|].
        rewrite begun_app, returned_app, BG. simpl. rewrite !app_nil_r. split; [reflexivity|].
        split; [exact R|]. split; [exact M0|].
        split. { intros g'. rewrite SP. destruct (Nat.eqb_spec g' g) as [->|]; auto. }
        right. split; [reflexivity|]. split; [intros g' E; rewrite MU in E; injection E as <-; rewrite SP; auto|].
        change (cexps (put_thread (put_sl s g (Some t) false) t (Thread (th_todo th) (PLockM x 0))) (cc_m x)) with (cexps s (cc_m x)).
        change (cworld (put_thread (put_sl s g (Some t) false) t (Thread (th_todo th) (PLockM x 0))) t) with (cworld s t).
        rewrite MU. split.
        -- rewrite <- MS, <- MU. apply meths_same. rewrite MS. auto.
        -- rewrite fin_start. unfold cexps, cworld. rewrite MS, M0, US, LS. reflexivity.
    + (* it is inside *)
      assert (ME : cm_me cm = cm_me cm0 /\ cm_mutex cm = cm_mutex cm0).
      { pose proof Hm as Hm'. rewrite MS, nth_set_nth, Nat.eqb_refl, M0 in Hm'. injection Hm' as <-. auto. }
      destruct ME as [ME MU].
      assert (FIN : (exists r, th_pc th = PFin x r) \/ (forall r, th_pc th <> PFin x r)).
      { destruct (th_pc th); try (right; intros r0 X; discriminate X). left. exists r.
        simpl in Hp. congruence. }
      destruct FIN as [[r FIN]|NFIN].
      * (* it ends *)
        rewrite FIN in *. cbn [pstep] in Hs. injection Hs as <- <- <-.
        left. rewrite busy_after_app. simpl. split; [reflexivity|]. split; [auto|].
        rewrite begun_app, returned_app, BG. simpl. rewrite app_nil_r, single_run_snoc, R.
        unfold single_call. rewrite M0.
        assert (NP : match cm_mutex cm0 with Some g => sp1 g | None => false end = false)
          by (destruct (cm_mutex cm0); auto).
        rewrite NP, <- FI. simpl. rewrite MU, ME.
        destruct (cm_mutex cm0) as [g|] eqn:MG; simpl.
        -- destruct r as [o|m|]; simpl; rewrite <- MS.
           ++ eexists. split; [reflexivity|]. intros g'. rewrite SP.
              destruct (Nat.eqb_spec g' g) as [->|]; auto. rewrite <- SP. auto.
           ++ eexists. split; [reflexivity|]. intros g'. simpl. rewrite SP.
              destruct (Nat.eqb_spec g' g); auto.
           ++ eexists. split; [reflexivity|]. intros g'. rewrite SP.
              destruct (Nat.eqb_spec g' g) as [->|]; auto. rewrite <- SP. auto.
        -- rewrite <- MS. exists sp1. split; [reflexivity|auto].
      * (* it goes on *)
        pose proof (pstep_kept _ _ _ _ _ _ _ _ _ Hp Hm Hs (lo_pc s LO _ _ Ht) IN NFIN) as [K1 [K2 K3] K4 [K5 K6] [K7 K8]].
        right. rewrite busy_after_app, busy_quiet by auto. split; [auto|].
        exists t, (Thread (th_todo th) p1), x, cm0, ms1, sp1, u1, l1, l.
        split; [exact OTH|]. simpl. rewrite TS, nth_set_nth, Nat.eqb_refl, Ht.
        split; [reflexivity|]. split; [exact K2|].
        rewrite begun_app, returned_app, BE, K8, !app_nil_r. split; [exact BG|]. split; [exact R|].
        split; [exact M0|]. rewrite K6. split; [exact SP|]. right. split; [exact K3|]. split; [exact UNP|].
        change (cexps (put_thread s1 t (Thread (th_todo th) p1)) (cc_m x)) with (cexps s1 (cc_m x)).
        change (cworld (put_thread s1 t (Thread (th_todo th) p1)) t) with (cworld s1 t).
        rewrite K4, MS, set_nth_twice, <- ME, <- MU. split; [reflexivity|].
        rewrite <- ME in FI. rewrite K1, FI. reflexivity.
Qed.

Lemma crun_ser sched : forall s tr0 s' tr,
  locks_ok s -> ser_inv s tr0 -> crun c s sched = (s', tr) -> apart (tr0 ++ tr) = true ->
  ser_inv s' (tr0 ++ tr).
Proof.
  induction sched as [|t sched IH]; simpl; intros s tr0 s' tr LO L H AP.
  - injection H as <- <-. rewrite app_nil_r. auto.
  - destruct (cstep c s t) as [s1 e1] eqn:E1. destruct (crun c s1 sched) as [s2 e2] eqn:E2.
    injection H as <- <-. rewrite app_assoc in *. eapply IH; [| |eauto|auto].
    + eapply cstep_locks; eauto.
    + eapply cstep_ser; eauto. unfold apart in *. rewrite apart_from_app in AP.
      apply andb_true_iff in AP. tauto.
Qed.
End Serial.

(** ** One thread *)
Lemma pstep_busy c (s : csys) t cm p s' p' ev x :
  pc_call p = Some x -> pstep c s t cm p = (s', p', ev) ->
  busy_after true ev = match pc_call p' with Some _ => true | None => false end /\
  List.length (returned ev) = match pc_call p' with Some _ => 0%nat | None => 1%nat end.
Proof. intros P H. leaves H; try (split; reflexivity); discriminate. Qed.

Lemma apart_begun b (ev : list (event V)) : begun ev = [] -> apart_from b ev = true.
Proof. revert b. induction ev as [|[] ev IH]; intros b; simpl; auto; discriminate. Qed.

Definition alone_inv (prog : list ccall) (s : csys) (tr : list (event V)) : Prop :=
  apart tr = true /\
  exists th dn, cs_threads s = [th] /\ prog = dn ++ th_todo th /\ begun tr = map (pair 0%nat) dn /\
    busy_after false tr = match pc_call (th_pc th) with Some _ => true | None => false end /\
    List.length dn = (List.length (returned tr) +
      match pc_call (th_pc th) with Some _ => 1 | None => 0 end)%nat.

Lemma crun_alone c prog sched : forall s tr0 s' tr,
  (forall x, In x prog -> (cc_m x < List.length (cs_meths s))%nat) ->
  alone_inv prog s tr0 -> crun c s sched = (s', tr) -> alone_inv prog s' (tr0 ++ tr).
Proof.
  induction sched as [|t sched IH]; simpl; intros s tr0 s' tr EX A H.
  - injection H as <- <-. rewrite app_nil_r. auto.
  - destruct (cstep c s t) as [s1 e1] eqn:E1. destruct (crun c s1 sched) as [s2 e2] eqn:E2.
    injection H as <- <-. rewrite app_assoc. apply cstep_cases in E1.
    destruct A as (AP & th & dn & TH & PR & BG & BU & LN).
    assert (T0 : forall th1, nth_error (cs_threads s) t = Some th1 -> t = 0%nat /\ th1 = th).
    { intros th1. rewrite TH. destruct t as [|[|t]]; simpl; try discriminate. intros [= <-]. auto. }
    destruct E1 as [|th1 x rest Ht Hp Hd Hm|th1 x rest cm Ht Hp Hd Hm|th1 x cm s1 p1 ev Ht Hp Hm Hs].
    + rewrite app_nil_r. eapply IH; [| |exact E2]; auto. split; auto. exists th, dn. auto 10.
    + exfalso. destruct (T0 _ Ht) as [-> ->]. apply nth_error_None in Hm.
      assert (I : In x prog) by (rewrite PR, Hd; apply in_or_app; right; left; reflexivity).
      specialize (EX _ I). lia.
    + destruct (T0 _ Ht) as [-> ->]. rewrite Hp in BU, LN. simpl in BU, LN. eapply IH; [| |exact E2]; auto.
      split. { unfold apart in *. rewrite apart_from_app, AP, BU. reflexivity. }
      eexists _, (dn ++ [x]). split; [simpl; rewrite TH; reflexivity|]. simpl.
      rewrite begun_app, BG, map_app, <- app_assoc. split; [rewrite PR, Hd; reflexivity|]. split; [reflexivity|].
      rewrite busy_after_app, BU, returned_app, !app_length. simpl.
      split; [destruct (cm_mutex cm); reflexivity|]. destruct (cm_mutex cm); simpl; lia.
    + destruct (T0 _ Ht) as [-> ->]. rewrite Hp in BU, LN. eapply IH; [| |exact E2].
      { intros y Y. simpl. rewrite <- (map_length decl_of).
        rewrite (pstep_decls _ _ _ _ _ _ _ _ Hs), map_length. auto. }
      pose proof (pstep_begun _ _ _ _ _ _ _ _ Hs) as BE.
      split. { unfold apart in *. rewrite apart_from_app, AP. apply apart_begun. auto. }
      eexists _, dn. split; [simpl; rewrite (pstep_threads _ _ _ _ _ _ _ _ Hs), TH; reflexivity|].
      simpl. rewrite begun_app, BG, BE, app_nil_r. split; [exact PR|]. split; [reflexivity|].
      destruct (pstep_busy _ _ _ _ _ _ _ _ _ Hp Hs) as [B1 B2].
      rewrite busy_after_app, BU, B1, returned_app, app_length, B2. split; [reflexivity|].
      destruct (pc_call p1); lia.
Qed.
End SerialProofs.

(** ** Calls that do not overlap *)

(** Whatever the methods are (of objects, static, several stores), whatever thread
    makes which call and wherever the threads are switched: as long as no call begins
    before the one before it has returned, the calls have the results, and leave
    behind the state, that the same calls have when they are executed one after the
    other in the order in which they began.  A last call may still be going on. *)
Theorem separate_calls_are_sequential :
  forall (V U : Type) c u l (ms : list (cmeth V U)) sp progs sched s' tr,
  crun c (cstart u l ms sp progs) sched = (s', tr) ->
  apart tr = true ->
  let '((ms1, sp1, u1, l1), rs) := single_run c (ms, sp, u, l) (begun tr) in
  prefix (returned tr) rs /\
  (List.length (begun tr) <= S (List.length (returned tr)))%nat /\
  (List.length (begun tr) = List.length (returned tr) ->
     rs = returned tr /\ cs_meths s' = ms1 /\ cs_user s' = u1 /\ cs_levels s' = l1 /\
     forall g, cs_sp s' g = sp1 g).
Proof.
  intros V U c u l ms sp progs sched s' tr H AP.
  assert (L0 : locks_ok (cstart u l ms sp progs)) by apply start_locks.
  assert (I0 : ser_inv c (ms, sp, u, l) (cstart u l ms sp progs) []).
  { left. split; [reflexivity|]. split.
    - intros t th N _. simpl in N. rewrite nth_error_map in N.
      destruct (nth_error progs t); [|discriminate]. injection N as <-. reflexivity.
    - exists sp. split; reflexivity. }
  pose proof (crun_ser c (ms, sp, u, l) sched _ [] _ _ L0 I0 H AP) as I. simpl in I.
  destruct I as [(_ & _ & sp1 & R & SP)|(_ & t & th & x & cm0 & ms1 & sp1 & u1 & l1 & ll & _ & _ & _ & BG & R & _)].
  - pose proof (single_run_length c (ms, sp, u, l) (begun tr)) as LE. rewrite R in *. simpl in LE.
    split; [exists []; symmetry; apply app_nil_r|]. split; [lia|]. intros _. repeat split; auto.
  - pose proof (single_run_length c (ms, sp, u, l) ll) as LE. rewrite R in LE. simpl in LE.
    rewrite BG, single_run_snoc, R.
    destruct (single_call c (ms1, sp1, u1, l1) (t, x)) as [[[[ms2 sp2] u2] l2] r2].
    rewrite app_length. simpl. split; [eexists; reflexivity|]. split; [lia|]. intros. lia.
Qed.
Print Assumptions separate_calls_are_sequential.

(** The calls of a single thread never overlap: step by step or in one go, the results
    and the state are those of the sequential model, and after enough steps all the
    calls have returned. *)
Theorem one_thread_is_sequential :
  forall (V U : Type) c u l (ms : list (cmeth V U)) sp prog,
  (forall x, In x prog -> (cc_m x < List.length ms)%nat) ->
  exists k, forall n, (k <= n)%nat ->
  let '(s', tr) := crun c (cstart u l ms sp [prog]) (repeat 0%nat n) in
  let '((ms1, sp1, u1, l1), rs) := single_run c (ms, sp, u, l) (map (pair 0%nat) prog) in
  returned tr = rs /\ cs_meths s' = ms1 /\ cs_user s' = u1 /\ cs_levels s' = l1 /\
  forall g, cs_sp s' g = sp1 g.
Proof.
  intros V U c u l ms sp prog EX.
  set (s0 := cstart u l ms sp [prog]).
  exists (cost s0). intros n LE.
  assert (FI : finished (fst (crun c s0 (repeat 0%nat n)))).
  { assert (E : repeat 0%nat n = List.concat (repeat [0%nat] n)).
    { clear. induction n as [|n IH]; [reflexivity|]. simpl. f_equal. exact IH. }
    rewrite E. apply fair_finish.
    - apply start_locks.
    - apply Forall_forall. intros r I. apply repeat_spec in I. subst r. intros [|t] Q; [left; reflexivity|].
      simpl in Q. lia.
    - rewrite repeat_length. exact LE. }
  destruct (crun c s0 (repeat 0%nat n)) as [s' tr] eqn:H. simpl in FI.
  assert (A0 : alone_inv prog s0 []).
  { split; [reflexivity|]. exists (Thread prog PIdle), []. repeat split. }
  pose proof (crun_alone c prog _ s0 [] s' tr EX A0 H) as (AP & th & dn & TH & PR & BG & BU & LN). simpl in AP, BG, BU, LN.
  pose proof (separate_calls_are_sequential _ _ _ _ _ _ _ _ _ _ _ H AP) as S.
  destruct (FI 0%nat th) as [P T]; [rewrite TH; reflexivity|].
  rewrite T, app_nil_r in PR. subst dn. rewrite BG in S.
  assert (LEN : List.length (map (pair 0%nat) prog) = List.length (returned tr)).
  { rewrite P in LN. simpl in LN. rewrite map_length. lia. }
  destruct (single_run c (ms, sp, u, l) (map (pair 0%nat) prog)) as [[[[ms1 sp1] u1] l1] rs].
  destruct S as (_ & _ & S). destruct (S LEN) as (-> & R). auto.
Qed.
Print Assumptions one_thread_is_sequential.

(** Two threads call two methods of an object and a static function in turn; the
    switches happen between calls, and the last call is interrupted.  When the threads
    are switched at every step instead, calls overlap. *)
Example separate_calls_applies :
  let ms := [CMeth me0 None [Expectation (Common MtAlways false None (Times 0 (TRange 1 2))) (AStatic (SMut seven) false);
                             Expectation (Common MtAlways false None (Times 0 (TRange 1 3))) (AStatic (SMut adder) false)];
             CMeth me0 (Some 4%nat) [Expectation (Common MtAlways false None (Times 0 (TRange 0 100))) (AStatic (SMut bomb) false)]] in
  let prog := [CCall 0 [5]; CCall 1 [6]; CCall 1 [3]] in
  let s0 := cstart ([] : U0) (fun _ => 0) ms (fun _ => false) [prog; prog] in
  let tr := snd (crun debug64 s0 (repeat 0 14 ++ repeat 1 17 ++ repeat 0 15 ++ repeat 1 2 ++ repeat 0 1)%nat) in
  let wild := snd (crun debug64 s0 (List.concat (repeat [0%nat; 1%nat] 60))) in
  apart tr = true /\ apart wild = false /\
  begun tr = [(0%nat, CCall 0 [5]); (1%nat, CCall 0 [5]); (0%nat, CCall 1 [6]); (1%nat, CCall 1 [6]); (0%nat, CCall 1 [3])] /\
  returned tr = [(0%nat, CCall 0 [5], Ret 7); (1%nat, CCall 0 [5], Ret 5); (0%nat, CCall 1 [6], Panic (MUser 13));
                 (1%nat, CCall 1 [6], Panic MPoison)].
Proof. vm_compute. repeat split. Qed.
