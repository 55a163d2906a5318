(** * PropNest: C71, closures that call mocks *)

From Coq Require Import Arith NArith List Bool String Lia.
From Verif Require Import Base Times Expect Conc ConcSpec ConcProofs LockProofs ThreadProofs
  LinProofs Nest NestSpec NestProofs NestSim NestMain.
Import ListNotations.

Local Arguments set_nth : simpl never.
Local Arguments tstep : simpl never.

Section PropNest.
Context {V U : Type}.
Notation rval := (rval V U).
Notation ncall := (ncall V).
Notation sstate := (sstate (V := rval) (U := U)).
Notation cmeth := (cmeth rval U).

Lemma rep_rest t b (st : sstate) : rep t b st [] [] <-> at_rest b st.
Proof.
  split.
  - intros [R1 R2 R3 R4 R5 R6 R7]. destruct st as [[[ms sp] u] l]. repeat split; auto.
  - destruct st as [[[ms sp] u] l]. intros (A & B & C & D & E & F & G). constructor; auto.
Qed.

Lemma start_rest u l (ms : list cmeth) sp progs : at_rest (ns_base (nstart u l ms sp progs)) (ms, sp, u, l).
Proof. repeat split. Qed.

(** ** C71: a test whose closures call mocks does what [nevals] says: each of its calls
    ends with that outcome, until the first one that never returns. *)
Theorem nested_calls_run (c : cfg) (u : U) (l : levels) (ms : list cmeth) (sp : nat -> bool)
    (progs : list (list ncall)) (t : nat) (prog : list ncall) :
  value_defaults ms -> nth_error progs t = Some prog ->
  exists st rs all,
    nevals (S (size_of ms)) c t (ms, sp, u, l) prog = Some (st, rs, all) /\
    (forall k th, nth_error (ns_threads (nrun c (nstart u l ms sp progs) (repeat t k))) t = Some th ->
       prefix (nt_out th) rs) /\
    exists k th,
      let s := nrun c (nstart u l ms sp progs) (repeat t k) in
      nth_error (ns_threads s) t = Some th /\ nt_out th = rs /\
      if all then nt_todo th = [] /\ nt_stack th = [] /\ at_rest (ns_base s) st
      else (nt_todo th <> [] \/ nt_stack th <> []) /\ forall k', nrun c s (repeat t k') = s.
Proof.
  intros VD NP.
  assert (N0 : nth_error (ns_threads (nstart u l ms sp progs)) t = Some (NThread prog [] [])).
  { unfold nstart. simpl. rewrite nth_error_map, NP. reflexivity. }
  destruct (nevals_sim c t prog (ms, sp, u, l) (ns_base (nstart u l ms sp progs)) [] VD)
    as (st & rs & all & E & k & b' & todo & stack & T & F1 & F2).
  { apply rep_rest. apply start_rest. }
  exists st, rs, all. split; [exact E|]. simpl app in *.
  assert (ST : stuck c t b' (NThread todo stack rs)).
  { destruct all; [|apply F2; reflexivity]. destruct (F1 eq_refl) as (-> & -> & _). reflexivity. }
  assert (RUN : forall k0, nrun c (nstart u l ms sp progs) (repeat t k0) =
    let (b1, th1) := titer c t k0 (ns_base (nstart u l ms sp progs), NThread prog [] []) in
    NSys b1 (set_nth (ns_threads (nstart u l ms sp progs)) t th1)).
  { intros k0. rewrite <- (nrun_alone c t k0 _ _ _ N0). reflexivity. }
  assert (TH : forall th1, nth_error (set_nth (ns_threads (nstart u l ms sp progs)) t th1) t = Some th1).
  { intros th1. rewrite nth_set_nth, Nat.eqb_refl, N0. reflexivity. }
  split.
  - intros k0 th H. rewrite RUN in H.
    destruct (titer c t k0 (ns_base (nstart u l ms sp progs), NThread prog [] [])) as [b1 th1] eqn:E1.
    simpl ns_threads in H. rewrite TH in H. injection H as <-. unfold prefix.
    destruct (Nat.le_ge_cases k0 k) as [L|L].
    + destruct (titer_out c t (k - k0) (b1, th1)) as [l1 H1]. change (snd (b1, th1)) with th1 in H1. rewrite <- E1, <- titer_app in H1.
      replace (k0 + (k - k0))%nat with k in H1 by lia. rewrite T in H1. exists l1. exact H1.
    + replace k0 with (k + (k0 - k))%nat in E1 by lia. rewrite titer_app, T, (titer_stuck _ _ _ _ _ ST) in E1.
      injection E1 as <- <-. exists []. simpl. symmetry. apply app_nil_r.
  - exists k, (NThread todo stack rs). rewrite RUN, T. cbn zeta. simpl ns_threads. simpl ns_base. rewrite TH.
    split; [reflexivity|]. split; [reflexivity|]. destruct all.
    + destruct (F1 eq_refl) as (-> & -> & R). simpl. repeat split. apply (rep_rest t). exact R.
    + destruct (F2 eq_refl) as [NE _]. split; [exact NE|]. intros k'.
      rewrite (nrun_alone c t k' _ _ _ (TH _)), (titer_stuck _ _ _ _ _ ST), set_nth_twice. reflexivity.
Qed.

(** A test whose first call hangs has no outcomes, however long it runs. *)
Lemma hanging_call c u l (ms : list cmeth) sp progs t y rest k th :
  value_defaults ms -> nth_error progs t = Some (y :: rest) ->
  neval (S (size_of ms)) c t [] [] (ms, sp, u, l) y = Some Hangs ->
  nth_error (ns_threads (nrun c (nstart u l ms sp progs) (repeat t k))) t = Some th -> nt_out th = [].
Proof.
  intros VD NP H N.
  destruct (nested_calls_run c u l ms sp progs t _ VD NP) as (st & rs & all & E & PR & _).
  cbn [nevals] in E. rewrite H in E. injection E as <- <- <-.
  destruct (PR _ _ N) as [l1 Q]. destruct (nt_out th); [reflexivity|discriminate].
Qed.

(** ** C71: a closure whose call would be answered by the expectation that runs it waits
    for ever for the mutex of its own [Rfunc]. *)
Theorem call_of_own_expectation_hangs (c : cfg) (u : U) (l : levels) (ms : list cmeth) (sp : nat -> bool)
    (progs : list (list ncall)) (t : nat) (y : ncall) (rest : list ncall)
    (cm : cmeth) (i : nat) (e : expectation rval U) es w1 (y' : ncall) k' :
  let args := map RVal (nc_args y) in
  let w := World u l t false in
  value_defaults ms -> nth_error progs t = Some (y :: rest) ->
  nth_error ms (nc_m y) = Some cm -> cm_mutex cm = None ->
  (* the call is answered by expectation [i], whose closure calls [y'] ... *)
  answering c (cm_me cm) (cm_exps cm) args w = Some i ->
  nth_error (cm_exps cm) i = Some e -> is_owned (e_action e) = true ->
  expectations_call c (cm_me cm) (cm_exps cm) args (fun v => v) w = (es, w1, Ret (Some (RReq y' k'))) ->
  (* ... which would be answered by the same expectation *)
  nc_m y' = nc_m y ->
  answering c (cm_me cm) es (map RVal (nc_args y')) (World (w_user w1) (w_levels w1) t false) = Some i ->
  forall k th,
    nth_error (ns_threads (nrun c (nstart u l ms sp progs) (repeat t k))) t = Some th -> nt_out th = [].
Proof.
  intros args w VD NP M MU AN NE OW EC SM AN2 k th.
  apply hanging_call with (y := y) (rest := rest); auto.
  assert (SZ : exists n, size_of ms = S n).
  { destruct (size_of ms) eqn:Z; [|eauto]. exfalso.
    pose proof (in_pairs ms 0 _ i _ M ltac:(apply nth_error_Some; congruence)) as IP.
    pose proof (pairs_from_length ms 0) as PL. rewrite Z in PL. destruct (pairs_from 0 ms); [contradiction|discriminate]. }
  destruct SZ as [n ->].
  rewrite (neval_S _ _ _ _ _ (ms, sp, u, l) _ _ M), MU. unfold nbody. fold args w.
  rewrite EC, AN, NE, OW, MU. cbn [andb heldr existsb]. cbn [drive].
  set (st1 := (set_nth ms (nc_m y) (CMeth (cm_me cm) None es), sp, w_user w1, w_levels w1)).
  assert (M1 : nth_error (meths_of st1) (nc_m y') = Some (CMeth (cm_me cm) None es)).
  { rewrite SM. simpl. rewrite nth_set_nth, Nat.eqb_refl, M. reflexivity. }
  rewrite (neval_S _ _ _ _ _ st1 _ _ M1). cbn [cm_mutex].
  unfold nbody, st1. cbn [cm_me cm_exps].
  assert (OW2 : exists e2, nth_error es i = Some e2 /\ is_owned (e_action e2) = true).
  { pose proof (expectations_call_owned _ _ _ _ _ _ _ _ _ EC i) as Q. rewrite NE in Q.
    destruct (nth_error es i) as [e2|]; [|contradiction]. exists e2. split; congruence. }
  destruct OW2 as (e2 & NE2 & OW2). rewrite AN2, NE2, OW2, SM.
  destruct (expectations_call c (cm_me cm) es (map RVal (nc_args y')) (fun v => v)
    (World (w_user w1) (w_levels w1) t false)) as [[? ?] ?].
  unfold heldr. cbn [existsb fst snd]. rewrite !Nat.eqb_refl. reflexivity.
Qed.

(** ** C71: the closure of a static function that calls a function of the same store
    waits for ever for the mutex of that store. *)
Theorem call_of_own_store_hangs (c : cfg) (u : U) (l : levels) (ms : list cmeth) (sp : nat -> bool)
    (progs : list (list ncall)) (t : nat) (y : ncall) (rest : list ncall)
    (cm cm' : cmeth) (g i : nat) (e : expectation rval U) es w1 (y' : ncall) k' :
  let args := map RVal (nc_args y) in
  let w := World u l t false in
  value_defaults ms -> nth_error progs t = Some (y :: rest) ->
  nth_error ms (nc_m y) = Some cm -> cm_mutex cm = Some g -> sp g = false ->
  answering c (cm_me cm) (cm_exps cm) args w = Some i ->
  nth_error (cm_exps cm) i = Some e -> is_owned (e_action e) = true ->
  expectations_call c (cm_me cm) (cm_exps cm) args (fun v => v) w = (es, w1, Ret (Some (RReq y' k'))) ->
  nth_error ms (nc_m y') = Some cm' -> cm_mutex cm' = Some g ->
  forall k th,
    nth_error (ns_threads (nrun c (nstart u l ms sp progs) (repeat t k))) t = Some th -> nt_out th = [].
Proof.
  intros args w VD NP M MU SP AN NE OW EC M' MU' k th.
  apply hanging_call with (y := y) (rest := rest); auto.
  assert (SZ : exists n, size_of ms = S n).
  { destruct (size_of ms) eqn:Z; [|eauto]. exfalso.
    pose proof (in_pairs ms 0 _ i _ M ltac:(apply nth_error_Some; congruence)) as IP.
    pose proof (pairs_from_length ms 0) as PL. rewrite Z in PL. destruct (pairs_from 0 ms); [contradiction|discriminate]. }
  destruct SZ as [n ->].
  rewrite (neval_S _ _ _ _ _ (ms, sp, u, l) _ _ M), MU. cbn [existsb]. rewrite SP. unfold nbody. fold args w.
  rewrite EC, AN, NE, OW, MU. cbn [andb heldr existsb]. cbn [drive].
  set (st1 := (set_nth ms (nc_m y) (CMeth (cm_me cm) (Some g) es), sp, w_user w1, w_levels w1)).
  assert (M1 : exists cm1, nth_error (meths_of st1) (nc_m y') = Some cm1 /\ cm_mutex cm1 = Some g).
  { simpl. rewrite nth_set_nth. destruct (Nat.eqb_spec (nc_m y') (nc_m y)) as [Q|Q]; [|exists cm'; auto].
    rewrite M. eexists. split; reflexivity. }
  destruct M1 as (cm1 & M1 & MU1).
  rewrite (neval_S _ _ _ _ _ st1 _ _ M1), MU1. cbn [existsb]. rewrite Nat.eqb_refl. reflexivity.
Qed.

Definition no_request (r : res rval) : Prop := forall y k, r <> Ret (RReq y k).

(** ** C71: calls whose closures call no mocks are the calls of the other theorems. *)
Theorem plain_calls_are_single_calls (c : cfg) (t n : nat) (st : sstate) (prog : list ncall) st' rs :
  single_run c st (map (fun y => (t, to_call y)) prog) = (st', rs) ->
  Forall (fun y => nc_m y < List.length (meths_of st))%nat prog ->
  Forall (fun txr => no_request (snd txr)) rs ->
  nevals (S n) c t st prog = Some (st', map (fun txr => to_val (snd txr)) rs, true).
Proof.
  revert st st' rs. induction prog as [|y prog IH]; intros st st' rs H FM FR.
  - simpl in H. injection H as <- <-. reflexivity.
  - cbn [map single_run] in H. destruct (single_call c st (t, to_call y)) as [st1 r1] eqn:S1.
    destruct (single_run c st1 (map (fun y => (t, to_call y)) prog)) as [st2 rs2] eqn:S2. injection H as <- <-.
    inversion FM as [|? ? L1 L2]; subst. inversion FR as [|? ? N1 N2]; subst.
    destruct (nth_error (meths_of st) (nc_m y)) as [cm|] eqn:M; [|apply nth_error_None in M; lia].
    cbn [nevals]. rewrite (neval_plain n c t st y st1 r1); eauto.
    2:{ intros v -> Q. destruct v as [v|y' k]; [exact Q|]. eapply N1. reflexivity. }
    rewrite (IH st1 st2 rs2 S2); [reflexivity| |exact N2].
    assert (LE : List.length (meths_of st1) = List.length (meths_of st)).
    { destruct st as [[[ms sp] u] l]. unfold single_call in S1. simpl cc_m in S1. simpl in M. rewrite M in S1.
      destruct (match cm_mutex cm with Some g => sp g | None => false end); [injection S1 as <- <-; reflexivity|].
      destruct (expectations_call c (cm_me cm) (cm_exps cm) (cc_args (to_call y)) (fun v => v) (World u l t false))
        as [[es w] r]. injection S1 as <- _. simpl. apply set_nth_length. }
    rewrite LE. exact L2.
Qed.
End PropNest.

Print Assumptions nested_calls_run.
Print Assumptions call_of_own_expectation_hangs.
Print Assumptions call_of_own_store_hangs.
Print Assumptions plain_calls_are_single_calls.

(** ** Cases *)
Open Scope N_scope.
Definition rv := rval N (list N).
Definition plain (a : rv) : N := match a with RVal v => v | RReq _ _ => 0 end.

(** Calls method [m] with its own arguments, logs the result and adds one to it; a panic
    of the call passes. *)
Definition ask (m : nat) : ucode (list N) (list rv) rv := fun args u =>
  (u, Ret (RReq (NCall m (map plain args)) (fun r u =>
     match r with
     | Ret v => (u ++ [v], Ret (RVal (v + 1)))
     | Panic e => (u, Panic e)
     | Abort => (u, Abort)
     end))).
(** As [ask], but catches a panic. *)
Definition try_ask (m : nat) : ucode (list N) (list rv) rv := fun args u =>
  (u, Ret (RReq (NCall m (map plain args)) (fun r u =>
     match r with Ret v => (u ++ [v], Ret (RVal v)) | _ => (u ++ [99], Ret (RVal 0)) end))).
Definition say (n : N) : ucode (list N) (list rv) rv := fun _ u => (u ++ [n], Ret (RVal n)).

Definition nme (name : string) : method rv := Method name name (Some (RVal 0)) (fun _ => "_"%string).
Definition nexp (lo hi : N) (f : ucode (list N) (list rv) rv) : expectation rv (list N) :=
  Expectation (Common MtAlways false None (Times 0 (TRange lo hi))) (AStatic (SMut f) false).

Definition nout (t : nat) (s : nsys N (list N)) : list (res N) :=
  match nth_error (ns_threads s) t with Some th => nt_out th | None => [] end.

(** [a] asks [b], which asks the static function [c].  [c] accepts one call: the second
    call of [a] panics on its way, and the third finds the [Rfunc] of [a] poisoned.  [d]
    catches the panic of [c], which by then is poisoned. *)
Example nested_calls_applies :
  let ms := [CMeth (nme "a") None [nexp 1 10 (ask 1)];
             CMeth (nme "b") None [nexp 1 10 (ask 2)];
             CMeth (nme "c") (Some 0%nat) [nexp 1 2 (say 5)];
             CMeth (nme "d") None [nexp 1 10 (try_ask 2)]] in
  let prog := [NCall 0 [1]; NCall 0 [2]; NCall 0 [3]; NCall 3 [4]] in
  let rs := [Ret 7; Panic (MCall "c" "<anything>" (TeTooMany 2 1)); Panic MPoison; Ret 0] in
  value_defaults ms /\
  (exists st, nevals (S (size_of ms)) debug64 0 (ms, fun _ => false, [], fun _ => 0) prog = Some (st, rs, true) /\
     user_of st = [5; 5; 6; 99]) /\
  nout 0 (nrun debug64 (nstart [] (fun _ => 0) ms (fun _ => false) [prog]) (repeat 0%nat 200)) = rs.
Proof.
  split; [|split; [eexists; split|]; vm_compute; reflexivity].
  intros cm y k [<-|[<-|[<-|[<-|[]]]]]; discriminate.
Qed.

(** The closure of [a]'s only expectation calls [a]: it hangs.  With a second
    expectation and a first one that is done after one call, the second answers and the
    call ends. *)
Example call_of_own_expectation_applies :
  let ms := [CMeth (nme "a") None [nexp 0 10 (ask 0)]] in
  let ms2 := [CMeth (nme "a") None [nexp 1 2 (ask 0); nexp 0 10 (say 5)]] in
  value_defaults ms /\
  (exists es w1 k,
    answering debug64 (nme "a") [nexp 0 10 (ask 0)] [RVal 3] (World [] (fun _ => 0) 0 false) = Some 0%nat /\
    expectations_call debug64 (nme "a") [nexp 0 10 (ask 0)] [RVal 3] (fun v => v) (World [] (fun _ => 0) 0 false) =
      (es, w1, Ret (Some (RReq (NCall 0 [3]) k))) /\
    answering debug64 (nme "a") es [RVal 3] (World (w_user w1) (w_levels w1) 0 false) = Some 0%nat) /\
  nevals 2 debug64 0 (ms, fun _ => false, [], fun _ => 0) [NCall 0 [3]; NCall 0 [4]] =
    Some ((ms, fun _ => false, [], fun _ => 0), [], false) /\
  nout 0 (nrun debug64 (nstart [] (fun _ => 0) ms2 (fun _ => false) [[NCall 0 [3]]]) (repeat 0%nat 50)) = [Ret 6].
Proof.
  split; [|split; [|split; [vm_compute; reflexivity|vm_compute; reflexivity]]].
  - intros cm y k [<-|[]]; discriminate.
  - eexists _, _, _. repeat split; vm_compute; reflexivity.
Qed.

(** Two static functions of one generic function share a store. *)
Example call_of_own_store_applies :
  let ms := [CMeth (nme "g") (Some 4%nat) [nexp 0 10 (ask 1)]; CMeth (nme "g") (Some 4%nat) [nexp 0 10 (say 5)]] in
  value_defaults ms /\
  (exists es w1 k,
    answering debug64 (nme "g") [nexp 0 10 (ask 1)] [RVal 3] (World [] (fun _ => 0) 0 false) = Some 0%nat /\
    expectations_call debug64 (nme "g") [nexp 0 10 (ask 1)] [RVal 3] (fun v => v) (World [] (fun _ => 0) 0 false) =
      (es, w1, Ret (Some (RReq (NCall 1 [3]) k)))) /\
  nout 0 (nrun debug64 (nstart [] (fun _ => 0) ms (fun _ => false) [[NCall 1 [3]; NCall 0 [3]]]) (repeat 0%nat 50)) = [Ret 5].
Proof.
  split; [|split; [|vm_compute; reflexivity]].
  - intros cm y k [<-|[<-|[]]]; discriminate.
  - eexists _, _, _. repeat split; vm_compute; reflexivity.
Qed.

Example plain_calls_applies :
  let ms := [CMeth (nme "a") None [nexp 1 2 (say 3); nexp 0 10 (say 5)]] in
  let prog := [NCall 0 [1]; NCall 0 [2]] in
  Forall (fun y => nc_m y < 1)%nat prog /\
  Forall (fun txr => no_request (snd txr))
    (snd (single_run debug64 (ms, fun _ => false, [], fun _ => 0) (map (fun y => (0%nat, to_call y)) prog))) /\
  (exists st, nevals 1 debug64 0 (ms, fun _ => false, [], fun _ => 0) prog = Some (st, [Ret 3; Ret 5], true)).
Proof.
  split; [repeat constructor|]. split; [vm_compute; repeat constructor; intros ? ?; discriminate|].
  eexists. vm_compute. reflexivity.
Qed.
