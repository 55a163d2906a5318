(** * FragileRuns: tests with single-threaded closures *)

From Coq Require Import PeanoNat NArith List Bool String Lia.
From Verif Require Import Base Times Expect ExpectProofs Mock CallProofs DispatchProofs FifoProofs MessageSpec MessageProofs MessageRuns
  Fragile FragileSpec FragileProofs.
Import ListNotations.
Open Scope N_scope.

Section FragileRuns.
Context {V U : Type}.
Context (sh : shuffle V U) (shuffled : forall s x, In x (sh s) <-> In x s).

(** ** Tests on one thread, or without such closures *)

Lemma expectations_call_thread c me (es : list (expectation V U)) args wr w es' w' r :
  expectations_call c me es args wr w = (es', w', r) -> w_thread w' = w_thread w.
Proof.
  intros E. apply expectations_call_any in E as [(i & e & e' & w1 & r0 & N & F & X & _)|(r0 & F & _ & (_ & T & _) & _)].
  - apply find_exp_any in F as (_ & (_ & T & _) & _). apply expectation_call_shape in X as (_ & _ & _ & _ & _ & T2 & _).
    congruence.
  - exact T.
Qed.
Lemma slot_call_thread c md (s : slot V U) k args wr w s' w' r :
  slot_call c md s k args wr w = (s', w', r) -> w_thread w' = w_thread w.
Proof.
  destruct s as [es|st]; cbn.
  - destruct (expectations_call c (md_me md) es args wr w) as [[es' w1] r1] eqn:E. intros Z. injection Z as _ <- _.
    exact (expectations_call_thread _ _ _ _ _ _ _ _ _ E).
  - destruct (gget st k) as [es|]; [|intros Z; injection Z as _ <- _; reflexivity].
    destruct (expectations_call c (md_me md) es args wr w) as [[es' w1] r1] eqn:E. intros Z. injection Z as _ <- _.
    exact (expectations_call_thread _ _ _ _ _ _ _ _ _ E).
Qed.
Lemma step_thread c y o y' r : stays o -> step c sh y o = (y', r) -> w_thread (y_world y') = w_thread (y_world y).
Proof.
  intros S. destruct o as [sd|i j k l|i j k args wr|i|i|s k l|s k args|s|s| |t|b|f]; cbn [step].
  - intros E. injection E as <- _. reflexivity.
  - destruct (nth_error (y_objs y) i) as [ob|]; [|intros E; injection E as <- _; reflexivity].
    destruct (nth_error ob j) as [f|]; [|intros E; injection E as <- _; reflexivity].
    destruct (slot_expect _ _ _ _ _ _ _) as [[s' t'] r1]. intros E; injection E as <- _; reflexivity.
  - destruct (nth_error (y_objs y) i) as [ob|]; [|intros E; injection E as <- _; reflexivity].
    destruct (nth_error ob j) as [f|]; [|intros E; injection E as <- _; reflexivity].
    unfold field_call. destruct (slot_call _ _ _ _ _ _ _) as [[s' w'] r1] eqn:E. intros Z. injection Z as <- _.
    exact (slot_call_thread _ _ _ _ _ _ _ _ _ _ E).
  - destruct (nth_error (y_objs y) i) as [ob|]; [|intros E; injection E as <- _; reflexivity].
    destruct (object_checkpoint _ _ _ _). intros E; injection E as <- _; reflexivity.
  - destruct (nth_error (y_objs y) i) as [ob|]; intros E; injection E as <- _; reflexivity.
  - destruct (nth_error (y_stats y) s) as [[md sm]|]; [|intros E; injection E as <- _; reflexivity].
    destruct (context_expect _ _ _ _ _ _ _) as [[sm' t'] r1]. intros E; injection E as <- _; reflexivity.
  - destruct (nth_error (y_stats y) s) as [[md sm]|]; [|intros E; injection E as <- _; reflexivity].
    unfold static_call. destruct (sm_poison sm); [intros E; injection E as <- _; reflexivity|].
    destruct (slot_call _ _ _ _ _ _ _) as [[s' w'] r1] eqn:E. apply slot_call_thread in E.
    destruct r1 as [[v|]|m|]; intros Z; injection Z as <- _; exact E.
  - destruct (nth_error (y_stats y) s) as [[md sm]|]; [|intros E; injection E as <- _; reflexivity].
    destruct (static_checkpoint _ _ _ _ _). intros E; injection E as <- _; reflexivity.
  - destruct (nth_error (y_stats y) s) as [[md sm]|]; [|intros E; injection E as <- _; reflexivity].
    destruct (context_drop _ _ _ _ _). intros E; injection E as <- _; reflexivity.
  - destruct (module_checkpoint _ _ _ _). intros E; injection E as <- _; reflexivity.
  - destruct (S t eq_refl).
  - intros E; injection E as <- _; reflexivity.
  - intros E; injection E as <- _; reflexivity.
Qed.

Lemma shuffled1 s x : In x (sh s) -> In x s.
Proof. apply shuffled. Qed.

Lemma run_stays c l : forall y, Forall stays l -> settled_sys (fun t => t = w_thread (y_world y)) y ->
  frun c sh y l = run c sh y l.
Proof.
  induction l as [|o l IH]; intros y F H; cbn; [reflexivity|]. inversion F as [|? ? S F']; subst.
  rewrite (step_home sh shuffled1 c y o (settled_home _ y o H (fun t E => E))).
  destruct (step c sh y o) as [y1 r] eqn:E. assert (T := step_thread _ _ _ _ _ S E).
  assert (H1 : settled_sys (fun t => t = w_thread (y_world y1)) y1).
  { rewrite T. refine (step_settled sh _ c y o y1 r _ H E). intros l0 _. apply Forall_forall. reflexivity. }
  now rewrite (IH _ F' H1).
Qed.
Lemma run_without c l : forall y, Forall without_st l -> settled_sys (fun _ => False) y ->
  frun c sh y l = run c sh y l.
Proof.
  induction l as [|o l IH]; intros y F H; cbn; [reflexivity|]. inversion F as [|? ? S F']; subst.
  rewrite (step_home sh shuffled1 c y o (settled_home _ y o H (fun t E => match E with end))).
  destruct (step c sh y o) as [y1 r] eqn:E.
  assert (H1 : settled_sys (fun _ => False) y1).
  { refine (step_settled sh _ c y o y1 r _ H E). intros l0 X. exact (S _ X). }
  now rewrite (IH _ F' H1).
Qed.

(** ** What happens elsewhere, exactly *)

Definition verdict (l : list nat) : res unit :=
  match l with
  | [] => Ret tt
  | [_] => Panic MDropThread
  | _ => Abort
  end.
Lemma fragiles_verdict th ts p :
  drop_all (map (fragile_drop th) ts) p = verdict (filter (fun t => negb (Nat.eqb t th)) ts).
Proof.
  revert p. induction ts as [|t ts IH]; intros p; cbn; [reflexivity|].
  unfold fragile_drop at 1. destruct (Nat.eqb t th); cbn; [apply IH|]. rewrite IH.
  destruct (filter (fun t0 : nat => negb (Nat.eqb t0 th)) ts) as [|? [|? ?]]; reflexivity.
Qed.

Lemma content_true e : content true (e : expectation V U).
Proof. now left. Qed.
Lemma content_drop c me (e : expectation V U) p : content p e -> common_drop c me (e_common e) p = Ret tt.
Proof.
  unfold content, least, counted, bound, common_drop. intros [->|[M [L B]]]; [reflexivity|].
  destruct p; [reflexivity|]. unfold show_locked. rewrite M. cbn [rbind].
  unfold times_is_satisfied. apply N.leb_le in L. apply N.ltb_lt in B. now rewrite L, B.
Qed.
Lemma not_content_drop c me (e : expectation V U) p : ~ content p e ->
  p = false /\ exists m, common_drop c me (e_common e) p = Panic m /\ m <> MDropThread.
Proof.
  unfold content, least, counted, bound, common_drop. intros N. destruct p; [destruct N; now left|]. split; [reflexivity|].
  unfold show_locked. destruct (c_mpoison (e_common e)); cbn [rbind]; [now eexists|].
  unfold times_is_satisfied. destruct (N.leb_spec (rstart (trange_of (c_times (e_common e)))) (tcount (c_times (e_common e)))) as [L|L];
    cbn [andb].
  - destruct (N.ltb_spec (tcount (c_times (e_common e))) (rend (trange_of (c_times (e_common e))))) as [B|B].
    + destruct N. right. auto.
    + unfold times_maximum, usub. destruct (1 <=? _); [|destruct (checks c)]; cbn [rbind]; eexists; split; try reflexivity; discriminate.
  - eexists. split; [reflexivity|discriminate].
Qed.

Definition exps_of (l : list (method V * expectation V U)) := map snd l.

(** When all are content, only the strangers matter. *)
Lemma content_all c th (l : list (method V * expectation V U)) p : Forall (content p) (exps_of l) ->
  drop_all (drops_of c th l) p = verdict (strangers th (exps_of l)).
Proof.
  intros F. unfold strangers. rewrite <- (fragiles_verdict th _ p). revert p F.
  induction l as [|[me e] l IH]; intros p F; [reflexivity|]. inversion F as [|? ? C F']; subst.
  cbn [drops_of flat_map fst snd exps_of map]. fold (drops_of c th l). fold (exps_of l).
  rewrite map_app. unfold exp_drops. cbn [app drop_all]. rewrite (content_drop _ _ _ _ C). rewrite <- homes_fragile.
  rewrite !drop_all_app. unfold after. destruct (drop_all (map (fragile_drop th) (homes e)) p) as [[]|m|].
  - now apply IH.
  - rewrite IH; [reflexivity|]. apply Forall_forall. intros. apply content_true.
  - reflexivity.
Qed.
Lemma verdict_app a b : verdict (a ++ b) =
  match verdict a with Ret _ => verdict b | Abort => Abort | Panic m => match verdict b with Ret _ => Panic m | _ => Abort end end.
Proof. destruct a as [|x [|y a]]; [reflexivity| |reflexivity]. cbn. destruct b as [|? [|? ?]]; reflexivity. Qed.
Lemma strangers_app th l l' : strangers th (l ++ l' : list (expectation V U)) = strangers th l ++ strangers th l'.
Proof. unfold strangers. now rewrite flat_map_app, filter_app. Qed.

Lemma drops_prefix c th (l1 l2 : list (method V * expectation V U)) p : Forall (content p) (exps_of l1) -> strangers th (exps_of l1) = [] ->
  drop_all (drops_of c th (l1 ++ l2)) p = drop_all (drops_of c th l2) p.
Proof.
  intros F S. unfold drops_of. rewrite flat_map_app, drop_all_app. fold (drops_of c th l1). fold (drops_of c th l2).
  rewrite content_all, S by exact F. reflexivity.
Qed.
(** An expectation that complains, and then strangers. *)
Lemma drops_complaint c th (me : method V) (e : expectation V U) l2 p : ~ content p e -> exists m, m <> MDropThread /\
  drop_all (drops_of c th ((me, e) :: l2)) p
  = match strangers th (e :: exps_of l2) with [] => Panic m | _ => Abort end.
Proof.
  intros N. destruct (not_content_drop c me e p N) as (-> & m & D & M). exists m. split; [exact M|].
  cbn [drops_of flat_map fst snd]. fold (drops_of c th l2). unfold exp_drops. cbn [app drop_all]. rewrite D.
  rewrite <- homes_fragile, drop_all_app, fragiles_verdict. fold (exps_of l2).
  change (e :: exps_of l2) with ([e] ++ exps_of l2). rewrite strangers_app.
  assert (H : strangers th [e] = filter (fun t => negb (Nat.eqb t th)) (homes e)).
  { unfold strangers. cbn. now rewrite app_nil_r. }
  rewrite <- H. unfold after.
  assert (C2 : drop_all (drops_of c th l2) true = verdict (strangers th (exps_of l2))).
  { apply content_all. apply Forall_forall. intros. apply content_true. }
  rewrite C2. destruct (strangers th [e]) as [|? [|? ?]]; cbn.
  - destruct (strangers th (exps_of l2)) as [|? [|? ?]]; reflexivity.
  - destruct (strangers th (exps_of l2)) as [|? [|? ?]]; reflexivity.
  - reflexivity.
Qed.
(** A stranger first: later expectations are not checked any more. *)
Lemma drops_stranger c th (me : method V) (e : expectation V U) l2 p : content p e -> strangers th [e] <> [] ->
  drop_all (drops_of c th ((me, e) :: l2)) p = verdict (strangers th (e :: exps_of l2)).
Proof.
  intros C S. cbn [drops_of flat_map fst snd]. fold (drops_of c th l2). unfold exp_drops. cbn [app drop_all].
  rewrite (content_drop _ _ _ _ C). rewrite <- homes_fragile, drop_all_app, fragiles_verdict.
  change (e :: exps_of l2) with ([e] ++ exps_of l2). rewrite strangers_app, verdict_app.
  assert (H : strangers th [e] = filter (fun t => negb (Nat.eqb t th)) (homes e)).
  { unfold strangers. cbn. now rewrite app_nil_r. }
  rewrite <- H. destruct (strangers th [e]) as [|x [|y r]]; [congruence| |reflexivity]. cbn [verdict after].
  rewrite content_all; [reflexivity|]. apply Forall_forall. intros. apply content_true.
Qed.

Lemma discards_step c (y : sys V U) o l : discards sh y o l ->
  snd (fstep c sh y o) = unit_res (drop_all (drops_of c (w_thread (y_world y)) l) (w_panicking (y_world y))).
Proof.
  intros [i ob N|s md sm N P|s md sm N P]; cbn [fstep]; rewrite N; cbn [snd].
  - now rewrite fobject_drop_all.
  - unfold fstatic_checkpoint. rewrite P. cbn [snd]. now rewrite fslot_drop_all.
  - unfold fcontext_drop. destruct (w_panicking (y_world y)).
    + cbn [snd]. now rewrite fslot_drop_all.
    + destruct P as [P|P]; [|discriminate]. unfold fstatic_checkpoint. rewrite P. cbn [snd]. now rewrite fslot_drop_all.
Qed.

(** ** A stranger is always noticed *)

Lemma drop_all_not_ret l d p : In d l -> (forall q, d q <> Ret tt) -> drop_all l p <> Ret tt.
Proof.
  intros I D. revert p. induction l as [|d' l IH]; intros p; [destruct I|]. destruct I as [->|I]; cbn.
  - specialize (D p). destruct (d p) as [[]|m|]; [congruence| |discriminate].
    destruct (drop_all l true) as [[]|?|]; discriminate.
  - destruct (d' p) as [[]|m|]; [now apply IH| |discriminate]. destruct (drop_all l true) as [[]|?|]; discriminate.
Qed.
Lemma exps_in_stored e es (s : slot V U) : stored s es -> In e es -> In e (exps_in sh s).
Proof.
  destruct s as [l|st]; cbn; [now intros -> |]. intros [k I] J. apply in_flat_map. exists (k, es). split; [|exact J].
  now apply shuffled.
Qed.
Lemma stranger_dies c th (l : list (method V * expectation V U)) p me e t : In (me, e) l -> In t (homes e) -> t <> th ->
  drop_all (drops_of c th l) p <> Ret tt.
Proof.
  intros I H N. apply (drop_all_not_ret _ (fragile_drop th t)).
  - apply in_flat_map. exists (me, e). split; [exact I|]. cbn. right. apply in_map. exact H.
  - intros q. unfold fragile_drop. destruct (Nat.eqb_spec t th); [contradiction|discriminate].
Qed.
Lemma stranger_slot c th md (s : slot V U) p es e t : stored s es -> In e es -> In t (homes e) -> t <> th ->
  fslot_drop c th sh md s p <> Ret tt.
Proof.
  intros S I H N. rewrite fslot_drop_all. apply (stranger_dies _ _ _ _ (md_me md) e t); auto.
  apply in_map. exact (exps_in_stored _ _ _ S I).
Qed.
Lemma stranger_object c th (ob : object V U) p f es e t : In f ob -> stored (f_slot f) es -> In e es -> In t (homes e) -> t <> th ->
  snd (fobject_checkpoint c th sh ob p) <> Ret tt.
Proof.
  intros F S I H N. induction ob as [|g ob IH]; [destruct F|]. cbn [fobject_checkpoint]. destruct F as [->|F].
  - assert (X := stranger_slot c th (f_decl f) _ p _ _ _ S I H N).
    destruct (fslot_drop c th sh (f_decl f) (f_slot f) p) as [[]|m|]; [congruence|discriminate|discriminate].
  - specialize (IH F). destruct (fslot_drop c th sh (f_decl g) (f_slot g) p) as [[]|m|]; [|discriminate|discriminate].
    destruct (fobject_checkpoint c th sh ob p). exact IH.
Qed.
Lemma stranger_module c th (ss : statics V U) p md sm es e t : In (md, sm) ss -> stored (sm_slot sm) es -> In e es ->
  In t (homes e) -> t <> th -> snd (fmodule_checkpoint c th sh ss p) <> Ret tt.
Proof.
  intros F S I H N. induction ss as [|[md' sm'] ss IH]; [destruct F|]. cbn [fmodule_checkpoint]. destruct F as [F|F].
  - injection F as -> ->. unfold fstatic_checkpoint. destruct (sm_poison sm); [discriminate|].
    assert (X := stranger_slot c th md _ p _ _ _ S I H N).
    destruct (fslot_drop c th sh md (sm_slot sm) p) as [[]|m|]; [congruence|discriminate|discriminate].
  - specialize (IH F). destruct (fstatic_checkpoint c th sh md' sm' p) as [x [[]|m|]]; [|discriminate|discriminate].
    destruct (fmodule_checkpoint c th sh ss p). exact IH.
Qed.
Lemma unit_not_ret (r : res unit) : r <> Ret tt -> forall v : option V, unit_res r <> Ret v.
Proof. destruct r as [[]|m|]; intros N v; [congruence|discriminate|discriminate]. Qed.

Lemma stranger_step c (y : sys V U) o me es e t : validates y o me es -> In e es -> In t (homes e) -> t <> w_thread (y_world y) ->
  forall v, snd (fstep c sh y o) <> Ret v.
Proof.
  intros C I H N. destruct C as [i ob f es N1 N2 St|i ob f es N1 N2 St|s md sm es N1 St|s md sm es N1 St|md sm es N1 St]; cbn [fstep].
  - rewrite N1. assert (X := stranger_object c _ ob (w_panicking (y_world y)) f es e t N2 St I H N).
    destruct (fobject_checkpoint _ _ _ _ _). apply unit_not_ret. exact X.
  - rewrite N1. cbn [snd]. apply unit_not_ret. rewrite fobject_drop_all.
    apply (stranger_dies _ _ _ _ (md_me (f_decl f)) e t); auto. apply in_flat_map. exists f. split; [exact N2|].
    apply in_map. exact (exps_in_stored _ _ _ St I).
  - rewrite N1. unfold fstatic_checkpoint. destruct (sm_poison sm); [discriminate|]. apply unit_not_ret.
    exact (stranger_slot c _ md _ _ _ _ _ St I H N).
  - rewrite N1. unfold fcontext_drop, fstatic_checkpoint.
    destruct (w_panicking (y_world y)); [|destruct (sm_poison sm); [discriminate|]]; apply unit_not_ret;
      exact (stranger_slot c _ md _ _ _ _ _ St I H N).
  - assert (X := stranger_module c _ (y_stats y) (w_panicking (y_world y)) md sm es e t N1 St I H N).
    destruct (fmodule_checkpoint _ _ _ _ _). apply unit_not_ret. exact X.
Qed.

(** ** [return_once_st] *)

Lemma once_expires c me (e : expectation V U) args wr w e' w' r t f :
  expectation_call c me e args wr w = (e', w', r) ->
  e_action e = AStatic (SOnceSt t f) false -> c_seq (e_common e) = None -> 1 <= umax c ->
  counted e + 1 < bound e -> bound e <= umax c ->
  exists b, e_action e' = AStatic SExpired b.
Proof.
  destruct e as [[mt mp sq [n [a b]]] ac]. unfold counted, bound. cbn [e_action e_common c_seq c_times tcount trange_of rend].
  intros E -> -> M L B. unfold expectation_call, common_call, times_call in E.
  cbn [e_action e_common c_times trange_of rend tcount] in E. unfold uadd1 in E.
  destruct (N.ltb_spec n (umax c)) as [|G]; [|lia]. cbn [rbind] in E.
  destruct (N.leb_spec b (n + 1)); [lia|]. unfold verify_sequence, set_times in E. cbn [c_seq] in E.
  assert (S : forall k, satisfy_sequence c (Common mt mp None k) w = (w, Ret tt)) by reflexivity.
  destruct (times_is_satisfied _) in E; rewrite ?S in E; cbn [c_matcher c_mpoison c_seq] in E; unfold static_ret in E;
    cbn [srfunc_call] in E;
    (destruct (Nat.eqb t (w_thread w)); [destruct (run_user f args w) as [w2 r2]|]);
    match type of E with context [match ?x with Ret _ => _ | Panic _ => _ | Abort => _ end] => destruct x end;
    injection E as <- _ _; eexists; reflexivity.
Qed.

Lemma once_call c me (es : list (expectation V U)) args wr w es' w' r i e e' t f :
  expectations_call c me es args wr w = (es', w', r) ->
  nth_error es i = Some e -> nth_error es' i = Some e' -> counted e' <> counted e ->
  e_action e = AStatic (SOnceSt t f) false -> c_seq (e_common e) = None -> 1 <= umax c ->
  counted e + 1 < bound e -> bound e <= umax c ->
  exists b, e_action e' = AStatic SExpired b.
Proof.
  intros E N N' D A S M L B. apply expectations_call_any in E as [(j & e0 & e1 & w1 & r0 & N0 & _ & X & -> & _)|(r0 & _ & F & _)].
  - destruct (Nat.eq_dec j i) as [->|Q].
    + assert (e0 = e) by congruence. subst. rewrite (nth_set_nth_same es i e1 e N) in N'. injection N' as <-.
      exact (once_expires _ _ _ _ _ _ _ _ _ _ _ X A S M L B).
    + rewrite nth_set_nth_other in N' by auto. congruence.
  - destruct (Forall2_nth _ _ _ _ _ F N) as (e2 & N2 & _ & _ & _ & T). rewrite N2 in N'. injection N' as <-.
    destruct D. unfold counted. now rewrite T.
Qed.
Lemma once_slot c md (s : slot V U) k args wr w s' w' r i e e' t f :
  slot_call c md s k args wr w = (s', w', r) ->
  nth_error (slot_get s k) i = Some e -> nth_error (slot_get s' k) i = Some e' -> counted e' <> counted e ->
  e_action e = AStatic (SOnceSt t f) false -> c_seq (e_common e) = None -> 1 <= umax c ->
  counted e + 1 < bound e -> bound e <= umax c ->
  exists b, e_action e' = AStatic SExpired b.
Proof.
  destruct s as [es|st]; cbn [slot_call slot_get].
  - destruct (expectations_call c (md_me md) es args wr w) as [[es' w1] r1] eqn:E. intros Z. injection Z as <- _ _.
    cbn [slot_get]. exact (once_call _ _ _ _ _ _ _ _ _ _ _ _ _ _ E).
  - destruct (gget st k) as [es|] eqn:G.
    + destruct (expectations_call c (md_me md) es args wr w) as [[es' w1] r1] eqn:E. intros Z. injection Z as <- _ _.
      cbn [slot_get]. rewrite gget_gput_same. exact (once_call _ _ _ _ _ _ _ _ _ _ _ _ _ _ E).
    + intros _ N. destruct i; discriminate N.
Qed.
Lemma used_in th (l l' : list (expectation V U)) i e e' t f b b' :
  nth_error l i = Some e -> nth_error l' i = Some e' -> e_action e = AStatic (SOnceSt t f) b ->
  e_action e' = AStatic SExpired b' -> t <> th -> existsb (used_elsewhere th) (combine l l') = true.
Proof.
  intros N N' A A' D. revert l l' N N'. induction i as [|i IH]; intros [|x l] [|x' l'] N N'; try discriminate.
  - injection N as ->. injection N' as ->. cbn. unfold used_elsewhere at 1. cbn [fst snd]. rewrite A, A'.
    apply Nat.eqb_neq in D. now rewrite D.
  - cbn. rewrite (IH l l' N N'). apply orb_true_r.
Qed.
Lemma calls_looked (y : sys V U) o me es args : calls y o me es args -> looked_at y o = es.
Proof. intros [i j k a wr ob f N1 N2|s k a md sm N]; cbn; [now rewrite N1, N2|now rewrite N]. Qed.

Lemma once_step c (y : sys V U) o me es args me' es' args' i e e' t f :
  calls y o me es args -> calls (fst (fstep c sh y o)) o me' es' args' ->
  nth_error es i = Some e -> nth_error es' i = Some e' -> counted e' <> counted e ->
  e_action e = AStatic (SOnceSt t f) false -> c_seq (e_common e) = None -> 1 <= umax c ->
  counted e + 1 < bound e -> bound e <= umax c -> t <> w_thread (y_world y) ->
  snd (fstep c sh y o) = Abort.
Proof.
  intros C C' N N' D A S M L B T.
  assert (X : exists b, e_action e' = AStatic SExpired b).
  { destruct C as [m j k a wr ob g N1 N2|s k a md sm N1].
    - cbn [fstep step] in C'. rewrite N1, N2 in C'. unfold field_call in C'.
      destruct (slot_call c (f_decl g) (f_slot g) k a wr (y_world y)) as [[s' w'] r] eqn:E. cbn [fst] in C'.
      inversion C' as [m0 j0 k0 a0 wr0 ob' g' N3 N4|]; subst. cbn in N3.
      rewrite (nth_set_nth_same _ _ _ _ N1) in N3. injection N3 as <-.
      rewrite (nth_set_nth_same _ _ _ _ N2) in N4. injection N4 as <-. cbn [f_slot] in N'.
      exact (once_slot _ _ _ _ _ _ _ _ _ _ _ _ _ _ _ E N N' D A S M L B).
    - cbn [fstep step] in C'. rewrite N1 in C'. unfold static_call in C'. destruct (sm_poison sm).
      + cbn [fst] in C'. inversion C' as [|s0 k0 a0 md' sm' N3]; subst. cbn in N3.
        rewrite (nth_set_nth_same _ _ _ _ N1) in N3. injection N3 as <- <-. congruence.
      + destruct (slot_call c md (sm_slot sm) k a (fun v => v) (y_world y)) as [[s' w'] r] eqn:E.
        destruct r as [[v|]|m|]; cbn [fst] in C'; inversion C' as [|s0 k0 a0 md' sm' N3]; subst; cbn in N3;
          rewrite (nth_set_nth_same _ _ _ _ N1) in N3; injection N3 as <- <-; cbn [sm_slot] in N';
          exact (once_slot _ _ _ _ _ _ _ _ _ _ _ _ _ _ _ E N N' D A S M L B). }
  destruct X as (b & X). apply calls_looked in C as C1. apply calls_looked in C' as C2.
  assert (F : forall y' r, step c sh y o = (y', r) -> fst (fstep c sh y o) = y' /\ snd (fstep c sh y o) = (if existsb (used_elsewhere (w_thread (y_world y))) (combine (looked_at y o) (looked_at y' o)) then Abort else r)).
  { intros y' r E. destruct C; cbn [fstep]; rewrite E; split; reflexivity. }
  destruct (step c sh y o) as [y' r]. destruct (F y' r eq_refl) as [F1 F2]. rewrite F1 in C2. rewrite F2, C1, C2.
  now rewrite (used_in _ _ _ _ _ _ _ _ _ _ N N' A X T).
Qed.
End FragileRuns.
