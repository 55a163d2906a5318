(** * PrintsLog: lemmas about printing that is logged, and printing that panics *)

From Coq Require Import Arith NArith List Bool String Lia.
From Verif Require Import Base Times Expect Mock Spec SysSpec ValidProofs Prints PrintsSpec PrintsProofs.
Import ListNotations.
Open Scope N_scope.

Section Logged.
Context {V U E : Type} (log : U -> list E) (said : method V -> V -> list E) (told : string -> list E)
  (p : printers V U) (HL : logged log said told p).

Definition told_m (m : matcher V U) : list E :=
  match m with MtPred ps => flat_map (fun q => told (fst q)) ps | _ => [] end.

Lemma print_args_logged me args : forall u, exists u' ss,
  print_args p me args u = (u', Ret ss) /\ log u' = log u ++ said_args said me args.
Proof.
  induction args as [|a args IH]; intros u; [exists u, []; split; [reflexivity|symmetry; apply app_nil_r]|].
  unfold print_args in *. cbn [map print_all]. destruct (proj1 HL me a u) as (u1 & s & -> & E1).
  destruct (IH u1) as (u2 & ss & -> & E2). exists u2, (s :: ss). split; [reflexivity|].
  rewrite E2, E1, <- app_assoc. reflexivity.
Qed.

Lemma print_preds_logged (ps : list (pred V U)) : forall u, exists u' ss,
  print_all (map (fun q => p_pred p (fst q)) ps) u = (u', Ret ss) /\ log u' = log u ++ told_m (MtPred ps).
Proof.
  induction ps as [|a ps IH]; intros u; [exists u, []; split; [reflexivity|symmetry; apply app_nil_r]|].
  cbn [map print_all]. destruct (proj2 HL (fst a) u) as (u1 & s & -> & E1).
  destruct (IH u1) as (u2 & ss & -> & E2). exists u2, (s :: ss). split; [reflexivity|].
  rewrite E2, E1, <- app_assoc. reflexivity.
Qed.

Lemma print_matcher_logged m u : exists u' s, print_matcher p m u = (u', Ret s) /\ log u' = log u ++ told_m m.
Proof.
  destruct m; try (eexists; eexists; split; [reflexivity|symmetry; apply app_nil_r]).
  cbn [print_matcher]. destruct (print_preds_logged ps u) as (u' & ss & -> & L). eexists; eexists. split; [reflexivity|exact L].
Qed.

Lemma print_locked_logged k w k' w' r : print_locked p k w = (k', w', r) ->
  k' = k /\ w_levels w' = w_levels w /\ w_thread w' = w_thread w /\ w_panicking w' = w_panicking w /\
  ((r = Panic MPoison /\ w' = w) \/ exists s, r = Ret s /\ log (w_user w') = log (w_user w) ++ told_m (c_matcher k)).
Proof.
  unfold print_locked. destruct (c_mpoison k); [intros X; inversion X; subst; auto 10|].
  destruct (print_matcher_logged (c_matcher k) (w_user w)) as (u' & s & -> & L). intros X. inversion X; subst.
  repeat split. right. exists s. auto.
Qed.

Lemma common_call_logged c me k d w k' w' r : common_call_p p c me k d w = (k', w', r) ->
  c_matcher k' = c_matcher k /\ tcount (c_times k') = uwrap1 c (tcount (c_times k)) /\
  match r with
  | Ret _ => log (w_user w') = log (w_user w)
  | _ => log (w_user w') = log (w_user w) \/ log (w_user w') = log (w_user w) ++ told_m (c_matcher k)
  end.
Proof.
  unfold common_call_p. destruct (times_call c (c_times k)) as [t' r0] eqn:TC.
  assert (CT : tcount t' = uwrap1 c (tcount (c_times k))) by (unfold times_call in TC; inversion TC; reflexivity).
  destruct r0 as [[x|e]|m|].
  - destruct (verify_sequence (set_times k t') d w); try (intros X; inversion X; subst; cbn; auto; fail).
    assert (S : forall w2 r2, satisfy_sequence c (set_times k t') w = (w2, r2) -> log (w_user w2) = log (w_user w)).
    { intros w2 r2. unfold satisfy_sequence. cbn. destruct (c_seq k); [|intros X; inversion X; reflexivity].
      destruct (handle_satisfy c s (w_levels w)). intros X. inversion X. reflexivity. }
    destruct (satisfy_sequence c (set_times k t') w) as [w2 r2]. specialize (S _ _ eq_refl).
    destruct (times_is_satisfied t'); intros X; inversion X; subst; cbn; (split; [reflexivity|split; [exact CT|]]); auto; destruct r; auto.
  - destruct (print_locked p (set_times k t') w) as [[k2 w2] s] eqn:PL.
    destruct (print_locked_logged _ _ _ _ _ PL) as (-> & _ & _ & _ & Q). intros X. inversion X; subst.
    split; [reflexivity|]. split; [exact CT|]. destruct Q as [(-> & ->)|(s0 & -> & L)]; cbn; auto.
  - intros X. inversion X; subst. cbn. auto.
  - intros X. inversion X; subst. cbn. auto.
Qed.

Lemma unwrap_logged me k x w k' w' r : unwrap_p p me k x w = (k', w', r) ->
  k' = k /\
  match r with
  | Ret _ => log (w_user w') = log (w_user w)
  | _ => log (w_user w') = log (w_user w) \/ log (w_user w') = log (w_user w) ++ told_m (c_matcher k)
  end.
Proof.
  destruct x as [v|e]; cbn [unwrap_p]; [intros X; inversion X; subst; auto|].
  destruct (print_locked p k w) as [[k2 w2] s] eqn:PL.
  destruct (print_locked_logged _ _ _ _ _ PL) as (-> & _ & _ & _ & Q). intros X. inversion X; subst.
  split; [reflexivity|]. destruct Q as [(-> & ->)|(s0 & -> & L)]; cbn; auto.
Qed.

Definition quiet_exp (e : expectation V U) : Prop :=
  quiet_matcher log (c_matcher (e_common e)) /\ quiet_closure log e.

Lemma srfunc_quiet c me (rf : srfunc V U) b args w rf' w' r k :
  quiet_closure log (Expectation k (AStatic rf b)) -> srfunc_call c me rf args w = (rf', w', r) ->
  log (w_user w') = log (w_user w).
Proof.
  intros Q. assert (R : forall f, closure (Expectation k (AStatic rf b)) = Some f -> forall w' r, run_user f args w = (w', r) -> log (w_user w') = log (w_user w)).
  { intros f CF w1 r1. unfold run_user. specialize (Q f CF args (w_user w)). destruct (f args (w_user w)). intros X. inversion X; subst. exact Q. }
  destruct rf as [| |f|o f|f|o f]; cbn [srfunc_call]; try (intros X; inversion X; reflexivity).
  - specialize (R f eq_refl). destruct (run_user f args w). intros X; inversion X; subst. eauto.
  - destruct (Nat.eqb o (w_thread w)); [|intros X; inversion X; reflexivity].
    specialize (R f eq_refl). destruct (run_user f args w). intros X; inversion X; subst. eauto.
  - specialize (R f eq_refl). destruct (run_user f args w). intros X; inversion X; subst. eauto.
  - destruct (Nat.eqb o (w_thread w)); [|intros X; inversion X; reflexivity].
    specialize (R f eq_refl). destruct (run_user f args w). intros X; inversion X; subst. eauto.
Qed.

Lemma mrfunc_quiet c (rf : mrfunc V U) args wr w rf' w' r k :
  quiet_closure log (Expectation k (AMut rf)) -> mrfunc_call c rf args wr w = (rf', w', r) ->
  log (w_user w') = log (w_user w).
Proof.
  intros Q. destruct rf as [[v|]|f o|ow f o|v]; cbn [mrfunc_call]; try (intros X; inversion X; reflexivity).
  - specialize (Q f eq_refl args (w_user w)). destruct (f args (w_user w)) as [u [v|m|]]; intros X; inversion X; subst; exact Q.
  - destruct (Nat.eqb ow (w_thread w)); [|intros X; inversion X; reflexivity].
    specialize (Q f eq_refl args (w_user w)). destruct (f args (w_user w)) as [u [v|m|]]; intros X; inversion X; subst; exact Q.
Qed.

Lemma expectation_call_logged c me e args wr w e' w' r : quiet_exp e ->
  expectation_call_p p c me e args wr w = (e', w', r) ->
  tcount (c_times (e_common e')) = uwrap1 c (tcount (c_times (e_common e))) /\
  exists tail, log (w_user w') = log (w_user w) ++ said_args said me args ++ tail /\
  match r with
  | Ret _ => tail = match e_action e with AMut _ => told_m (c_matcher (e_common e)) | _ => [] end
  | _ => tail = [] \/ tail = told_m (c_matcher (e_common e))
  end.
Proof.
  intros (QM & QC). unfold expectation_call_p.
  destruct (print_args_logged me args (w_user w)) as (u & ss & -> & L0). cbv zeta.
  destruct (common_call_p p c me (e_common e) (desc_of me ss) (set_user w u)) as [[k w1] r1] eqn:CC.
  destruct (common_call_logged _ _ _ _ _ _ _ _ CC) as (M1 & C1 & L1). cbn [w_user set_user] in L1.
  destruct e as [k0 ac]. cbn [e_common e_action set_common] in *.
  destruct r1 as [x|m|].
  2: { intros X; inversion X; subst. split; [exact C1|]. destruct L1 as [L1|L1]; rewrite L1, L0.
       - exists []. rewrite app_nil_r. auto.
       - exists (told_m (c_matcher k0)). rewrite app_assoc. auto. }
  2: { intros X; inversion X; subst. split; [exact C1|]. destruct L1 as [L1|L1]; rewrite L1, L0.
       - exists []. rewrite app_nil_r. auto.
       - exists (told_m (c_matcher k0)). rewrite app_assoc. auto. }
  destruct ac as [rf b|rf|rf].
  - unfold static_ret_p. destruct b.
    { intros X; inversion X; subst. split; [exact C1|]. exists []. rewrite app_nil_r, L1. auto. }
    destruct (srfunc_call c me rf args w1) as [[rf' w2] r2] eqn:SR.
    pose proof (srfunc_quiet _ _ _ _ _ _ _ _ _ _ QC SR) as L2.
    destruct r2 as [x2|m|].
    2: { intros X; inversion X; subst. split; [exact C1|]. exists []. rewrite app_nil_r, L2, L1. auto. }
    2: { intros X; inversion X; subst. split; [exact C1|]. exists []. rewrite app_nil_r, L2, L1. auto. }
    destruct (unwrap_p p me k x2 w2) as [[k3 w3] r3] eqn:UP. destruct (unwrap_logged _ _ _ _ _ _ _ UP) as (-> & L3).
    rewrite M1 in L3.
    destruct r3 as [v|m|]; intros X; inversion X; subst; (split; [exact C1|]).
    + exists []. rewrite app_nil_r, L3, L2, L1. auto.
    + destruct L3 as [L3|L3]; rewrite L3, L2, L1, L0; [exists []|exists (told_m (c_matcher k0))]; rewrite ?app_nil_r, ?app_assoc; auto.
    + destruct L3 as [L3|L3]; rewrite L3, L2, L1, L0; [exists []|exists (told_m (c_matcher k0))]; rewrite ?app_nil_r, ?app_assoc; auto.
  - destruct (unwrap_p p me k (rrfunc_call c rf) w1) as [[k3 w3] r3] eqn:UP. destruct (unwrap_logged _ _ _ _ _ _ _ UP) as (-> & L3).
    rewrite M1 in L3.
    intros X; inversion X; subst. split; [exact C1|]. destruct r as [v|m|].
    + exists []. rewrite app_nil_r, L3, L1. auto.
    + destruct L3 as [L3|L3]; rewrite L3, L1, L0; [exists []|exists (told_m (c_matcher k0))]; rewrite ?app_nil_r, ?app_assoc; auto.
    + destruct L3 as [L3|L3]; rewrite L3, L1, L0; [exists []|exists (told_m (c_matcher k0))]; rewrite ?app_nil_r, ?app_assoc; auto.
  - unfold mut_ret_p. destruct (print_locked p k w1) as [[k2 w2] s] eqn:PL.
    destruct (print_locked_logged _ _ _ _ _ PL) as (-> & _ & _ & _ & Q). rewrite M1 in Q.
    destruct Q as [(-> & ->)|(s0 & -> & L)].
    { intros X; inversion X; subst. split; [exact C1|]. exists []. rewrite app_nil_r, L1. auto. }
    destruct (mrfunc_call c rf args wr w2) as [[rf' w3] r3] eqn:MR.
    pose proof (mrfunc_quiet _ _ _ _ _ _ _ _ _ QC MR) as L3.
    intros X. injection X as <- <- RR. split; [exact C1|]. exists (told_m (c_matcher k0)).
    rewrite L3, L, L1, L0, app_assoc. split; [reflexivity|]. destruct r; auto.
Qed.

(** The search runs the matchers, and nothing else. *)
Lemma eval_preds_quiet (ps : list (pred V U)) : (forall q, In q ps -> quiet log (snd q)) -> forall args u,
  log (fst (eval_preds ps args u)) = log u.
Proof.
  induction ps as [|q ps IH]; intros S args u; [reflexivity|]. destruct args as [|a args]; [reflexivity|]. cbn [eval_preds].
  pose proof (S q (or_introl eq_refl) a u) as A. destruct (snd q a u) as [u1 [b|m|]]; [|exact A..].
  pose proof (IH (fun x H => S x (or_intror H)) args u1) as B. destruct (eval_preds ps args u1) as [u2 [bs|m|]]; cbn in *; congruence.
Qed.

Lemma common_matches_quiet (k : common V U) args w k' w' r : quiet_matcher log (c_matcher k) ->
  common_matches k args w = (k', w', r) -> log (w_user w') = log (w_user w).
Proof.
  intros Q. unfold common_matches. destruct (c_mpoison k); [intros X; inversion X; reflexivity|].
  assert (L : log (w_user (fst (matcher_matches (c_matcher k) args w))) = log (w_user w)).
  { destruct (c_matcher k) as [|f|o f|ps]; cbn [matcher_matches quiet_matcher] in *.
    - reflexivity.
    - specialize (Q args (w_user w)). destruct (f args (w_user w)). exact Q.
    - destruct (Nat.eqb o (w_thread w)); [|reflexivity]. specialize (Q args (w_user w)). destruct (f args (w_user w)). exact Q.
    - pose proof (eval_preds_quiet ps Q args (w_user w)) as A. destruct (eval_preds ps args (w_user w)). exact A. }
  destruct (matcher_matches (c_matcher k) args w) as [w1 r1]. cbn in L. destruct r1; intros X; inversion X; subst; exact L.
Qed.

Definition similar (e e1 : expectation V U) : Prop :=
  c_matcher (e_common e1) = c_matcher (e_common e) /\ c_times (e_common e1) = c_times (e_common e) /\
  e_action e1 = e_action e.

Lemma similar_refl l : Forall2 similar l l.
Proof. induction l; constructor; [repeat split|assumption]. Qed.

Lemma find_exp_quiet c one (es : list (expectation V U)) args : Forall quiet_exp es -> forall w es1 w1 r,
  find_exp c one es args w = (es1, w1, r) -> log (w_user w1) = log (w_user w) /\ Forall2 similar es es1.
Proof.
  induction es as [|e es IH]; intros F w es1 w1 r X; [inversion X; split; [reflexivity|constructor]|].
  inversion F; subst. cbn [find_exp] in X.
  destruct (common_matches (e_common e) args w) as [[k w2] r2] eqn:CM.
  pose proof (common_matches_quiet _ _ _ _ _ _ (proj1 H1) CM) as L.
  destruct (common_matches_matcher _ _ _ _ _ _ CM) as (M & T).
  assert (S : similar e (set_common e k)) by (repeat split; assumption).
  destruct (find_exp c one es args w2) as [[es3 w3] r3] eqn:FE. destruct (IH H2 _ _ _ _ FE) as (L3 & S3).
  assert (STOP : forall r', (set_common e k :: es, w2, r') = (es1, w1, r) ->
            log (w_user w1) = log (w_user w) /\ Forall2 similar (e :: es) es1).
  { intros r' Y. inversion Y; subst. split; [exact L|constructor; [exact S|apply similar_refl]]. }
  assert (NEXT : forall r', (set_common e k :: es3, w3, r') = (es1, w1, r) ->
            log (w_user w1) = log (w_user w) /\ Forall2 similar (e :: es) es1).
  { intros r' Y. inversion Y; subst. split; [congruence|constructor; assumption]. }
  destruct r2 as [[]|m|]; [|eauto..].
  destruct (common_is_done c k) as [d|m|]; [|eauto..]. destruct (negb d || one); eauto.
Qed.

Lemma similar_count es es1 : Forall2 similar es es1 -> none_counted es es1.
Proof.
  intros F. unfold none_counted, count_at. induction F as [|e e1 es es1 (A & B & D) F IH]; intros [|j]; cbn; auto. rewrite B. reflexivity.
Qed.
Lemma similar_nth es es1 i e1 : Forall2 similar es es1 -> nth_error es1 i = Some e1 ->
  exists e, nth_error es i = Some e /\ similar e e1.
Proof.
  intros F. revert i. induction F as [|x x1 es es1 S F IH]; intros [|j]; cbn; try discriminate; eauto.
  intros X; inversion X; subst; eauto.
Qed.

Lemma nth_set_nth_same {A} (l : list A) i x y : nth_error l i = Some y -> nth_error (set_nth l i x) i = Some x.
Proof. revert i. induction l; intros [|i]; cbn; try discriminate; auto. Qed.
Lemma nth_set_nth_other {A} (l : list A) i j x : j <> i -> nth_error (set_nth l i x) j = nth_error l j.
Proof. revert i j. induction l; intros [|i] [|j] H; cbn; auto; congruence. Qed.

(** [Expectations::call]: what is printed after the first printing. *)
Definition then_prints (c : cfg) (me : method V) (es es' : list (expectation V U)) (args : list V)
    (r : res (option V)) (more : list E) : Prop :=
  (none_counted es es' /\ more = [] /\ forall v, r <> Ret (Some v)) \/
  (exists i e, only_counted c es es' i e /\
    match r with
    | Ret None => False
    | Ret (Some _) => more = said_args said me args ++ match e_action e with AMut _ => told_by told e | _ => [] end
    | _ => more = said_args said me args \/ more = said_args said me args ++ told_by told e
    end).

Lemma expectations_call_logged c me es args wr w es' w' r : Forall quiet_exp es ->
  expectations_call_p p c me es args wr w = (es', w', r) ->
  exists more, log (w_user w') = log (w_user w) ++ more /\ then_prints c me es es' args r more.
Proof.
  intros F. unfold expectations_call_p.
  destruct (find_exp c (Nat.eqb (List.length es) 1) es args w) as [[es1 w1] r1] eqn:FE.
  destruct (find_exp_quiet _ _ _ _ F _ _ _ _ FE) as (L & S). pose proof (similar_count _ _ S) as NC.
  assert (STOP : forall r', (forall v, r' <> Ret (Some v)) -> (es1, w1, r') = (es', w', r) ->
    exists more, log (w_user w') = log (w_user w) ++ more /\ then_prints c me es es' args r more).
  { intros r' H X. inversion X; subst. exists []. rewrite app_nil_r. split; [exact L|]. left. auto. }
  destruct r1 as [[i|]|m|]; [|apply STOP; discriminate..].
  destruct (nth_error es1 i) as [e1|] eqn:NE; [|apply STOP; discriminate].
  destruct (similar_nth _ _ _ _ S NE) as (e & NE0 & SM & ST & SA).
  assert (QE : quiet_exp e1).
  { destruct (proj1 (Forall_forall _ _) F e (nth_error_In _ _ NE0)) as (Q1 & Q2). split; [rewrite SM; exact Q1|].
    intros f CF. apply Q2. unfold closure in *. rewrite <- SA. exact CF. }
  destruct (expectation_call_p p c me e1 args wr w1) as [[e2 w2] r2] eqn:EC.
  destruct (expectation_call_logged _ _ _ _ _ _ _ _ _ QE EC) as (C & tail & L2 & T).
  intros X. inversion X; subst. exists (said_args said me args ++ tail). rewrite L2, L. split; [reflexivity|]. right.
  exists i, e. split.
  - split; [exact NE0|]. split.
    + unfold count_at. rewrite (nth_set_nth_same _ _ _ _ NE). cbn. rewrite C, ST. reflexivity.
    + intros j H. unfold count_at. rewrite (nth_set_nth_other _ _ _ _ H). apply NC.
  - rewrite SM, SA in T. unfold told_by. destruct r2 as [v|m|]; cbn [rbind].
    + rewrite T. reflexivity.
    + destruct T as [->| ->]; [left; apply app_nil_r|right; reflexivity].
    + destruct T as [->| ->]; [left; apply app_nil_r|right; reflexivity].
Qed.

Lemma gget_gput (s : gstore V U) k es : gget (gput s k es) k = Some es.
Proof.
  induction s as [|[k' es'] s IH]; cbn [gput gget]; [rewrite Nat.eqb_refl; reflexivity|].
  destruct (Nat.eqb k' k) eqn:Q; cbn [gget]; rewrite Q; [reflexivity|exact IH].
Qed.

Lemma slot_call_logged c md s k args wr w s' w' r : Forall quiet_exp (slot_get s k) ->
  slot_call_p p c md s k args wr w = (s', w', r) ->
  exists more, log (w_user w') = log (w_user w) ++ more /\
    then_prints c (md_me md) (slot_get s k) (slot_get s' k) args r more.
Proof.
  intros F. destruct s as [es|st]; cbn [slot_call_p slot_get] in *.
  - destruct (expectations_call_p p c (md_me md) es args wr w) as [[es1 w1] r1] eqn:X.
    intros Y; inversion Y; subst. exact (expectations_call_logged _ _ _ _ _ _ _ _ _ F X).
  - destruct (gget st k) as [es|] eqn:G.
    + destruct (expectations_call_p p c (md_me md) es args wr w) as [[es1 w1] r1] eqn:X.
      intros Y; inversion Y; subst. cbn [slot_get]. rewrite gget_gput. exact (expectations_call_logged _ _ _ _ _ _ _ _ _ F X).
    + intros Y; inversion Y; subst. exists []. rewrite app_nil_r. split; [reflexivity|]. left. cbn. rewrite G.
      split; [intros j; reflexivity|]. split; [reflexivity|discriminate].
Qed.

Lemma then_call c me es es' args r more r' :
  then_prints c me es es' args r more ->
  r' = match r with Ret (Some v) => Ret v | Ret None => r' | Panic m => Panic m | Abort => Abort end ->
  (r = Ret None -> forall v, r' <> Ret v) ->
  call_prints said told c me es es' args r' (said_args said me args ++ more).
Proof.
  intros [(A & -> & N)|(i & e & OC & T)] R RN.
  - left. split; [exact A|]. split; [apply app_nil_r|]. intros v X. destruct r as [[v0|]|m|].
    + exact (N v0 eq_refl).
    + exact (RN eq_refl v X).
    + congruence.
    + congruence.
  - right. exists i, e. split; [exact OC|]. destruct r as [[v0|]|m|]; [|destruct T|..]; rewrite R; cbn.
    + rewrite T. reflexivity.
    + destruct T as [->| ->]; auto.
    + destruct T as [->| ->]; auto.
Qed.

Lemma field_call_logged c f k args wr w f' w' r : Forall quiet_exp (slot_get (f_slot f) k) ->
  field_call_p p c f k args wr w = (f', w', r) ->
  exists more, log (w_user w') = log (w_user w) ++ more /\
    call_prints said told c (md_me (f_decl f)) (slot_get (f_slot f) k) (slot_get (f_slot f') k) args r more.
Proof.
  intros F. unfold field_call_p. destruct (print_args_logged (md_me (f_decl f)) args (w_user w)) as (u & ss & -> & L). cbv zeta.
  destruct (slot_call_p p c (f_decl f) (f_slot f) k args wr (set_user w u)) as [[s' w1] r1] eqn:X.
  destruct (slot_call_logged _ _ _ _ _ _ _ _ _ _ F X) as (more & L1 & T).
  intros Y. injection Y as <- <- R. cbn [w_user set_user] in L1.
  eexists. rewrite L1, L, <- app_assoc. split; [reflexivity|]. cbn [f_slot].
  eapply then_call; [exact T| |]; subst r; destruct r1 as [[v|]|m|]; cbn; congruence.
Qed.

Lemma static_call_logged c md sm k args w sm' w' r : Forall quiet_exp (slot_get (sm_slot sm) k) ->
  static_call_p p c md sm k args w = (sm', w', r) ->
  exists more, log (w_user w') = log (w_user w) ++ more /\
    call_prints said told c (md_me md) (slot_get (sm_slot sm) k) (slot_get (sm_slot sm') k) args r more.
Proof.
  intros F. unfold static_call_p. destruct (print_args_logged (md_me md) args (w_user w)) as (u & ss & -> & L). cbv zeta.
  destruct (sm_poison sm).
  { intros Y; inversion Y; subst. eexists. split; [exact L|]. left. split; [intros j; reflexivity|]. split; [reflexivity|discriminate]. }
  destruct (slot_call_p p c md (sm_slot sm) k args (fun v => v) (set_user w u)) as [[s' w1] r1] eqn:X.
  destruct (slot_call_logged _ _ _ _ _ _ _ _ _ _ F X) as (more & L1 & T).
  intros Y. cbn [w_user set_user] in L1. eexists.
  assert (LW : log (w_user w') = log (w_user w) ++ said_args said (md_me md) args ++ more).
  { destruct r1 as [[v|]|m|]; inversion Y; subst; rewrite L1, L, <- app_assoc; reflexivity. }
  split; [exact LW|].
  destruct r1 as [[v|]|m|]; inversion Y; subst; cbn [sm_slot]; (eapply then_call; [exact T| |]; cbn; congruence).
Qed.

(** Drops. *)
Lemma common_drop_logged c me e u : exists u' r, common_drop_p p c me (e_common e) false u = (u', r) /\
  (r = Ret tt <-> sound e) /\ r <> Abort /\
  log u' = log u ++ (if c_mpoison (e_common e) then [] else told_by told e).
Proof.
  unfold common_drop_p, sound, in_range. destruct (c_mpoison (e_common e)).
  - eexists; eexists. split; [reflexivity|]. split; [split; [discriminate|intros (A & _); discriminate]|]. split; [discriminate|].
    symmetry; apply app_nil_r.
  - destruct (print_matcher_logged (c_matcher (e_common e)) u) as (u' & s & -> & L). eexists; eexists. split; [reflexivity|].
    cbn [rbind]. unfold times_is_satisfied.
    destruct (rstart (trange_of (c_times (e_common e))) <=? tcount (c_times (e_common e))) eqn:A;
    destruct (tcount (c_times (e_common e)) <? rend (trange_of (c_times (e_common e)))) eqn:B; cbn [andb];
    rewrite ?N.leb_le, ?N.leb_gt, ?N.ltb_lt, ?N.ltb_ge in *.
    + repeat split; try assumption; discriminate.
    + split; [split; [|lia]|split; [|exact L]].
      * unfold times_maximum, usub. repeat (match goal with |- context [if ?b then _ else _] => destruct b end); cbn; discriminate.
      * unfold times_maximum, usub. repeat (match goal with |- context [if ?b then _ else _] => destruct b end); cbn; discriminate.
    + split; [split; [discriminate|lia]|]. split; [discriminate|exact L].
    + split; [split; [discriminate|lia]|]. split; [discriminate|exact L].
Qed.

Definition drops {A} (d : A -> bool -> U -> U * res unit) (ord : A -> list (expectation V U)) : Prop :=
  forall x, (forall u, d x true u = (u, Ret tt)) /\
  forall u, exists u' r more, d x false u = (u', r) /\ r <> Abort /\ log u' = log u ++ more /\
    drop_prints told (ord x) more /\ (r = Ret tt <-> Forall sound (ord x)).

Lemma drop_prints_app (es1 es2 : list (expectation V U)) m1 m2 : Forall sound es1 -> drop_prints told es1 m1 -> drop_prints told es2 m2 ->
  drop_prints told (es1 ++ es2) (m1 ++ m2).
Proof.
  intros F D1 D2. induction D1; inversion F; subst; cbn; [exact D2| |contradiction].
  rewrite <- app_assoc. constructor; auto.
Qed.
Lemma drop_prints_stop (es1 es2 : list (expectation V U)) m1 : ~ Forall sound es1 -> drop_prints told es1 m1 -> drop_prints told (es1 ++ es2) m1.
Proof.
  intros F D1. induction D1; cbn; [destruct F; constructor| |constructor; assumption].
  constructor; [assumption|]. apply IHD1. intros G. apply F. constructor; assumption.
Qed.

Lemma glue_true {A} (d : A -> bool -> U -> U * res unit) : (forall x u, d x true u = (u, Ret tt)) ->
  forall l u, glue d l true u = (u, Ret tt).
Proof. intros H. induction l; intros u; cbn; [reflexivity|]. rewrite H. apply IHl. Qed.

Lemma glue_drops {A} (d : A -> bool -> U -> U * res unit) ord : drops d ord -> drops (glue d) (flat_map ord).
Proof.
  intros H l. assert (T : forall l u, glue d l true u = (u, Ret tt)) by (apply glue_true; intros x; apply (H x)).
  split; [apply T|]. induction l as [|x l IH]; intros u.
  - exists u, (Ret tt), []. cbn. rewrite app_nil_r. repeat split; try discriminate; constructor.
  - cbn [glue flat_map]. destruct (proj2 (H x) u) as (u1 & r1 & m1 & -> & NA & L1 & D1 & R1).
    destruct r1 as [[]|m|]; [| |congruence].
    + pose proof (proj1 R1 eq_refl) as F1. destruct (IH u1) as (u2 & r2 & m2 & -> & NA2 & L2 & D2 & R2).
      exists u2, r2, (m1 ++ m2). split; [reflexivity|]. split; [exact NA2|]. split; [rewrite L2, L1, app_assoc; reflexivity|].
      split; [apply drop_prints_app; assumption|]. rewrite Forall_app. tauto.
    + rewrite T. exists u1, (Panic m), m1. split; [reflexivity|]. split; [discriminate|]. split; [exact L1|].
      assert (F1 : ~ Forall sound (ord x)) by (intros G; apply R1 in G; discriminate).
      split; [apply drop_prints_stop; assumption|]. rewrite Forall_app. split; [discriminate|tauto].
Qed.

Lemma exp_drops c me : drops (fun e => common_drop_p p c me (e_common e)) (fun e => [e]).
Proof.
  intros e. split; [reflexivity|]. intros u. destruct (common_drop_logged c me e u) as (u' & r & X & R & NA & L).
  exists u', r, (if c_mpoison (e_common e) then [] else told_by told e). split; [exact X|]. split; [exact NA|].
  split; [exact L|].
  destruct r as [[]|m|]; [| |congruence].
  - pose proof (proj1 R eq_refl) as S. split.
    + rewrite (proj1 S). rewrite <- (app_nil_r (told_by told e)). constructor; [exact S|constructor].
    + split; [intros _; constructor; [exact S|constructor]|reflexivity].
  - assert (S : ~ sound e) by (intros S; apply R in S; discriminate).
    split; [constructor; exact S|]. split; [discriminate|]. intros F. inversion F; subst; contradiction.
Qed.

Lemma flat_map_single {A} (l : list A) : flat_map (fun x => [x]) l = l.
Proof. induction l; cbn; congruence. Qed.

Lemma drops_ext {A} (d : A -> bool -> U -> U * res unit) ord ord' : (forall x, ord x = ord' x) -> drops d ord -> drops d ord'.
Proof. intros E0 H x. rewrite <- E0. apply H. Qed.

Lemma exps_drops c me : drops (drop_exps_p p c me) (fun es => es).
Proof.
  eapply drops_ext; [|apply glue_drops, exp_drops]. intros es. apply flat_map_single.
Qed.
Lemma slot_drops c (sh : shuffle V U) md : drops (slot_drop_p p c md sh) (drop_order sh).
Proof.
  intros [es|st]; cbn [slot_drop_p drop_order]; [apply exps_drops|].
  pose proof (glue_drops _ _ (exps_drops c (md_me md)) (map snd (sh st))) as G.
  rewrite flat_map_concat_map, map_id in G. exact G.
Qed.
Lemma object_drops c (sh : shuffle V U) : drops (object_drop_p p c sh) (object_order sh).
Proof.
  unfold object_drop_p, object_order. apply glue_drops. intros f. apply (slot_drops c sh (f_decl f) (f_slot f)).
Qed.

(** [checkpoint] drops field by field. *)
Lemma object_checkpoint_drops c (sh : shuffle V U) o : forall u, exists u' r more o',
  object_checkpoint_p p c sh o false u = (o', u', r) /\ r <> Abort /\ log u' = log u ++ more /\
  drop_prints told (object_order sh o) more /\ (r = Ret tt <-> Forall sound (object_order sh o)).
Proof.
  induction o as [|f o IH]; intros u.
  - exists u, (Ret tt), [], []. cbn. rewrite app_nil_r. repeat split; try discriminate; constructor.
  - cbn [object_checkpoint_p]. unfold object_order. cbn [flat_map]. fold (object_order sh o).
    destruct (proj2 (slot_drops c sh (f_decl f) (f_slot f)) u) as (u1 & r1 & m1 & -> & NA & L1 & D1 & R1).
    destruct r1 as [[]|m|]; [| |congruence].
    + pose proof (proj1 R1 eq_refl) as F1. destruct (IH u1) as (u2 & r2 & m2 & o2 & -> & NA2 & L2 & D2 & R2).
      eexists u2, r2, (m1 ++ m2), _. split; [reflexivity|]. split; [exact NA2|]. split; [rewrite L2, L1, app_assoc; reflexivity|].
      split; [apply drop_prints_app; assumption|]. rewrite Forall_app. tauto.
    + eexists u1, (Panic m), m1, _. split; [reflexivity|]. split; [discriminate|]. split; [exact L1|].
      assert (F1 : ~ Forall sound (drop_order sh (f_slot f))) by (intros G; apply R1 in G; discriminate).
      split; [apply drop_prints_stop; assumption|]. rewrite Forall_app. split; [discriminate|tauto].
Qed.
End Logged.
