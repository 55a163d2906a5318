(** * NestMain: enough depth, whole tests, calls that make no calls *)

From Coq Require Import Arith NArith List Bool String Lia.
From Verif Require Import Base Times Expect Conc ConcSpec ConcProofs LockProofs ThreadProofs
  LinProofs Nest NestSpec NestProofs NestSim.
Import ListNotations.

Local Arguments set_nth : simpl never.
Local Arguments tstep : simpl never.

Section NestMain.
Context {V U : Type}.
Notation rval := (rval V U).
Notation ncall := (ncall V).
Notation csys := (csys rval U).
Notation pc := (pc rval U).
Notation nthread := (nthread V U).
Notation sstate := (sstate (V := rval) (U := U)).
Notation cmeth := (cmeth rval U).

Lemma find_exp_length c one args : forall (es : list (expectation rval U)) w,
  List.length (fst (fst (find_exp c one es args w))) = List.length es.
Proof.
  induction es as [|e es IH]; intros w; simpl; auto.
  destruct (common_matches (e_common e) args w) as [[k w1] r]. specialize (IH w1).
  destruct (find_exp c one es args w1) as [[es2 w2] r2]. simpl in IH.
  destruct r as [[|]|m|]; simpl; auto. destruct (common_is_done c k) as [d|m|]; simpl; auto.
  destruct (negb d || one)%bool; simpl; auto.
Qed.

Lemma expectations_call_length c me (es : list (expectation rval U)) args wr w :
  List.length (fst (fst (expectations_call c me es args wr w))) = List.length es.
Proof.
  unfold expectations_call. pose proof (find_exp_length c (Nat.eqb (List.length es) 1) args es w) as L.
  destruct (find_exp c (Nat.eqb (List.length es) 1) es args w) as [[es1 w1] [[i|]|m|]]; simpl in L; auto.
  destruct (nth_error es1 i) as [e|]; auto.
  destruct (expectation_call c me e args wr w1) as [[e' w2] r2]. simpl. rewrite set_nth_length. auto.
Qed.

(** Calls change no kind of return action. *)
Definition same_kinds (es es' : list (expectation rval U)) : Prop :=
  forall i, match nth_error es i, nth_error es' i with
            | Some e, Some e' => is_owned (e_action e') = is_owned (e_action e)
            | None, None => True
            | _, _ => False
            end.

Lemma same_kinds_refl es : same_kinds es es.
Proof. intros i. destruct (nth_error es i); auto. Qed.

Lemma find_exp_kinds c one args : forall (es : list (expectation rval U)) w,
  same_kinds es (fst (fst (find_exp c one es args w))).
Proof.
  induction es as [|e es IH]; intros w; simpl; [apply same_kinds_refl|].
  destruct (common_matches (e_common e) args w) as [[k w1] r]. specialize (IH w1).
  destruct (find_exp c one es args w1) as [[es2 w2] r2]. simpl in IH.
  assert (A : same_kinds (e :: es) (set_common e k :: es)).
  { intros [|i]; simpl; auto. destruct (nth_error es i); auto. }
  assert (B : same_kinds (e :: es) (set_common e k :: es2)).
  { intros [|i]; simpl; auto. apply IH. }
  destruct r as [[|]|m|]; simpl; auto. destruct (common_is_done c k) as [d|m|]; simpl; auto.
  destruct (negb d || one)%bool; simpl; auto.
Qed.

Lemma expectations_call_owned c me (es : list (expectation rval U)) args wr w es' w' r' :
  expectations_call c me es args wr w = (es', w', r') -> same_kinds es es'.
Proof.
  unfold expectations_call. pose proof (find_exp_kinds c (Nat.eqb (List.length es) 1) args es w) as L.
  destruct (find_exp c (Nat.eqb (List.length es) 1) es args w) as [[es1 w1] r]. simpl in L.
  destruct r as [[i|]|m|]; try (intros [= <- _ _]; exact L).
  destruct (nth_error es1 i) as [e|] eqn:N; [|intros [= <- _ _]; exact L].
  unfold expectation_call.
  destruct (common_call c me (e_common e) (call_desc me args) w1) as [[k w2] r2].
  assert (SET : forall e', is_owned (e_action e') = is_owned (e_action e) -> same_kinds es (set_nth es1 i e')).
  { intros e' Q j. specialize (L j). rewrite nth_set_nth. destruct (Nat.eqb_spec j i); [|exact L].
    subst j. rewrite N in L |- *. destruct (nth_error es i); auto. congruence. }
  destruct r2 as [[]|m|]; try (intros [= <- _ _]; apply SET; reflexivity).
  destruct (e_action e) as [rf p|rf|rf] eqn:A.
  - unfold static_ret. destruct p; [intros [= <- _ _]; apply SET; reflexivity|].
    destruct (srfunc_call c me rf args w2) as [[rf' w3] r3].
    destruct (let? x := r3 in unwrap_rf me k x); intros [= <- _ _]; apply SET; reflexivity.
  - intros [= <- _ _]. apply SET. simpl. rewrite A. reflexivity.
  - destruct (mut_ret c me k rf args wr w2) as [[rf' w3] r3]. intros [= <- _ _]. apply SET. reflexivity.
Qed.

(** ** Enough depth *)
Definition machine (t : nat) (st : sstate) (hr : list (nat * nat)) (hs : list nat) : csys :=
  let '(ms, sp, u, l) := st in
  CSys u l ms (fun _ _ => None) (fun m i => if heldr hr m i then Some t else None)
    (fun g => if existsb (Nat.eqb g) hs then Some t else None) sp [].

Lemma machine_rep t st hr hs : rep t (machine t st hr hs) st hr hs.
Proof. destruct st as [[[ms sp] u] l]. constructor; reflexivity. Qed.

Definition shape (st : sstate) : list (method rval * option nat * nat) := map decl_of (meths_of st).

Lemma neval_shape n c t hr hs st y st' r :
  value_defaults (meths_of st) -> neval n c t hr hs st y = Some (Ends st' r) -> shape st' = shape st.
Proof.
  intros VD H. destruct (nth_error (meths_of st) (nc_m y)) as [cm|] eqn:M.
  2:{ destruct n; [discriminate|]. destruct st as [[[ms sp] u] l]. simpl in M, H. rewrite M in H. discriminate. }
  destruct (neval_sim c t [] [] n hr hs st y cm _ [] _ VD (machine_rep t st hr hs) M H) as (k & b' & T & R).
  pose proof (titer_shape c t k (machine t st hr hs, NThread [] [start_pc y cm] [])) as [S _].
  rewrite T in S. simpl in S. unfold shape. rewrite <- (rp_meths _ _ _ _ _ R), S.
  f_equal. apply (rp_meths _ _ _ _ _ (machine_rep t st hr hs)).
Qed.

Fixpoint pairs_from (k : nat) (ms : list cmeth) : list (nat * nat) :=
  match ms with
  | [] => []
  | cm :: ms' => map (pair k) (seq 0 (List.length (cm_exps cm))) ++ pairs_from (S k) ms'
  end.

Lemma pairs_from_length ms : forall k, List.length (pairs_from k ms) = size_of ms.
Proof.
  induction ms as [|cm ms IH]; intros k; simpl; auto. unfold size_of in *.
  rewrite app_length, map_length, seq_length, IH. reflexivity.
Qed.

Lemma in_pairs ms : forall k m i cm, nth_error ms m = Some cm -> (i < List.length (cm_exps cm))%nat ->
  In (k + m, i)%nat (pairs_from k ms).
Proof.
  induction ms as [|cm0 ms IH]; intros k [|m] i cm H L; simpl in *; try discriminate; apply in_or_app.
  - left. injection H as ->. rewrite Nat.add_0_r. apply in_map. apply in_seq. lia.
  - right. rewrite Nat.add_succ_r. apply (IH (S k) m i cm); auto.
Qed.

Definition inside_shape (sh : list (method rval * option nat * nat)) (k : nat * nat) : Prop :=
  exists d, nth_error sh (fst k) = Some d /\ (snd k < snd d)%nat.

Lemma held_bound hr (st : sstate) :
  NoDup hr -> Forall (inside_shape (shape st)) hr -> (List.length hr <= size_of (meths_of st))%nat.
Proof.
  intros ND FA. rewrite <- (pairs_from_length (meths_of st) 0). apply NoDup_incl_length; [exact ND|].
  intros [m i] I. rewrite Forall_forall in FA. destruct (FA _ I) as (d & N & L). unfold shape in N.
  simpl in N, L. rewrite nth_error_map in N. destruct (nth_error (meths_of st) m) as [cm|] eqn:E; [|discriminate].
  injection N as <-. simpl in L. apply (in_pairs _ 0 m i cm); auto.
Qed.

Lemma size_of_shape (st st' : sstate) : shape st' = shape st -> size_of (meths_of st') = size_of (meths_of st).
Proof.
  intros E. unfold size_of. f_equal.
  assert (X : forall st : sstate, map (fun cm => List.length (cm_exps cm)) (meths_of st) = map snd (shape st)).
  { intros s. unfold shape. rewrite map_map. reflexivity. }
  rewrite !X, E. reflexivity.
Qed.

Lemma drive_depth (call : sstate -> ncall -> option outcome) sh :
  (forall st y, shape st = sh -> value_defaults (meths_of st) -> call st y <> None) ->
  (forall st y st' r, shape st = sh -> value_defaults (meths_of st) -> call st y = Some (Ends st' r) ->
     shape st' = sh) ->
  forall v st, shape st = sh -> value_defaults (meths_of st) -> drive call st v <> None.
Proof.
  intros C1 C2. induction v as [v|y k IH] using rval_induction; intros st S VD; simpl; [discriminate|].
  pose proof (C1 st y S VD) as N. destruct (call st y) as [[st1 r1|]|] eqn:E; try congruence; try discriminate.
  destruct (k r1 (user_of st1)) as [u [v'|e|]] eqn:K; try discriminate.
  assert (S1 : shape (with_user st1 u) = sh).
  { rewrite <- (C2 _ _ _ _ S VD E). destruct st1 as [[[? ?] ?] ?]. reflexivity. }
  eapply IH; [exact K|exact S1|].
  eapply value_defaults_decls; [|exact VD]. unfold shape in *. congruence.
Qed.

Lemma neval_depth c t : forall n hr hs st y,
  value_defaults (meths_of st) -> NoDup hr -> Forall (inside_shape (shape st)) hr ->
  (size_of (meths_of st) < n + List.length hr)%nat -> neval n c t hr hs st y <> None.
Proof.
  induction n as [|n IH]; intros hr hs st y VD ND FA L.
  { exfalso. pose proof (held_bound _ _ ND FA). lia. }
  destruct (nth_error (meths_of st) (nc_m y)) as [cm|] eqn:M.
  2:{ destruct st as [[[ms sp] u] l]. simpl in *. rewrite M. discriminate. }
  rewrite (neval_S _ _ _ _ _ _ _ _ M).
  destruct (match cm_mutex cm with Some g => existsb (Nat.eqb g) hs | None => false end); [discriminate|].
  destruct (match cm_mutex cm with Some g => let '(_, sp, _, _) := st in sp g | None => false end); [discriminate|].
  destruct st as [[[ms sp] u] l]. unfold nbody.
  destruct (expectations_call c (cm_me cm) (cm_exps cm) (map RVal (nc_args y)) (fun v => v) (World u l t false))
    as [[es w1] r] eqn:EC.
  destruct (answering c (cm_me cm) (cm_exps cm) (map RVal (nc_args y)) (World u l t false)) as [i|]; [|discriminate].
  destruct (nth_error (cm_exps cm) i) as [e|] eqn:NE; [|destruct r as [[?|]|?|]; discriminate].
  destruct (is_owned (e_action e)); [|destruct r as [[?|]|?|]; discriminate].
  destruct (heldr hr (nc_m y) i) eqn:HH; [discriminate|].
  simpl andb. cbv iota. destruct r as [[v|]|?|]; try discriminate.
  set (st1 := (set_nth ms (nc_m y) (CMeth (cm_me cm) (cm_mutex cm) es), sp, w_user w1, w_levels w1)).
  assert (LE : List.length es = List.length (cm_exps cm)).
  { pose proof (expectations_call_length c (cm_me cm) (cm_exps cm) (map RVal (nc_args y)) (fun v => v) (World u l t false)) as Q.
    rewrite EC in Q. exact Q. }
  assert (S1 : shape st1 = shape (ms, sp, u, l)).
  { unfold shape. simpl. simpl in M. clear - M LE. revert M. generalize (nc_m y). induction ms as [|a ms IH]; intros [|k] M;
      try discriminate; unfold set_nth; fold (@set_nth cmeth); simpl in *.
    - injection M as ->. unfold decl_of at 1. simpl. rewrite LE. reflexivity.
    - f_equal. apply IH; auto. }
  assert (NI : ~ In (nc_m y, i) hr).
  { intros I. unfold heldr in HH. rewrite <- not_true_iff_false in HH. apply HH. apply existsb_exists.
    exists (nc_m y, i). split; auto. simpl. rewrite !Nat.eqb_refl. reflexivity. }
  assert (D : drive (neval n c t ((nc_m y, i) :: hr) match cm_mutex cm with Some g => g :: hs | None => hs end) st1 v <> None).
  { apply (drive_depth _ (shape (ms, sp, u, l))); auto.
    - intros st2 y2 S2 VD2. apply IH; auto.
      + constructor; auto.
      + rewrite S2. constructor; auto. exists (decl_of cm). unfold shape. rewrite nth_error_map. simpl in *. rewrite M.
        split; [reflexivity|]. simpl. apply nth_error_Some. congruence.
      + rewrite (size_of_shape _ _ S2). simpl List.length. lia.
    - intros st2 y2 st3 r3 S2 VD2 E. rewrite <- S2. eapply neval_shape; eauto.
    - eapply value_defaults_decls; [exact S1|exact VD]. }
  destruct (drive _ st1 v) as [[? ?|]|]; congruence.
Qed.

(** ** Whole tests *)
Lemma titer_stuck c t k (b : csys) (th : nthread) : stuck c t b th -> titer c t k (b, th) = (b, th).
Proof. intros S. induction k as [|k IH]; simpl; auto. unfold stuck in S. rewrite S. exact IH. Qed.

Lemma nevals_sim c t (prog : list ncall) : forall (st : sstate) (b : csys) (out : list (res V)),
  value_defaults (meths_of st) -> rep t b st [] [] ->
  exists st' rs fin, nevals (S (size_of (meths_of st))) c t st prog = Some (st', rs, fin) /\
    exists k b' todo stack, titer c t k (b, NThread prog [] out) = (b', NThread todo stack (out ++ rs)) /\
      (fin = true -> todo = [] /\ stack = [] /\ rep t b' st' [] []) /\
      (fin = false -> (todo <> [] \/ stack <> []) /\ stuck c t b' (NThread todo stack (out ++ rs))).
Proof.
  induction prog as [|y prog IH]; intros st b out VD RP.
  - exists st, [], true. split; [reflexivity|]. exists 0%nat, b, [], []. rewrite app_nil_r.
    split; [reflexivity|]. split; [auto|discriminate].
  - cbn [nevals].
    pose proof (neval_depth c t (S (size_of (meths_of st))) [] [] st y VD (NoDup_nil _) (Forall_nil _) ltac:(simpl; lia)) as N.
    destruct (neval (S (size_of (meths_of st))) c t [] [] st y) as [o|] eqn:E; [|congruence]. clear N.
    assert (TS : tstep c b t (NThread (y :: prog) [] out) =
      match nth_error (meths_of st) (nc_m y) with
      | None => (b, NThread (y :: prog) [] out)
      | Some cm => (b, NThread prog [start_pc y cm] out)
      end).
    { unfold tstep, enter. rewrite (rp_meths _ _ _ _ _ RP).
      destruct (nth_error (meths_of st) (nc_m y)); reflexivity. }
    destruct (nth_error (meths_of st) (nc_m y)) as [cm|] eqn:M.
    2:{ assert (o = Hangs) as ->.
        { destruct st as [[[ms sp] u] l]. simpl in M, E. rewrite M in E. congruence. }
        exists st, [], false. split; [reflexivity|]. exists 0%nat, b, (y :: prog), []. rewrite app_nil_r.
        split; [reflexivity|]. split; [discriminate|]. intros _. split; [left; discriminate|exact TS]. }
    pose proof (neval_sim c t prog out _ _ _ _ _ _ _ [] _ VD RP M E) as CO.
    destruct o as [st1 r|].
    + destruct CO as (k1 & b1 & T1 & R1). simpl in T1.
      pose proof (neval_shape _ _ _ _ _ _ _ _ _ VD E) as S1.
      assert (VD1 : value_defaults (meths_of st1)) by (eapply value_defaults_decls; [exact S1|exact VD]).
      destruct (IH st1 b1 (out ++ [r]) VD1 R1) as (st' & rs & fin & N & k2 & b2 & todo & stack & T2 & F1 & F2).
      rewrite (size_of_shape _ _ S1) in N. rewrite N.
      exists st', (r :: rs), fin. split; [reflexivity|].
      exists (S k1 + k2)%nat, b2, todo, stack. rewrite titer_app. cbn [titer fst snd]. rewrite TS, T1, T2, <- app_assoc.
      simpl app. rewrite <- app_assoc in F2. auto.
    + destruct CO as (k1 & b1 & top & T1 & NE & ST). rewrite app_nil_r in T1, ST.
      exists st, [], false. split; [reflexivity|]. exists (S k1), b1, prog, top. rewrite app_nil_r.
      split; [cbn [titer fst snd]; rewrite TS; exact T1|]. split; [discriminate|]. auto.
Qed.

(** Outcomes are only added. *)
Lemma tstep_out c (b : csys) t (th : nthread) : exists l, nt_out (snd (tstep c b t th)) = nt_out th ++ l.
Proof.
  assert (R0 : forall (th : nthread), exists l, nt_out th = nt_out th ++ l) by (intros; exists []; symmetry; apply app_nil_r).
  unfold tstep. destruct th as [todo [|p below] out].
  - destruct todo as [|y rest]; [apply R0|]. destruct (enter b y); exists []; rewrite app_nil_r; reflexivity.
  - assert (G : exists l, nt_out (snd
       match pc_call p with
       | Some x =>
         match nth_error (cs_meths b) (cc_m x) with
         | Some cm =>
             let '(b', p', ev) := pstep c b t cm p in
             match ret_of ev with
             | Some r =>
                 let '(b2, stack', out') := resume b' below out (to_val r) in
                 (b2, NThread todo stack' out')
             | None => (b', NThread todo (p' :: below) out)
             end
         | None => (b, NThread todo (p :: below) out)
         end
       | None => (b, NThread todo (p :: below) out)
       end) = out ++ l).
    { destruct (pc_call p) as [x|]; [|exists []; rewrite app_nil_r; reflexivity].
      destruct (nth_error (cs_meths b) (cc_m x)) as [cm|]; [|exists []; rewrite app_nil_r; reflexivity].
      destruct (pstep c b t cm p) as [[b' p'] ev]. destruct (ret_of ev) as [r|]; [|exists []; rewrite app_nil_r; reflexivity].
      assert (Q : exists l, snd (resume b' below out (to_val r)) = out ++ l).
      { unfold resume. destruct below as [|q rest]; [exists [to_val r]; reflexivity|].
        destruct q; try (exists [to_val r]; reflexivity). destruct r0 as [[v|y k]|e|]; try (exists [to_val r]; reflexivity).
        destruct (k (to_val r) (cs_user b')). exists []. rewrite app_nil_r. reflexivity. }
      destruct (resume b' below out (to_val r)) as [[b2 stack'] out']. exact Q. }
    assert (K : exists l, nt_out (NThread todo (p :: below) out) = out ++ l) by (exists []; rewrite app_nil_r; reflexivity).
    destruct p; try exact G. destruct r as [[v|y k]|e|]; try exact G.
    destruct (enter b y); [exists []; rewrite app_nil_r; reflexivity|exact K].
Qed.

Lemma titer_out c t k : forall (s : csys * nthread), exists l, nt_out (snd (titer c t k s)) = nt_out (snd s) ++ l.
Proof.
  induction k as [|k IH]; intros s; cbn [titer].
  - exists []. rewrite app_nil_r. reflexivity.
  - destruct (IH (tstep c (fst s) t (snd s))) as [l1 H1]. destruct (tstep_out c (fst s) t (snd s)) as [l2 H2].
    exists (l2 ++ l1). rewrite H1, H2, app_assoc. reflexivity.
Qed.

Lemma titer_idle c t k (b : csys) out : titer c t k (b, NThread [] [] out) = (b, NThread [] [] out).
Proof. induction k as [|k IH]; auto. Qed.

(** Only thread [t] runs. *)
Lemma nrun_alone c t k : forall (b : csys) (ths : list nthread) th,
  nth_error ths t = Some th ->
  nrun c (NSys b ths) (repeat t k) =
  let (b', th') := titer c t k (b, th) in NSys b' (set_nth ths t th').
Proof.
  induction k as [|k IH]; intros b ths th N; cbn [repeat nrun titer].
  - rewrite set_nth_same; auto.
  - unfold nstep. simpl ns_threads. simpl ns_base. rewrite N. simpl fst. simpl snd.
    destruct (tstep c b t th) as [b1 th1].
    rewrite (IH b1 _ th1); [|rewrite nth_set_nth, Nat.eqb_refl, N; reflexivity].
    destruct (titer c t k (b1, th1)). rewrite set_nth_twice. reflexivity.
Qed.

(** ** Calls that make no calls *)
Lemma answered_clear c me (es : list (expectation rval U)) args w es' w' v i :
  expectations_call c me es args (fun v => v) w = (es', w', Ret (Some v)) ->
  answering c me es args w = Some i ->
  match nth_error es' i with
  | Some e => match e_action e with AStatic _ p => p = false | _ => True end
  | None => True
  end.
Proof.
  unfold expectations_call, answering.
  destruct (find_exp c (Nat.eqb (List.length es) 1) es args w) as [[es1 w1] [[j|]|m|]]; try discriminate.
  destruct (nth_error es1 j) as [e|] eqn:N; [|discriminate]. unfold expectation_call.
  destruct (common_call c me (e_common e) (call_desc me args) w1) as [[k w2] [[]|m|]]; try discriminate.
  intros H [= <-].
  destruct (e_action e) as [rf p|rf|rf] eqn:A.
  - unfold static_ret in H. destruct p.
    { simpl in H. discriminate. }
    destruct (srfunc_call c me rf args w2) as [[rf' w3] r].
    destruct (let? x := r in unwrap_rf me k x) as [v1|m|]; simpl in H; try discriminate.
    injection H as <- <- <-. rewrite nth_set_nth, Nat.eqb_refl, N. reflexivity.
  - destruct (ref_ret c me k rf); simpl in H; try discriminate. injection H as <- <- <-.
    rewrite nth_set_nth, Nat.eqb_refl, N. simpl. rewrite A. exact I.
  - destruct (mut_ret c me k rf args (fun v => v) w2) as [[rf' w3] r3]. destruct r3; simpl in H; try discriminate.
    injection H as <- <- <-. rewrite nth_set_nth, Nat.eqb_refl, N. exact I.
Qed.

Lemma neval_plain n c t (st : sstate) y st' r :
  (exists cm, nth_error (meths_of st) (nc_m y) = Some cm) ->
  single_call c st (t, to_call y) = (st', r) -> (forall v, r = Ret v -> ~ is_req v) ->
  neval (S n) c t [] [] st y = Some (Ends st' (to_val r)).
Proof.
  intros [cm M] SC NR. rewrite (neval_S _ _ _ _ _ _ _ _ M).
  assert (X : (match cm_mutex cm with Some g => existsb (Nat.eqb g) [] | None => false end) = false) by (destruct (cm_mutex cm); reflexivity).
  rewrite X. destruct st as [[[ms sp] u] l]. simpl in M. unfold single_call in SC. simpl cc_m in SC. rewrite M in SC.
  destruct (match cm_mutex cm with Some g => sp g | None => false end); [injection SC as <- <-; reflexivity|].
  unfold nbody. change (map RVal (nc_args y)) with (cc_args (to_call (U := U) y)).
  destruct (expectations_call c (cm_me cm) (cm_exps cm) (cc_args (to_call y)) (fun v => v) (World u l t false))
    as [[es w1] rr] eqn:EC.
  injection SC as <- <-.
  destruct (answering c (cm_me cm) (cm_exps cm) (cc_args (to_call y)) (World u l t false)) as [i|] eqn:AN.
  2:{ destruct rr as [[v|]|e|]; simpl; destruct (cm_mutex cm); reflexivity. }
  rewrite andb_false_r.
  destruct rr as [[v|]|e|]; try (simpl; destruct (cm_mutex cm); reflexivity).
  destruct (match nth_error (cm_exps cm) i with Some e => is_owned (e_action e) | None => false end);
    [|simpl; destruct (cm_mutex cm); reflexivity].
  destruct v as [v|y' k']; [|exfalso; eapply NR; [reflexivity|exact I]].
  pose proof (answered_clear _ _ _ _ _ _ _ _ _ EC AN) as CL. cbn [drive]. simpl to_val.
  assert (CR : close_rfunc (set_nth ms (nc_m y) (CMeth (cm_me cm) (cm_mutex cm) es), sp, w_user w1, w_levels w1) (nc_m y) i (Ret v)
    = (set_nth ms (nc_m y) (CMeth (cm_me cm) (cm_mutex cm) es), sp, w_user w1, w_levels w1)).
  { unfold close_rfunc. rewrite nth_set_nth, Nat.eqb_refl, M. cbn [cm_exps cm_me cm_mutex].
    destruct (nth_error es i) as [e|] eqn:NE; [|reflexivity].
    destruct (e_action e) as [rf p|rf|rf] eqn:A; try reflexivity. subst p.
    replace (Expectation (e_common e) (AStatic rf false)) with e by (destruct e; simpl in *; congruence).
    rewrite (set_nth_same es) by exact NE. rewrite set_nth_twice. reflexivity. }
  rewrite CR. rewrite close_store_quiet by discriminate. destruct (cm_mutex cm); reflexivity.
Qed.

End NestMain.
