(** * AskEval: what a predicate that calls mocks is worth, and when it never ends *)

From Coq Require Import Arith NArith List Bool String Lia.
From Verif Require Import Base Times Expect Conc ConcSpec ConcProofs LockProofs ThreadProofs
  LinProofs Nest NestSpec NestProofs NestSim NestLocks Ask AskSpec AskLocks AskProofs.
Import ListNotations.

Local Arguments set_nth : simpl never.
Local Arguments pstep : simpl never.
Local Arguments put_exp : simpl never.
Local Arguments atstep : simpl never.

Section AskEval.
Context {V U : Type}.
Notation rval := (rval V U).
Notation ncall := (ncall V).
Notation csys := (csys rval U).
Notation pc := (pc rval U).
Notation aval := (aval V U).
Notation asker := (asker V U).
Notation asks := (asks V U).
Notation frame := (frame V U).
Notation athread := (athread V U).
Notation asys := (asys V U).

Ltac leaves H :=
  unfold pstep, unlock_r in H;
  repeat match type of H with
  | context [match ?x with _ => _ end] =>
      lazymatch x with
      | context [match _ with _ => _ end] => fail
      | _ => let E := fresh "E" in destruct x eqn:E
      end
  end;
  injection H as <- <- <-.

(** The matcher's mutex is not poisoned. *)
Definition clean (b : csys) (m i : nat) : Prop :=
  exists e, cexp b m i = Some e /\ c_mpoison (e_common e) = false.

Lemma clean_put_exp (b : csys) m i m' i' e e' :
  clean b m i -> cexp b m' i' = Some e -> c_mpoison (e_common e') = c_mpoison (e_common e) ->
  clean (put_exp b m' i' e') m i.
Proof.
  intros (z & Z & P) C Q. unfold clean. rewrite cexp_put_exp.
  destruct (Nat.eqb m m' && Nat.eqb i i')%bool eqn:E; [|eauto].
  apply andb_true_iff in E as [E1 E2]. apply Nat.eqb_eq in E1, E2. subst.
  rewrite C. exists e'. split; [reflexivity|]. congruence.
Qed.

Lemma clean_put_other (b : csys) m i m' i' e' :
  clean b m i -> (m', i') <> (m, i) -> clean (put_exp b m' i' e') m i.
Proof.
  intros (z & Z & P) NE. unfold clean. rewrite cexp_put_exp.
  destruct (Nat.eqb m m' && Nat.eqb i i')%bool eqn:E; [|eauto].
  apply andb_true_iff in E as [E1 E2]. apply Nat.eqb_eq in E1, E2. subst. congruence.
Qed.

Lemma pstep_clean c (b : csys) t cm p b' p' ev m i :
  pstep c b t cm p = (b', p', ev) -> mheld p <> Some (m, i) -> clean b m i -> clean b' m i.
Proof.
  intros H N C. leaves H; try exact C.
  all: unfold clean; rewrite ?cexp_put_ml, ?cexp_put_rl, ?cexp_put_sl, ?cexp_put_world, ?cexp_put_ml, ?cexp_put_rl,
    ?cexp_put_sl, ?cexp_put_world; try exact C.
  all: match goal with
       | |- exists e, cexp (put_exp ?s ?a ?b0 ?z) ?x ?y = _ /\ _ => change (clean (put_exp s a b0 z) x y)
       end.
  all: first [ apply clean_put_other; [exact C|]; cbn [mheld] in N; congruence
             | eapply clean_put_exp; [exact C|eassumption|reflexivity] ].
Qed.

Lemma ask_end_clean (b : csys) x j v b' p m i :
  ask_end b x j v = (b', p) -> (cc_m x, j) <> (m, i) -> clean b m i -> clean b' m i.
Proof.
  unfold ask_end. destruct (cexp b (cc_m x) j) eqn:E; intros [= <- _] NE C; [|exact C].
  unfold clean. rewrite cexp_put_ml. apply clean_put_other; auto.
Qed.

(** ** A predicate that always begins with a call of its own method *)
Section Hang.
Context (c : cfg) (ps : asks) (m : nat) (a : asker).
Context (PA : ps m O = Some a) (OW : ak_owner a = None).
Context (REQ : forall args u, exists u' y k, ak_run a args u = (u', Ret (AReq y k)) /\ nc_m y = m).

(** The frames of calls of the method. *)
Definition early (q : frame) : Prop :=
  exists x, pc_call (fpc q) = Some x /\
    (cc_m x = m ->
     q = FCall (PLockM x O) \/ q = FCall (PEval x O) \/
     exists y k, q = FAsk x O (Ret (AReq y k)) /\ nc_m y = m).

(** The outermost call is one of the method. *)
Definition of_m (q : frame) : Prop := exists x, pc_call (fpc q) = Some x /\ cc_m x = m.

Definition hangs (th : athread) : Prop :=
  at_out th = [] /\
  match at_stack th with
  | [] => exists y rest, at_todo th = y :: rest /\ nc_m y = m
  | q :: l => of_m (last l q)
  end.

Definition hbase (b : csys) : Prop :=
  (exists cm, nth_error (cs_meths b) m = Some cm /\ cm_mutex cm = None) /\ clean b m O.

Lemma early_step b t cm p x b' p' ev :
  hbase b -> early (FCall p) -> asking ps b p = None -> pc_call p = Some x -> cc_m x = m ->
  pstep c b t cm p = (b', p', ev) ->
  p = PLockM x O /\ (p' = PLockM x O \/ p' = PEval x O).
Proof.
  intros [_ (e & CE & MP)] (z & PX & EA) AK PC MX PS. cbn [fpc] in PX. rewrite PC in PX. injection PX as <-.
  destruct (EA MX) as [E|[E|(y & k & E & _)]]; [| |discriminate E]; injection E as ->.
  - split; [reflexivity|]. unfold pstep in PS. rewrite MX, CE in PS.
    destruct (free (cs_ml b m O)); injection PS as _ <- _; auto.
  - exfalso. unfold asking in AK. rewrite MX, CE, MP, PA in AK. discriminate AK.
Qed.

Lemma last_cons {A} (l : list A) q q' : l <> [] -> last l q = last l q'.
Proof. induction l as [|z [|w l] IH]; intros NE; [congruence|reflexivity|]. cbn [last] in *. apply IH. discriminate. Qed.

Lemma hbase_step b b' : map decl_of (cs_meths b') = map decl_of (cs_meths b) -> hbase b -> clean b' m O -> hbase b'.
Proof.
  intros D [(cm & N & M) _] C. split; [|exact C].
  pose proof (proj1 (decls_mutex _ _ m D)) as E. rewrite N in E.
  destruct (nth_error (cs_meths b') m) as [cm'|] eqn:N'.
  - exists cm'. split; [reflexivity|]. congruence.
  - exfalso. apply (f_equal (@List.length _)) in D. rewrite !map_length in D.
    apply nth_error_None in N'. assert (L : (m < List.length (cs_meths b))%nat) by (apply nth_error_Some; congruence). lia.
Qed.

Lemma hang_step b t th b' th' :
  hbase b -> (forall q, In q (at_stack th) -> early q) -> chain (at_stack th) ->
  atstep c ps b t th = (b', th') ->
  hbase b' /\ (forall q, In q (at_stack th') -> early q) /\ (hangs th -> hangs th').
Proof.
  intros B EA CH T. apply atstep_case in T; [|exact CH].
  assert (EN : forall y p, enter b y = Some p -> early (FCall p) /\ (nc_m y = m -> of_m (FCall p))).
  { intros y p E. unfold enter in E. destruct (nth_error (cs_meths b) (nc_m y)) as [cm|] eqn:N; [|discriminate].
    injection E as <-. split.
    - exists (to_call y). split; [destruct (cm_mutex cm); reflexivity|]. intros MY. cbn in MY.
      destruct B as [(cm' & N' & G) _]. rewrite MY in N. assert (cm' = cm) as -> by congruence. rewrite G. auto.
    - intros MY. exists (to_call y). split; [destruct (cm_mutex cm); reflexivity|exact MY]. }
  assert (PC : forall cm p b1 p1 ev x, early (FCall p) -> asking ps b p = None -> pc_call p = Some x ->
     pstep c b t cm p = (b1, p1, ev) -> hbase b1).
  { intros cm p b1 p1 ev x E1 AK PX PS. apply (hbase_step b); auto.
    - eapply pstep_decls; eauto.
    - eapply pstep_clean; eauto; [|apply B]. intros MH.
      destruct p; try discriminate MH. cbn [mheld] in MH. injection MH as MX ->.
      cbn [pc_call] in PX. injection PX as ->.
      destruct (early_step _ _ _ _ _ _ _ _ B E1 AK eq_refl MX PS) as [Z _]. discriminate Z. }
  assert (AE : forall b0 x i v b1 p1, hbase b0 -> early (FAsk x i v) \/ early (FCall (PEval x i)) -> (cc_m x, i) <> (m, O) ->
     ask_end b0 x i (verdict v) = (b1, p1) -> hbase b1 /\ early (FCall p1) /\ pc_call p1 = Some x).
  { intros b0 x i v b1 p1 B0 E1 NE AE. split.
    - apply (hbase_step b0); auto; [eapply ask_end_decls; eauto|]. eapply ask_end_clean; eauto. apply B0.
    - assert (PX : pc_call p1 = Some x).
      { unfold ask_end in AE. destruct (cexp b0 (cc_m x) i); injection AE as _ <-; [|reflexivity].
        destruct (verdict v) as [[|]| |]; reflexivity. }
      split; [|exact PX]. exists x. split; [exact PX|]. intros MX.
      destruct E1 as [(z & PZ & EA1)|(z & PZ & EA1)]; cbn in PZ; injection PZ as <-;
        destruct (EA1 MX) as [E|[E|(y & k & E & _)]]; try discriminate E; injection E as ->; congruence. }
  destruct T as [th|y rest p o EQ|todo q y l p o RQ EQ|todo p l o x cm b' p' ev RQ AK PX CM PS PX'
    |todo p o x cm b' ev r RQ AK PX CM PS RO|todo p l o x cm b' ev r xq i y k u r' RQ AK PX CM PS RO KE
    |todo p l o x cm b' ev r xq i y k u r' RQ AK PX CM PS RO KE|todo x i a0 l o u y k AK AF
    |todo x i a0 l o u r b' p AK AF NR AEQ|todo x i r l o b' p NR AEQ]; cbn [at_stack] in *.
  - auto.
  - destruct (EN _ _ EQ) as [E1 E2]. split; [exact B|]. split.
    + intros q [<-|[]]. exact E1.
    + intros [O (y1 & rest1 & TD & MY)]. split; [exact O|]. cbn in *. injection TD as -> ->. auto.
  - destruct (EN _ _ EQ) as [E1 E2]. split; [exact B|]. split.
    + intros q' [<-|I]; [exact E1|auto].
    + intros [O H]. split; [exact O|]. cbn [at_stack] in *. destruct l as [|z l]; [exact H|].
      change (last (q :: z :: l) (FCall p)) with (last (z :: l) (FCall p)).
      rewrite (last_cons _ _ q) by discriminate. exact H.
  - assert (EP : early (FCall p)) by (apply EA; left; reflexivity).
    split; [eapply PC; eauto|]. split.
    + intros q [<-|I]; [|apply EA; right; exact I]. exists x. split; [exact PX'|]. intros MX.
      destruct (early_step _ _ _ _ _ _ _ _ B EP AK PX MX PS) as [_ [->| ->]]; auto.
    + intros [O H]. split; [exact O|]. cbn [at_stack] in *. destruct l as [|z l].
      * destruct H as (x1 & P1 & M1). cbn in P1. exists x1. split; [cbn; congruence|exact M1].
      * rewrite (last_cons _ _ (FCall p)) by discriminate. exact H.
  - assert (EP : early (FCall p)) by (apply EA; left; reflexivity).
    split; [eapply PC; eauto|]. split; [intros q []|].
    intros [O (x1 & P1 & M1)]. cbn in P1. exfalso. assert (x1 = x) as -> by congruence.
    destruct (early_step _ _ _ _ _ _ _ _ B EP AK PX M1 PS) as [_ [Z|Z]]; discriminate Z.
  - assert (EP : early (FCall p)) by (apply EA; left; reflexivity).
    assert (EQ : early (FCall (PExit xq i (Ret (RReq y k))))) by (apply EA; right; left; reflexivity).
    assert (NM : cc_m xq <> m).
    { intros MX. destruct EQ as (z & PZ & EQ). cbn in PZ. injection PZ as <-.
      destruct (EQ MX) as [Z|[Z|(y1 & k1 & Z & _)]]; discriminate Z. }
    split; [exact (PC _ _ _ _ _ _ EP AK PX PS)|]. split.
    + intros q [<-|I]; [|apply EA; right; right; exact I]. exists xq. split; [reflexivity|]. contradiction.
    + intros [O H]. split; [exact O|]. cbn [at_stack] in *. destruct l as [|z l].
      * destruct H as (x1 & P1 & M1). cbn in P1. injection P1 as <-. contradiction.
      * change (last (FCall (PExit xq i (Ret (RReq y k))) :: z :: l) (FCall p)) with (last (z :: l) (FCall p)) in H.
        rewrite (last_cons _ _ (FCall p)) by discriminate. exact H.
  - assert (EP : early (FCall p)) by (apply EA; left; reflexivity).
    assert (EQ : early (FAsk xq i (Ret (AReq y k)))) by (apply EA; right; left; reflexivity).
    assert (NM : cc_m xq <> m).
    { intros MX. destruct EQ as (z & PZ & EQ). cbn in PZ. injection PZ as <-.
      destruct (EQ MX) as [Z|[Z|(y1 & k1 & Z & MY)]]; try discriminate Z. injection Z as -> <- <-.
      destruct CH as [(y2 & R2 & W) _]. cbn in R2. injection R2 as <-.
      pose proof (W _ PX) as MP. rewrite MY in MP.
      destruct (early_step _ _ _ _ _ _ _ _ B EP AK PX MP PS) as [_ [Z|Z]]; discriminate Z. }
    split; [exact (PC _ _ _ _ _ _ EP AK PX PS)|]. split.
    + intros q [<-|I]; [|apply EA; right; right; exact I]. exists xq. split; [reflexivity|]. contradiction.
    + intros [O H]. split; [exact O|]. cbn [at_stack] in *. destruct l as [|z l].
      * destruct H as (x1 & P1 & M1). cbn in P1. injection P1 as <-. contradiction.
      * change (last (FAsk xq i (Ret (AReq y k)) :: z :: l) (FCall p)) with (last (z :: l) (FCall p)) in H.
        rewrite (last_cons _ _ (FCall p)) by discriminate. exact H.
  - assert (EP : early (FCall (PEval x i))) by (apply EA; left; reflexivity).
    split; [exact B|]. split.
    + intros q [<-|I]; [|apply EA; right; exact I]. exists x. split; [reflexivity|]. intros MX.
      destruct EP as (z & PZ & EP). cbn in PZ. injection PZ as <-.
      destruct (EP MX) as [Z|[Z|(y1 & k1 & Z & MY)]]; try discriminate Z. injection Z as ->.
      right. right. exists y, k. split; [reflexivity|].
      apply asking_some in AK as (_ & PA' & _). rewrite MX, PA in PA'. injection PA' as <-.
      unfold ask_first in AF. rewrite OW in AF. destruct (REQ (cc_args x) (cs_user b)) as (u1 & y1 & k1 & R1 & M1).
      rewrite R1 in AF. injection AF as _ <- _. exact M1.
    + intros [O H]. split; [exact O|]. cbn [at_stack] in *. destruct l as [|z l]; [exact H|].
      rewrite (last_cons _ _ (FCall (PEval x i))) by discriminate. exact H.
  - assert (EP : early (FCall (PEval x i))) by (apply EA; left; reflexivity).
    assert (NE : (cc_m x, i) <> (m, O)).
    { intros [= MX ->]. apply asking_some in AK as (_ & PA' & _). rewrite MX, PA in PA'. injection PA' as <-.
      unfold ask_first in AF. rewrite OW in AF. destruct (REQ (cc_args x) (cs_user b)) as (u1 & y1 & k1 & R1 & M1).
      rewrite R1 in AF. injection AF as _ <-. exact (NR _ _ eq_refl). }
    destruct (AE (put_user b u) x i r _ _ B (or_intror EP) NE AEQ) as (B1 & E1 & P1). split; [exact B1|]. split.
    + intros q [<-|I]; [exact E1|apply EA; right; exact I].
    + intros [O H]. split; [exact O|]. cbn [at_stack] in *. destruct l as [|z l].
      * destruct H as (x1 & Q1 & M1). cbn in Q1. exists x1. split; [cbn; congruence|exact M1].
      * rewrite (last_cons _ _ (FCall (PEval x i))) by discriminate. exact H.
  - assert (EP : early (FAsk x i r)) by (apply EA; left; reflexivity).
    assert (NE : (cc_m x, i) <> (m, O)).
    { intros [= MX ->]. destruct EP as (z & PZ & EP). cbn in PZ. injection PZ as <-.
      destruct (EP MX) as [Z|[Z|(y1 & k1 & Z & MY)]]; try discriminate Z. injection Z as ->. exact (NR _ _ eq_refl). }
    destruct (AE b x i r _ _ B (or_introl EP) NE AEQ) as (B1 & E1 & P1). split; [exact B1|]. split.
    + intros q [<-|I]; [exact E1|apply EA; right; exact I].
    + intros [O H]. split; [exact O|]. cbn [at_stack] in *. destruct l as [|z l].
      * destruct H as (x1 & Q1 & M1). cbn in Q1. exists x1. split; [cbn; congruence|exact M1].
      * rewrite (last_cons _ _ (FAsk x i r)) by discriminate. exact H.
Qed.

Lemma hang_run t sched : forall (s : asys), alocks s -> hbase (as_base s) ->
  (forall t' th q, nth_error (as_threads s) t' = Some th -> In q (at_stack th) -> early q) ->
  (exists th, nth_error (as_threads s) t = Some th /\ hangs th) ->
  exists th, nth_error (as_threads (arun c ps s sched)) t = Some th /\ hangs th.
Proof.
  induction sched as [|t' sched IH]; intros s L B EA H; [exact H|]. cbn [arun].
  assert (L' : alocks (astep c ps s t')) by (apply alocks_astep; exact L).
  revert L'. unfold astep. destruct (nth_error (as_threads s) t') as [th|] eqn:N; [|intros L'; apply IH; auto].
  destruct (atstep c ps (as_base s) t' th) as [b1 th1] eqn:T. intros L'.
  destruct (hang_step _ _ _ _ _ B (fun q => EA _ _ q N) (al_chain _ L _ _ N) T) as (B1 & E1 & H1).
  apply IH; auto; cbn [as_threads].
  - intros t2 th2 q. rewrite nth_set_nth, N. destruct (Nat.eqb_spec t2 t'); [intros [= <-]; auto|eauto].
  - destruct H as (th2 & N2 & H2). rewrite nth_set_nth, N. destruct (Nat.eqb_spec t t') as [->|NE]; [|eauto].
    exists th1. split; [reflexivity|]. apply H1. congruence.
Qed.
End Hang.

(** ** A predicate is worth its verdict *)
Lemma chain_step c ps (b : csys) t th b' th' :
  chain (at_stack th) -> atstep c ps b t th = (b', th') -> chain (at_stack th').
Proof.
  intros CH T. apply atstep_case in T; [|exact CH].
  destruct T as [th|y rest p o EQ|todo q y l p o RQ EQ|todo p l o x cm b' p' ev RQ AK PX CM PS PX'
    |todo p o x cm b' ev r RQ AK PX CM PS RO|todo p l o x cm b' ev r xq i y k u r' RQ AK PX CM PS RO KE
    |todo p l o x cm b' ev r xq i y k u r' RQ AK PX CM PS RO KE|todo x i a0 l o u y k AK AF
    |todo x i a0 l o u r b' p AK AF NR AEQ|todo x i r l o b' p NR AEQ]; cbn [at_stack] in *.
  - exact CH.
  - simpl. auto.
  - destruct (enter_ok _ _ _ EQ) as (_ & PX & _). split; [|exact CH]. exists y. split; [exact RQ|].
    intros xp Z. cbn [fpc] in Z. rewrite PX in Z. injection Z as <-. reflexivity.
  - apply (chain_same (FCall p)); [cbn; congruence|exact CH].
  - exact I.
  - destruct CH as [_ CH]. apply (chain_same (FCall (PExit xq i (Ret (RReq y k))))); [reflexivity|exact CH].
  - destruct CH as [_ CH]. apply (chain_same (FAsk xq i (Ret (AReq y k)))); [reflexivity|exact CH].
  - apply (chain_same (FCall (PEval x i))); [reflexivity|exact CH].
  - apply (chain_same (FCall (PEval x i))); [|exact CH]. cbn [fpc pc_call]. unfold ask_end in AEQ.
    destruct (cexp (put_user b u) (cc_m x) i); injection AEQ as _ <-; [|reflexivity].
    destruct (verdict r) as [[|]| |]; reflexivity.
  - apply (chain_same (FAsk x i r)); [|exact CH]. cbn [fpc pc_call]. unfold ask_end in AEQ.
    destruct (cexp b (cc_m x) i); injection AEQ as _ <-; [|reflexivity].
    destruct (verdict r) as [[|]| |]; reflexivity.
Qed.

(** A call does the same on top of other frames. *)
Lemma frame_rule c ps (b : csys) t st b1 th1 todo l o :
  chain st -> st <> [] -> atstep c ps b t (AThread [] st []) = (b1, th1) ->
  (exists st1, st1 <> [] /\ chain st1 /\ th1 = AThread [] st1 [] /\
     atstep c ps b t (AThread todo (st ++ l) o) = (b1, AThread todo (st1 ++ l) o)) \/
  (exists r, th1 = AThread [] [] [r] /\
     atstep c ps b t (AThread todo (st ++ l) o) =
       (let '(b2, stack', out') := aresume b1 l o r in (b2, AThread todo stack' out'))).
Proof.
  intros CH NE T. pose proof (chain_step c ps b t (AThread [] st []) b1 th1 CH T) as CH1.
  destruct st as [|q below]; [congruence|]. clear NE. unfold atstep in *. cbn [app].
  assert (STAY : (b, AThread [] (q :: below) []) = (b1, th1) ->
    exists st1, st1 <> [] /\ chain st1 /\ th1 = AThread [] st1 [] /\
      (b, AThread todo (q :: below ++ l) o) = (b1, AThread todo (st1 ++ l) o)).
  { intros [= <- <-]. exists (q :: below). split; [discriminate|]. auto. }
  assert (TOP : forall q' b2, (b2, AThread [] (q' :: below) []) = (b1, th1) ->
    exists st1, st1 <> [] /\ chain st1 /\ th1 = AThread [] st1 [] /\
      (b2, AThread todo (q' :: below ++ l) o) = (b1, AThread todo (st1 ++ l) o)).
  { intros q' b2 [= <- <-]. exists (q' :: below). split; [discriminate|]. auto. }
  destruct (request q) as [y|] eqn:RQ.
  - destruct (enter b y) as [p|]; [|left; auto]. injection T as <- <-. left. exists (FCall p :: q :: below).
    split; [discriminate|]. auto.
  - destruct q as [p|x i r].
    + destruct (asking ps b p) as [[[x i] a]|].
      * destruct (ask_first a (cc_args x) t (cs_user b)) as [u [[v|y k]|mm|]].
        all: try destruct (ask_end (put_user b u) x i _) as [b2 p2]; left; auto.
      * destruct (pc_call p) as [x|]; [|left; auto].
        destruct (nth_error (cs_meths b) (cc_m x)) as [cm|]; [|left; auto].
        destruct (pstep c b t cm p) as [[b2 p2] ev]. destruct (ret_of ev) as [r|]; [|left; auto].
        destruct below as [|q rest].
        -- cbn [aresume] in T. injection T as <- <-. right. exists (to_val r). split; [reflexivity|].
           cbn [app]. reflexivity.
        -- destruct CH as [(y & RY & _) _]. left. cbn [app].
           apply request_cases in RY as [(xq & i & k & ->)|(xq & i & k & ->)]; cbn [aresume] in *;
             destruct (k (to_val r) (cs_user b2)) as [u r']; injection T as <- <-;
             (eexists (_ :: rest); split; [discriminate|]; split; [exact CH1|]; split; reflexivity).
    + destruct (ask_end b x i (verdict r)) as [b2 p2]. left. auto.
Qed.

Lemma alone_app c ps t k1 : forall k2 (s : csys * athread), alone c ps t (k1 + k2)%nat s = alone c ps t k2 (alone c ps t k1 s).
Proof. induction k1 as [|k1 IH]; intros k2 s; [reflexivity|]. cbn [plus alone]. apply IH. Qed.

Lemma alone_done c ps t k : forall (b : csys) o, alone c ps t k (b, AThread [] [] o) = (b, AThread [] [] o).
Proof. induction k as [|k IH]; intros b o; [reflexivity|]. exact (IH b o). Qed.

Lemma frame_run c ps t todo l o : forall k (b : csys) st b1 r,
  chain st -> st <> [] -> alone c ps t k (b, AThread [] st []) = (b1, AThread [] [] [r]) ->
  exists k', alone c ps t k' (b, AThread todo (st ++ l) o) =
    (let '(b2, stack', out') := aresume b1 l o r in (b2, AThread todo stack' out')).
Proof.
  induction k as [|k IH]; intros b st b1 r CH NE A; cbn [alone] in A.
  - injection A as _ -> . congruence.
  - cbn [fst snd] in A. destruct (atstep c ps b t (AThread [] st [])) as [b2 th2] eqn:T.
    destruct (frame_rule _ _ _ _ _ _ _ todo l o CH NE T) as [(st1 & NE1 & CH1 & -> & E)|(r1 & -> & E)].
    + destruct (IH _ _ _ _ CH1 NE1 A) as [k' Q]. exists (S k'). cbn [alone fst snd]. rewrite E. exact Q.
    + rewrite alone_done in A. injection A as <- <-. exists 1%nat. cbn [alone fst snd]. exact E.
Qed.

Lemma call_frame c ps t (b : csys) y b1 r todo q l o :
  call_ends c ps t b y b1 r -> request q = Some y ->
  exists k, alone c ps t k (b, AThread todo (q :: l) o) =
    (let '(b2, stack', out') := aresume b1 (q :: l) o r in (b2, AThread todo stack' out')).
Proof.
  intros [k A] RQ. destruct k as [|k]; [discriminate A|]. cbn [alone fst snd] in A.
  unfold atstep in A at 1. destruct (enter b y) as [p|] eqn:E.
  - destruct (frame_run c ps t todo (q :: l) o k b [FCall p] b1 r) as [k' Q]; [simpl; auto|discriminate|exact A|].
    exists (S k'). cbn [alone fst snd]. unfold atstep at 1. rewrite RQ, E. exact Q.
  - exfalso. clear - A E. induction k as [|k IH]; [discriminate A|]. cbn [alone fst snd] in A.
    unfold atstep in A at 1. rewrite E in A. auto.
Qed.

(** While a matcher's mutex is held, no other call poisons it. *)
Definition kept (b : csys) (m i : nat) : Prop := clean b m i /\ cs_ml b m i <> None.

Lemma set2_kept f (m' i' m i : nat) : f m i <> None -> (m', i') <> (m, i) -> set2 f m' i' None m i <> None.
Proof.
  intros H NE. unfold set2. destruct (Nat.eqb m m' && Nat.eqb i i')%bool eqn:Q; [|exact H].
  apply andb_true_iff in Q as [Q1 Q2]. apply Nat.eqb_eq in Q1, Q2. congruence.
Qed.

Lemma pstep_kept c (b : csys) t cm p b' p' ev m i :
  pstep c b t cm p = (b', p', ev) -> mheld p <> Some (m, i) -> kept b m i ->
  kept b' m i /\ mheld p' <> Some (m, i).
Proof.
  intros PS NE [C H].
  assert (C' : clean b' m i) by (eapply pstep_clean; eauto).
  assert (G : cs_ml b' m i <> None /\ mheld p' <> Some (m, i)).
  { clear C C'. leaves PS; unfold put_rl; cbn [mheld put_ml put_sl put_world cs_ml] in *; rewrite ?put_exp_ml; cbn [mheld put_ml put_sl put_world cs_ml] in *; rewrite ?put_exp_ml; split; try assumption; try discriminate.
    all: first [ apply set2_kept; [exact H|congruence] | idtac ].
    - unfold set2. destruct (Nat.eqb m (cc_m x) && Nat.eqb i i0)%bool; [discriminate|exact H].
    - intros [= Q1 Q2]. subst. destruct (cs_ml b (cc_m x) i); [discriminate|congruence]. }
  destruct G. split; [split|]; auto.
Qed.

Lemma ask_end_kept (b : csys) x j v b' p m i :
  ask_end b x j v = (b', p) -> (cc_m x, j) <> (m, i) -> kept b m i -> kept b' m i /\ mheld p <> Some (m, i).
Proof.
  intros AE NE [C H]. assert (C' : clean b' m i) by (eapply ask_end_clean; eauto). clear C.
  unfold ask_end in AE. destruct (cexp b (cc_m x) j) eqn:E; injection AE as <- <-.
  - split; [split; [exact C'|]|].
    + cbn [put_ml cs_ml]. rewrite put_exp_ml. unfold set2.
      destruct (Nat.eqb m (cc_m x) && Nat.eqb i j)%bool eqn:Q; [|exact H].
      apply andb_true_iff in Q as [Q1 Q2]; apply Nat.eqb_eq in Q1, Q2; subst. congruence.
    + destruct v as [[|]| |]; discriminate.
  - split; [split; assumption|]. cbn [mheld]. congruence.
Qed.

Lemma kept_step c ps (b : csys) t th b' th' m i :
  chain (at_stack th) -> atstep c ps b t th = (b', th') -> kept b m i ->
  (forall q, In q (at_stack th) -> mheld (fpc q) <> Some (m, i)) ->
  kept b' m i /\ (forall q, In q (at_stack th') -> mheld (fpc q) <> Some (m, i)).
Proof.
  intros CH T K NO. apply atstep_case in T; [|exact CH].
  destruct T as [th|y rest p o EQ|todo q y l p o RQ EQ|todo p l o x cm b' p' ev RQ AK PX CM PS PX'
    |todo p o x cm b' ev r RQ AK PX CM PS RO|todo p l o x cm b' ev r xq j y k u r' RQ AK PX CM PS RO KE
    |todo p l o x cm b' ev r xq j y k u r' RQ AK PX CM PS RO KE|todo x j a0 l o u y k AK AF
    |todo x j a0 l o u r b' p AK AF NR AEQ|todo x j r l o b' p NR AEQ]; cbn [at_stack] in *.
  - auto.
  - destruct (enter_ok _ _ _ EQ) as (_ & _ & M & _). split; [exact K|]. intros q [<-|[]]. cbn [fpc]. rewrite M. discriminate.
  - destruct (enter_ok _ _ _ EQ) as (_ & _ & M & _). split; [exact K|].
    intros q' [<-|I]; [cbn [fpc]; rewrite M; discriminate|auto].
  - destruct (pstep_kept _ _ _ _ _ _ _ _ m i PS (NO _ (or_introl eq_refl)) K) as [K' N'].
    split; [exact K'|]. intros q [<-|I]; [exact N'|apply NO; right; exact I].
  - destruct (pstep_kept _ _ _ _ _ _ _ _ m i PS (NO _ (or_introl eq_refl)) K) as [K' _].
    split; [exact K'|]. intros q [].
  - destruct (pstep_kept _ _ _ _ _ _ _ _ m i PS (NO _ (or_introl eq_refl)) K) as [K' _].
    split; [exact K'|]. intros q [<-|I]; [discriminate|apply NO; right; right; exact I].
  - destruct (pstep_kept _ _ _ _ _ _ _ _ m i PS (NO _ (or_introl eq_refl)) K) as [K' _].
    split; [exact K'|]. intros q [<-|I]; [|apply NO; right; right; exact I].
    exact (NO _ (or_intror (or_introl eq_refl))).
  - split; [exact K|]. intros q [<-|I]; [exact (NO _ (or_introl eq_refl))|apply NO; right; exact I].
  - assert (NE : (cc_m x, j) <> (m, i)) by (intros E; apply (NO _ (or_introl eq_refl)); cbn; congruence).
    destruct (ask_end_kept (put_user b u) _ _ _ _ _ m i AEQ NE K) as [K' N'].
    split; [exact K'|]. intros q [<-|I]; [exact N'|apply NO; right; exact I].
  - assert (NE : (cc_m x, j) <> (m, i)) by (intros E; apply (NO _ (or_introl eq_refl)); cbn; congruence).
    destruct (ask_end_kept b _ _ _ _ _ m i AEQ NE K) as [K' N'].
    split; [exact K'|]. intros q [<-|I]; [exact N'|apply NO; right; exact I].
Qed.

Lemma kept_alone c ps t m i : forall k (b : csys) th b' th',
  chain (at_stack th) -> alone c ps t k (b, th) = (b', th') -> kept b m i ->
  (forall q, In q (at_stack th) -> mheld (fpc q) <> Some (m, i)) -> kept b' m i.
Proof.
  induction k as [|k IH]; intros b th b' th' CH A K NO; cbn [alone fst snd] in A.
  - injection A as <- _. exact K.
  - destruct (atstep c ps b t th) as [b1 th1] eqn:T.
    destruct (kept_step _ _ _ _ _ _ _ m i CH T K NO) as [K1 N1].
    exact (IH _ _ _ _ (chain_step _ _ _ _ _ _ _ CH T) A K1 N1).
Qed.

Lemma says_run c ps t x i todo l o b r b2 v :
  says c ps t b r b2 v -> kept b (cc_m x) i ->
  kept b2 (cc_m x) i /\
  exists k, alone c ps t k (b, AThread todo (FAsk x i r :: l) o) =
    (let (b', p) := ask_end b2 x i v in (b', AThread todo (FCall p :: l) o)).
Proof.
  intros SA. induction SA as [b v|b mm|b|b y k b1 r u r' b2 v CE KE SA IH]; intros K.
  1-3: split; [exact K|]; exists 1%nat; reflexivity.
  assert (K1 : kept b1 (cc_m x) i).
  { destruct CE as [n A]. exact (kept_alone c ps t (cc_m x) i n b (AThread [y] [] []) _ _ I A K (fun q (H : In q []) => match H with end)). }
  destruct (IH K1) as (K2 & n2 & A2). split; [exact K2|].
  destruct (call_frame c ps t b y b1 r todo (FAsk x i (Ret (AReq y k))) l o CE eq_refl) as [n1 A1].
  exists (n1 + n2)%nat. rewrite alone_app, A1. cbn [aresume]. rewrite KE. exact A2.
Qed.

Lemma put_user_same (b : csys) : put_user b (cs_user b) = b.
Proof. destruct b. reflexivity. Qed.

Lemma worth_verdict c ps t (b : csys) x i a e todo l o u r b2 v :
  cexp b (cc_m x) i = Some e -> c_mpoison (e_common e) = false -> cs_ml b (cc_m x) i <> None ->
  ps (cc_m x) i = Some a -> ask_first a (cc_args x) t (cs_user b) = (u, r) ->
  says c ps t (put_user b u) r b2 v ->
  exists k, alone c ps t k (b, AThread todo (FCall (PEval x i) :: l) o) =
    atstep c (instead ps (cc_m x) i (saying v)) b2 t (AThread todo (FCall (PEval x i) :: l) o).
Proof.
  intros CE MP ML PA AF SA.
  assert (K : kept (put_user b u) (cc_m x) i) by (split; [exists e; auto|exact ML]).
  assert (RHS : forall bb, kept bb (cc_m x) i ->
    atstep c (instead ps (cc_m x) i (saying v)) bb t (AThread todo (FCall (PEval x i) :: l) o) =
    (let (b', p) := ask_end bb x i v in (b', AThread todo (FCall p :: l) o))).
  { intros bb [(e2 & C2 & M2) _]. unfold atstep. cbn [request]. unfold asking. rewrite C2, M2.
    unfold instead. rewrite !Nat.eqb_refl. cbn [andb]. unfold ask_first, saying, no_calls. cbn [ak_owner ak_run].
    destruct v as [v|mm|]; cbn; rewrite put_user_same; reflexivity. }
  assert (AK : asking ps b (PEval x i) = Some (x, i, a)) by (unfold asking; rewrite CE, MP, PA; reflexivity).
  destruct (says_run c ps t x i todo l o _ _ _ _ SA K) as (K2 & k & A).
  rewrite RHS by exact K2. clear RHS K K2. remember (put_user b u) as b0 eqn:B0. destruct SA as [bb v|bb mm|bb|bb y kk b1 r u2 r' b2 v C2 KE SA].
  1-3: subst bb; exists 1%nat; cbn [alone fst snd]; unfold atstep; cbn [request]; rewrite AK, AF; reflexivity.
  exists (S k). cbn [alone fst snd]. unfold atstep at 1. cbn [request]. rewrite AK, AF. subst bb. exact A.
Qed.

End AskEval.
