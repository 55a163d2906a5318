(** * AskProofs: predicates that call mocks *)

From Coq Require Import Arith NArith List Bool String Lia.
From Verif Require Import Base Times Expect Conc ConcSpec ConcProofs LockProofs ThreadProofs
  LinProofs Nest NestSpec NestProofs NestSim NestLocks Ask AskSpec AskLocks.
Import ListNotations.

Local Arguments set_nth : simpl never.
Local Arguments pstep : simpl never.
Local Arguments put_exp : simpl never.
Local Arguments atstep : simpl never.

Section AskProofs.
Context {V U : Type}.
Notation rval := (rval V U).
Notation ncall := (ncall V).
Notation csys := (csys rval U).
Notation pc := (pc rval U).
Notation aval := (aval V U).
Notation asker := (asker V U).
Notation asks := (asks V U).
Notation frame := (frame V U).
Notation athread := (athread V U).
Notation asys := (asys V U).
Notation nthread := (nthread V U).
Notation nsys := (nsys V U).

Ltac leaves H :=
  unfold pstep, unlock_r in H;
  repeat match type of H with
  | context [match ?x with _ => _ end] =>
      lazymatch x with
      | context [match _ with _ => _ end] => fail
      | _ => let E := fresh "E" in destruct x eqn:E
      end
  end;
  injection H as <- <- <-.

(** ** Predicates that call nothing *)
Lemma of_matcher_spec (m : matcher rval U) args t u l :
  matcher_matches m args (World u l t false) =
    (let (u', r) := ask_first (of_matcher m) args t u in (World u' l t false, verdict r)) /\
  forall y k, snd (ask_first (of_matcher m) args t u) <> Ret (AReq y k).
Proof.
  destruct m as [|f|o f|qs]; unfold ask_first, of_matcher, no_calls; cbn [ak_owner ak_run matcher_matches].
  - split; [reflexivity|discriminate].
  - cbn [w_user]. destruct (f args u) as [u' [b|m|]]; split; try reflexivity; discriminate.
  - cbn [w_thread w_user]. destruct (Nat.eqb o t); [|split; [reflexivity|discriminate]].
    destruct (f args u) as [u' [b|m|]]; split; try reflexivity; discriminate.
  - cbn [w_user]. destruct (eval_preds qs args u) as [u' [b|m|]]; split; try reflexivity; discriminate.
Qed.

Definition silent (ps : asks) (b : csys) : Prop :=
  forall m i a e, ps m i = Some a -> cexp b m i = Some e -> a = of_matcher (c_matcher (e_common e)).

Lemma eval_is_ask c ps (b : csys) t cm x i a b' p' ev :
  silent ps b -> asking ps b (PEval x i) = Some (x, i, a) -> pstep c b t cm (PEval x i) = (b', p', ev) ->
  ev = [] /\ exists u r, ask_first a (cc_args x) t (cs_user b) = (u, r) /\ (forall y k, r <> Ret (AReq y k)) /\
    ask_end (put_user b u) x i (verdict r) = (b', p').
Proof.
  intros PL AK PS. apply asking_some in AK as (_ & PA & e & CE & MP).
  pose proof (PL _ _ _ _ PA CE) as ->.
  unfold pstep in PS. rewrite CE in PS. unfold common_matches in PS. rewrite MP in PS.
  unfold cworld in PS.
  destruct (of_matcher_spec (c_matcher (e_common e)) (cc_args x) t (cs_user b) (cs_levels b)) as [Q1 Q2].
  rewrite Q1 in PS.
  destruct (ask_first (of_matcher (c_matcher (e_common e))) (cc_args x) t (cs_user b)) as [u r] eqn:AF.
  cbn [snd] in Q2.
  assert (C2 : cexp (put_user b u) (cc_m x) i = Some e) by exact CE.
  assert (W : forall e', put_ml (put_world (put_exp b (cc_m x) i e') (World u (cs_levels b) t false)) x i None =
     put_ml (put_exp (put_user b u) (cc_m x) i e') x i None).
  { intros e'. unfold put_exp, put_user, put_world. cbn [cs_meths]. destruct (nth_error (cs_meths b) (cc_m x)); reflexivity. }
  assert (G : ev = [] /\ ask_end (put_user b u) x i (verdict r) = (b', p')).
  { unfold ask_end. rewrite C2.
    destruct (verdict r) as [[|]|m|]; injection PS as <- <- <-; (split; [reflexivity|]);
      rewrite W; reflexivity. }
  destruct G as [-> G]. split; [reflexivity|]. exists u, r. auto.
Qed.

Lemma plain_same ps (b b' : csys) :
  (forall m i e', cexp b' m i = Some e' -> exists e, cexp b m i = Some e /\
     c_matcher (e_common e') = c_matcher (e_common e)) -> silent ps b -> silent ps b'.
Proof.
  intros H P m i a e' A C. destruct (H _ _ _ C) as (e & C' & E). rewrite E. eauto.
Qed.

Lemma pstep_matchers c (b : csys) t cm p b' p' ev m i e' :
  pstep c b t cm p = (b', p', ev) -> cexp b' m i = Some e' ->
  exists e, cexp b m i = Some e /\ c_matcher (e_common e') = c_matcher (e_common e).
Proof.
  intros PS C. destruct (cexp b m i) as [e|] eqn:E.
  - destruct (pstep_exp _ _ _ _ _ _ _ _ m i e PS E) as (e2 & C2 & (_ & _ & S) & _).
    exists e. split; [reflexivity|]. congruence.
  - exfalso. apply (proj1 (pstep_index _ _ _ _ _ _ _ _ m i PS)); [congruence|exact E].
Qed.

Definition nemb (th : nthread) : athread := AThread (nt_todo th) (map FCall (nt_stack th)) (nt_out th).

Lemma atstep_plain c ps (b : csys) t (th : nthread) :
  silent ps b ->
  atstep c ps b t (nemb th) = (let (b', th') := tstep c b t th in (b', nemb th')).
Proof.
  intros PL. destruct th as [todo [|p below] out]; unfold nemb, atstep, tstep; cbn [nt_todo nt_stack nt_out map].
  - destruct todo as [|y rest]; [reflexivity|]. destruct (enter b y); reflexivity.
  - assert (GEN : request (@FCall V U p) = None ->
      (match asking ps b p with
       | Some (x, i, a) =>
           let (u, r) := ask_first a (cc_args x) t (cs_user b) in
           match r with
           | Ret (AReq _ _) => (put_user b u, AThread todo (FAsk x i r :: map FCall below) out)
           | _ => let (b', p') := ask_end (put_user b u) x i (verdict r) in
                  (b', AThread todo (FCall p' :: map FCall below) out)
           end
       | None =>
           match pc_call p with
           | None => (b, AThread todo (FCall p :: map FCall below) out)
           | Some x =>
               match nth_error (cs_meths b) (cc_m x) with
               | None => (b, AThread todo (FCall p :: map FCall below) out)
               | Some cm =>
                   let '(b', p', ev) := pstep c b t cm p in
                   match ret_of ev with
                   | None => (b', AThread todo (FCall p' :: map FCall below) out)
                   | Some r =>
                       let '(b2, stack', out') := aresume b' (map FCall below) out (to_val r) in
                       (b2, AThread todo stack' out')
                   end
               end
           end
       end) =
      (let (b', th') :=
         match pc_call p with
         | None => (b, NThread todo (p :: below) out)
         | Some x =>
             match nth_error (cs_meths b) (cc_m x) with
             | None => (b, NThread todo (p :: below) out)
             | Some cm =>
                 let '(b', p', ev) := pstep c b t cm p in
                 match ret_of ev with
                 | None => (b', NThread todo (p' :: below) out)
                 | Some r =>
                     let '(b2, stack', out') := resume b' below out (to_val r) in
                     (b2, NThread todo stack' out')
                 end
             end
         end in (b', AThread (nt_todo th') (map FCall (nt_stack th')) (nt_out th')))).
    { intros RQ. destruct (asking ps b p) as [[[x i] a]|] eqn:AK.
      - pose proof AK as AK'. apply asking_some in AK' as (-> & PA & e & CE & MP). cbn [pc_call].
        destruct (nth_error (cs_meths b) (cc_m x)) as [cm|] eqn:CM.
        2:{ unfold cexp, cexps in CE. rewrite CM in CE. destruct i; discriminate. }
        destruct (pstep c b t cm (PEval x i)) as [[b1 p1] ev] eqn:PS.
        destruct (eval_is_ask _ _ _ _ _ _ _ _ _ _ _ PL AK PS) as (-> & u & r & AF & NR & AE).
        rewrite AF. cbn [ret_of]. destruct r as [[v|y k]|m|].
        + rewrite AE. reflexivity.
        + destruct (NR _ _ eq_refl).
        + rewrite AE. reflexivity.
        + rewrite AE. reflexivity.
      - destruct (pc_call p) as [x|]; [|reflexivity].
        destruct (nth_error (cs_meths b) (cc_m x)) as [cm|]; [|reflexivity].
        destruct (pstep c b t cm p) as [[b1 p1] ev]. destruct (ret_of ev) as [r|]; [|reflexivity].
        destruct below as [|q rest]; [reflexivity|]. cbn [map].
        destruct q as [|z|z i|z i|z i|z i|z i er|z i|z i|z i lw|z i|z i|z i|z i f|z i r1|z i er|z r1]; try reflexivity.
        destruct r1 as [[v|y k]|m|]; try reflexivity. cbn [aresume resume].
        destruct (k (to_val r) (cs_user b1)) as [u r']. reflexivity. }
    destruct p as [|z|z i|z i|z i|z i|z i er|z i|z i|z i lw|z i|z i|z i|z i f|z i r1|z i er|z r1];
      try (cbn [request]; exact (GEN eq_refl)).
    destruct r1 as [[v|y k]|m|]; try (cbn [request]; exact (GEN eq_refl)).
    cbn [request]. destruct (enter b y); reflexivity.
Qed.

Lemma tstep_matchers c (b : csys) t (th : nthread) b' th' m i e' :
  tstep c b t th = (b', th') -> cexp b' m i = Some e' ->
  exists e, cexp b m i = Some e /\ c_matcher (e_common e') = c_matcher (e_common e).
Proof.
  intros T C. destruct th as [todo [|p below] out]; unfold tstep in T.
  - destruct todo as [|y rest]; [injection T as <- _; eauto|]. destruct (enter b y); injection T as <- _; eauto.
  - assert (GEN : match pc_call p with
         | None => (b, NThread todo (p :: below) out)
         | Some x =>
             match nth_error (cs_meths b) (cc_m x) with
             | None => (b, NThread todo (p :: below) out)
             | Some cm =>
                 let '(b', p', ev) := pstep c b t cm p in
                 match ret_of ev with
                 | None => (b', NThread todo (p' :: below) out)
                 | Some r =>
                     let '(b2, stack', out') := resume b' below out (to_val r) in
                     (b2, NThread todo stack' out')
                 end
             end
         end = (b', th') -> exists e, cexp b m i = Some e /\ c_matcher (e_common e') = c_matcher (e_common e)).
    { clear T. intros T. destruct (pc_call p) as [x|]; [|injection T as <- _; eauto].
      destruct (nth_error (cs_meths b) (cc_m x)) as [cm|]; [|injection T as <- _; eauto].
      destruct (pstep c b t cm p) as [[b1 p1] ev] eqn:PS.
      assert (C1 : cexp b1 m i = Some e').
      { destruct (ret_of ev) as [r|]; [|injection T as <- _; exact C].
        destruct (resume b1 below out (to_val r)) as [[b2 s2] o2] eqn:RS. injection T as <- _.
        destruct below as [|q rest]; [injection RS as <- _ _; exact C|].
        destruct q as [|z|z j|z j|z j|z j|z j er|z j|z j|z j lw|z j|z j|z j|z j f|z j r1|z j er|z r1];
          try (injection RS as <- _ _; exact C).
        destruct r1 as [[v|y k]|mm|]; try (injection RS as <- _ _; exact C). cbn [resume] in RS.
        destruct (k (to_val r) (cs_user b1)) as [u r']. injection RS as <- _ _. exact C. }
      eapply pstep_matchers; eauto. }
    destruct p as [|z|z j|z j|z j|z j|z j er|z j|z j|z j lw|z j|z j|z j|z j f|z j r1|z j er|z r1]; try (apply GEN; exact T).
    destruct r1 as [[v|y k]|mm|]; try (apply GEN; exact T). destruct (enter b y); injection T as <- _; eauto.
Qed.

Lemma set_nth_map {A B} (f : A -> B) l i a : set_nth (map f l) i (f a) = map f (set_nth l i a).
Proof. revert i. induction l as [|x l IH]; intros [|i]; unfold set_nth in *; simpl; auto. f_equal. apply IH. Qed.

Lemma arun_plain c ps sched : forall (s : nsys), silent ps (ns_base s) ->
  arun c ps (nested s) sched = nested (nrun c s sched).
Proof.
  induction sched as [|t sched IH]; intros s PL; [reflexivity|]. cbn [arun nrun].
  assert (E : astep c ps (nested s) t = nested (nstep c s t) /\ silent ps (ns_base (nstep c s t))).
  { unfold astep, nstep. unfold nested at 1. cbn [as_threads]. rewrite nth_error_map.
    destruct (nth_error (ns_threads s) t) as [th|] eqn:N; cbn [option_map]; [|split; [reflexivity|exact PL]].
    change (AThread (nt_todo th) (map FCall (nt_stack th)) (nt_out th)) with (nemb th).
    unfold nested at 1. cbn [as_base]. rewrite atstep_plain by exact PL.
    destruct (tstep c (ns_base s) t th) as [b' th'] eqn:T. cbn [ns_base]. split.
    - unfold nested. cbn [ns_base ns_threads as_threads]. f_equal. apply (set_nth_map nemb).
    - eapply plain_same; [|exact PL]. intros m i e' C. eapply tstep_matchers; eauto. }
  destruct E as [-> E]. apply IH. exact E.
Qed.

(** ** Waiting for oneself *)
Lemma arun_app c ps (s : asys) a : forall b, arun c ps s (a ++ b) = arun c ps (arun c ps s a) b.
Proof. revert s. induction a as [|t a IH]; intros s b; simpl; auto. Qed.

Lemma ask_end_decls (b : csys) x i r b' p : ask_end b x i r = (b', p) ->
  map decl_of (cs_meths b') = map decl_of (cs_meths b).
Proof.
  unfold ask_end. destruct (cexp b (cc_m x) i); intros [= <- _]; [|reflexivity].
  unfold put_ml. cbn [cs_meths]. apply put_exp_decls.
Qed.

Lemma stays c ps t th : forall more (s : asys),
  (forall s', alocks s' -> nth_error (as_threads s') t = Some th ->
     map decl_of (cs_meths (as_base s')) = map decl_of (cs_meths (as_base s)) -> atstep c ps (as_base s') t th = (as_base s', th)) ->
  alocks s -> nth_error (as_threads s) t = Some th ->
  nth_error (as_threads (arun c ps s more)) t = Some th.
Proof.
  induction more as [|t' more IH]; intros s H L N; [exact N|]. cbn [arun].
  assert (L1 : alocks (astep c ps s t')) by (apply alocks_astep; exact L).
  assert (N1 : nth_error (as_threads (astep c ps s t')) t = Some th /\
    map decl_of (cs_meths (as_base (astep c ps s t'))) = map decl_of (cs_meths (as_base s))).
  { unfold astep. destruct (nth_error (as_threads s) t') as [th'|] eqn:N'; [|auto].
    destruct (atstep c ps (as_base s) t' th') as [b1 th1] eqn:T. cbn [as_threads as_base]. split.
    - rewrite nth_set_nth, N'. destruct (Nat.eqb_spec t t') as [<-|NE]; [|exact N].
      assert (th' = th) as -> by congruence. rewrite (H s L N eq_refl) in T. injection T as _ <-. reflexivity.
    - apply atstep_case in T; [|apply (al_chain _ L _ _ N')].
      destruct T; try reflexivity; try (eapply pstep_decls; eassumption).
      all: try (cbn [put_user put_world cs_meths]; eapply pstep_decls; eassumption).
      all: match goal with [H : ask_end _ _ _ _ = _ |- _] => rewrite (ask_end_decls _ _ _ _ _ _ H) end; reflexivity. }
  destruct N1 as [N1 D]. apply IH; auto. intros s' L' N2 D2. apply H; auto. congruence.
Qed.

Lemma waits_for_matcher c ps (s : asys) t todo y i below out q :
  alocks s -> nth_error (as_threads s) t = Some (AThread todo (FCall (PLockM y i) :: below) out) ->
  In q below -> runs_predicate (cc_m y) i q = true ->
  forall more, nth_error (as_threads (arun c ps s more)) t = Some (AThread todo (FCall (PLockM y i) :: below) out).
Proof.
  intros L N I R more. apply stays; auto. clear L N. intros s' L N _.
  assert (MH : fpc q = PEval (match fpc q with PEval x _ => x | _ => y end) i /\
    cc_m (match fpc q with PEval x _ => x | _ => y end) = cc_m y).
  { destruct q as [p|x j r]; simpl in R.
    - destruct p; try discriminate R. apply andb_true_iff in R as [R1 R2]. apply Nat.eqb_eq in R1, R2. subst. auto.
    - apply andb_true_iff in R as [R1 R2]. apply Nat.eqb_eq in R1, R2. subst. auto. }
  destruct MH as [MH MC]. set (x := match fpc q with PEval x _ => x | _ => y end) in *.
  assert (ML : cs_ml (as_base s') (cc_m y) i = Some t).
  { apply (al_m _ L (cc_m y, i)). eexists. split; [exact N|]. cbn [at_stack map]. exists (fpc q). split.
    - right. apply in_map. exact I.
    - rewrite MH. simpl. rewrite MC. reflexivity. }
  assert (CE : cexp (as_base s') (cc_m y) i <> None).
  { destruct (al_ok _ L _ _ q N (or_intror I)) as (_ & P2 & _). apply P2. rewrite MH. simpl. rewrite MC. reflexivity. }
  unfold atstep. cbn [request asking pc_call].
  destruct (nth_error (cs_meths (as_base s')) (cc_m y)) as [cm|]; [|reflexivity].
  unfold pstep. destruct (cexp (as_base s') (cc_m y) i) as [e|]; [|congruence]. rewrite ML. reflexivity.
Qed.

Lemma waits_for_store c ps (s : asys) t todo y below out q cm g :
  alocks s -> nth_error (as_threads s) t = Some (AThread todo (FCall (PLockS y) :: below) out) ->
  nth_error (cs_meths (as_base s)) (cc_m y) = Some cm -> cm_mutex cm = Some g ->
  In q below -> in_store (as_base s) g q ->
  forall more, nth_error (as_threads (arun c ps s more)) t = Some (AThread todo (FCall (PLockS y) :: below) out).
Proof.
  intros L N CM G I IS more. apply stays; auto. clear L N. intros s' L N D.
  assert (SH : sheld (as_base s') (fpc q) = Some g).
  { destruct IS as (x & cmx & Q & CX & GX).
    assert (PX : pc_call (fpc q) = Some x /\ forall z, fpc q <> PLockS z).
    { destruct q as [p|z j r]; simpl.
      - destruct p; try (destruct Q; fail); split; auto; discriminate.
      - subst z. split; [reflexivity|discriminate]. }
    destruct PX as [PX NL].
    pose proof (proj1 (decls_mutex _ _ (cc_m x) D)) as E. rewrite CX in E.
    unfold sheld. destruct (fpc q); try (rewrite PX, E; exact GX); destruct (NL _ eq_refl). }
  assert (SL : cs_sl (as_base s') g = Some t).
  { apply (al_s _ L g). eexists. split; [exact N|]. cbn [at_stack map]. exists (fpc q). split; [|exact SH].
    right. apply in_map. exact I. }
  unfold atstep. cbn [request asking pc_call].
  pose proof (proj1 (decls_mutex _ _ (cc_m y) D)) as E. rewrite CM in E.
  destruct (nth_error (cs_meths (as_base s')) (cc_m y)) as [cm'|]; [|reflexivity].
  unfold pstep. rewrite E, G, SL. reflexivity.
Qed.

End AskProofs.
