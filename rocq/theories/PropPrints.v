(** * PropPrints: when the user's [Debug] and [Display] implementations run (C89) *)

From Coq Require Import Arith NArith List Bool String Lia.
From Verif Require Import Base Times Expect Mock Spec SysSpec FifoProofs Prints PrintsSpec PrintsProofs PrintsLog.
Import ListNotations.
Open Scope N_scope.
Open Scope list_scope.

(** Implementations that return their texts, and whose effects the other code of the test cannot see,
    change nothing: every test has the results of [Mock.v]. *)
Theorem unseen_printing_changes_nothing :
  forall (V U O : Type) (obs : U -> O) (p : printers V U) c sh u decls ops y rs y' rs',
  unseen obs p -> (forall o, In o ops -> sees_op obs o) ->
  run c sh (init u decls) ops = (y, rs) -> run_p p c sh (init u decls) ops = (y', rs') ->
  rs' = rs /\ y_objs y' = y_objs y /\ y_stats y' = y_stats y /\ y_seqs y' = y_seqs y /\
  w_levels (y_world y') = w_levels (y_world y) /\ obs (w_user (y_world y')) = obs (w_user (y_world y)).
Proof.
  intros V U O obs p c sh u decls ops y rs y' rs' HP HS R R'.
  assert (Y : ysame obs (init u decls) (init u decls)) by (repeat split).
  destruct (run_unseen obs p HP c sh ops HS _ _ Y (init_sees obs u decls)) as (A & (W & B & D & F)).
  rewrite R, R' in *. cbn [fst snd] in *. destruct W as (W1 & W2 & _). auto 10.
Qed.
Print Assumptions unseen_printing_changes_nothing.

(** ** A method of numbers, with a log of what is printed. *)
Definition prn : method N := Method "MockFoo::foo" "MockFoo::foo" None (fun _ => "n"%string).
Definition prd (kd : kind) : mdecl N := MDecl prn kd false false.
Definition prs (kd : kind) : mdecl N := MDecl prn kd false true.
Definition logger : printers N (list string) :=
  Printers (fun me v u => (u ++ ["arg"%string], Ret (me_debug me v))) (fun n u => (u ++ [n], Ret n)).
Definition small : pred N (list string) := ("small"%string, fun a u => (u, Ret (a <? 10))).
Definition seven : ucode (list string) (list N) N := fun _ u => (u, Ret 7).
Definition id_order (s : gstore N (list string)) : gstore N (list string) := s.
(** A test that expects two calls, and makes two and one that does not match. *)
Definition prtest (kd : kind) : list (op N (list string)) :=
  [ONew (SDecl [] [prd kd]); OExpect 0%nat 0%nat 0%nat [StWith [small]; StTimes (ANum 2); StReturning seven];
   OCall 0%nat 0%nat 0%nat [3] (fun v => v); OCall 0%nat 0%nat 0%nat [50] (fun v => v); OCall 0%nat 0%nat 0%nat [4] (fun v => v); ODrop 0].

Example unseen_printing_changes_nothing_applies :
  unseen (fun _ : list string => tt) logger /\
  (forall o, In o (prtest KStatic) -> sees_op (fun _ => tt) o) /\
  snd (run debug64 id_order (init [] []) (prtest KStatic)) =
    [Ret None; Ret None; Ret (Some 7); Panic (MNoMatch "MockFoo::foo(n)"); Ret (Some 7); Ret None].
Proof.
  split; [split; intros; eexists; split; reflexivity|]. split; [|vm_compute; reflexivity].
  intros o H. cbn in H. repeat (destruct H as [<-|H]); try contradiction; cbn; auto.
  intros st H. repeat (destruct H as [<-|H]); try contradiction; cbn; auto.
  - intros q [<-|[]] a u u' _. split; reflexivity.
  - intros a u u' _. split; reflexivity.
Qed.

Lemma prints_each_all {U A} (f : A -> U -> U * res string) l u u' r :
  prints_each f l u u' r -> print_all (map f l) u = (u', r).
Proof.
  induction 1 as [u|a l u u1 s u' ss E F IH|a l u u1 s u' m E F IH|a l u u' m E]; cbn [map print_all];
    rewrite ?E, ?IH; reflexivity.
Qed.
Lemma prints_each_args {V U} (p : printers V U) me args u u' r :
  prints_each (p_arg p me) args u u' r -> print_args p me args u = (u', r).
Proof. exact (prints_each_all (p_arg p me) args u u' r). Qed.
Lemma prints_each_ends {U A} (f : A -> U -> U * res string) l u u' r : prints_each f l u u' r -> r <> Abort.
Proof. induction 1; discriminate. Qed.

(** Before anything else, a call prints its arguments.  If this panics the call does, and nothing
    has happened: whatever is expected, and even if the store of a static function is poisoned. *)
Theorem arguments_are_printed_first :
  forall (V U : Type) (p : printers V U) c sh (y : sys V U) k args u m,
  (forall o f_i wr ob f,
     nth_error (y_objs y) o = Some ob -> nth_error ob f_i = Some f ->
     prints_each (p_arg p (md_me (f_decl f))) args (w_user (y_world y)) u (Panic m) ->
     step_p p c sh y (OCall o f_i k args wr) = (set_world y (set_user (y_world y) u), Panic m)) /\
  (forall s md sm,
     nth_error (y_stats y) s = Some (md, sm) ->
     prints_each (p_arg p (md_me md)) args (w_user (y_world y)) u (Panic m) ->
     step_p p c sh y (OStaticCall s k args) = (set_world y (set_user (y_world y) u), Panic m)).
Proof.
  intros V U p c sh y k args u m.
  assert (S : forall A (l : list A) i x, nth_error l i = Some x -> set_nth l i x = l).
  { intros A l. induction l as [|a l IH]; intros [|i] x; cbn; try discriminate; [congruence|]. intros H. rewrite (IH i x H). reflexivity. }
  split.
  - intros o fi wr ob f N1 N2 E. apply prints_each_args in E. cbn [step_p]. rewrite N1, N2. unfold field_call_p. rewrite E.
    rewrite (S _ _ _ _ N2), (S _ _ _ _ N1). destruct y. reflexivity.
  - intros s md sm N1 E. apply prints_each_args in E. cbn [step_p]. rewrite N1. unfold static_call_p. rewrite E.
    rewrite (S _ _ _ _ N1). destruct y. reflexivity.
Qed.
Print Assumptions arguments_are_printed_first.

(** A [Debug] implementation that panics: the call that the expectation would answer. *)
Definition panicker : printers N (list string) :=
  Printers (fun _ v u => (u, if v =? 3 then Panic (MUser 1) else Ret "n"%string)) (fun n u => (u, Ret n)).
Example arguments_are_printed_first_applies :
  let y := fst (run_p panicker debug64 id_order (init [] []) (firstn 2 (prtest KStatic))) in
  (exists ob f, nth_error (y_objs y) 0 = Some ob /\ nth_error ob 0 = Some f /\
     prints_each (p_arg panicker (md_me (f_decl f))) [4; 3] (w_user (y_world y)) [] (Panic (MUser 1))) /\
  snd (step_p panicker debug64 id_order y (OCall 0%nat 0%nat 0%nat [4] (fun v => v))) = Ret (Some 7).
Proof. cbv zeta. split; [eexists; eexists; split; [vm_compute; reflexivity|split; [vm_compute; reflexivity|eapply PeLater; [|eapply PePanic]; vm_compute; reflexivity]]|vm_compute; reflexivity]. Qed.

(** Whether it needs the text or not, a call prints its arguments once if it chooses no expectation
    and twice if it does; if it then returns a [&mut] reference it also prints the predicates.  Only
    if it panics it may print predicates otherwise. *)
Theorem calls_print_their_arguments_twice :
  forall (V U E : Type) (log : U -> list E) said told (p : printers V U) c k args w,
  logged log said told p ->
  (forall f wr f' w' r,
     (forall e, In e (slot_get (f_slot f) k) -> quiet_matcher log (c_matcher (e_common e)) /\ quiet_closure log e) ->
     field_call_p p c f k args wr w = (f', w', r) ->
     exists more, log (w_user w') = log (w_user w) ++ more /\
       call_prints said told c (md_me (f_decl f)) (slot_get (f_slot f) k) (slot_get (f_slot f') k) args r more) /\
  (forall md sm sm' w' r,
     (forall e, In e (slot_get (sm_slot sm) k) -> quiet_matcher log (c_matcher (e_common e)) /\ quiet_closure log e) ->
     static_call_p p c md sm k args w = (sm', w', r) ->
     exists more, log (w_user w') = log (w_user w) ++ more /\
       call_prints said told c (md_me md) (slot_get (sm_slot sm) k) (slot_get (sm_slot sm') k) args r more).
Proof.
  intros V U E log said told p c k args w HL. split.
  - intros f wr f' w' r Q X. eapply field_call_logged; [exact HL| |exact X]. apply Forall_forall. exact Q.
  - intros md sm sm' w' r Q X. eapply static_call_logged; [exact HL| |exact X]. apply Forall_forall. exact Q.
Qed.
Print Assumptions calls_print_their_arguments_twice.

(** The test above: two answered calls and one that isn't, of a method that returns a value, and of
    one that returns [&mut T]; then the drop, which prints the predicate. *)
Example calls_print_their_arguments_twice_applies :
  logged (fun u => u) (fun _ _ => ["arg"%string]) (fun n => [n]) logger /\
  (let y := fst (run_p logger debug64 id_order (init [] []) (firstn 2 (prtest KStatic))) in
   exists ob f, nth_error (y_objs y) 0 = Some ob /\ nth_error ob 0 = Some f /\
   forall e, In e (slot_get (f_slot f) 0%nat) -> quiet_matcher (fun u => u) (c_matcher (e_common e)) /\ quiet_closure (fun u => u) e) /\
  w_user (y_world (fst (run_p logger debug64 id_order (init [] []) (prtest KStatic)))) =
    ["arg"; "arg"; "arg"; "arg"; "arg"; "small"]%string /\
  w_user (y_world (fst (run_p logger debug64 id_order (init [] []) (prtest KMut)))) =
    ["arg"; "arg"; "small"; "arg"; "arg"; "arg"; "small"; "small"]%string.
Proof.
  split; [split; intros; eexists; eexists; split; reflexivity|]. split; [|split; vm_compute; reflexivity].
  cbv zeta. eexists; eexists. split; [vm_compute; reflexivity|]. split; [vm_compute; reflexivity|].
  intros e [<-|[]]. split.
  - intros q [<-|[]] a u. reflexivity.
  - intros f H. vm_compute in H. inversion H. intros a u. reflexivity.
Qed.

(** The second time, the expectation is chosen but has not counted the call.  If this panics (and the
    first time did not) a mock object is as it was; the store of a static function is poisoned. *)
Theorem the_second_printing_comes_before_the_count :
  forall (V U : Type) (p : printers V U) c k args w u1 texts s me i e bs w1 u2 m,
  let es := slot_get s k in
  prints_each (p_arg p me) args (w_user w) u1 (Ret texts) ->
  Forall proper es -> nth_error es i = Some e ->
  consulted (firstn (S i) es) args (set_user w u1) bs w1 -> nth_error bs i = Some true ->
  takes (List.length es = 1%nat) e ->
  (forall j e' b, (j < i)%nat -> nth_error es j = Some e' -> nth_error bs j = Some b ->
     passes (List.length es = 1%nat) e' b) ->
  prints_each (p_arg p me) args (w_user w1) u2 (Panic m) ->
  (forall (f : field V U) wr, f_slot f = s -> md_me (f_decl f) = me ->
     field_call_p p c f k args wr w = (f, set_user w1 u2, Panic m)) /\
  (forall (md : mdecl V) (sm : smutex V U), sm_slot sm = s -> md_me md = me -> sm_poison sm = false ->
     static_call_p p c md sm k args w = (SMutex (negb (w_panicking w)) s, set_user w1 u2, Panic m)).
Proof.
  intros V U p c k args w u1 texts s me i e bs w1 u2 m es P1 HP NE CO B T F P2. apply prints_each_args in P1, P2.
  assert (S : forall A (l : list A) i x, nth_error l i = Some x -> set_nth l i x = l).
  { intros A l. induction l as [|a l IH]; intros [|n] x; cbn; try discriminate; [congruence|]. intros H. rewrite (IH n x H). reflexivity. }
  assert (X : forall wr, expectations_call_p p c me es args wr (set_user w u1) = (es, set_user w1 u2, Panic m)).
  { intros wr. unfold expectations_call_p. rewrite (find_exp_pick c _ es args (set_user w u1) i e bs w1); auto.
    - rewrite NE. unfold expectation_call_p. rewrite P2. rewrite (S _ _ _ _ NE). reflexivity.
    - destruct T as [T|T]; [left; auto|right; apply PeanoNat.Nat.eqb_eq; auto].
    - intros j e0 b Hj He Hb. destruct (F j e0 b Hj He Hb) as [Q|[Q1 Q2]]; auto.
      right; split; auto. apply PeanoNat.Nat.eqb_neq; auto. }
  assert (Y : forall md wr, md_me md = me -> slot_call_p p c md s k args wr (set_user w u1) = (s, set_user w1 u2, Panic m)).
  { intros md wr M. subst es. destruct s as [es|st]; cbn [slot_call_p slot_get] in *.
    - rewrite M, X. reflexivity.
    - destruct (gget st k) as [es|] eqn:G; [|destruct i; discriminate]. rewrite M, X.
      rewrite gput_same_id by exact G. reflexivity. }
  split.
  - intros f wr <- <-. unfold field_call_p. rewrite P1. rewrite Y by reflexivity. destruct f. reflexivity.
  - intros md sm <- <- NP. unfold static_call_p. rewrite P1, NP. rewrite Y by reflexivity. reflexivity.
Qed.
Print Assumptions the_second_printing_comes_before_the_count.

(** A [Debug] implementation that panics the second time. *)
Definition once_only : printers N (list string) :=
  Printers (fun _ _ u => (u ++ ["arg"%string], if (List.length u <? 1)%nat then Ret "n"%string else Panic (MUser 1)))
           (fun n u => (u, Ret n)).
Example the_second_printing_comes_before_the_count_applies :
  let y := fst (run_p once_only debug64 id_order (init [] [prs KStatic])
                  [OCtxExpect 0%nat 0%nat [StTimes (ANum 2); StReturning seven]]) in
  exists sm e,
    nth_error (y_stats y) 0 = Some (prs KStatic, sm) /\ sm_poison sm = false /\
    slot_get (sm_slot sm) 0%nat = [e] /\
    prints_each (p_arg once_only prn) [3] (w_user (y_world y)) ["arg"%string] (Ret ["n"%string]) /\
    Forall proper [e] /\
    consulted [e] [3] (set_user (y_world y) ["arg"%string]) [true] (set_user (y_world y) ["arg"%string]) /\
    takes True e /\
    prints_each (p_arg once_only prn) [3] ["arg"%string] ["arg"; "arg"]%string (Panic (MUser 1)).
Proof.
  cbv zeta. eexists; eexists. split; [vm_compute; reflexivity|]. split; [reflexivity|]. split; [vm_compute; reflexivity|].
  split; [eapply PeText; [vm_compute; reflexivity|constructor]|]. split; [repeat constructor; unfold proper; cbn; lia|]. split.
  { eexists. split; [split; reflexivity|]. reflexivity. }
  split; [right; exact I|apply PePanic; vm_compute; reflexivity].
Qed.

(** A chosen expectation that fails (the call is one too many, or there is nothing to return) prints
    its predicates for the message.  If this panics, the test sees that panic instead of the message,
    and the expectation's matcher is poisoned. *)
Theorem failing_calls_print_predicates :
  forall (V U : Type) (p : printers V U) c k args w u1 texts s me i e bs w1 u2 texts2 ps u3 d,
  let es := slot_get s k in
  prints_each (p_arg p me) args (w_user w) u1 (Ret texts) ->
  Forall proper es -> nth_error es i = Some e ->
  consulted (firstn (S i) es) args (set_user w u1) bs w1 -> nth_error bs i = Some true ->
  takes (List.length es = 1%nat) e ->
  (forall j e' b, (j < i)%nat -> nth_error es j = Some e' -> nth_error bs j = Some b ->
     passes (List.length es = 1%nat) e' b) ->
  prints_each (p_arg p me) args (w_user w1) u2 (Ret texts2) ->
  c_matcher (e_common e) = MtPred ps -> c_mpoison (e_common e) = false ->
  prints_each (fun q => p_pred p (fst q)) ps u2 u3 d ->
  count_of e < umax c -> 1 <= rend (trange_of (c_times (e_common e))) ->
  rend (trange_of (c_times (e_common e))) <= count_of e + 1 \/
    (c_seq (e_common e) = None /\ no_value c me (e_action e)) ->
  exists e' msg,
    (forall (f : field V U) wr, f_slot f = s -> md_me (f_decl f) = me ->
       exists f', field_call_p p c f k args wr w = (f', set_user w1 u3, Panic msg) /\
         slot_get (f_slot f') k = set_nth es i e') /\
    (forall (md : mdecl V) (sm : smutex V U), sm_slot sm = s -> md_me md = me -> sm_poison sm = false ->
       exists sm', static_call_p p c md sm k args w = (sm', set_user w1 u3, Panic msg) /\
         sm_poison sm' = negb (w_panicking w) /\ slot_get (sm_slot sm') k = set_nth es i e') /\
    count_of e' = count_of e + 1 /\
    match d with
    | Ret l => (exists x, msg = MCall (me_name me) (join_comma l) x \/ exists x, msg = MRet (me_name me) (join_comma l) x) /\
               c_mpoison (e_common e') = false
    | Panic m => msg = m /\ c_mpoison (e_common e') = negb (w_panicking w1)
    | Abort => False
    end.
Proof.
  intros V U p c k args w u1 texts s me i e bs w1 u2 texts2 ps u3 d es P1 HP NE CO B T F P2 MP NP P3 LT RE FA.
  pose proof (prints_each_ends _ _ _ _ _ P3) as NA. apply prints_each_all in P3. apply prints_each_args in P1, P2.
  assert (X : exists e' msg,
     (forall wr, expectation_call_p p c me e args wr w1 = (e', set_user w1 u3, Panic msg)) /\
     count_of e' = count_of e + 1 /\
     match d with
     | Ret l => (exists x, msg = MCall (me_name me) (join_comma l) x \/ exists x, msg = MRet (me_name me) (join_comma l) x) /\
                c_mpoison (e_common e') = false
     | Panic m => msg = m /\ c_mpoison (e_common e') = negb (w_panicking w1)
     | Abort => False
     end).
  { assert (PL : forall t, print_locked p (set_times (e_common e) t) (set_user w1 u2) =
        (match d with Panic _ => Common (MtPred ps) (negb (w_panicking w1)) (c_seq (e_common e)) t
         | _ => set_times (e_common e) t end, set_user w1 u3, let? l := d in Ret (join_comma l))).
    { intros t. unfold print_locked, print_matcher. cbn [set_times c_mpoison c_matcher c_seq c_times set_user w_user w_panicking].
      rewrite NP, MP, P3. destruct d; reflexivity. }
    assert (TC : times_call c (c_times (e_common e)) =
       (Times (count_of e + 1) (trange_of (c_times (e_common e))),
        if rend (trange_of (c_times (e_common e))) <=? count_of e + 1
        then Ret (Err (if rend (trange_of (c_times (e_common e))) =? 1 then TeNever
                       else TeTooMany (count_of e + 1) (rend (trange_of (c_times (e_common e))) - 1)))
        else Ret (Ok tt))).
    { unfold times_call, uwrap1, uadd1, usub, count_of in *. apply N.ltb_lt in LT. rewrite LT. cbn [rbind].
      apply N.leb_le in RE. rewrite RE.
      destruct (rend (trange_of (c_times (e_common e))) <=? _); [|reflexivity].
      destruct (rend (trange_of (c_times (e_common e))) =? 1); reflexivity. }
    unfold expectation_call_p. rewrite P2. unfold common_call_p. rewrite TC.
    destruct (rend _ <=? _) eqn:L.
    - rewrite PL. destruct d as [l|m|]; [| |congruence]; eexists; eexists; (split; [intros wr; reflexivity|]);
        (split; [reflexivity|]); cbn.
      + split; [eexists; left; reflexivity|exact NP].
      + split; reflexivity.
    - destruct FA as [FA|(SQ & NV)]; [apply N.leb_le in FA; congruence|].
      unfold verify_sequence, satisfy_sequence. cbn [set_times c_seq]. rewrite SQ.
      set (T0 := Times (count_of e + 1) (trange_of (c_times (e_common e)))) in *.
      assert (RW : match times_is_satisfied T0 with
         | TooFew => (set_times (e_common e) T0, set_user w1 u2, Ret tt)
         | _ => let (w', r') := (set_user w1 u2, @Ret unit tt) in (set_times (e_common e) T0, w', r') end
         = (set_times (e_common e) T0, set_user w1 u2, Ret tt)) by (destruct (times_is_satisfied T0); reflexivity).
      rewrite RW. clear RW.
      inversion NV as [EA|H EA|EA|EA].
      + unfold static_ret_p, srfunc_call, unwrap_p. rewrite PL.
        destruct d as [l|m|]; [| |congruence]; eexists; eexists; (split; [intros wr; reflexivity|]); (split; [reflexivity|]); cbn.
        * split; [exists TeNever; right; eexists; reflexivity|exact NP].
        * split; reflexivity.
      + assert (RD : exists x, return_default c (me_default me) = Err x).
        { unfold return_default. destruct H as [->| ->]; [eauto|]. destruct (nightly c); eauto. }
        destruct RD as (x & RD). unfold static_ret_p, srfunc_call. rewrite RD. unfold unwrap_p. rewrite PL.
        destruct d as [l|m|]; [| |congruence]; eexists; eexists; (split; [intros wr; reflexivity|]); (split; [reflexivity|]); cbn.
        * split; [exists TeNever; right; eexists; reflexivity|exact NP].
        * split; reflexivity.
      + unfold rrfunc_call, unwrap_p. rewrite PL.
        destruct d as [l|m|]; [| |congruence]; eexists; eexists; (split; [intros wr; reflexivity|]); (split; [reflexivity|]); cbn.
        * split; [exists TeNever; right; eexists; reflexivity|exact NP].
        * split; reflexivity.
      + unfold mut_ret_p. rewrite PL.
        destruct d as [l|m|]; [| |congruence]; eexists; eexists; (split; [intros wr; reflexivity|]); (split; [reflexivity|]); cbn.
        * split; [exists TeNever; right; eexists; reflexivity|exact NP].
        * split; reflexivity. }
  destruct X as (e' & msg & X & CE & D). exists e', msg.
  assert (Z : forall wr, expectations_call_p p c me es args wr (set_user w u1) = (set_nth es i e', set_user w1 u3, Panic msg)).
  { intros wr. unfold expectations_call_p. rewrite (find_exp_pick c _ es args (set_user w u1) i e bs w1); auto.
    - rewrite NE, X. reflexivity.
    - destruct T as [T|T]; [left; auto|right; apply PeanoNat.Nat.eqb_eq; auto].
    - intros j e0 b Hj He Hb. destruct (F j e0 b Hj He Hb) as [Q|[Q1 Q2]]; auto.
      right; split; auto. apply PeanoNat.Nat.eqb_neq; auto. }
  assert (Y : forall md wr, md_me md = me -> exists s', slot_call_p p c md s k args wr (set_user w u1) = (s', set_user w1 u3, Panic msg) /\
     slot_get s' k = set_nth es i e').
  { intros md wr M. subst es. destruct s as [es|st]; cbn [slot_call_p slot_get] in *.
    - rewrite M, Z. eexists. split; reflexivity.
    - destruct (gget st k) as [es|] eqn:G; [|destruct i; discriminate]. rewrite M, Z.
      eexists. split; [reflexivity|]. cbn [slot_get]. rewrite gget_gput_same. reflexivity. }
  split; [|split; [|split; [exact CE|exact D]]].
  - intros f wr <- <-. destruct (Y (f_decl f) wr eq_refl) as (s' & E1 & E2).
    unfold field_call_p. rewrite P1, E1. eexists. split; [reflexivity|exact E2].
  - intros md sm <- <- N. destruct (Y md (fun v => v) eq_refl) as (s' & E1 & E2).
    unfold static_call_p. rewrite P1, N, E1. eexists. split; [reflexivity|]. split; [reflexivity|exact E2].
Qed.
Print Assumptions failing_calls_print_predicates.

(** The second call of an expectation that allows one, with a [Display] implementation that panics. *)
Example failing_calls_print_predicates_applies :
  let q := Printers (fun (_ : method N) _ (u : list string) => (u, Ret "n"%string)) (fun _ u => (u ++ ["pred"%string], Panic (MUser 2))) in
  let y := fst (run_p q debug64 id_order (init [] [])
     [ONew (SDecl [] [prd KStatic]); OExpect 0%nat 0%nat 0%nat [StWith [small]; StTimes (ANum 1); StReturning seven];
      OCall 0%nat 0%nat 0%nat [3] (fun v => v)]) in
  exists f e,
    nth_error (y_objs y) 0 = Some [f] /\ slot_get (f_slot f) 0%nat = [e] /\ proper e /\
    consulted [e] [4] (y_world y) [true] (y_world y) /\ takes True e /\
    c_matcher (e_common e) = MtPred [small] /\ c_mpoison (e_common e) = false /\
    count_of e < umax debug64 /\ rend (trange_of (c_times (e_common e))) = 2 /\ 2 <= count_of e + 1 /\
    snd (run_p q debug64 id_order y [OCall 0%nat 0%nat 0%nat [4] (fun v => v); OCall 0%nat 0%nat 0%nat [4] (fun v => v)]) =
      [Panic (MUser 2); Panic MPoison].
Proof.
  cbv zeta. eexists; eexists. split; [vm_compute; reflexivity|]. split; [vm_compute; reflexivity|].
  split; [unfold proper; cbn; lia|]. split.
  { eexists. split; [split; reflexivity|]. reflexivity. }
  split; [right; exact I|]. split; [reflexivity|]. split; [reflexivity|]. split; [vm_compute; reflexivity|].
  split; [reflexivity|]. split; [vm_compute; discriminate|vm_compute; reflexivity].
Qed.

(** Dropping a mock prints the predicates of each of its expectations, up to the first that is not
    satisfied; when the thread is panicking nothing is printed.  So does [checkpoint]. *)
Theorem drops_print_predicates :
  forall (V U E : Type) (log : U -> list E) said told (p : printers V U) c sh (y : sys V U) i ob,
  logged log said told p -> nth_error (y_objs y) i = Some ob ->
  (forall o y' r, o = ODrop i \/ o = OCheckpoint i -> w_panicking (y_world y) = false ->
     step_p p c sh y o = (y', r) ->
     exists more, log (w_user (y_world y')) = log (w_user (y_world y)) ++ more /\
       drop_prints told (object_order sh ob) more /\ (r = Ret None <-> Forall sound (object_order sh ob))) /\
  (forall y' r, w_panicking (y_world y) = true -> step_p p c sh y (ODrop i) = (y', r) ->
     w_user (y_world y') = w_user (y_world y) /\ r = Ret None).
Proof.
  intros V U E log said told p c sh y i ob HL N. split.
  - intros o y' r [-> | ->] W; cbn [step_p]; rewrite N, W.
    + destruct (proj2 (object_drops log said told p HL c sh ob) (w_user (y_world y))) as (u' & r' & more & -> & NA & L & D & R).
      intros X. inversion X; subst. exists more. split; [exact L|]. split; [exact D|]. rewrite <- R.
      destruct r' as [[]|m|]; cbn; split; congruence.
    + destruct (object_checkpoint_drops log said told p HL c sh ob (w_user (y_world y))) as (u' & r' & more & o' & -> & NA & L & D & R).
      intros X. inversion X; subst. exists more. split; [exact L|]. split; [exact D|]. rewrite <- R.
      destruct r' as [[]|m|]; cbn; split; congruence.
  - intros y' r W. cbn [step_p]. rewrite N, W.
    rewrite (proj1 (object_drops log said told p HL c sh ob) (w_user (y_world y))).
    intros X. inversion X; subst. split; reflexivity.
Qed.
Print Assumptions drops_print_predicates.

(** Likewise for static functions: the drop of a context, and [checkpoint]. *)
Theorem context_drops_print_predicates :
  forall (V U E : Type) (log : U -> list E) said told (p : printers V U) c sh (y : sys V U) s md sm,
  logged log said told p -> nth_error (y_stats y) s = Some (md, sm) ->
  (forall o y' r, o = OCtxDrop s \/ o = OCtxCheckpoint s ->
     w_panicking (y_world y) = false -> sm_poison sm = false ->
     step_p p c sh y o = (y', r) ->
     exists more, log (w_user (y_world y')) = log (w_user (y_world y)) ++ more /\
       drop_prints told (drop_order sh (sm_slot sm)) more /\ (r = Ret None <-> Forall sound (drop_order sh (sm_slot sm)))) /\
  (forall y' r, w_panicking (y_world y) = true -> step_p p c sh y (OCtxDrop s) = (y', r) ->
     w_user (y_world y') = w_user (y_world y) /\ r = Ret None).
Proof.
  intros V U E log said told p c sh y s md sm HL N.
  destruct (slot_drops log said told p HL c sh md (sm_slot sm)) as (T & F). split.
  - intros o y' r H W NP. destruct (F (w_user (y_world y))) as (u' & r' & more & D0 & NA & L & D & R).
    assert (G : step_p p c sh y o = (set_world (set_stats y (set_nth (y_stats y) s (md, SMutex false (slot_clear (sm_slot sm)))))
                                       (set_user (y_world y) u'), unit_res r')).
    { destruct H as [-> | ->]; cbn [step_p]; rewrite N, W; unfold context_drop_p, static_checkpoint_p; rewrite NP, D0; reflexivity. }
    rewrite G. intros X. inversion X; subst. exists more. split; [exact L|]. split; [exact D|]. rewrite <- R.
    destruct r' as [[]|m|]; cbn; split; congruence.
  - intros y' r W. cbn [step_p]. rewrite N, W. unfold context_drop_p. rewrite T.
    intros X. inversion X; subst. split; reflexivity.
Qed.
Print Assumptions context_drops_print_predicates.

(** Two expectations, the first of which is satisfied. *)
Example drops_print_predicates_applies :
  let y := fst (run_p logger debug64 id_order (init [] [])
     [ONew (SDecl [] [prd KStatic]); OExpect 0%nat 0%nat 0%nat [StWith [small]; StTimes (ANum 1); StReturning seven];
      OExpect 0%nat 0%nat 0%nat [StWith [("big"%string, fun a u => (u, Ret (10 <=? a)))]; StTimes (ANum 1)];
      OCall 0%nat 0%nat 0%nat [3] (fun v => v)]) in
  (exists ob, nth_error (y_objs y) 0 = Some ob) /\ w_panicking (y_world y) = false /\
  let (y', r) := step_p logger debug64 id_order y (ODrop 0) in
  w_user (y_world y') = w_user (y_world y) ++ ["small"; "big"]%string /\
  r = Panic (MTooFew "MockFoo::foo" "big" 0 1).
Proof. cbv zeta. split; [eexists; vm_compute; reflexivity|]. split; vm_compute; [|split]; reflexivity. Qed.

Example context_drops_print_predicates_applies :
  let y := fst (run_p logger debug64 id_order (init [] [prs KStatic])
     [OCtxExpect 0%nat 0%nat [StWith [small]; StTimes (ANum 1); StReturning seven]; OStaticCall 0%nat 0%nat [3]]) in
  (exists sm, nth_error (y_stats y) 0 = Some (prs KStatic, sm) /\ sm_poison sm = false) /\ w_panicking (y_world y) = false /\
  let (y', r) := step_p logger debug64 id_order y (OCtxDrop 0) in
  w_user (y_world y') = w_user (y_world y) ++ ["small"%string] /\ r = Ret None.
Proof. cbv zeta. split; [eexists; split; vm_compute; reflexivity|]. split; vm_compute; [|split]; reflexivity. Qed.

(** That these implementations only matter for messages is false.  A test without a failure may fail
    because of them: by a [Debug] implementation that panics, as does an answered call; and by a
    [Display] implementation that panics, as does the drop of a satisfied mock. *)
Theorem printing_matters_only_for_messages_refuted :
  exists (ops : list (op N (list string))) (p p' : printers N (list string)),
  let good := run debug64 id_order (init [] []) ops in
  Forall (fun r => exists v, r = Ret v) (snd good) /\
  (forall v u, p_arg p' prn v u = (u, Ret (me_debug prn v))) /\ (forall n u, p_pred p n u = (u, Ret n)) /\
  nth_error (snd (run_p p debug64 id_order (init [] []) ops)) 2 = Some (Panic (MUser 1)) /\
  nth_error (snd (run_p p' debug64 id_order (init [] []) ops)) 3 = Some (Panic (MUser 1)).
Proof.
  exists [ONew (SDecl [] [prd KStatic]); OExpect 0%nat 0%nat 0%nat [StWith [small]; StTimes (ANum 1); StReturning seven];
          OCall 0%nat 0%nat 0%nat [3] (fun v => v); ODrop 0], panicker,
    (Printers (fun _ _ u => (u, Ret "n"%string)) (fun _ u => (u, Panic (MUser 1)))).
  split; [vm_compute; repeat constructor; eexists; reflexivity|].
  split; [reflexivity|]. split; [reflexivity|]. split; vm_compute; reflexivity.
Qed.
Print Assumptions printing_matters_only_for_messages_refuted.
