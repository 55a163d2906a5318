(** * LinProofs: calls of a static function happen one at a time *)

From Coq Require Import NArith List Bool String Lia Arith.
From Verif Require Import Base Times Expect Mock Conc ConcSpec ConcProofs LockProofs.
Import ListNotations.
Open Scope N_scope.

Lemma set_nth_twice {A} (l : list A) i x y : set_nth (set_nth l i x) i y = set_nth l i y.
Proof. revert i. induction l as [|a l IH]; intros [|i]; simpl; auto. f_equal. auto. Qed.

Lemma set_nth_same {A} (l : list A) i x : nth_error l i = Some x -> set_nth l i x = l.
Proof. revert i. induction l as [|a l IH]; intros [|i]; simpl; try discriminate; [congruence|]. intros. f_equal. auto. Qed.

Lemma firstn_snoc {A} (l : list A) i x : nth_error l i = Some x -> firstn (S i) l = firstn i l ++ [x].
Proof. revert i. induction l as [|a l IH]; intros [|i] H; simpl in *; try discriminate; [congruence|]. f_equal. auto. Qed.

Lemma skipn_cons {A} (l : list A) i x : nth_error l i = Some x -> skipn i l = x :: skipn (S i) l.
Proof.
  revert i. induction l as [|a l IH]; intros [|i] H; simpl in *; try discriminate; [congruence|].
  rewrite (IH _ H). reflexivity.
Qed.

Lemma set_nth_split {A} (l : list A) i x y : nth_error l i = Some x -> set_nth l i y = firstn i l ++ y :: skipn (S i) l.
Proof.
  revert i. induction l as [|a l IH]; intros [|i] H; simpl in *; try discriminate; auto.
  rewrite (IH _ H). reflexivity.
Qed.

Local Arguments skipn : simpl never.
Local Arguments firstn : simpl never.
Local Arguments times_call : simpl never.
Local Arguments common_is_done : simpl never.
Local Arguments common_matches : simpl never.
Local Arguments verify_sequence : simpl never.
Local Arguments satisfy_sequence : simpl never.
Local Arguments mut_ret : simpl never.
Local Arguments static_ret : simpl never.
Local Arguments show_locked : simpl never.
Local Arguments put_exp : simpl never.
Local Arguments cworld : simpl never.
Local Arguments set_nth : simpl never.

Section LinProofs.
Context {V U : Type}.
Notation csys := (csys V U).
Notation pc := (pc V U).
Notation ccall := (ccall V).

(** Bring [pstep] to its leaves. *)
Ltac leaves H :=
  unfold pstep, unlock_r in H;
  repeat match type of H with
  | context [match ?x with _ => _ end] =>
      lazymatch x with
      | context [match _ with _ => _ end] => fail
      | _ => let E := fresh "E" in destruct x eqn:E
      end
  end;
  injection H as <- <- <-.

(** ** What a call still has to do *)
Section Fin.
Context (c : cfg) (me : method V) (args : list V).
Notation outcome := (list (expectation V U) * world U * res (option V))%type.

Definition call_at (es : list (expectation V U)) (i : nat) (w : world U) : outcome :=
  match nth_error es i with
  | None => (es, w, Ret None)
  | Some e =>
      let '(e', w2, r2) := expectation_call c me e args (fun v => v) w in
      (set_nth es i e', w2, let? v := r2 in Ret (Some v))
  end.

Definition find_from (es : list (expectation V U)) (i : nat) (w : world U) : outcome :=
  let one := Nat.eqb (List.length es) 1 in
  let '(es2, w1, r) := find_exp c one (skipn i es) args w in
  let es1 := firstn i es ++ es2 in
  match r with
  | Abort => (es1, w1, Abort)
  | Panic m => (es1, w1, Panic m)
  | Ret None => (es1, w1, Ret None)
  | Ret (Some j) => call_at es1 (i + j) w1
  end.

Definition ret_at (es : list (expectation V U)) (i : nat) (w : world U) : outcome :=
  match nth_error es i with
  | None => (es, w, Ret None)
  | Some e =>
      match e_action e with
      | AStatic rf poison =>
          let '(a, w2, r2) := static_ret c me (e_common e) rf poison args w in
          (set_nth es i (Expectation (e_common e) a), w2, let? v := r2 in Ret (Some v))
      | ARef rf => (es, w, let? v := ref_ret c me (e_common e) rf in Ret (Some v))
      | AMut rf =>
          let '(rf', w2, r2) := mut_ret c me (e_common e) rf args (fun v => v) w in
          (set_nth es i (set_action e (AMut rf')), w2, let? v := r2 in Ret (Some v))
      end
  end.

Definition satisfy_at (es : list (expectation V U)) (i : nat) (w : world U) : outcome :=
  match nth_error es i with
  | None => (es, w, Ret None)
  | Some e =>
      let (w', r) := satisfy_sequence c (e_common e) w in
      match r with
      | Ret _ => ret_at es i w'
      | Panic m => (es, w', Panic m)
      | Abort => (es, w', Abort)
      end
  end.

Definition entered_at (es : list (expectation V U)) (i : nat) (w : world U) : outcome :=
  match nth_error es i with
  | None => (es, w, Ret None)
  | Some e =>
      match times_is_satisfied (c_times (e_common e)) with
      | TooFew => ret_at es i w
      | _ => satisfy_at es i w
      end
  end.

Definition exit_at (es : list (expectation V U)) (i : nat) (w : world U) (r : res V) : outcome :=
  match nth_error es i with
  | None => (es, w, Ret None)
  | Some e =>
      match e_action e with
      | AStatic rf _ =>
          (set_nth es i (Expectation (e_common e)
             (AStatic rf (match r with Panic _ => true | _ => false end))), w,
           let? v := r in Ret (Some v))
      | _ => (es, w, Ret None)
      end
  end.

Definition fin (p : pc) (es : list (expectation V U)) (w : world U) : outcome :=
  match p with
  | PIdle | PLockS _ => (es, w, Ret None)
  | PLockM _ i | PEval _ i => find_from es i w
  | PDone _ i =>
      match nth_error es i with
      | None => (es, w, Ret None)
      | Some e =>
          match common_is_done c (e_common e) with
          | Ret d => if (negb d || Nat.eqb (List.length es) 1)%bool then call_at es i w
                     else find_from es (S i) w
          | Panic m => (es, w, Panic m)
          | Abort => (es, w, Abort)
          end
      end
  | PCount _ i => call_at es i w
  | PShow _ i er =>
      match nth_error es i with
      | None => (es, w, Ret None)
      | Some e => (es, w, let? d := show_locked (e_common e) in Panic (MCall (me_name me) d er))
      end
  | PVerify _ i =>
      match nth_error es i with
      | None => (es, w, Ret None)
      | Some e =>
          match verify_sequence (e_common e) (call_desc me args) w with
          | Ret _ => entered_at es i w
          | Panic m => (es, w, Panic m)
          | Abort => (es, w, Abort)
          end
      end
  | PLoad1 _ i => entered_at es i w
  | PLoad2 _ i lower => if lower then satisfy_at es i w else ret_at es i w
  | PSatisfy _ i => satisfy_at es i w
  | PLockR _ i | PRun _ i => ret_at es i w
  | PExec _ i f => let (u, r) := f args (w_user w) in exit_at es i (set_user w u) r
  | PExit _ i r => exit_at es i w r
  | PShowR _ i er =>
      match nth_error es i with
      | None => (es, w, Ret None)
      | Some e =>
          let r := (let? d := show_locked (e_common e) in Panic (MRet (me_name me) d er)) in
          match e_action e with
          | AStatic rf _ => (set_nth es i (Expectation (e_common e) (AStatic rf true)), w, r)
          | _ => (es, w, r)
          end
      end
  | PFin _ r => (es, w, r)
  end.

(** The whole call. *)
Lemma fin_start es w : find_from es 0 w = expectations_call c me es args (fun v => v) w.
Proof.
  unfold find_from, expectations_call. rewrite skipn_O. simpl.
  destruct (find_exp c (Nat.eqb (List.length es) 1) es args w) as [[es1 w1] [[j|]|m|]]; auto.
Qed.

(** One expectation that does not take the call is passed over. *)
Lemma find_from_step es i w e :
  nth_error es i = Some e ->
  find_from es i w =
  let '(k, w1, r) := common_matches (e_common e) args w in
  let es1 := set_nth es i (set_common e k) in
  match r with
  | Ret false => find_from es1 (S i) w1
  | Ret true =>
      match common_is_done c k with
      | Ret d => if (negb d || Nat.eqb (List.length es) 1)%bool then call_at es1 i w1
                 else find_from es1 (S i) w1
      | Panic m => (es1, w1, Panic m)
      | Abort => (es1, w1, Abort)
      end
  | Panic m => (es1, w1, Panic m)
  | Abort => (es1, w1, Abort)
  end.
Proof.
  intros N. unfold find_from at 1. rewrite (skipn_cons _ _ _ N). simpl.
  destruct (common_matches (e_common e) args w) as [[k w1] r] eqn:CM.
  set (es1 := set_nth es i (set_common e k)).
  assert (E1 : es1 = firstn i es ++ set_common e k :: skipn (S i) es) by (apply set_nth_split with (x := e); auto).
  assert (LI : List.length (firstn i es) = i).
  { apply firstn_length_le. apply Nat.lt_le_incl. apply nth_error_Some. congruence. }
  assert (F1 : firstn (S i) es1 = firstn i es ++ [set_common e k]).
  { rewrite E1. rewrite firstn_app, LI. replace (S i - i)%nat with 1%nat by lia.
    rewrite (firstn_all2 (firstn i es)) by (rewrite LI; auto). reflexivity. }
  assert (S1 : skipn (S i) es1 = skipn (S i) es).
  { rewrite E1. rewrite skipn_app, LI. replace (S i - i)%nat with 1%nat by lia.
    rewrite (skipn_all2 (firstn i es)) by (rewrite LI; auto). reflexivity. }
  assert (NX : forall one, one = Nat.eqb (List.length es) 1 ->
    (let '(es2, w2, r0) :=
       let '(es2, w2, r2) := find_exp c one (skipn (S i) es) args w1 in
       (set_common e k :: es2, w2, let? o := r2 in Ret (option_map S o)) in
     match r0 with
     | Ret (Some j) => call_at (firstn i es ++ es2) (i + j) w2
     | Ret None => (firstn i es ++ es2, w2, Ret None)
     | Panic m => (firstn i es ++ es2, w2, Panic m)
     | Abort => (firstn i es ++ es2, w2, Abort)
     end) = find_from es1 (S i) w1).
  { intros one ->. unfold find_from. unfold es1 at 1. rewrite set_nth_length, S1, F1.
    destruct (find_exp c (Nat.eqb (List.length es) 1) (skipn (S i) es) args w1) as [[es2 w2] [[j|]|m|]]; simpl;
      rewrite <- app_assoc; simpl; auto. rewrite Nat.add_succ_r. reflexivity. }
  destruct r as [[|]|m|]; simpl.
  - destruct (common_is_done c k) as [d|m|] eqn:D; simpl; rewrite <- ?E1; auto.
    destruct (negb d || Nat.eqb (List.length es) 1)%bool eqn:B; simpl.
    + rewrite <- E1, Nat.add_0_r. reflexivity.
    + apply NX. reflexivity.
  - apply NX. reflexivity.
  - rewrite <- E1. reflexivity.
  - rewrite <- E1. reflexivity.
Qed.

Lemma nth_set_here {A} (l : list A) i x y : nth_error l i = Some x -> nth_error (set_nth l i y) i = Some y.
Proof. intros N. rewrite nth_set_nth, Nat.eqb_refl, N. reflexivity. Qed.

(** Calling expectation [i]: count, check the sequence, move it, answer. *)
Lemma call_at_step es i w e :
  nth_error es i = Some e ->
  call_at es i w =
  let (t', r) := times_call c (c_times (e_common e)) in
  let e1 := set_common e (set_times (e_common e) t') in
  let es1 := set_nth es i e1 in
  match r with
  | Ret (Ok _) =>
      match verify_sequence (e_common e1) (call_desc me args) w with
      | Ret _ => entered_at es1 i w
      | Panic m => (es1, w, Panic m)
      | Abort => (es1, w, Abort)
      end
  | Ret (Err er) => (es1, w, let? d := show_locked (e_common e1) in Panic (MCall (me_name me) d er))
  | Panic m => (es1, w, Panic m)
  | Abort => (es1, w, Abort)
  end.
Proof.
  intros N. unfold call_at. rewrite N. unfold expectation_call, common_call.
  destruct (times_call c (c_times (e_common e))) as [t' r] eqn:TC.
  set (k1 := set_times (e_common e) t').
  set (e1 := set_common e k1). set (es1 := set_nth es i e1).
  assert (N1 : nth_error es1 i = Some e1) by (eapply nth_set_here; eauto).
  assert (RET : forall w1,
    (let '(e', w2, r2) :=
      match e_action e with
      | AStatic rf poison =>
          let '(a, w2, r2) := static_ret c me k1 rf poison args w1 in (Expectation k1 a, w2, r2)
      | ARef rf => (set_common e k1, w1, ref_ret c me k1 rf)
      | AMut rf =>
          let '(rf', w2, r2) := mut_ret c me k1 rf args (fun v => v) w1 in
          (Expectation k1 (AMut rf'), w2, r2)
      end in
     (set_nth es i e', w2, let? v := r2 in Ret (Some v))) = ret_at es1 i w1).
  { intros w1. unfold ret_at. rewrite N1. unfold e1 at 1. simpl. destruct (e_action e) as [rf po|rf|rf].
    - simpl. destruct (static_ret c me k1 rf po args w1) as [[a w2] r2]. unfold es1. rewrite set_nth_twice. reflexivity.
    - reflexivity.
    - simpl. destruct (mut_ret c me k1 rf args (fun v => v) w1) as [[rf' w2] r2]. unfold es1, set_action.
      rewrite set_nth_twice. reflexivity. }
  destruct r as [[[]|er]|m|]; try reflexivity.
  - simpl e_common. fold k1. destruct (verify_sequence k1 (call_desc me args) w) as [[]|m|] eqn:VS; try reflexivity.
    unfold entered_at. rewrite N1. simpl e_common. simpl c_times.
    destruct (times_is_satisfied t') eqn:TS.
    + unfold satisfy_at. rewrite N1. simpl e_common.
      destruct (satisfy_sequence c k1 w) as [w1 [[]|m|]]; try reflexivity. apply RET.
    + unfold satisfy_at. rewrite N1. simpl e_common.
      destruct (satisfy_sequence c k1 w) as [w1 [[]|m|]]; try reflexivity. apply RET.
    + apply RET.
  - destruct (show_locked (e_common e)) eqn:SL; simpl.
    all: unfold show_locked in *; unfold e1, k1; simpl; destruct (c_mpoison (e_common e)); try discriminate SL; simpl; try reflexivity.
    all: injection SL as <-; reflexivity.
Qed.
End Fin.

(** ** One step of a call keeps what it will finally do *)
Definition inside (p : pc) : bool :=
  match p with PIdle | PLockS _ => false | _ => true end.

Lemma cexps_put_exp (s : csys) m i e :
  cexps (put_exp s m i e) m = set_nth (cexps s m) i e.
Proof.
  unfold put_exp, cexps. destruct (nth_error (cs_meths s) m) as [cm|] eqn:E; simpl.
  - rewrite nth_set_nth, Nat.eqb_refl, E. reflexivity.
  - rewrite E. destruct i; reflexivity.
Qed.

Lemma meths_put_exp (s : csys) m i e cm :
  nth_error (cs_meths s) m = Some cm ->
  cs_meths (put_exp s m i e) =
  set_nth (cs_meths s) m (CMeth (cm_me cm) (cm_mutex cm) (set_nth (cexps s m) i e)).
Proof. intros E. unfold put_exp, cexps. rewrite E. reflexivity. Qed.

Lemma meths_same (s : csys) m cm :
  nth_error (cs_meths s) m = Some cm ->
  cs_meths s = set_nth (cs_meths s) m (CMeth (cm_me cm) (cm_mutex cm) (cexps s m)).
Proof.
  intros E. symmetry. apply set_nth_same. rewrite E. unfold cexps. rewrite E. destruct cm; reflexivity.
Qed.

Definition seen (t : nat) (w : world U) : Prop := w_thread w = t /\ w_panicking w = false.

Lemma seen_world t w : seen t w -> World (w_user w) (w_levels w) t false = w.
Proof. destruct w. intros [A B]. simpl in *. subst. reflexivity. Qed.

Lemma common_matches_seen (k : common V U) args w k' w' r t :
  common_matches k args w = (k', w', r) -> seen t w -> seen t w'.
Proof.
  unfold common_matches. destruct (c_mpoison k); [intros [= <- <- <-]; auto|].
  destruct (matcher_matches (c_matcher k) args w) as [w1 r1] eqn:E. intros H S.
  assert (L : seen t w1).
  { revert E. unfold matcher_matches. destruct (c_matcher k) as [|f|o f|ps].
    - intros [= <- <-]; auto.
    - destruct (f args (w_user w)). intros [= <- <-]; auto.
    - destruct (Nat.eqb o (w_thread w)); [destruct (f args (w_user w))|]; intros [= <- <-]; auto.
    - destruct (eval_preds ps args (w_user w)). intros [= <- <-]; auto. }
  destruct r1; injection H as <- <- <-; auto.
Qed.

Lemma mut_ret_seen c me (k : common V U) rf args wr w rf' w' r t :
  mut_ret c me k rf args wr w = (rf', w', r) -> seen t w -> seen t w'.
Proof.
  intros H S. revert H.
  unfold mut_ret. destruct (show_locked k); try (intros [= <- <- <-]; auto).
  destruct (mrfunc_call c rf args wr w) as [[rf1 w1] r1] eqn:E. intros [= <- <- <-].
  revert E. unfold mrfunc_call. destruct rf as [[v|]|f o|o f ov|v]; try (intros [= <- <- <-]; auto).
  - destruct (f args (w_user w)) as [u [v|m|]]; intros [= <- <- <-]; auto.
  - destruct (Nat.eqb o (w_thread w)); [destruct (f args (w_user w)) as [u [v|m|]]|];
      intros [= <- <- <-]; auto.
Qed.

Lemma satisfy_seen c (k : common V U) w w' r t :
  satisfy_sequence c k w = (w', r) -> seen t w -> seen t w'.
Proof.
  unfold satisfy_sequence. destruct (c_seq k); [destruct (handle_satisfy c s (w_levels w))|];
    intros [= <- <-] [A B]; split; auto.
Qed.

Record kept (c : cfg) (s s' : csys) (t : nat) (cm : cmeth V U) (x : ccall) (p p' : pc)
    (ev : list (event V)) : Prop := {
  ke_fin : fin c (cm_me cm) (cc_args x) p' (cexps s' (cc_m x)) (cworld s' t) =
           fin c (cm_me cm) (cc_args x) p (cexps s (cc_m x)) (cworld s t);
  ke_pc : pc_call p' = Some x /\ inside p' = true;
  ke_meths : cs_meths s' =
    set_nth (cs_meths s) (cc_m x) (CMeth (cm_me cm) (cm_mutex cm) (cexps s' (cc_m x)));
  ke_lock : cs_sl s' = cs_sl s /\ cs_sp s' = cs_sp s;
  ke_ev : locked ev = [] /\ returned ev = []
}.

Lemma kept_exp c (s : csys) t cm x p i e s' p' ev :
  nth_error (cs_meths s) (cc_m x) = Some cm ->
  (exists e', cs_meths s' = cs_meths (put_exp s (cc_m x) i e') /\
     nth_error (cexps s (cc_m x)) i = Some e /\
     fin c (cm_me cm) (cc_args x) p' (set_nth (cexps s (cc_m x)) i e') (cworld s' t) =
     fin c (cm_me cm) (cc_args x) p (cexps s (cc_m x)) (cworld s t)) ->
  pc_call p' = Some x /\ inside p' = true ->
  cs_sl s' = cs_sl s /\ cs_sp s' = cs_sp s ->
  locked ev = [] /\ returned ev = [] ->
  kept c s s' t cm x p p' ev.
Proof.
  intros M (e' & MS & N & F) P L E.
  assert (C : cexps s' (cc_m x) = set_nth (cexps s (cc_m x)) i e').
  { rewrite <- cexps_put_exp. unfold cexps. rewrite MS. reflexivity. }
  split; auto.
  - rewrite C. exact F.
  - rewrite C, MS. apply meths_put_exp. auto.
Qed.

Lemma kept_same c (s : csys) t cm x p s' p' ev :
  nth_error (cs_meths s) (cc_m x) = Some cm ->
  cs_meths s' = cs_meths s ->
  fin c (cm_me cm) (cc_args x) p' (cexps s (cc_m x)) (cworld s' t) =
    fin c (cm_me cm) (cc_args x) p (cexps s (cc_m x)) (cworld s t) ->
  pc_call p' = Some x /\ inside p' = true ->
  cs_sl s' = cs_sl s /\ cs_sp s' = cs_sp s ->
  locked ev = [] /\ returned ev = [] ->
  kept c s s' t cm x p p' ev.
Proof.
  intros M MS F P L E.
  assert (C : cexps s' (cc_m x) = cexps s (cc_m x)) by (unfold cexps; rewrite MS; reflexivity).
  split; auto.
  - rewrite C. exact F.
  - rewrite C, MS. apply meths_same. auto.
Qed.

Lemma cworld_put (s : csys) t w : seen t w -> cworld (put_world s w) t = w.
Proof. intros S. unfold cworld. simpl. apply seen_world. auto. Qed.

Lemma pstep_kept c (s : csys) t cm p s' p' ev x :
  pc_call p = Some x -> nth_error (cs_meths s) (cc_m x) = Some cm ->
  pstep c s t cm p = (s', p', ev) -> pc_ok s p -> inside p = true ->
  (forall r, p <> PFin x r) ->
  kept c s s' t cm x p p' ev.
Proof.
  intros PX M H (_ & PI & _ & PS) IN NF.
  assert (SW : seen t (cworld s t)) by (split; reflexivity).
  assert (SAME : kept c s s t cm x p p []).
  { apply kept_same; auto. }
  destruct p as [|y|y i|y i|y i|y i|y i er|y i|y i|y i lower|y i|y i|y i|y i f|y i r|y i er|y r];
    try discriminate IN; injection PX as ->.
  - (* PLockM *)
    cbn [pstep] in H. destruct (cexp s (cc_m x) i) as [e|] eqn:C.
    + destruct (free _).
      * injection H as <- <- <-. apply kept_same; auto.
      * injection H as <- <- <-. exact SAME.
    + injection H as <- <- <-. apply kept_same; auto. simpl. unfold find_from. unfold cexp in C.
      apply nth_error_None in C. rewrite skipn_all2 by auto. simpl. rewrite firstn_all2, app_nil_r by auto. reflexivity.
  - (* PEval *)
    cbn [pstep] in H. destruct (cexp s (cc_m x) i) as [e|] eqn:C; [|injection H as <- <- <-; exact SAME].
    destruct (common_matches (e_common e) (cc_args x) (cworld s t)) as [[k w'] r] eqn:CM.
    injection H as <- <- <-.
    pose proof (common_matches_seen _ _ _ _ _ _ _ CM SW) as SW'.
    apply (kept_exp c s t cm x _ i e); auto; simpl; rewrite ?put_exp_sl, ?put_exp_sp; auto.
    + exists (set_common e k). split; [auto|split; [auto|]].
      assert (CW : cworld (put_ml (put_world (put_exp s (cc_m x) i (set_common e k)) w') x i None) t = w')
        by (apply seen_world; auto).
      rewrite CW. rewrite (find_from_step c (cm_me cm) (cc_args x) _ _ _ _ C). rewrite CM.
      destruct r as [[|]|m|]; try reflexivity. simpl.
      erewrite nth_set_here by eauto. simpl. rewrite set_nth_length. reflexivity.
    + destruct r as [[|]|m|]; auto.
  - (* PDone *)
    cbn [pstep] in H. destruct (cexp s (cc_m x) i) as [e|] eqn:C; [|injection H as <- <- <-; exact SAME].
    injection H as <- <- <-. apply kept_same; auto.
    + simpl. unfold cexp in C. rewrite C. destruct (common_is_done c (e_common e)) as [d|m|]; auto.
      destruct (negb d || Nat.eqb (List.length (cexps s (cc_m x))) 1)%bool; reflexivity.
    + destruct (common_is_done c (e_common e)) as [d|m|]; auto.
      destruct (negb d || Nat.eqb (List.length (cexps s (cc_m x))) 1)%bool; auto.
  - (* PCount *)
    cbn [pstep] in H. destruct (cexp s (cc_m x) i) as [e|] eqn:C; [|injection H as <- <- <-; exact SAME].
    destruct (times_call c (c_times (e_common e))) as [t' r] eqn:TC.
    injection H as <- <- <-.
    apply (kept_exp c s t cm x _ i e); auto; simpl; rewrite ?put_exp_sl, ?put_exp_sp; auto.
    + exists (set_common e (set_times (e_common e) t')). split; [auto|split; [auto|]].
      assert (CW : cworld (put_exp s (cc_m x) i (set_common e (set_times (e_common e) t'))) t = cworld s t)
        by (unfold cworld; rewrite put_exp_user, put_exp_levels; reflexivity).
      rewrite CW. rewrite (call_at_step c (cm_me cm) (cc_args x) _ _ _ _ C). rewrite TC.
      destruct r as [[[]|er]|m|]; simpl; try reflexivity.
      * erewrite nth_set_here by eauto. reflexivity.
      * erewrite nth_set_here by eauto. reflexivity.
    + destruct r as [[[]|er]|m|]; auto.
  - (* PShow *)
    cbn [pstep] in H. destruct (cexp s (cc_m x) i) as [e|] eqn:C; [|injection H as <- <- <-; exact SAME].
    destruct (free _); [|injection H as <- <- <-; exact SAME].
    injection H as <- <- <-. apply kept_same; auto. simpl. unfold cexp in C. rewrite C. reflexivity.
  - (* PVerify *)
    cbn [pstep] in H. destruct (cexp s (cc_m x) i) as [e|] eqn:C; [|injection H as <- <- <-; exact SAME].
    destruct (verify_sequence (e_common e) (call_desc (cm_me cm) (cc_args x)) (cworld s t)) as [[]|m|] eqn:VS;
      injection H as <- <- <-; apply kept_same; auto; simpl; unfold cexp in C; rewrite C, VS; reflexivity.
  - (* PLoad1 *)
    cbn [pstep] in H. destruct (cexp s (cc_m x) i) as [e|] eqn:C; [|injection H as <- <- <-; exact SAME].
    injection H as <- <- <-. apply kept_same; auto. simpl. unfold entered_at, times_is_satisfied.
    unfold cexp in C. rewrite C.
    destruct (rstart (trange_of (c_times (e_common e))) <=? tcount (c_times (e_common e))); simpl; auto.
    destruct (tcount (c_times (e_common e)) <? rend (trange_of (c_times (e_common e)))); reflexivity.
  - (* PLoad2 *)
    cbn [pstep] in H. destruct (cexp s (cc_m x) i) as [e|] eqn:C; [|injection H as <- <- <-; exact SAME].
    injection H as <- <- <-. apply kept_same; auto;
      destruct lower, (tcount (c_times (e_common e)) <? rend (trange_of (c_times (e_common e)))); simpl; auto.
  - (* PSatisfy *)
    cbn [pstep] in H. destruct (cexp s (cc_m x) i) as [e|] eqn:C; [|injection H as <- <- <-; exact SAME].
    destruct (satisfy_sequence c (e_common e) (cworld s t)) as [w' r] eqn:SS.
    injection H as <- <- <-. pose proof (satisfy_seen _ _ _ _ _ _ SS SW) as SW'.
    apply kept_same; auto.
    + rewrite (cworld_put _ _ _ SW'). simpl. unfold satisfy_at. unfold cexp in C. rewrite C, SS.
      destruct r as [[]|m|]; reflexivity.
    + destruct r as [[]|m|]; auto.
    + destruct r as [[]|m|]; auto.
  - (* PLockR *)
    cbn [pstep] in H. destruct (cexp s (cc_m x) i) as [e|] eqn:C; [|injection H as <- <- <-; exact SAME].
    destruct (e_action e) as [rf po|rf|rf] eqn:EA.
    + destruct (free _); [|injection H as <- <- <-; exact SAME].
      injection H as <- <- <-. apply kept_same; auto.
    + destruct (rrfunc_call c rf) as [v|er] eqn:RC; injection H as <- <- <-; apply kept_same; auto;
        simpl; unfold ret_at, ref_ret, unwrap_rf; unfold cexp in C; rewrite C, EA, RC; simpl; auto.
      destruct (show_locked (e_common e)); reflexivity.
    + destruct (mut_ret c (cm_me cm) (e_common e) rf (cc_args x) (fun v => v) (cworld s t)) as [[rf' w'] r] eqn:MR.
      injection H as <- <- <-. pose proof (mut_ret_seen _ _ _ _ _ _ _ _ _ _ _ MR SW) as SW'.
      apply (kept_exp c s t cm x _ i e); auto; simpl; rewrite ?put_exp_sl, ?put_exp_sp; auto.
      * exists (set_action e (AMut rf')). split; [auto|split; [auto|]].
        rewrite (cworld_put _ _ _ SW'). unfold ret_at. unfold cexp in C. rewrite C, EA, MR. reflexivity.
      * destruct r as [v|m|]; auto.
  - (* PRun *)
    cbn [pstep] in H. destruct (cexp s (cc_m x) i) as [e|] eqn:C; [|injection H as <- <- <-; exact SAME].
    pose proof C as C'. unfold cexp in C'.
    destruct (e_action e) as [rf po|rf|rf] eqn:EA.
    2,3: injection H as <- <- <-; exact SAME.
    assert (EE : forall b, e_action e = AStatic rf b -> Expectation (e_common e) (AStatic rf b) = e)
      by (intros b <-; destruct e; reflexivity).
    assert (UN : forall b rf' res1 evs,
      locked evs = [] /\ returned evs = [] ->
      ret_at c (cm_me cm) (cc_args x) (cexps s (cc_m x)) i (cworld s t) =
        (set_nth (cexps s (cc_m x)) i (Expectation (e_common e) (AStatic rf' b)), cworld s t, res1) ->
      kept c s (unlock_r s x i (e_common e) rf' b) t cm x (PRun x i) (PFin x res1) evs).
    { intros b rf' res1 evs EV R.
      apply (kept_exp c s t cm x _ i e); auto; unfold unlock_r; simpl; rewrite ?put_exp_sl, ?put_exp_sp; auto.
      exists (Expectation (e_common e) (AStatic rf' b)). split; [auto|split; [auto|]].
      rewrite R. unfold cworld. simpl. rewrite put_exp_user, put_exp_levels. reflexivity. }
    assert (EX : forall (rf' : srfunc V U) (f : ucode U (list V) V),
      static_ret c (cm_me cm) (e_common e) rf false (cc_args x) (cworld s t) =
        (let (u, r) := f (cc_args x) (cs_user s) in
         (AStatic rf' (match r with Panic _ => true | _ => false end), set_user (cworld s t) u, r)) ->
      po = false ->
      kept c s (put_exp s (cc_m x) i (Expectation (e_common e) (AStatic rf' false))) t cm x (PRun x i) (PExec x i f) []).
    { intros rf' f R ->.
      apply (kept_exp c s t cm x _ i e); auto; simpl; rewrite ?put_exp_sl, ?put_exp_sp; auto.
      exists (Expectation (e_common e) (AStatic rf' false)). split; [auto|split; [auto|]].
      assert (CW : cworld (put_exp s (cc_m x) i (Expectation (e_common e) (AStatic rf' false))) t = cworld s t)
        by (unfold cworld; rewrite put_exp_user, put_exp_levels; reflexivity).
      rewrite CW. simpl. rewrite ?put_exp_user. unfold ret_at. rewrite C', EA, R.
      destruct (f (cc_args x) (cs_user s)) as [u r]. unfold exit_at.
      erewrite nth_set_here by eauto. simpl. rewrite set_nth_twice. reflexivity. }
    assert (PUT : po = false -> forall p'' evs,
      kept c s (put_exp s (cc_m x) i (Expectation (e_common e) (AStatic rf false))) t cm x (PRun x i) p'' evs ->
      kept c s s t cm x (PRun x i) p'' evs).
    { intros -> p'' evs [A B D E F]. rewrite EE in * by auto.
      assert (MM : cs_meths (put_exp s (cc_m x) i e) = cs_meths s).
      { rewrite (meths_put_exp _ _ _ _ _ M). rewrite (set_nth_same _ _ _ C'). symmetry. apply meths_same. auto. }
      assert (CC : cexps (put_exp s (cc_m x) i e) (cc_m x) = cexps s (cc_m x)).
      { unfold cexps. rewrite MM. reflexivity. }
      split; auto.
      - rewrite <- A, CC. unfold cworld. rewrite put_exp_user, put_exp_levels. reflexivity.
      - apply meths_same. auto. }
    assert (SH : forall er, po = false ->
      static_ret c (cm_me cm) (e_common e) rf false (cc_args x) (cworld s t) =
        (AStatic rf true, cworld s t, let? d := show_locked (e_common e) in Panic (MRet (me_name (cm_me cm)) d er)) ->
      kept c s s t cm x (PRun x i) (PShowR x i er) []).
    { intros er -> R. apply kept_same; auto. simpl. unfold ret_at. rewrite C', EA, R.
      destruct (show_locked (e_common e)); reflexivity. }
    assert (NA : show_locked (e_common e) <> Abort).
    { unfold show_locked. destruct (c_mpoison (e_common e)); discriminate. }
    destruct po.
    + injection H as <- <- <-. apply UN; auto. unfold ret_at. rewrite C', EA. reflexivity.
    + destruct rf as [| |f|o f|f|o f].
      * destruct (return_default c (me_default (cm_me cm))) as [v|er] eqn:RD; injection H as <- <- <-.
        -- apply UN; auto. unfold ret_at, static_ret, srfunc_call. rewrite C', EA, RD. reflexivity.
        -- apply SH; auto. unfold static_ret, srfunc_call. rewrite RD. simpl.
           destruct (show_locked (e_common e)) eqn:X; [reflexivity|reflexivity|congruence].
      * injection H as <- <- <-. apply SH; auto. unfold static_ret, srfunc_call. simpl.
        destruct (show_locked (e_common e)) eqn:X; [reflexivity|reflexivity|congruence].
      * injection H as <- <- <-. apply PUT; auto. apply EX; auto. unfold static_ret, srfunc_call, run_user. simpl.
        destruct (f (cc_args x) (cs_user s)) as [u [v|m|]]; reflexivity.
      * destruct (Nat.eqb o t) eqn:OT; injection H as <- <- <-.
        -- apply PUT; auto. apply EX; auto. unfold static_ret, srfunc_call, run_user. simpl. rewrite OT.
           destruct (f (cc_args x) (cs_user s)) as [u [v|m|]]; reflexivity.
        -- apply UN; auto. unfold ret_at, static_ret, srfunc_call. rewrite C', EA. simpl. rewrite OT. reflexivity.
      * injection H as <- <- <-. apply EX; auto. unfold static_ret, srfunc_call, run_user. simpl.
        destruct (f (cc_args x) (cs_user s)) as [u [v|m|]]; reflexivity.
      * destruct (Nat.eqb o t) eqn:OT; injection H as <- <- <-.
        -- apply EX; auto. unfold static_ret, srfunc_call, run_user. simpl. rewrite OT.
           destruct (f (cc_args x) (cs_user s)) as [u [v|m|]]; reflexivity.
        -- apply UN; auto. unfold ret_at, static_ret, srfunc_call. rewrite C', EA. simpl. rewrite OT. reflexivity.
  - (* PExec *)
    cbn [pstep] in H. destruct (cexp s (cc_m x) i) as [e|] eqn:C; [|injection H as <- <- <-; exact SAME].
    destruct (e_action e) as [rf po|rf|rf] eqn:EA; [|injection H as <- <- <-; exact SAME..].
    destruct (f (cc_args x) (cs_user s)) as [u r] eqn:F. injection H as <- <- <-.
    apply kept_same; auto. simpl. rewrite F. reflexivity.
  - (* PExit *)
    cbn [pstep] in H. destruct (cexp s (cc_m x) i) as [e|] eqn:C; [|injection H as <- <- <-; exact SAME].
    pose proof C as C'. unfold cexp in C'.
    destruct (e_action e) as [rf po|rf|rf] eqn:EA; [|injection H as <- <- <-; exact SAME..].
    destruct r as [v|m|]; injection H as <- <- <-;
      (apply (kept_exp c s t cm x _ i e); auto; unfold unlock_r; simpl; rewrite ?put_exp_sl, ?put_exp_sp; auto;
       eexists; split; [reflexivity|split; [auto|]];
       unfold exit_at; rewrite C', EA; unfold cworld; simpl; rewrite put_exp_user, put_exp_levels; reflexivity).
  - (* PShowR *)
    cbn [pstep] in H. destruct (cexp s (cc_m x) i) as [e|] eqn:C; [|injection H as <- <- <-; exact SAME].
    pose proof C as C'. unfold cexp in C'.
    destruct (free _); [|injection H as <- <- <-; exact SAME].
    destruct (e_action e) as [rf po|rf|rf] eqn:EA; injection H as <- <- <-.
    + apply (kept_exp c s t cm x _ i e); auto; unfold unlock_r; simpl; rewrite ?put_exp_sl, ?put_exp_sp; auto.
      eexists; split; [reflexivity|split; [auto|]].
      rewrite C', EA. unfold cworld; simpl; rewrite put_exp_user, put_exp_levels; reflexivity.
    + apply kept_same; auto. simpl. rewrite C', EA. reflexivity.
    + apply kept_same; auto. simpl. rewrite C', EA. reflexivity.
  - exfalso. apply (NF r). reflexivity.
Qed.

(** ** The whole execution *)
Lemma atomic_run_snoc c (st : astate (V := V) (U := U)) l tx :
  atomic_run c st (l ++ [tx]) =
  let (st1, rs) := atomic_run c st l in
  let (st2, r) := atomic_call c st1 tx in
  (st2, rs ++ [(fst tx, snd tx, r)]).
Proof.
  revert st. induction l as [|y l IH]; intros st; simpl.
  - destruct (atomic_call c st tx); reflexivity.
  - destruct (atomic_call c st y) as [st1 r1]. rewrite IH.
    destruct (atomic_run c st1 l) as [st2 rs]. destruct (atomic_call c st2 tx); reflexivity.
Qed.

Lemma locked_app (tr1 tr2 : list (event V)) : locked (tr1 ++ tr2) = locked tr1 ++ locked tr2.
Proof. induction tr1 as [|[] tr1 IH]; simpl; auto. f_equal. auto. Qed.
Lemma returned_app (tr1 tr2 : list (event V)) : returned (tr1 ++ tr2) = returned tr1 ++ returned tr2.
Proof. induction tr1 as [|[] tr1 IH]; simpl; auto. f_equal. auto. Qed.
Lemma started_app t (tr1 tr2 : list (event V)) : started t (tr1 ++ tr2) = started t tr1 ++ started t tr2.
Proof.
  induction tr1 as [|[] tr1 IH]; simpl; auto. destruct (Nat.eqb _ _); auto. simpl. f_equal. auto.
Qed.

Section Linear.
Context (c : cfg) (st0 : astate (V := V) (U := U)) (g : nat).

Definition one_store (s : csys) : Prop :=
  forall m cm, nth_error (cs_meths s) m = Some cm -> cm_mutex cm = Some g.

Definition lin_inv (s : csys) (tr : list (event V)) : Prop :=
  match cs_sl s g with
  | None =>
      atomic_run c st0 (locked tr) =
      ((cs_meths s, cs_sp s g, cs_user s, cs_levels s), returned tr)
  | Some t =>
      exists th x cm0 ms1 u1 l1 l,
        nth_error (cs_threads s) t = Some th /\ pc_call (th_pc th) = Some x /\
        inside (th_pc th) = true /\
        locked tr = l ++ [(t, x)] /\
        atomic_run c st0 l = ((ms1, false, u1, l1), returned tr) /\
        nth_error ms1 (cc_m x) = Some cm0 /\ cs_sp s g = false /\
        cs_meths s = set_nth ms1 (cc_m x) (CMeth (cm_me cm0) (cm_mutex cm0) (cexps s (cc_m x))) /\
        fin c (cm_me cm0) (cc_args x) (th_pc th) (cexps s (cc_m x)) (cworld s t) =
        expectations_call c (cm_me cm0) (cm_exps cm0) (cc_args x) (fun v => v) (World u1 l1 t false)
  end.

Lemma one_store_step s t s' ev : one_store s -> cstep c s t = (s', ev) -> one_store s'.
Proof.
  intros O H. apply cstep_cases in H.
  destruct H as [|th x rest Ht Hp Hd Hm|th x rest cm Ht Hp Hd Hm|th x cm s1 p1 ev Ht Hp Hm Hs]; auto.
  intros m cm' N. simpl in N.
  pose proof (proj1 (decls_mutex _ _ m (pstep_decls _ _ _ _ _ _ _ _ Hs))) as D.
  rewrite N in D. destruct (nth_error (cs_meths s) m) as [cm1|] eqn:E.
  - rewrite D. eapply O; eauto.
  - pose proof (f_equal (@List.length _) (pstep_decls _ _ _ _ _ _ _ _ Hs)) as L. rewrite !map_length in L.
    apply nth_error_None in E. rewrite <- L in E. apply nth_error_None in E. congruence.
Qed.

(** A step that changes nothing but a thread which does not hold the store. *)
Lemma lin_inv_frame s tr t th' ev :
  lin_inv s tr -> cs_sl s g <> Some t -> locked ev = [] -> returned ev = [] ->
  lin_inv (put_thread s t th') (tr ++ ev).
Proof.
  unfold lin_inv. intros L N E1 E2. rewrite locked_app, returned_app, E1, E2, !app_nil_r. simpl.
  destruct (cs_sl s g) as [t1|]; auto.
  destruct L as (th & x & cm0 & ms1 & u1 & l1 & l & A & R). exists th, x, cm0, ms1, u1, l1, l.
  split; [|exact R]. rewrite nth_set_nth. destruct (Nat.eqb_spec t1 t); [congruence|auto].
Qed.

Lemma put_thread_same (s : csys) t th :
  nth_error (cs_threads s) t = Some th -> put_thread s t (Thread (th_todo th) (th_pc th)) = s.
Proof.
  intros E. unfold put_thread. rewrite set_nth_same; [destruct s; reflexivity|]. rewrite E. destruct th; reflexivity.
Qed.

Lemma cstep_lin s tr t s' ev :
  locks_ok s -> one_store s -> lin_inv s tr -> cstep c s t = (s', ev) -> lin_inv s' (tr ++ ev).
Proof.
  intros LO OS L H. apply cstep_cases in H.
  assert (IDLE : forall th, nth_error (cs_threads s) t = Some th -> inside (th_pc th) = false -> cs_sl s g <> Some t).
  { intros th Ht I E. apply (lo_s s LO) in E. unfold at_thread in E. rewrite Ht in E.
    unfold sheld in E. destruct (th_pc th); discriminate. }
  destruct H as [|th x rest Ht Hp Hd Hm|th x rest cm Ht Hp Hd Hm|th x cm s1 p1 ev Ht Hp Hm Hs].
  - rewrite app_nil_r. auto.
  - apply lin_inv_frame; auto. eapply IDLE; eauto. rewrite Hp. reflexivity.
  - apply lin_inv_frame; auto. eapply IDLE; eauto. rewrite Hp. reflexivity.
  - destruct (inside (th_pc th)) eqn:IN.
    + (* the holder of the store *)
      assert (SL : cs_sl s g = Some t).
      { apply (lo_s s LO). unfold at_thread. rewrite Ht. unfold sheld. rewrite Hp, Hm.
        rewrite (OS _ _ Hm). destruct (th_pc th); try discriminate; reflexivity. }
      unfold lin_inv in L. rewrite SL in L.
      destruct L as (th1 & x1 & cm0 & ms1 & u1 & l1 & l & A & B & _ & D & E & F & G & I & J).
      rewrite Ht in A. injection A as <-. rewrite Hp in B. injection B as <-.
      assert (ME : cm_me cm = cm_me cm0 /\ cm_mutex cm = cm_mutex cm0).
      { pose proof Hm as Hm'. rewrite I, nth_set_nth, Nat.eqb_refl, F in Hm'. injection Hm' as <-. auto. }
      destruct ME as [ME MU].
      assert (FIN : (exists r, th_pc th = PFin x r) \/ (forall r, th_pc th <> PFin x r)).
      { destruct (th_pc th); try (right; intros r0 X; discriminate X). left. exists r.
        simpl in Hp. congruence. }
      destruct FIN as [[r FIN]|NFIN].
      * (* the call ends *)
        rewrite FIN in *. cbn [pstep] in Hs. injection Hs as <- <- <-.
        rewrite (OS _ _ Hm). unfold lin_inv. simpl. rewrite Nat.eqb_refl.
        rewrite locked_app, returned_app, D. simpl. rewrite app_nil_r, atomic_run_snoc, E.
        simpl. rewrite F. rewrite <- J. simpl. rewrite <- I, ME. reflexivity.
      * (* it goes on *)
        pose proof (pstep_kept _ _ _ _ _ _ _ _ _ Hp Hm Hs (lo_pc s LO _ _ Ht) IN NFIN) as [K1 [K2 K3] K4 [K5 K6] [K7 K8]].
        unfold lin_inv. simpl. rewrite K5, SL.
        exists (Thread (th_todo th) p1), x, cm0, ms1, u1, l1, l.
        rewrite locked_app, returned_app, K7, K8, !app_nil_r. simpl. rewrite K6.
        rewrite nth_set_nth, Nat.eqb_refl.
        rewrite (pstep_threads _ _ _ _ _ _ _ _ Hs), Ht.
        change (cexps (put_thread s1 t (Thread (th_todo th) p1)) (cc_m x)) with (cexps s1 (cc_m x)).
        change (cworld (put_thread s1 t (Thread (th_todo th) p1)) t) with (cworld s1 t).
        rewrite K4, I, set_nth_twice, <- ME, <- MU.
        rewrite <- ME in J. rewrite K1, J. auto 12.
    + (* a thread that waits for the store *)
      pose proof (IDLE _ Ht IN) as NH.
      destruct (th_pc th) as [|y| | | | | | | | | | | | | | |] eqn:P; try discriminate IN; [discriminate Hp|].
      injection Hp as ->. cbn [pstep] in Hs. rewrite (OS _ _ Hm) in Hs.
      destruct (cs_sl s g) as [t1|] eqn:SL; simpl in Hs.
      { injection Hs as <- <- <-. rewrite <- P. rewrite put_thread_same by auto. rewrite app_nil_r. auto. }
      unfold lin_inv in L. rewrite SL in L.
      destruct (cs_sp s g) eqn:SP; injection Hs as <- <- <-.
      * (* it is poisoned *)
        unfold lin_inv. simpl. rewrite SL, locked_app, returned_app. simpl. rewrite atomic_run_snoc, L. simpl.
        rewrite Hm, SP. reflexivity.
      * (* it is got *)
        unfold lin_inv. simpl. rewrite !Nat.eqb_refl.
        exists (Thread (th_todo th) (PLockM x 0)), x, cm, (cs_meths s), (cs_user s), (cs_levels s), (locked tr).
        rewrite locked_app, returned_app. simpl. rewrite app_nil_r.
        rewrite nth_set_nth, Nat.eqb_refl, Ht. repeat split; auto.
        -- change (cexps (put_thread (put_sl s g (Some t) false) t (Thread (th_todo th) (PLockM x 0))) (cc_m x)) with (cexps s (cc_m x)). apply meths_same. auto.
        -- rewrite fin_start. unfold cexps. simpl. rewrite Hm. reflexivity.
Qed.

Lemma crun_lin sched : forall s tr0 s' tr,
  locks_ok s -> one_store s -> lin_inv s tr0 -> crun c s sched = (s', tr) ->
  lin_inv s' (tr0 ++ tr).
Proof.
  induction sched as [|t sched IH]; simpl; intros s tr0 s' tr LO OS L H.
  - injection H as <- <-. rewrite app_nil_r. auto.
  - destruct (cstep c s t) as [s1 e1] eqn:E1. destruct (crun c s1 sched) as [s2 e2] eqn:E2.
    injection H as <- <-. rewrite app_assoc. eapply IH; [| | |eauto].
    + eapply cstep_locks; eauto.
    + eapply one_store_step; eauto.
    + eapply cstep_lin; eauto.
Qed.

(** ** The order of the calls of one thread *)
Definition order_inv (progs : list (list ccall)) (s : csys) (tr : list (event V)) : Prop :=
  forall t th, nth_error (cs_threads s) t = Some th ->
  exists prog, nth_error progs t = Some prog /\
  prog = started t tr ++ th_todo th /\
  let bl := by_thread t (locked tr) in
  let br := by_thread t (map fst (returned tr)) in
  match th_pc th with
  | PIdle => started t tr = bl /\ bl = br
  | PLockS x => started t tr = bl ++ [x] /\ bl = br
  | p => exists x, pc_call p = Some x /\ started t tr = bl /\ bl = br ++ [x]
  end.

Definition all_exist (s : csys) : Prop :=
  forall t th x, nth_error (cs_threads s) t = Some th -> In x (th_todo th) ->
  nth_error (cs_meths s) (cc_m x) <> None.

Lemma by_thread_app {A} t (l1 l2 : list (nat * A)) :
  by_thread t (l1 ++ l2) = by_thread t l1 ++ by_thread t l2.
Proof. unfold by_thread. rewrite filter_app, map_app. reflexivity. Qed.

Lemma by_thread_one {A} t (x : A) : by_thread t [(t, x)] = [x].
Proof. unfold by_thread. simpl. rewrite Nat.eqb_refl. reflexivity. Qed.

Lemma by_thread_other {A} t t' (x : A) : t' <> t -> by_thread t [(t', x)] = [].
Proof. intros N. unfold by_thread. simpl. destruct (Nat.eqb_spec t' t); [contradiction|reflexivity]. Qed.

(** What a step of a call adds to the three lists. *)
Lemma pstep_marks (s : csys) t cm (p : pc) s' p' ev x :
  pc_call p = Some x -> cm_mutex cm = Some g ->
  pstep c s t cm p = (s', p', ev) ->
  (forall t', started t' ev = []) /\
  match p, p' with
  | PLockS _, PLockS y => y = x /\ locked ev = [] /\ returned ev = []
  | PLockS _, PIdle => locked ev = [(t, x)] /\ map fst (returned ev) = [(t, x)]
  | PLockS _, _ => pc_call p' = Some x /\ locked ev = [(t, x)] /\ returned ev = []
  | _, PIdle => locked ev = [] /\ map fst (returned ev) = [(t, x)]
  | _, PLockS _ => False
  | _, _ => pc_call p' = Some x /\ locked ev = [] /\ returned ev = []
  end.
Proof.
  intros PX G H. destruct p; try discriminate PX; injection PX as ->; cbn [pstep] in H; rewrite ?G in H.
  all: unfold unlock_r in H;
    repeat match type of H with
    | context [match ?x with _ => _ end] =>
        lazymatch x with
        | context [match _ with _ => _ end] => fail
        | _ => let E := fresh "E" in destruct x eqn:E
        end
    end; injection H as <- <- <-; simpl; auto.
Qed.

Lemma cstep_order progs s tr t s' ev :
  one_store s -> all_exist s -> order_inv progs s tr -> cstep c s t = (s', ev) ->
  order_inv progs s' (tr ++ ev).
Proof.
  intros OS AE O H. apply cstep_cases in H.
  destruct H as [|th x rest Ht Hp Hd Hm|th x rest cm Ht Hp Hd Hm|th x cm s1 p1 ev Ht Hp Hm Hs].
  - rewrite app_nil_r. auto.
  - exfalso. eapply AE; eauto. rewrite Hd. left. reflexivity.
  - rewrite (OS _ _ Hm). intros t' th' N. simpl in N. rewrite nth_set_nth, Ht in N.
    rewrite started_app, locked_app, returned_app. simpl. rewrite !app_nil_r.
    destruct (Nat.eqb_spec t' t) as [->|NE].
    + injection N as <-. simpl. destruct (O _ _ Ht) as (prog & A & B & D). exists prog. split; [auto|].
      rewrite Hd in B. rewrite Hp in D. simpl in D. rewrite Nat.eqb_refl. split.
      * rewrite B, <- app_assoc. reflexivity.
      * destruct D as [-> D]. auto.
    + destruct (Nat.eqb_spec t t'); [congruence|]. rewrite app_nil_r. apply O. auto.
  - assert (TH : cs_threads s1 = cs_threads s) by (eapply pstep_threads; eauto).
    intros t' th' N. simpl in N. rewrite nth_set_nth, TH, Ht in N.
    pose proof (pstep_marks _ _ _ _ _ _ _ _ Hp (OS _ _ Hm) Hs) as [M1 M2].
    rewrite started_app, locked_app, returned_app, map_app, !by_thread_app, (M1 t'), app_nil_r.
    assert (AP : forall p' : pc,
       (match p' with
        | PIdle => locked ev = [] /\ map fst (returned ev) = [(t, x)]
        | PLockS _ => False
        | _ => pc_call p' = Some x /\ locked ev = [] /\ returned ev = []
        end) -> (p' = PIdle /\ locked ev = [] /\ map fst (returned ev) = [(t, x)]) \/
                (inside p' = true /\ pc_call p' = Some x /\ locked ev = [] /\ returned ev = [])).
    { intros p'. destruct p'; tauto. }
    assert (CASES : (exists y, th_pc th = PLockS y /\ p1 = PLockS x /\ locked ev = [] /\ returned ev = []) \/
       (exists y, th_pc th = PLockS y /\ p1 = PIdle /\ locked ev = [(t, x)] /\ map fst (returned ev) = [(t, x)]) \/
       (exists y, th_pc th = PLockS y /\ inside p1 = true /\ pc_call p1 = Some x /\ locked ev = [(t, x)] /\ returned ev = []) \/
       (inside (th_pc th) = true /\ p1 = PIdle /\ locked ev = [] /\ map fst (returned ev) = [(t, x)]) \/
       (inside (th_pc th) = true /\ inside p1 = true /\ pc_call p1 = Some x /\ locked ev = [] /\ returned ev = [])).
    { destruct (th_pc th) eqn:P; try discriminate Hp.
      1: { destruct p1 eqn:P1; try (right; right; left; eexists; split; [reflexivity|]; simpl; tauto).
           - right. left. eexists. split; [reflexivity|]. tauto.
           - left. eexists. split; [reflexivity|]. destruct M2 as (-> & M2). tauto. }
      all: right; right; right.
      all: match goal with [M : match _ with PIdle => _ | _ => _ end |- _] => apply AP in M end; simpl; tauto. }
    destruct (Nat.eqb_spec t' t) as [->|NE].
    + injection N as <-. cbn [th_pc th_todo]. destruct (O _ _ Ht) as (prog & A & B & D). exists prog.
      split; [auto|]. split; [auto|]. cbv zeta in *.
      destruct CASES as [(y & P & P1 & L & R)|[(y & P & P1 & L & R)|[(y & P & P1 & Q & L & R)|[(P & P1 & L & R)|(P & P1 & Q & L & R)]]]].
      * rewrite L, R, P1. rewrite P in D, Hp. simpl in Hp. injection Hp as ->. simpl. rewrite !app_nil_r. auto.
      * rewrite L, R, P1. rewrite P in D, Hp. simpl in Hp. injection Hp as ->. rewrite !by_thread_one.
        destruct D as [D1 D2]. split; [exact D1|]. rewrite D2. reflexivity.
      * rewrite L, R. rewrite P in D, Hp. simpl in Hp. injection Hp as ->. 
        match goal with |- context [(?bl ++ by_thread t ?a) = (?br ++ ?b) ++ _] =>
          enough (exists x, pc_call p1 = Some x /\ started t tr = bl ++ by_thread t a /\ bl ++ by_thread t a = (br ++ b) ++ [x])
            by (destruct p1; try discriminate P1; assumption) end.
        exists x. rewrite by_thread_one. simpl. rewrite app_nil_r. destruct D as [D1 D2]. split; [auto|]. split; [exact D1|]. rewrite D2. reflexivity.
      * rewrite L, R, P1. assert (D' : exists x, pc_call (th_pc th) = Some x /\ started t tr = by_thread t (locked tr) /\ by_thread t (locked tr) = by_thread t (map fst (returned tr)) ++ [x])
          by (destruct (th_pc th); try discriminate P; assumption); clear D; rename D' into D. destruct D as (x' & D1 & D2 & D3).
        rewrite Hp in D1. injection D1 as <-. simpl. rewrite by_thread_one, !app_nil_r. rewrite <- D3. auto.
      * rewrite L, R. assert (D' : exists x, pc_call (th_pc th) = Some x /\ started t tr = by_thread t (locked tr) /\ by_thread t (locked tr) = by_thread t (map fst (returned tr)) ++ [x])
          by (destruct (th_pc th); try discriminate P; assumption); clear D; rename D' into D. 
        match goal with |- context [(?bl ++ by_thread t ?a) = (?br ++ ?b) ++ _] =>
          enough (exists x, pc_call p1 = Some x /\ started t tr = bl ++ by_thread t a /\ bl ++ by_thread t a = (br ++ b) ++ [x])
            by (destruct p1; try discriminate P1; assumption) end. destruct D as (x' & D1 & D2 & D3).
        exists x. rewrite Hp in D1. injection D1 as <-. simpl. rewrite !app_nil_r. auto.
    + assert (Z : by_thread t' (locked ev) = [] /\ by_thread t' (map fst (returned ev)) = []).
      { assert (NE' : t <> t') by congruence.
        destruct CASES as [(y & P & P1 & L & R)|[(y & P & P1 & L & R)|[(y & P & P1 & Q & L & R)|[(P & P1 & L & R)|(P & P1 & Q & L & R)]]]];
          rewrite L, R; simpl; rewrite ?(by_thread_other t' t x NE'); auto. }
      destruct Z as [-> ->]. rewrite !app_nil_r. apply O. auto.
Qed.

Lemma cstep_exist s t s' ev : all_exist s -> cstep c s t = (s', ev) -> all_exist s'.
Proof.
  intros AE H. apply cstep_cases in H.
  destruct H as [|th x rest Ht Hp Hd Hm|th x rest cm Ht Hp Hd Hm|th x cm s1 p1 ev Ht Hp Hm Hs]; auto.
  - intros t' th' y N. simpl in N. rewrite nth_set_nth, Ht in N. destruct (Nat.eqb_spec t' t).
    + injection N as <-. simpl. intros I. eapply AE; eauto. rewrite Hd. right. auto.
    + eapply AE; eauto.
  - intros t' th' y N. simpl in N. rewrite nth_set_nth, Ht in N. destruct (Nat.eqb_spec t' t).
    + injection N as <-. simpl. intros I. eapply AE; eauto. rewrite Hd. right. auto.
    + eapply AE; eauto.
  - intros t' th' y N I. simpl in N. rewrite nth_set_nth, (pstep_threads _ _ _ _ _ _ _ _ Hs), Ht in N.
    assert (Q : nth_error (cs_meths s) (cc_m y) <> None).
    { destruct (Nat.eqb_spec t' t); [injection N as <-; simpl in I; eapply AE; eauto|eapply AE; eauto]. }
    simpl. pose proof (f_equal (@List.length _) (pstep_decls _ _ _ _ _ _ _ _ Hs)) as L. rewrite !map_length in L.
    apply nth_error_Some. rewrite L. apply nth_error_Some. auto.
Qed.

Lemma crun_order progs sched : forall s tr0 s' tr,
  one_store s -> all_exist s -> order_inv progs s tr0 -> crun c s sched = (s', tr) ->
  order_inv progs s' (tr0 ++ tr).
Proof.
  induction sched as [|t sched IH]; simpl; intros s tr0 s' tr OS AE O H.
  - injection H as <- <-. rewrite app_nil_r. auto.
  - destruct (cstep c s t) as [s1 e1] eqn:E1. destruct (crun c s1 sched) as [s2 e2] eqn:E2.
    injection H as <- <-. rewrite app_assoc. eapply IH; [| | |eauto].
    + eapply one_store_step; eauto.
    + eapply cstep_exist; eauto.
    + eapply cstep_order; eauto.
Qed.
End Linear.

End LinProofs.
