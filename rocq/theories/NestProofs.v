(** * NestProofs: calls made by closures *)

From Coq Require Import Arith NArith List Bool String Lia.
From Verif Require Import Base Times Expect Conc ConcSpec ConcProofs LockProofs ThreadProofs
  LinProofs Nest NestSpec.
Import ListNotations.
Open Scope N_scope.

Local Arguments skipn : simpl never.
Local Arguments firstn : simpl never.
Local Arguments times_call : simpl never.
Local Arguments common_is_done : simpl never.
Local Arguments common_matches : simpl never.
Local Arguments verify_sequence : simpl never.
Local Arguments satisfy_sequence : simpl never.
Local Arguments mut_ret : simpl never.
Local Arguments static_ret : simpl never.
Local Arguments show_locked : simpl never.
Local Arguments put_exp : simpl never.
Local Arguments cworld : simpl never.
Local Arguments set_nth : simpl never.

(** ** Which expectation will answer *)
Section Who.
Context {V U : Type}.
Notation csys := (csys V U).
Notation pc := (pc V U).

Section Def.
Context (c : cfg) (me : method V) (args : list V).

Definition who_at (es : list (expectation V U)) (i : nat) (w : world U) : option nat :=
  match nth_error es i with
  | None => None
  | Some e =>
      match common_call c me (e_common e) (call_desc me args) w with
      | (_, _, Ret _) => Some i
      | _ => None
      end
  end.

Definition who_from (es : list (expectation V U)) (i : nat) (w : world U) : option nat :=
  match find_exp c (Nat.eqb (List.length es) 1) (skipn i es) args w with
  | (es2, w1, Ret (Some j)) => who_at (firstn i es ++ es2) (i + j) w1
  | _ => None
  end.

Definition who_satisfy (es : list (expectation V U)) (i : nat) (w : world U) : option nat :=
  match nth_error es i with
  | None => None
  | Some e => match satisfy_sequence c (e_common e) w with (_, Ret _) => Some i | _ => None end
  end.

Definition who_entered (es : list (expectation V U)) (i : nat) (w : world U) : option nat :=
  match nth_error es i with
  | None => None
  | Some e =>
      match times_is_satisfied (c_times (e_common e)) with
      | TooFew => Some i
      | _ => who_satisfy es i w
      end
  end.

Definition who (p : pc) (es : list (expectation V U)) (w : world U) : option nat :=
  match p with
  | PIdle | PLockS _ | PShow _ _ _ | PFin _ _ => None
  | PLockM _ i | PEval _ i => who_from es i w
  | PDone _ i =>
      match nth_error es i with
      | None => None
      | Some e =>
          match common_is_done c (e_common e) with
          | Ret d => if (negb d || Nat.eqb (List.length es) 1)%bool then who_at es i w
                     else who_from es (S i) w
          | _ => None
          end
      end
  | PCount _ i => who_at es i w
  | PVerify _ i =>
      match nth_error es i with
      | None => None
      | Some e =>
          match verify_sequence (e_common e) (call_desc me args) w with
          | Ret _ => who_entered es i w
          | _ => None
          end
      end
  | PLoad1 _ i => who_entered es i w
  | PLoad2 _ i lower => if lower then who_satisfy es i w else Some i
  | PSatisfy _ i => who_satisfy es i w
  | PLockR _ i | PRun _ i | PExec _ i _ | PExit _ i _ | PShowR _ i _ => Some i
  end.

Lemma who_from_step es i w e :
  nth_error es i = Some e ->
  who_from es i w =
  let '(k, w1, r) := common_matches (e_common e) args w in
  let es1 := set_nth es i (set_common e k) in
  match r with
  | Ret false => who_from es1 (S i) w1
  | Ret true =>
      match common_is_done c k with
      | Ret d => if (negb d || Nat.eqb (List.length es) 1)%bool then who_at es1 i w1
                 else who_from es1 (S i) w1
      | _ => None
      end
  | _ => None
  end.
Proof.
  intros N. unfold who_from at 1. rewrite (skipn_cons _ _ _ N). simpl.
  destruct (common_matches (e_common e) args w) as [[k w1] r] eqn:CM.
  set (es1 := set_nth es i (set_common e k)).
  assert (E1 : es1 = firstn i es ++ set_common e k :: skipn (S i) es) by (apply set_nth_split with (x := e); auto).
  assert (LI : List.length (firstn i es) = i).
  { apply firstn_length_le. apply Nat.lt_le_incl. apply nth_error_Some. congruence. }
  assert (F1 : firstn (S i) es1 = firstn i es ++ [set_common e k]).
  { rewrite E1. rewrite firstn_app, LI. replace (S i - i)%nat with 1%nat by lia.
    rewrite (firstn_all2 (firstn i es)) by (rewrite LI; auto). reflexivity. }
  assert (S1 : skipn (S i) es1 = skipn (S i) es).
  { rewrite E1. rewrite skipn_app, LI. replace (S i - i)%nat with 1%nat by lia.
    rewrite (skipn_all2 (firstn i es)) by (rewrite LI; auto). reflexivity. }
  assert (NX : forall one, one = Nat.eqb (List.length es) 1 ->
    match
       (let '(es2, w2, r2) := find_exp c one (skipn (S i) es) args w1 in
       (set_common e k :: es2, w2, let? o := r2 in Ret (option_map S o)))
    with
     | (es2, w2, Ret (Some j)) => who_at (firstn i es ++ es2) (i + j) w2
     | _ => None
    end = who_from es1 (S i) w1).
  { intros one ->. unfold who_from. unfold es1 at 1. rewrite set_nth_length, S1, F1.
    destruct (find_exp c (Nat.eqb (List.length es) 1) (skipn (S i) es) args w1) as [[es2 w2] [[j|]|m|]]; simpl; auto.
      rewrite <- app_assoc; simpl; auto. rewrite Nat.add_succ_r. reflexivity. }
  destruct r as [[|]|m|]; simpl; auto.
  destruct (common_is_done c k) as [d|m|] eqn:D; simpl; auto.
  destruct (negb d || Nat.eqb (List.length es) 1)%bool eqn:B; simpl.
  + rewrite <- E1, Nat.add_0_r. reflexivity.
  + apply NX. reflexivity.
Qed.

Lemma who_at_step es i w e :
  nth_error es i = Some e ->
  who_at es i w =
  let (t', r) := times_call c (c_times (e_common e)) in
  let e1 := set_common e (set_times (e_common e) t') in
  let es1 := set_nth es i e1 in
  match r with
  | Ret (Ok _) =>
      match verify_sequence (e_common e1) (call_desc me args) w with
      | Ret _ => who_entered es1 i w
      | _ => None
      end
  | _ => None
  end.
Proof.
  intros N. unfold who_at. rewrite N. unfold common_call.
  destruct (times_call c (c_times (e_common e))) as [t' r] eqn:TC.
  destruct r as [[[]|er]|m|]; auto.
  2: destruct (show_locked (e_common e)); auto.
  simpl e_common. destruct (verify_sequence (set_times (e_common e) t') (call_desc me args) w) as [[]|m|]; auto.
  unfold who_entered, who_satisfy. erewrite nth_set_here by eauto. simpl e_common. simpl c_times.
  destruct (times_is_satisfied t'); auto;
    destruct (satisfy_sequence c (set_times (e_common e) t') w) as [w1 [[]|m|]]; reflexivity.
Qed.
End Def.

Definition before (p : pc) : bool :=
  match p with
  | PLockM _ _ | PEval _ _ | PDone _ _ | PCount _ _ | PVerify _ _ | PLoad1 _ _ | PLoad2 _ _ _
  | PSatisfy _ _ => true
  | _ => false
  end.

Lemma pstep_who c (s : csys) t cm p s' p' ev x :
  pc_call p = Some x -> nth_error (cs_meths s) (cc_m x) = Some cm ->
  pstep c s t cm p = (s', p', ev) -> before p = true ->
  who c (cm_me cm) (cc_args x) p' (cexps s' (cc_m x)) (cworld s' t) =
  who c (cm_me cm) (cc_args x) p (cexps s (cc_m x)) (cworld s t).
Proof.
  intros PX M H B.
  assert (SW : seen t (cworld s t)) by (split; reflexivity).
  destruct p as [|y|y i|y i|y i|y i|y i er|y i|y i|y i lower|y i|y i|y i|y i f|y i r|y i er|y r];
    try discriminate B; injection PX as ->; cbn [pstep] in H;
    destruct (cexp s (cc_m x) i) as [e|] eqn:C.
  all: try (injection H as <- <- <-; reflexivity).
  all: pose proof C as C'; unfold cexp in C'.
  - destruct (free _); injection H as <- <- <-; reflexivity.
  - injection H as <- <- <-. simpl. unfold who_from.
    apply nth_error_None in C'. rewrite skipn_all2 by auto. reflexivity.
  - (* PEval *)
    destruct (common_matches (e_common e) (cc_args x) (cworld s t)) as [[k w'] r] eqn:CM.
    injection H as <- <- <-.
    pose proof (common_matches_seen _ _ _ _ _ _ _ CM SW) as SW'.
    assert (CW : cworld (put_ml (put_world (put_exp s (cc_m x) i (set_common e k)) w') x i None) t = w')
      by (apply seen_world; auto).
    rewrite CW.
    assert (CE : cexps (put_ml (put_world (put_exp s (cc_m x) i (set_common e k)) w') x i None) (cc_m x) =
      set_nth (cexps s (cc_m x)) i (set_common e k)) by (rewrite <- cexps_put_exp; reflexivity).
    rewrite CE. cbn [who]. rewrite (who_from_step c (cm_me cm) (cc_args x) _ _ _ _ C'). rewrite CM.
    destruct r as [[|]|m|]; try reflexivity. simpl.
    erewrite nth_set_here by eauto. simpl. rewrite set_nth_length. reflexivity.
  - (* PDone *)
    injection H as <- <- <-. simpl. rewrite C'. destruct (common_is_done c (e_common e)) as [d|m|]; auto.
    destruct (negb d || Nat.eqb (List.length (cexps s (cc_m x))) 1)%bool; reflexivity.
  - (* PCount *)
    destruct (times_call c (c_times (e_common e))) as [t' r] eqn:TC.
    injection H as <- <- <-.
    assert (CW : cworld (put_exp s (cc_m x) i (set_common e (set_times (e_common e) t'))) t = cworld s t)
      by (unfold cworld; rewrite put_exp_user, put_exp_levels; reflexivity).
    rewrite CW, cexps_put_exp. cbn [who]. rewrite (who_at_step c (cm_me cm) (cc_args x) _ _ _ _ C'). rewrite TC.
    destruct r as [[[]|er]|m|]; simpl; try reflexivity.
    erewrite nth_set_here by eauto. reflexivity.
  - (* PVerify *)
    simpl. rewrite C'.
    destruct (verify_sequence (e_common e) (call_desc (cm_me cm) (cc_args x)) (cworld s t)) as [[]|m|] eqn:VS;
      injection H as <- <- <-; reflexivity.
  - (* PLoad1 *)
    injection H as <- <- <-. simpl. unfold who_entered, times_is_satisfied. rewrite C'.
    destruct (rstart (trange_of (c_times (e_common e))) <=? tcount (c_times (e_common e))); simpl; auto.
    destruct (tcount (c_times (e_common e)) <? rend (trange_of (c_times (e_common e)))); reflexivity.
  - (* PLoad2 *)
    injection H as <- <- <-.
    destruct lower, (tcount (c_times (e_common e)) <? rend (trange_of (c_times (e_common e)))); reflexivity.
  - (* PSatisfy *)
    destruct (satisfy_sequence c (e_common e) (cworld s t)) as [w' r] eqn:SS.
    injection H as <- <- <-. simpl. unfold who_satisfy. rewrite C', SS.
    destruct r as [[]|m|]; reflexivity.
Qed.
End Who.

Lemma who_start {V U} c me (es : list (expectation (rval V U) U)) args w :
  who_from c me args es 0 w = answering c me es args w.
Proof.
  unfold who_from, answering, who_at. rewrite skipn_O.
  destruct (find_exp c (Nat.eqb (List.length es) 1) es args w) as [[es1 w1] [[i|]|m|]]; reflexivity.
Qed.
