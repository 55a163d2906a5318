(** * AcceptProofs: proofs for C21 *)

From Coq Require Import Arith NArith List Bool String Lia.
From Verif Require Import Base Times TimesSpec TimesProofs Expect ExpectProofs Mock Spec SysSpec
  DispatchProofs FifoProofs CallProofs SoleProofs ReturnProofs SysProofs SeqProofs.
Import ListNotations.
Open Scope N_scope.

Section P.
Context {V U : Type}.
Implicit Types (w : world U) (me : method V) (md : mdecl V) (e : expectation V U)
  (es : list (expectation V U)) (y : sys V U) (x : sx V U).

Context (s : nat).

Definition member (i : nat) x (j : N) : expectation V U :=
  Expectation (Common MtAlways false (Some (SeqHandle s (N.of_nat i)))
                 (Times j (TRange (sx_count x) (sx_count x + 1))))
              (AStatic (SMut (sx_fun x)) false).

(** The method of member [i] holds exactly that member, called [j] times. *)
Definition holds y (i : nat) x (j : N) : Prop :=
  exists ob md, nth_error (y_objs y) (sx_obj x) = Some ob /\
    nth_error ob (sx_meth x) = Some (Field md (SPlain [member i x j])).

Definition pos x : nat * nat := (sx_obj x, sx_meth x).

Lemma setup_chain c th md t x :
  md_kind md = KStatic -> sx_count x < umax c -> sq_next (t s) < umax c -> 1 <= umax c ->
  sq_inner (t s) = s ->
  apply_setters c th [StTimes (ANum (sx_count x)); StInSequence s; StReturning (sx_fun x)]
    (expectation_default c (md_me md) (md_kind md)) t =
  (Expectation (Common MtAlways false (Some (SeqHandle s (sq_next (t s))))
                 (Times 0 (TRange (sx_count x) (sx_count x + 1))))
              (AStatic (SMut (sx_fun x)) false),
   set_seq t s (Sequence s (sq_next (t s) + 1)), Ret tt).
Proof.
  intros K B1 B2 B3 I. rewrite K.
  cbn [apply_setters apply_setter expectation_default e_common e_action action_default].
  unfold lift_common, common_times, times_times. cbn [trange_from c_times common_default].
  rewrite uadd1_ok by auto.
  cbn [rbind fst snd set_common e_common set_times].
  unfold common_in_sequence, times_is_exact. cbn [set_times c_times trange_of rend rstart].
  rewrite usub_ok by lia. replace (sx_count x + 1 - sx_count x) with 1 by lia.
  cbn [rbind N.eqb Pos.eqb]. unfold next_handle. rewrite uadd1_ok by auto. rewrite I.
  reflexivity.
Qed.

(** Replacing a field of an object. *)
Lemma field_at_other {A} (objs : list (list A)) o m ob f o' m' :
  nth_error objs o = Some ob -> (o, m) <> (o', m') ->
  match nth_error (set_nth objs o (set_nth ob m f)) o' with
  | Some ob' => nth_error ob' m'
  | None => None
  end =
  match nth_error objs o' with Some ob' => nth_error ob' m' | None => None end.
Proof.
  intros N D. rewrite set_nth_nth. destruct (Nat.eqb_spec o o').
  - subst o'. rewrite N. apply nth_set_nth_other. congruence.
  - auto.
Qed.

Lemma field_at_same {A} (objs : list (list A)) o m ob f f0 :
  nth_error objs o = Some ob -> nth_error ob m = Some f0 ->
  nth_error (set_nth objs o (set_nth ob m f)) o = Some (set_nth ob m f) /\
  nth_error (set_nth ob m f) m = Some f.
Proof.
  intros N1 N2. split; [exact (nth_set_nth_same _ _ _ _ N1)|exact (nth_set_nth_same _ _ _ _ N2)].
Qed.

Definition field_of y x : option (field V U) :=
  match nth_error (y_objs y) (sx_obj x) with Some ob => nth_error ob (sx_meth x) | None => None end.

Lemma holds_field y i x j : holds y i x j <-> exists md, field_of y x = Some (Field md (SPlain [member i x j])).
Proof.
  unfold holds, field_of. split.
  - intros (ob & md & A & B). rewrite A. eauto.
  - intros (md & A). destruct (nth_error (y_objs y) (sx_obj x)) as [ob|]; [|discriminate]. eauto.
Qed.

Lemma idle_field y x : idle y (sx_obj x) (sx_meth x) <->
  exists md, field_of y x = Some (Field md (SPlain [])) /\ md_kind md = KStatic.
Proof.
  unfold idle, field_of. split.
  - intros (ob & md & A & B & C). rewrite A. eauto.
  - intros (md & A & C). destruct (nth_error (y_objs y) (sx_obj x)) as [ob|]; [|discriminate]. eauto 6.
Qed.

Lemma step_expect c sh y x :
  sx_count x < umax c -> sq_next (y_seqs y s) < umax c -> 1 <= umax c -> sq_inner (y_seqs y s) = s ->
  idle y (sx_obj x) (sx_meth x) ->
  exists y', step c sh y (sx_expect s x) = (y', Ret None) /\
    y_world y' = y_world y /\
    y_seqs y' s = Sequence s (sq_next (y_seqs y s) + 1) /\
    holds y' (N.to_nat (sq_next (y_seqs y s))) x 0 /\
    forall x', pos x' <> pos x -> field_of y' x' = field_of y x'.
Proof.
  intros B1 B2 B3 I (ob & md & N1 & N2 & K).
  unfold sx_expect. cbn [step]. rewrite N1, N2. unfold slot_expect. cbn [f_decl f_slot slot_get slot_put].
  rewrite (setup_chain c _ md (y_seqs y) x K B1 B2 B3 I).
  eexists. split; [reflexivity|]. cbn [y_world y_seqs y_objs].
  split; [auto|]. split; [unfold set_seq; rewrite Nat.eqb_refl; auto|].
  destruct (field_at_same (y_objs y) (sx_obj x) (sx_meth x) ob
     (Field md (SPlain ([] ++ [member (N.to_nat (sq_next (y_seqs y s))) x 0]))) _ N1 N2) as [F1 F2].
  unfold member in F1, F2. rewrite N2Nat.id in F1, F2.
  split.
  - unfold holds, member. rewrite N2Nat.id. eexists; exists md; split; [exact F1|exact F2].
  - intros x' D. unfold field_of. cbn [y_objs]. apply field_at_other; [exact N1|]. unfold pos in D. congruence.
Qed.

(** The members [xs], numbered from [i], are set up one after the other. *)
Lemma setup_members c sh : forall xs i y,
  1 <= umax c -> N.of_nat (i + List.length xs) <= umax c ->
  Forall (fun x => sx_count x < umax c) xs ->
  NoDup (map pos xs) ->
  Forall (fun x => idle y (sx_obj x) (sx_meth x)) xs ->
  sq_inner (y_seqs y s) = s -> sq_next (y_seqs y s) = N.of_nat i ->
  let y' := after c sh y (map (sx_expect s) xs) in
  y_world y' = y_world y /\
  (forall j x, nth_error xs j = Some x -> holds y' (i + j) x 0) /\
  (forall x', ~ In (pos x') (map pos xs) -> field_of y' x' = field_of y x').
Proof.
  induction xs as [|x xs IH]; intros i y B1 B2 B3 ND ID I1 I2; cbn zeta.
  - unfold after. simpl. split; auto. split; auto. intros j x H. destruct j; discriminate.
  - inversion B3; subst. inversion ID; subst. inversion ND; subst.
    assert (LT : sq_next (y_seqs y s) < umax c) by (rewrite I2; simpl in B2; lia).
    destruct (step_expect c sh y x) as (y1 & S1 & S2 & S3 & S4 & S5); auto.
    unfold after. cbn [map run]. rewrite S1.
    destruct (IH (S i) y1) as (A1 & A2 & A3); auto.
    + simpl in B2. simpl. rewrite Nat.add_succ_r in B2. lia.
    + rewrite Forall_forall in *. intros x' X. apply idle_field. rewrite S5; [apply idle_field; auto|].
      intros E. apply H5. rewrite <- E. apply in_map. auto.
    + rewrite S3. reflexivity.
    + rewrite S3. simpl. lia.
    + unfold after in *. destruct (run c sh y1 (map (sx_expect s) xs)) as [y2 rs]. cbn [fst] in *.
      split; [congruence|]. split.
      * intros [|j] x' N; simpl in N.
        -- inversion N; subst. apply holds_field. rewrite A3; [|auto].
           rewrite I2, Nat2N.id in S4. apply holds_field in S4. rewrite Nat.add_0_r. auto.
        -- specialize (A2 j x' N). rewrite Nat.add_succ_r. exact A2.
      * intros x' X. simpl in X. rewrite A3; [|tauto]. apply S5. intros E. apply X. auto.
Qed.

(** ** The state of the sequence while it is obeyed *)

(** Calls made so far of member [i], when member [L] is next and has had [j]. *)
Definition made (L : nat) (j : N) (i : nat) x : N :=
  if Nat.ltb i L then sx_count x else if Nat.eqb i L then j else 0.

Definition obeyed (xs : list (sx V U)) y (L : nat) (j : N) : Prop :=
  w_levels (y_world y) s = N.of_nat L /\
  (forall i x, nth_error xs i = Some x -> holds y i x (made L j i x)) /\
  (forall x, nth_error xs L = Some x -> j < sx_count x).

Lemma member_call c me i x j args w :
  total_fn (sx_fun x) -> 1 <= sx_count x -> sx_count x < umax c ->
  let lv := w_levels w s in
  N.of_nat i < umax c ->
  (lv = N.of_nat i -> j < sx_count x ->
   exists u v, expectation_call c me (member i x j) args (fun v => v) w =
     (member i x (j + 1),
      World u (if j + 1 =? sx_count x then set_level (w_levels w) s (lv + 1) else w_levels w)
        (w_thread w) (w_panicking w), Ret v)) /\
  (lv <> N.of_nat i -> j < sx_count x ->
   exists w' m, expectation_call c me (member i x j) args (fun v => v) w = (member i x (j + 1), w', Panic m)) /\
  (j = sx_count x ->
   exists w' m, expectation_call c me (member i x j) args (fun v => v) w = (member i x (j + 1), w', Panic m)).
Proof.
  intros T C1 C2 lv LI. unfold lv. split; [|split].
  - intros E L. unfold expectation_call.
    rewrite (common_call_seq c me _ _ w (SeqHandle s (N.of_nat i))) by (simpl; try reflexivity; lia).
    cbn [member e_common c_times tcount trange_of rstart rend sh_seq sh_inner].
    rewrite E, N.eqb_refl.
    destruct (T args (w_user w)) as (u & v & F).
    destruct (N.ltb_spec (j + 1) (sx_count x)).
    + exists u, v. cbn [member e_action]. unfold static_ret, srfunc_call, run_user.
      rewrite F. cbn [rbind unwrap_rf]. destruct (N.eqb_spec (j + 1) (sx_count x)); [lia|]. reflexivity.
    + exists u, v. cbn [member e_action]. unfold static_ret, srfunc_call, run_user.
      cbn [w_user set_levels]. rewrite F. cbn [rbind unwrap_rf].
      destruct (N.eqb_spec (j + 1) (sx_count x)); [|lia]. rewrite uwrap1_ok by lia. reflexivity.
  - intros E L.
    assert (Q := violation_call c me (member i x j) args (fun v => v) w (SeqHandle s (N.of_nat i)) eq_refl).
    cbn [member e_common c_times tcount trange_of rstart rend sh_seq sh_inner] in Q.
    rewrite Q; [|auto|lia|lia]. eexists; eexists; reflexivity.
  - intros ->. unfold expectation_call. rewrite common_call_over by (simpl; lia).
    cbn. eexists; eexists; reflexivity.
Qed.

Lemma step_member c sh y i x md ob j args e' w' (r : res V) :
  nth_error (y_objs y) (sx_obj x) = Some ob ->
  nth_error ob (sx_meth x) = Some (Field md (SPlain [member i x j])) ->
  1 <= sx_count x ->
  expectation_call c (md_me md) (member i x j) args (fun v => v) (y_world y) = (e', w', r) ->
  exists y', step c sh y (sx_call x args) = (y', let? v := r in Ret (Some v)) /\
    y_world y' = w' /\
    field_of y' x = Some (Field md (SPlain [e'])) /\
    forall x', pos x' <> pos x -> field_of y' x' = field_of y x'.
Proof.
  intros N1 N2 C1 X. unfold sx_call. cbn [step]. rewrite N1, N2.
  unfold field_call, slot_call. cbn [f_decl f_slot].
  assert (F : expectations_call c (md_me md) [member i x j] args (fun v => v) (y_world y) =
              ([e'], w', let? v := r in Ret (Some v))).
  { rewrite (fifo_pick c (md_me md) [member i x j] args (fun v => v) (y_world y) 0 (member i x j) [true]
               (y_world y) e' w' r); auto.
    - constructor; [|constructor]. unfold proper. simpl. lia.
    - simpl. exists (y_world y). split; [|reflexivity]. split; reflexivity.
    - right. reflexivity.
    - intros j0 e0 b L. lia. }
  rewrite F. cbn [fst snd].
  exists (Sys w' (y_seqs y) (set_nth (y_objs y) (sx_obj x) (set_nth ob (sx_meth x) (Field md (SPlain [e'])))) (y_stats y)).
  split; [destruct r; reflexivity|].
  cbn [y_world y_objs].
  destruct (field_at_same (y_objs y) (sx_obj x) (sx_meth x) ob (Field md (SPlain [e'])) _ N1 N2) as [F1 F2].
  split; [auto|]. split.
  - unfold field_of, object in *. cbn [y_objs]. rewrite F1. exact F2.
  - intros x' D. unfold field_of. cbn [y_objs]. apply field_at_other; [exact N1|]. unfold pos in D. congruence.
Qed.

Lemma NoDup_pos xs i i' x x' :
  NoDup (map pos xs) -> nth_error xs i = Some x -> nth_error xs i' = Some x' -> i <> i' -> pos x' <> pos x.
Proof.
  intros ND N1 N2 D E. apply D.
  apply (proj1 (NoDup_nth_error (map pos xs)) ND).
  - rewrite map_length. apply nth_error_Some. congruence.
  - rewrite !nth_error_map, N1, N2. simpl. congruence.
Qed.

(** One call on an obeyed sequence: answered exactly when it is the turn of the
    member called. *)
Lemma obeyed_step c sh xs y L j i x args :
  NoDup (map pos xs) -> N.of_nat (List.length xs) <= umax c ->
  Forall (fun x => total_fn (sx_fun x) /\ 1 <= sx_count x /\ sx_count x < umax c) xs ->
  obeyed xs y L j -> nth_error xs i = Some x ->
  exists y' r, step c sh y (sx_call x args) = (y', r) /\
    (i <> L -> ~ answered r) /\
    (i = L -> answered r /\
       (if j + 1 =? sx_count x then obeyed xs y' (S L) 0 else obeyed xs y' L (j + 1))).
Proof.
  intros ND LE FA (O1 & O2 & O3) N.
  assert (FX := FA). rewrite Forall_forall in FX. destruct (FX x (nth_error_In _ _ N)) as (T & C1 & C2).
  assert (LI : N.of_nat i < umax c).
  { assert ((i < List.length xs)%nat) by (apply nth_error_Some; congruence). lia. }
  destruct (O2 i x N) as (ob & md & N1 & N2).
  destruct (member_call c (md_me md) i x (made L j i x) args (y_world y) T C1 C2 LI) as (M1 & M2 & M3).
  destruct (Nat.eq_dec i L) as [E|E].
  - subst i. assert (J : made L j L x = j) by (unfold made; rewrite Nat.ltb_irrefl, Nat.eqb_refl; auto).
    rewrite J in *. destruct (M1 O1 (O3 x N)) as (u & v & X). clear M1 M2 M3.
    destruct (step_member c sh y L x md ob j args _ _ _ N1 N2 C1 X) as (y' & S1 & S2 & S3 & S4).
    exists y', (Ret (Some v)). split; [exact S1|]. split; [congruence|]. intros _. split; [exists v; auto|].
    assert (KEEP : forall i' x' L' j', nth_error xs i' = Some x' -> i' <> L ->
              made L' j' i' x' = made L j i' x' -> holds y' i' x' (made L' j' i' x')).
    { intros i' x' L' j' N' D Q. rewrite Q. apply holds_field. rewrite S4.
      - apply holds_field. auto.
      - exact (NoDup_pos xs L i' x x' ND N N' (not_eq_sym D)). }
    destruct (N.eqb_spec (j + 1) (sx_count x)) as [Q|Q].
    + split; [|split].
      * rewrite S2. cbn [w_levels]. unfold set_level. rewrite Nat.eqb_refl, O1. lia.
      * intros i' x' N'. destruct (Nat.eq_dec i' L) as [D|D].
        -- subst i'. assert (x' = x) by congruence. subst x'. apply holds_field. exists md.
           rewrite S3. unfold made. destruct (Nat.ltb_spec L (S L)); [|lia]. rewrite Q. reflexivity.
        -- apply KEEP; auto. unfold made.
           destruct (Nat.ltb_spec i' (S L)), (Nat.ltb_spec i' L), (Nat.eqb_spec i' (S L)), (Nat.eqb_spec i' L);
             subst; auto; lia.
      * intros x' N'. destruct (FX x' (nth_error_In _ _ N')) as (_ & C1' & _). lia.
    + split; [|split].
      * rewrite S2. exact O1.
      * intros i' x' N'. destruct (Nat.eq_dec i' L) as [D|D].
        -- subst i'. assert (x' = x) by congruence. subst x'. apply holds_field. exists md.
           rewrite S3. unfold made. rewrite Nat.ltb_irrefl, Nat.eqb_refl. reflexivity.
        -- apply KEEP; auto. unfold made.
           destruct (Nat.ltb_spec i' L), (Nat.eqb_spec i' L); subst; auto; lia.
      * intros x' N'. assert (x' = x) by congruence. subst x'. specialize (O3 x N). lia.
  - assert (P : exists w' m, expectation_call c (md_me md) (member i x (made L j i x)) args (fun v => v) (y_world y)
                = (member i x (made L j i x + 1), w', Panic m)).
    { unfold made in *. destruct (Nat.ltb_spec i L).
      - apply M3. reflexivity.
      - destruct (Nat.eqb_spec i L); [contradiction|]. apply M2; [|lia]. rewrite O1. lia. }
    destruct P as (w' & m & X).
    destruct (step_member c sh y i x md ob _ args _ _ _ N1 N2 C1 X) as (y' & S1 & _).
    exists y', (Panic m). split; [exact S1|]. split.
    + intros _ (v & Q). discriminate.
    + intros Q. contradiction.
Qed.

(** What remains to be called. *)
Definition remaining (xs : list (sx V U)) (L : nat) (j : N) : list nat :=
  match nth_error xs L with
  | Some x => repeat L (N.to_nat (sx_count x - j)) ++ wanted (S L) (skipn (S L) xs)
  | None => []
  end.

Lemma wanted_remaining xs L :
  wanted L (skipn L xs) = remaining xs L 0.
Proof.
  unfold remaining. revert L. 
  assert (G : forall L i, wanted i (skipn L xs) = match nth_error xs L with
     | Some x => repeat i (N.to_nat (sx_count x - 0)) ++ wanted (S i) (skipn (S L) xs) | None => [] end).
  { induction xs as [|x xs IH]; intros [|L] i; try reflexivity.
    - simpl. rewrite N.sub_0_r. reflexivity.
    - cbn [skipn nth_error]. rewrite IH. destruct (nth_error xs L); reflexivity. }
  intros L. apply G.
Qed.

Lemma remaining_cons xs L j x :
  nth_error xs L = Some x -> j < sx_count x ->
  remaining xs L j = L :: (if j + 1 =? sx_count x then remaining xs (S L) 0 else remaining xs L (j + 1)).
Proof.
  intros N J. unfold remaining at 1. rewrite N.
  replace (N.to_nat (sx_count x - j)) with (S (N.to_nat (sx_count x - (j + 1)))) by lia.
  cbn [repeat app]. f_equal.
  destruct (N.eqb_spec (j + 1) (sx_count x)) as [Q|Q].
  - rewrite Q, N.sub_diag. cbn [N.to_nat repeat app]. apply (wanted_remaining xs (S L)).
  - unfold remaining. rewrite N. reflexivity.
Qed.

Lemma obeyed_run c sh xs : 
  NoDup (map pos xs) -> N.of_nat (List.length xs) <= umax c ->
  Forall (fun x => total_fn (sx_fun x) /\ 1 <= sx_count x /\ sx_count x < umax c) xs ->
  forall calls y L j,
  obeyed xs y L j ->
  Forall (fun ia => (fst ia < List.length xs)%nat) calls ->
  (Forall answered (snd (run c sh y (sx_calls xs calls))) <->
   prefix (map fst calls) (remaining xs L j)).
Proof.
  intros ND LE FA. induction calls as [|[i a] calls IH]; intros y L j O LT.
  - simpl. split; [|constructor]. intros _. exists (remaining xs L j). reflexivity.
  - inversion LT as [|? ? LT1 LT2]; subst. cbn [fst] in LT1.
    destruct (nth_error xs i) as [x|] eqn:N; [|apply nth_error_None in N; lia].
    destruct (obeyed_step c sh xs y L j i x a ND LE FA O N) as (y' & r & S1 & S2 & S3).
    unfold sx_calls. cbn [flat_map fst snd]. rewrite N. cbn [app run]. rewrite S1.
    fold (sx_calls xs calls).
    destruct (run c sh y' (sx_calls xs calls)) as [y2 rs] eqn:R. cbn [snd].
    cbn [map fst].
    destruct (Nat.eq_dec i L) as [E|E].
    + subst i. destruct (S3 eq_refl) as [AR OB]. destruct O as (_ & _ & O3).
      rewrite (remaining_cons xs L j x N (O3 x N)).
      assert (G : Forall answered rs <->
                  prefix (map fst calls) (if j + 1 =? sx_count x then remaining xs (S L) 0 else remaining xs L (j + 1))).
      { destruct (j + 1 =? sx_count x).
        - specialize (IH y' (S L) 0 OB LT2). rewrite R in IH. exact IH.
        - specialize (IH y' L (j + 1) OB LT2). rewrite R in IH. exact IH. }
      split.
      * intros F. inversion F; subst. destruct (proj1 G H2) as [rest Q]. exists rest. simpl. f_equal. exact Q.
      * intros [rest Q]. simpl in Q. inversion Q. constructor; auto. apply G. exists rest. auto.
    + split.
      * intros F. inversion F; subst. exfalso. apply (S2 E). auto.
      * intros [rest Q]. exfalso. simpl in Q. unfold remaining in Q.
        destruct (nth_error xs L) as [x'|] eqn:N'; [|discriminate].
        destruct O as (_ & _ & O3). specialize (O3 x' N').
        replace (N.to_nat (sx_count x' - j)) with (S (N.to_nat (sx_count x' - (j + 1)))) in Q by lia.
        simpl in Q. inversion Q. congruence.
Qed.

Lemma acceptance c sh y xs calls :
  1 <= umax c -> N.of_nat (List.length xs) <= umax c ->
  Forall (fun x => total_fn (sx_fun x) /\ 1 <= sx_count x /\ sx_count x < umax c) xs ->
  NoDup (map pos xs) ->
  Forall (fun x => idle y (sx_obj x) (sx_meth x)) xs ->
  new_sequence y s ->
  Forall (fun ia => (fst ia < List.length xs)%nat) calls ->
  (Forall answered (snd (run c sh (after c sh y (map (sx_expect s) xs)) (sx_calls xs calls))) <->
   prefix (map fst calls) (wanted 0 xs)).
Proof.
  intros B1 B2 FA ND ID (I1 & I2 & I3) LT.
  assert (FB : Forall (fun x => sx_count x < umax c) xs).
  { eapply Forall_impl; [|exact FA]. intros x (_ & _ & X). auto. }
  destruct (setup_members c sh xs 0 y B1 B2 FB ND ID I1 I2) as (A1 & A2 & _).
  assert (O : obeyed xs (after c sh y (map (sx_expect s) xs)) 0 0).
  { split; [rewrite A1; exact I3|]. split.
    - intros i x N. replace (made 0 0 i x) with 0; [apply (A2 i x N)|].
      unfold made. simpl. destruct (Nat.eqb i 0); reflexivity.
    - intros x N. rewrite Forall_forall in FA. destruct (FA x (nth_error_In _ _ N)) as (_ & X & _). lia. }
  rewrite (obeyed_run c sh xs ND B2 FA calls _ 0 0 O LT).
  rewrite <- wanted_remaining. reflexivity.
Qed.

(** ** A member that wants no calls blocks the sequence *)

(** The method of member [i] holds one expectation with its position and count range,
    called at most [n] times. *)
Definition weakly (n : N) y (i : nat) x : Prop :=
  exists md e, field_of y x = Some (Field md (SPlain [e])) /\
    c_matcher (e_common e) = MtAlways /\ c_mpoison (e_common e) = false /\
    handle_of e = Some (SeqHandle s (N.of_nat i)) /\
    trange_of (c_times (e_common e)) = TRange (sx_count x) (sx_count x + 1) /\
    count_of e <= n.

Lemma weak_step c sh xs y i x args n k xk :
  NoDup (map pos xs) -> N.of_nat (List.length xs) <= umax c -> n < umax c ->
  (forall i x, nth_error xs i = Some x -> weakly n y i x) ->
  w_levels (y_world y) s <= N.of_nat k ->
  nth_error xs k = Some xk -> sx_count xk = 0 ->
  nth_error xs i = Some x ->
  exists y' r, step c sh y (sx_call x args) = (y', r) /\
    (answered r -> (i < k)%nat) /\
    (forall i x, nth_error xs i = Some x -> weakly (n + 1) y' i x) /\
    w_levels (y_world y') s <= N.of_nat k.
Proof.
  intros ND LE B W LV NK ZK N.
  destruct (W i x N) as (md & e & F & E1 & E2 & E3 & E4 & E5).
  unfold field_of in F. destruct (nth_error (y_objs y) (sx_obj x)) as [ob|] eqn:N1; [|discriminate].
  unfold sx_call. cbn [step]. rewrite N1, F. unfold field_call, slot_call. cbn [f_decl f_slot].
  destruct (expectation_call c (md_me md) e args (fun v => v) (y_world y)) as [[e' w'] r] eqn:X.
  assert (Q : expectations_call c (md_me md) [e] args (fun v => v) (y_world y) =
              ([e'], w', let? v := r in Ret (Some v))).
  { rewrite (fifo_pick c (md_me md) [e] args (fun v => v) (y_world y) 0 e [true]
               (y_world y) e' w' r); auto.
    - constructor; [|constructor]. unfold proper. rewrite E4. simpl. lia.
    - simpl. exists (y_world y). split; [|reflexivity]. split; [auto|]. rewrite E1. reflexivity.
    - right. reflexivity.
    - intros j0 e0 b L. lia. }
  rewrite Q. cbn [fst snd].
  exists (Sys w' (y_seqs y) (set_nth (y_objs y) (sx_obj x) (set_nth ob (sx_meth x) (Field md (SPlain [e'])))) (y_stats y)).
  exists (let? v := r in Ret (Some v)).
  split; [destruct r; reflexivity|].
  pose proof (expectation_call_shape _ _ _ _ _ _ _ _ _ X) as (S1 & S2 & S3 & S4 & S5 & _).
  pose proof (expectation_call_levels _ _ _ _ _ _ _ _ _ X) as [L1 L2].
  assert (CK : count_of e < umax c) by lia.
  assert (C' : count_of e' = count_of e + 1) by (unfold count_of in *; rewrite S5; apply uwrap1_ok; auto).
  (* over the maximum of a member that wants no calls *)
  assert (OV : i = k -> forall v, r <> Ret v).
  { intros -> v ->. assert (x = xk) by congruence. subst x.
    unfold expectation_call in X. rewrite common_call_over in X.
    - unfold show_locked in X. rewrite E2 in X. cbn in X. discriminate.
    - exact CK.
    - rewrite E4. simpl. lia.
    - rewrite E4. simpl. unfold count_of in CK. lia. }
  split; [|split].
  - intros [v A]. destruct r as [v'|m|]; try discriminate. cbn in A. inversion A; subst.
    specialize (L2 v _ eq_refl E3). cbn [sh_seq sh_inner] in L2.
    destruct (Nat.eq_dec i k) as [D|D]; [exfalso; exact (OV D v eq_refl)|]. lia.
  - intros i' x' N'. destruct (Nat.eq_dec i' i) as [D|D].
    + subst i'. assert (x' = x) by congruence. subst x'. exists md, e'.
      split; [|rewrite S1, S2, S4; unfold handle_of in *; rewrite S3; repeat (split; [solve [auto]|]); lia].
      destruct (field_at_same (y_objs y) (sx_obj x) (sx_meth x) ob (Field md (SPlain [e'])) _ N1 F) as [F1 F2].
      unfold field_of, object in *. cbn [y_objs]. rewrite F1. exact F2.
    + destruct (W i' x' N') as (md2 & e2 & G1 & G2 & G3 & G4 & G5 & G6).
      exists md2, e2. split; [|repeat (split; [solve [auto]|]); lia].
      rewrite <- G1. unfold field_of. cbn [y_objs]. apply field_at_other; [exact N1|].
      pose proof (NoDup_pos xs i i' x x' ND N N' (not_eq_sym D)) as P. unfold pos in P. congruence.
  - cbn [y_world]. destruct L1 as [L1|(h & H1 & H2 & H3 & H4)].
    + rewrite L1. exact LV.
    + rewrite E3 in H1. inversion H1; subst h. cbn [sh_seq sh_inner] in *. rewrite H3. unfold set_level.
      rewrite Nat.eqb_refl.
      assert (D : i <> k).
      { intros ->. assert (x = xk) by congruence. subst x. unfold in_range in H4. rewrite S4, E4 in H4.
        cbn [rstart rend] in H4. unfold count_of in C'. lia. }
      rewrite <- H2. assert ((i < List.length xs)%nat) by (apply nth_error_Some; congruence).
      rewrite uwrap1_ok by lia. lia.
Qed.

Lemma weak_run c sh xs k xk :
  NoDup (map pos xs) -> N.of_nat (List.length xs) <= umax c ->
  nth_error xs k = Some xk -> sx_count xk = 0 ->
  forall calls y n,
  n + N.of_nat (List.length calls) <= umax c ->
  (forall i x, nth_error xs i = Some x -> weakly n y i x) ->
  w_levels (y_world y) s <= N.of_nat k ->
  Forall (fun ia => (fst ia < List.length xs)%nat) calls ->
  Forall2 (fun ia r => answered r -> (fst ia < k)%nat) calls (snd (run c sh y (sx_calls xs calls))).
Proof.
  intros ND LE NK ZK. induction calls as [|[i a] calls IH]; intros y n B W LV LT.
  - simpl. constructor.
  - inversion LT as [|? ? LT1 LT2]; subst. cbn [fst] in LT1. cbn [List.length] in B.
    destruct (nth_error xs i) as [x|] eqn:N; [|apply nth_error_None in N; lia].
    destruct (weak_step c sh xs y i x a n k xk ND LE) as (y' & r & S1 & S2 & S3 & S4); auto; try lia.
    unfold sx_calls. cbn [flat_map fst snd]. rewrite N. cbn [app run]. rewrite S1.
    fold (sx_calls xs calls).
    assert (IH' := IH y' (n + 1)). 
    destruct (run c sh y' (sx_calls xs calls)) as [y2 rs]. cbn [snd] in *.
    constructor; [exact S2|]. apply IH'; auto. lia.
Qed.

Lemma zero_blocks c sh y xs calls k xk :
  1 <= umax c -> N.of_nat (List.length xs) <= umax c ->
  N.of_nat (List.length calls) <= umax c ->
  Forall (fun x => sx_count x < umax c) xs ->
  NoDup (map pos xs) ->
  Forall (fun x => idle y (sx_obj x) (sx_meth x)) xs ->
  new_sequence y s ->
  Forall (fun ia => (fst ia < List.length xs)%nat) calls ->
  nth_error xs k = Some xk -> sx_count xk = 0 ->
  Forall2 (fun ia r => answered r -> (fst ia < k)%nat) calls
    (snd (run c sh (after c sh y (map (sx_expect s) xs)) (sx_calls xs calls))).
Proof.
  intros B1 B2 B3 FB ND ID (I1 & I2 & I3) LT NK ZK.
  destruct (setup_members c sh xs 0 y B1 B2 FB ND ID I1 I2) as (A1 & A2 & _).
  apply (weak_run c sh xs k xk ND B2 NK ZK calls _ 0); auto.
  - intros i x N. specialize (A2 i x N). apply holds_field in A2. destruct A2 as (md & A2).
    exists md, (member i x 0). split; [exact A2|]. unfold handle_of, count_of. simpl. 
    repeat (split; [solve [auto]|]). lia.
  - rewrite A1, I3. lia.
Qed.

End P.
