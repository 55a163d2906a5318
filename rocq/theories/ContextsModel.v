(** * ContextsModel: the operations of [ContextsSpec.v] are those of [Mock.v] *)

From Coq Require Import NArith List Bool String Lia Arith.
From Verif Require Import Base Times Expect Mock Conc ConcSpec ConcProofs FifoProofs ValidProofs Contexts ContextsSpec.
Import ListNotations.

Local Arguments apply_setters : simpl never.
Local Arguments expectations_call : simpl never.

Section Model.
Context {V U : Type}.
Implicit Types (ms : list (cmeth V U)).

Lemma drop_store_concat c (me : method V) ms b :
  (forall cm, In cm ms -> cm_me cm = me) ->
  drop_store c ms b = drop_exps c me (List.concat (map cm_exps ms)) b.
Proof.
  intros H. rewrite <- drop_many_concat. revert b. induction ms as [|cm ms IH]; intros b; [reflexivity|].
  simpl. rewrite (H cm) by (left; auto). destruct (drop_exps c me (cm_exps cm) b) as [[]|m|]; auto.
  - apply IH. intros. apply H. right. auto.
  - rewrite IH; auto. intros. apply H. right. auto.
Qed.

Lemma same_store_poison md g ms (sm : smutex V U) b :
  same_store md g ms sm -> same_store md g ms (SMutex b (sm_slot sm)).
Proof. auto. Qed.

Lemma same_store_put md g ms (sm : smutex V U) k cm es b :
  same_store md g ms sm -> nth_error ms k = Some cm ->
  same_store md g (set_nth ms k (CMeth (cm_me cm) (cm_mutex cm) es)) (SMutex b (slot_put (sm_slot sm) k es)).
Proof.
  intros [A B] N. split.
  - simpl. rewrite set_nth_length. destruct (sm_slot sm); auto.
  - intros k' cm' N'. rewrite nth_set_nth in N'. simpl. destruct (Nat.eqb_spec k' k) as [->|NE].
    + rewrite N in N'. injection N' as <-. rewrite (B _ _ N). simpl. f_equal.
      destruct (sm_slot sm); simpl; [reflexivity|]. rewrite gget_gput_same. reflexivity.
    + rewrite (B _ _ N'). f_equal. destruct (sm_slot sm) as [es0|st]; simpl.
      * exfalso. assert (k < 1)%nat by (rewrite <- A; apply nth_error_Some; congruence).
        assert (k' < 1)%nat by (rewrite <- A; apply nth_error_Some; congruence). lia.
      * rewrite gget_gput_other by auto. reflexivity.
Qed.

Lemma same_store_clear md g ms (sm : smutex V U) b :
  same_store md g ms sm ->
  same_store md g (map (fun cm => CMeth (cm_me cm) (cm_mutex cm) []) ms) (SMutex b (slot_clear (sm_slot sm))).
Proof.
  intros [A B]. split.
  - simpl. rewrite map_length. destruct (sm_slot sm); auto.
  - intros k cm N. rewrite nth_error_map in N. destruct (nth_error ms k) as [cm0|] eqn:E; [|discriminate].
    injection N as <-. rewrite (B _ _ E). simpl. f_equal. destruct (sm_slot sm); reflexivity.
Qed.

Lemma slot_drop_concat c md (shf : shuffle V U) (s : slot V U) b :
  slot_drop c md shf s b =
  drop_exps c (md_me md) match s with SPlain es => es | SGeneric st => List.concat (map snd (shf st)) end b.
Proof. destruct s; simpl; auto. apply drop_many_concat. Qed.

Lemma slot_call_get c md (s : slot V U) k args w :
  slot_call c md s k args (fun v => v) w =
  let '(es, w', r) := expectations_call c (md_me md) (slot_get s k) args (fun v => v) w in
  (match s with SGeneric st => match gget st k with None => s | _ => slot_put s k es end | _ => slot_put s k es end, w', r).
Proof.
  destruct s as [es|st]; simpl.
  - destruct (expectations_call c (md_me md) es args (fun v => v) w) as [[es' w'] r]. reflexivity.
  - destruct (gget st k) as [es|] eqn:E.
    + destruct (expectations_call c (md_me md) es args (fun v => v) w) as [[es' w'] r]. reflexivity.
    + reflexivity.
Qed.

Lemma ops_agree c md g sh shf ms (sm : smutex V U) u l q t o :
  md_kind md = KStatic -> same_store md g ms sm -> same_order sh shf ms sm ->
  match o with XCall x => (cc_m x < List.length ms)%nat | XExpect m _ => (m < List.length ms)%nat | _ => True end ->
  let '((ms', poison', u', l', q'), r) := seq_op c sh ((ms, sm_poison sm, u, l), q) t o in
  let '(sm', q2, w2, r2) := mock_op c md shf sm q (World u l t false) o in
  r2 = r /\ q2 = q' /\ w_user w2 = u' /\ w_levels w2 = l' /\ sm_poison sm' = poison' /\
  same_store md g ms' sm'.
Proof.
  intros K SS [SI SO] EX.
  assert (ME : forall cm, In cm (sh ms) -> cm_me cm = md_me md).
  { intros cm I. apply SI in I. apply In_nth_error in I as [k N]. rewrite (proj2 SS _ _ N). reflexivity. }
  assert (DR : forall b, drop_store c (sh ms) b = slot_drop c md shf (sm_slot sm) b).
  { intros b. rewrite (drop_store_concat c (md_me md)) by auto. rewrite slot_drop_concat, SO. reflexivity. }
  destruct o as [x|m l0| |b| | |u0]; cbn [seq_op final mock_op].
  - (* call *)
    cbn [atomic_op]. unfold atomic_call.
    destruct (nth_error ms (cc_m x)) as [cm|] eqn:N; [|apply nth_error_None in N; lia].
    unfold static_call. destruct (sm_poison sm) eqn:P; [simpl; rewrite P; auto 7|].
    rewrite slot_call_get. pose proof (proj2 SS _ _ N) as C. rewrite C. cbn [cm_me cm_exps cm_mutex].
    destruct (expectations_call c (md_me md) (slot_get (sm_slot sm) (cc_m x)) (cc_args x) (fun v => v) (World u l t false))
      as [[es' w'] r] eqn:EC.
    set (s' := match sm_slot sm with SGeneric st => match gget st (cc_m x) with None => sm_slot sm | _ => slot_put (sm_slot sm) (cc_m x) es' end
               | _ => slot_put (sm_slot sm) (cc_m x) es' end).
    assert (ST : forall b, same_store md g (set_nth ms (cc_m x) (CMeth (md_me md) (Some g) es')) (SMutex b s')).
    { intros b. pose proof (same_store_put md g ms sm (cc_m x) cm es' b SS N) as Q. rewrite C in Q. simpl in Q.
      unfold s'. destruct (sm_slot sm) as [es0|st] eqn:SL; [exact Q|]. destruct (gget st (cc_m x)) eqn:GG; [exact Q|].
      assert (es' = []).
      { simpl slot_get in EC. rewrite GG in EC. unfold expectations_call in EC. simpl in EC. congruence. }
      subst es'. destruct Q as [_ Q]. split; [simpl; auto|]. intros k cm' N'. rewrite (Q _ _ N'). simpl. f_equal.
      destruct (Nat.eq_dec (cc_m x) k) as [<-|NE]; [rewrite gget_gput_same, GG; reflexivity|].
      rewrite gget_gput_other by auto. reflexivity. }
    destruct r as [[v|]|m|]; simpl; repeat split; auto.
    all: try (apply (proj1 (ST _))). all: try (apply (proj2 (ST _))).
  - (* expect *)
    cbn [atomic_op]. destruct (nth_error ms m) as [cm|] eqn:N; [|apply nth_error_None in N; lia].
    unfold context_expect. destruct (sm_poison sm) eqn:P; [simpl; rewrite P; auto 7|].
    unfold slot_expect. rewrite K. pose proof (proj2 SS _ _ N) as C. rewrite C. cbn [cm_me cm_exps cm_mutex w_thread].
    destruct (apply_setters c t l0 (expectation_default c (md_me md) KStatic) q) as [[e q'] r].
    pose proof (fun b => same_store_put md g ms sm m cm (slot_get (sm_slot sm) m ++ [e]) b SS N) as Q.
    rewrite C in Q. simpl in Q.
    destruct r as [[]|msg|]; simpl; (split; [reflexivity|]; split; [reflexivity|]; split; [reflexivity|]; split; [reflexivity|]; split; [reflexivity|apply Q]).
  - (* checkpoint *)
    cbn [atomic_op]. unfold static_checkpoint. destruct (sm_poison sm) eqn:P; [simpl; rewrite P; auto 7|].
    rewrite DR. split; [reflexivity|]. simpl. split; [auto|]. split; [auto|]. split; [auto|]. split; [auto|].
    apply same_store_clear. auto.
  - (* drop *)
    destruct b; cbn [atomic_op fst].
    + unfold context_drop. rewrite DR. simpl. split; [reflexivity|]. split; [auto|]. split; [auto|]. split; [auto|]. split; [auto|].
      apply same_store_clear. auto.
    + unfold context_drop, static_checkpoint. destruct (sm_poison sm) eqn:P; [simpl; rewrite P; auto 7|].
      rewrite DR. split; [reflexivity|]. simpl. split; [auto|]. split; [auto|]. split; [auto|]. split; [auto|].
      apply same_store_clear. auto.
  - simpl. auto 7.
  - simpl. auto 7.
  - simpl. auto 7.
Qed.
End Model.
