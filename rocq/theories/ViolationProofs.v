(** * ViolationProofs: the message of a call that finds its sequence has moved *)

From Coq Require Import NArith List Bool String Lia Arith.
From Verif Require Import Base Times Expect Mock Conc ConcSpec ConcProofs LockProofs ThreadProofs ViolationSpec.
Import ListNotations.
Open Scope N_scope.

Section ViolationProofs.
Context {V U : Type}.
Notation csys := (csys V U).
Notation pc := (pc V U).
Notation ccall := (ccall V).

Ltac leaves H :=
  unfold pstep, unlock_r in H;
  repeat match type of H with
  | context [match ?x with _ => _ end] =>
      lazymatch x with
      | context [match _ with _ => _ end] => fail
      | _ => let E := fresh "E" in destruct x eqn:E
      end
  end;
  injection H as <- <- <-.

Lemma last_of_app t (a b : list (event V)) :
  last_of t (a ++ b) = match last_of t b with Some e => Some e | None => last_of t a end.
Proof.
  unfold last_of. rewrite fold_left_app. generalize (fold_left (fun o ev => if Nat.eqb (event_thread ev) t then Some ev else o) a None).
  assert (G : forall l (o : option (event V)),
    fold_left (fun o ev => if Nat.eqb (event_thread ev) t then Some ev else o) l o =
    match fold_left (fun o ev => if Nat.eqb (event_thread ev) t then Some ev else o) l None with
    | Some e => Some e | None => o end).
  { induction l as [|e l IH]; intros o; simpl; auto. destruct (Nat.eqb (event_thread e) t); auto.
    rewrite IH. symmetry. rewrite IH. destruct (fold_left _ l None); auto. }
  intros o. apply G.
Qed.

(** The thread has passed the check of its sequence and has not yet moved it. *)
Definition between (p : pc) : option (ccall * nat) :=
  match p with
  | PLoad1 x i | PLoad2 x i _ | PSatisfy x i => Some (x, i)
  | _ => None
  end.

Context (c : cfg) (s0 : csys).

Definition told (p : pc) (x : ccall) (i : nat) : Prop :=
  exists e h a, cexp s0 (cc_m x) i = Some e /\ c_seq (e_common e) = Some h /\
    sh_seq h < a /\ p = PFin x (Panic (MSeqSatisfy a (sh_seq h))).

Record vinv (n : N) (s : csys) (tr : list (event V)) : Prop := {
  vi_setup : forall m i e, cexp s m i = Some e ->
     exists e0, cexp s0 m i = Some e0 /\ c_seq (e_common e) = c_seq (e_common e0);
  vi_level : forall q, cs_levels s q + n <= umax c;
  vi_pc : forall t th x i e h, nth_error (cs_threads s) t = Some th -> between (th_pc th) = Some (x, i) ->
     cexp s0 (cc_m x) i = Some e -> c_seq (e_common e) = Some h -> sh_seq h <= cs_levels s (sh_inner h);
  vi_last : forall t t' x i, last_of t tr = Some (EvViolation t' x i) ->
     exists th, nth_error (cs_threads s) t = Some th /\ told (th_pc th) x i
}.

Lemma pstep_by (s : csys) t cm p s' p' ev :
  pstep c s t cm p = (s', p', ev) -> forall e, In e ev -> event_thread e = t.
Proof. intros H. leaves H; subst; simpl; intros ev0 I; repeat destruct I as [<-|I]; try reflexivity; contradiction. Qed.

Lemma pstep_between (s : csys) t cm p s' p' ev x i :
  pstep c s t cm p = (s', p', ev) -> between p' = Some (x, i) ->
  cs_levels s' = cs_levels s /\
  (between p = Some (x, i) \/ exists e, cexp s (cc_m x) i = Some e /\
    forall h, c_seq (e_common e) = Some h -> sh_seq h = cs_levels s (sh_inner h)).
Proof.
  intros H. leaves H; subst; simpl; try discriminate; auto.
  all: intros [= <- <-]; split; [reflexivity|right].
  eexists. split; [eassumption|].
  intros h Q. unfold verify_sequence in *. rewrite Q in *.
  unfold handle_verify, inner_verify, cworld in *. simpl in *.
  match goal with [H : (if ?a =? ?b then _ else _) = _ |- _] => destruct (N.eqb_spec a b) end; [auto|discriminate].
Qed.

Lemma pstep_violation (s : csys) t cm p s' p' ev t' x i :
  pstep c s t cm p = (s', p', ev) -> In (EvViolation t' x i) ev ->
  p = PSatisfy x i /\ exists e h, cexp s (cc_m x) i = Some e /\ c_seq (e_common e) = Some h /\
    cs_levels s (sh_inner h) <> sh_seq h /\
    p' = PFin x (Panic (MSeqSatisfy (cs_levels s (sh_inner h)) (sh_seq h))).
Proof.
  intros H. leaves H; subst; simpl; try tauto; intros I; repeat (destruct I as [I|I]; try discriminate I); try contradiction.
  all: injection I as -> -> ->; split; [reflexivity|].
  all: unfold satisfy_sequence in *; destruct (c_seq (e_common e)) as [h|] eqn:Q; [|discriminate].
  all: unfold handle_satisfy, inner_satisfy, cworld in *; simpl in *.
  all: destruct (N.eqb_spec (cs_levels s (sh_inner h)) (sh_seq h)); try discriminate.
  all: match goal with [H : (_, _) = (_, _) |- _] => injection H; intros; subst end.
  eexists. exists h. repeat split; eauto.
Qed.

Lemma pstep_fin (s : csys) t cm x r s' p' ev :
  pstep c s t cm (PFin x r) = (s', p', ev) -> exists r', ev = [EvReturn t x r'] /\
  forall m, r = Panic m -> r' = Panic m.
Proof.
  intros H. simpl in H. destruct (cm_mutex cm); injection H as <- <- <-; eexists; (split; [reflexivity|]);
    intros m ->; reflexivity.
Qed.

Lemma pstep_cexp (s : csys) t cm p s' p' ev m i e' :
  pstep c s t cm p = (s', p', ev) -> cexp s' m i = Some e' ->
  exists e, cexp s m i = Some e /\ c_seq (e_common e') = c_seq (e_common e).
Proof.
  intros H C. destruct (cexp s m i) as [e|] eqn:Q.
  - destruct (pstep_exp _ _ _ _ _ _ _ _ _ _ _ H Q) as (e1 & C1 & (S1 & _) & _).
    exists e. split; auto. congruence.
  - exfalso. apply (proj1 (pstep_index _ _ _ _ _ _ _ _ m i H)); congruence.
Qed.

Lemma last_other t (ev : list (event V)) : (forall e, In e ev -> event_thread e <> t) -> last_of t ev = None.
Proof.
  unfold last_of. induction ev as [|e ev IH]; simpl; auto. intros H.
  destruct (Nat.eqb_spec (event_thread e) t) as [E|E]; [exfalso; apply (H e); auto|]. auto.
Qed.

Lemma last_in t (ev : list (event V)) e : last_of t ev = Some e -> In e ev.
Proof.
  unfold last_of. assert (G : forall l o, fold_left (fun o ev => if Nat.eqb (event_thread ev) t then Some ev else o) l o = Some e ->
    In e l \/ o = Some e).
  { induction l as [|a l IH]; simpl; intros o H; auto. destruct (IH _ H) as [A|A]; auto.
    destruct (Nat.eqb _ _); auto. injection A as ->. auto. }
  intros H. destruct (G _ _ H) as [|A]; [auto|discriminate].
Qed.

Lemma last_same t (ev : list (event V)) : (forall e, In e ev -> event_thread e = t) -> last_of t ev = None -> ev = [].
Proof.
  intros H. destruct ev as [|e ev] using rev_ind; auto. rewrite last_of_app. unfold last_of at 1. simpl.
  rewrite (H e), Nat.eqb_refl; [discriminate|]. apply in_or_app. simpl. auto.
Qed.

Lemma cstep_vinv n (s : csys) t s' ev tr :
  vinv (N.succ n) s tr -> cstep c s t = (s', ev) -> vinv n s' (tr ++ ev).
Proof.
  intros [I1 I2 I3 I4] H. apply cstep_cases in H.
  destruct H as [|th x rest Ht Hp Hd Hm|th x rest cm Ht Hp Hd Hm|th x cm s1 p1 ev Ht Hp Hm Hs].
  - rewrite app_nil_r. split; auto. intros q. specialize (I2 q). lia.
  - rewrite app_nil_r. split; auto; simpl.
    + intros q. specialize (I2 q). lia.
    + intros t' th' x' i e h. rewrite nth_set_nth, Ht. destruct (Nat.eqb_spec t' t); eauto.
      intros [= <-]. discriminate.
    + intros t' t2 x' i L. destruct (I4 _ _ _ _ L) as (th' & N' & T). rewrite nth_set_nth, Ht.
      destruct (Nat.eqb_spec t' t) as [->|]; eauto. destruct T as (e & h & a & _ & _ & _ & T). congruence.
  - split; auto; simpl.
    + intros q. specialize (I2 q). lia.
    + intros t' th' x' i e h. rewrite nth_set_nth, Ht. destruct (Nat.eqb_spec t' t); eauto.
      intros [= <-]. simpl. destruct (cm_mutex cm); discriminate.
    + intros t' t2 x' i. rewrite last_of_app. unfold last_of at 1. simpl. rewrite nth_set_nth, Ht.
      destruct (Nat.eqb_spec t t'); [discriminate|]. intros L. destruct (Nat.eqb_spec t' t); [congruence|]. eauto.
  - pose proof (pstep_threads _ _ _ _ _ _ _ _ Hs) as TH.
    assert (LV : forall q, cs_levels s q <= cs_levels s1 q /\ cs_levels s1 q <= cs_levels s q + 1).
    { intros q. destruct (pstep_levels _ _ _ _ _ _ _ _ Hs) as [->|(y & j & e1 & h1 & P & C1 & Q1 & -> & _)]; [lia|].
      unfold set_level. destruct (Nat.eqb_spec q (sh_inner h1)) as [->|]; [|lia].
      specialize (I2 (sh_inner h1)). unfold uwrap1. destruct (N.ltb_spec (cs_levels s (sh_inner h1)) (umax c)); lia. }
    split; simpl.
    + intros m i e C. rewrite cexp_put_thread in C.
      destruct (pstep_cexp _ _ _ _ _ _ _ _ _ _ Hs C) as (e1 & C1 & S1).
      destruct (I1 _ _ _ C1) as (e0 & C0 & S0). exists e0. split; auto. congruence.
    + intros q. specialize (I2 q). specialize (LV q). lia.
    + intros t' th' x' i e h. rewrite nth_set_nth, TH, Ht. destruct (Nat.eqb_spec t' t).
      * intros [= <-]. simpl. intros B C Q.
        destruct (pstep_between _ _ _ _ _ _ _ _ _ Hs B) as (-> & [B'|(e1 & C1 & E1)]); [eauto|].
        destruct (I1 _ _ _ C1) as (e9 & C0 & S0). assert (e9 = e) by congruence. subst e9.
        rewrite (E1 h); [lia|congruence].
      * intros N' B C Q. specialize (I3 _ _ _ _ _ _ N' B C Q). specialize (LV (sh_inner h)). lia.
    + intros t' t2 x' i. rewrite last_of_app, nth_set_nth, TH, Ht.
      pose proof (pstep_by _ _ _ _ _ _ _ Hs) as BY.
      destruct (Nat.eqb_spec t' t) as [->|NE].
      2:{ rewrite (last_other t'); [|intros e I; rewrite (BY _ I); auto]. apply I4. }
      destruct (last_of t ev) as [e|] eqn:L.
      * intros [= ->]. apply last_in in L.
        destruct (pstep_violation _ _ _ _ _ _ _ _ _ _ Hs L) as (P & e & h & C & Q & NEQ & ->).
        eexists. split; [reflexivity|]. simpl.
        destruct (I1 _ _ _ C) as (e0 & C0 & S0). exists e0, h, (cs_levels s (sh_inner h)).
        repeat split; auto; [congruence|].
        assert (sh_seq h <= cs_levels s (sh_inner h)); [|lia].
        eapply I3; eauto; [rewrite P; reflexivity|congruence].
      * intros L'. destruct (I4 _ _ _ _ L') as (th' & N' & (e & h & a & _ & _ & _ & P)).
        assert (th' = th) by congruence. subst th'. rewrite P in Hs.
        destruct (pstep_fin _ _ _ _ _ _ _ _ Hs) as (r' & -> & _). simpl in L. unfold last_of in L. simpl in L.
        rewrite Nat.eqb_refl in L. discriminate.
Qed.

Definition answer_ok (x : ccall) (i : nat) (x' : ccall) (r : res V) : Prop :=
  x' = x /\ exists e h a, cexp s0 (cc_m x) i = Some e /\ c_seq (e_common e) = Some h /\
    sh_seq h < a /\ r = Panic (MSeqSatisfy a (sh_seq h)).

Lemma cstep_answer n (s : csys) t s' ev tr pre t1 x' r post t' x i :
  vinv n s tr -> cstep c s t = (s', ev) -> ev = pre ++ EvReturn t1 x' r :: post ->
  last_of t1 (tr ++ pre) = Some (EvViolation t' x i) -> answer_ok x i x' r.
Proof.
  intros [I1 I2 I3 I4] H EV L. apply cstep_cases in H.
  destruct H as [|th y rest Ht Hp Hd Hm|th y rest cm Ht Hp Hd Hm|th y cm s1 p1 ev Ht Hp Hm Hs].
  - destruct pre; discriminate.
  - destruct pre; discriminate.
  - destruct pre as [|a [|b pre]]; discriminate.
  - assert (T : t1 = t).
    { apply (pstep_by _ _ _ _ _ _ _ Hs (EvReturn t1 x' r)). rewrite EV. apply in_or_app. simpl. auto. }
    subst t1. rewrite last_of_app in L. destruct (last_of t pre) as [e|] eqn:LP.
    + injection L as ->. apply last_in in LP.
      assert (IN : In (EvViolation t' x i) ev) by (rewrite EV; apply in_or_app; auto).
      assert (IR : In (EvReturn t x' r) ev) by (rewrite EV; apply in_or_app; simpl; auto).
      destruct (pstep_violation _ _ _ _ _ _ _ _ _ _ Hs IN) as (P & e & h & C & Q & NEQ & P').
      rewrite P in Hs. simpl in Hs. rewrite C in Hs.
      destruct (satisfy_sequence _ _ _) as [w' r0] in Hs. injection Hs as _ _ <-.
      destruct r0; simpl in IR; intuition discriminate.
    + destruct (I4 _ _ _ _ L) as (th' & N' & (e & h & a & C & Q & LT & P)).
      assert (th' = th) by congruence. subst th'. rewrite P in Hs.
      destruct (pstep_fin _ _ _ _ _ _ _ _ Hs) as (r' & -> & R). rewrite (R _ eq_refl) in EV.
      destruct pre as [|b pre]; [|destruct pre; discriminate].
      injection EV as <- <- _. split; auto. exists e, h, a. auto.
Qed.

Lemma split_app {A} (x : A) e1 e2 : forall pre post, e1 ++ e2 = pre ++ x :: post ->
  (exists p, e1 = pre ++ x :: p) \/ exists pre', pre = e1 ++ pre' /\ e2 = pre' ++ x :: post.
Proof.
  induction e1 as [|a e1 IH]; simpl; intros pre post H.
  - right. exists pre. auto.
  - destruct pre as [|b pre]; simpl in H; injection H as -> H.
    + left. exists e1. reflexivity.
    + destruct (IH _ _ H) as [(p & ->)|(pre' & -> & ->)]; [left; exists p; reflexivity|].
      right. exists pre'. auto.
Qed.

Lemma crun_answer sched : forall (s : csys) s' tr0 tr pre t1 x' r post t' x i,
  vinv (N.of_nat (List.length sched)) s tr0 -> crun c s sched = (s', tr) ->
  tr = pre ++ EvReturn t1 x' r :: post ->
  last_of t1 (tr0 ++ pre) = Some (EvViolation t' x i) -> answer_ok x i x' r.
Proof.
  induction sched as [|t0 sched IH]; intros s s' tr0 tr pre t1 x' r post t' x i W H TR L; simpl in H.
  - injection H as <- <-. destruct pre; discriminate.
  - destruct (cstep c s t0) as [s1 e1] eqn:E1. destruct (crun c s1 sched) as [s2 e2] eqn:E2.
    injection H as <- <-.
    destruct (split_app _ _ _ _ _ TR) as [(p & ->)|(pre' & -> & ->)].
    + eapply cstep_answer; eauto.
    + rewrite app_assoc in L. eapply IH; [|eauto|reflexivity|eauto].
      eapply cstep_vinv; eauto. replace (N.succ (N.of_nat (List.length sched))) with (N.of_nat (List.length (t0 :: sched))); auto.
      simpl List.length. lia.
Qed.

End ViolationProofs.
