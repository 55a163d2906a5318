(** * DropsMore: mocks that closures own, and setters whose old closures panic *)

From Coq Require Import NArith List Bool String Permutation Lia.
From Verif Require Import Base Times Expect Mock Spec SysSpec Owns OwnsSpec OwnsProofs Drops DropsSpec DropsProofs
  ValidProofs GreedyProofs DispatchProofs.
Import ListNotations.
Open Scope N_scope.
Open Scope list_scope.

(** ** Acts that return *)
Section Acts.
Context {V U : Type}.

Lemma in_order_all sh (s : slot V U) : fair sh -> Permutation (in_order sh s) (all_of s).
Proof. destruct s as [es|st]; cbn [in_order all_of]; intros F; [reflexivity|]. apply Permutation_flat_map. apply F. Qed.

Lemma object_acts_forall sh (ob : object V U) (K : common V U -> Prop) (X : thing V U -> Prop) : fair sh ->
  Forall (fun a => match snd a with ActCheck k => K k | ActDestroy x => X x end) (object_acts sh ob) <->
  Forall (fun f => Forall (fun e => K (e_common e)) (all_of (f_slot f))) ob /\ (forall x, In x (object_held ob) -> X x).
Proof.
  intros F. unfold object_acts, object_held.
  assert (E : forall me (e : expectation V U),
    Forall (fun a => match snd a with ActCheck k => K k | ActDestroy x => X x end) (acts_of me e) <->
    K (e_common e) /\ (forall x, In x (held_by e) -> X x)).
  { intros me e. unfold acts_of. rewrite Forall_cons_iff, Forall_map. cbn [snd]. rewrite Forall_forall. reflexivity. }
  induction ob as [| f ob IH]; cbn [flat_map].
  - split; [split; [constructor|contradiction]|constructor].
  - rewrite Forall_app, IH, Forall_cons_iff, Forall_flat_map.
    assert (G : Forall (fun e : expectation V U => Forall (fun a => match snd a with ActCheck k => K k | ActDestroy x => X x end)
                (acts_of (md_me (f_decl f)) e)) (in_order sh (f_slot f)) <->
             Forall (fun e => K (e_common e)) (all_of (f_slot f)) /\
             (forall x, In x (flat_map held_by (all_of (f_slot f))) -> X x)).
    { rewrite !Forall_forall. pose proof (in_order_all sh (f_slot f) F) as P. split.
      - intros H. split.
        + intros e I0. apply (E (md_me (f_decl f)) e). apply H. eapply Permutation_in; [symmetry; exact P|exact I0].
        + intros x I0. apply in_flat_map in I0. destruct I0 as (e & I0 & I1).
          apply (proj2 (proj1 (E (md_me (f_decl f)) e) (H e (Permutation_in _ (Permutation_sym P) I0)))). exact I1.
      - intros [H1 H2] e I0. apply E. pose proof (Permutation_in _ P I0) as I1. split; [auto|].
        intros x I2. apply H2. apply in_flat_map. eauto. }
    rewrite G. split.
    + intros [[A B] [C D]]. split; [auto|]. intros x I0. apply in_app_or in I0. destruct I0; auto.
    + intros [[A C] D]. split; split; auto; intros x I0; apply D, in_or_app; auto.
Qed.

Definition checked_out (k : common V U) : Prop := sound (Expectation k (ARef (RDefault None))).
Lemma check_iff c me (k : common V U) : common_drop c me k false = Ret tt <-> checked_out k.
Proof.
  unfold checked_out. destruct (sound_dec (Expectation k (ARef (RDefault None)))) as [S0|S0].
  - pose proof (common_drop_sound c me _ S0) as E. tauto.
  - pose proof (common_drop_unsound c me _ S0) as E. cbn [e_common] in E. rewrite E. split; [discriminate|tauto].
Qed.

Lemma object_sound_checked (ob : object V U) :
  object_sound ob <-> Forall (fun f => Forall (fun e => checked_out (e_common e)) (all_of (f_slot f))) ob.
Proof. reflexivity. Qed.

(** Mocks that own nothing return if they are sound. *)
Lemma idle_returns c p l (u : U) : p = false \/ p = true ->
  Forall (fun a => match snd a with ActCheck k => p = true \/ checked_out k | ActDestroy x => True end) l <->
  returns (idle (V2 := V)) c p l u u.
Proof.
  intros _. induction l as [| [me a] l IH]; [split; constructor|].
  rewrite Forall_cons_iff. cbn [snd]. split.
  - intros [A B]. destruct a as [k|x]; econstructor; try (apply IH; exact B); cbn [perform]; [|reflexivity].
    f_equal. destruct p; [apply common_drop_panicking|]. apply check_iff. destruct A; [discriminate|auto].
  - intros R. inversion R as [|? ? ? u1 ? P R2]; subst.
    assert (u1 = u) by (destruct a; cbn in P; inversion P; auto). subst. split; [|apply IH; exact R2].
    destruct a as [k|x]; [|exact Logic.I]. destruct p; [auto|]. right. apply (check_iff c me). cbn in P. inversion P. auto.
Qed.

Lemma returns_idle c p l (u u' : U) : returns (idle (V2 := V)) c p l u u' -> u' = u.
Proof. intros R. induction R as [|[me []] l u u1 u2 P R IH]; auto; cbn in P; inversion P; subst; auto. Qed.

Lemma ends_idle c p l (u u' : U) r : ends (idle (V2 := V)) c p l u u' r -> r <> Abort -> u' = u.
Proof.
  intros H NA. inversion H as [v R|l1 x l2 v1 v2 u0 m -> R P R3|l1 x l2 v1 v2 u0 -> R P|l1 x l2 y l3 v1 v2 v3 v4 u0 m q -> R P R3 P2 NR]; subst; try congruence.
  - eapply returns_idle; eauto.
  - rewrite (returns_idle _ _ _ _ _ R3). destruct x as [me []]; cbn in P; inversion P; subst; eapply returns_idle; eauto.
Qed.

Lemma ends_returns (dt : dtors V U) c l (s s' s'' : U) p r : ends dt c p l s s' r -> returns dt c p l s s'' -> r = Ret tt.
Proof.
  intros E R.
  assert (Z : forall l1 a l2 s1 s2 r1, l = l1 ++ a :: l2 -> returns dt c p l1 s s1 -> perform dt c a p s1 = (s2, r1) -> r1 = Ret tt).
  { intros l1 a l2 s1 s2 r1 -> R1 P. clear E. revert R. induction R1; cbn [List.app]; intros R; inversion R; subst; try congruence.
    match goal with A : perform _ _ a0 _ _ = _, B : perform _ _ a0 _ _ = _ |- _ => rewrite A in B; inversion B; subst end. auto. }
  destruct E; auto.
  - pose proof (Z _ _ _ _ _ _ H H0 H1). congruence.
  - pose proof (Z _ _ _ _ _ _ H H0 H1). congruence.
  - pose proof (Z _ _ _ _ _ _ H H0 H1). congruence.
Qed.

Lemma idle_polite : polite (idle (V2 := V) (U2 := U)).
Proof. intros x u. split; [eexists; reflexivity|discriminate]. Qed.

Lemma idle_object c sh (ob : object V U) u : fair sh ->
  exists r, object_drop_d idle c sh ob false u = (u, r) /\ r <> Abort /\ (r = Ret tt <-> object_sound ob).
Proof.
  intros F. destruct (object_drop_d idle c sh ob false u) as [u' r] eqn:E.
  pose proof (object_no_abort idle c idle_polite sh ob false u) as NA. rewrite E in NA. cbn in NA.
  apply object_ends in E. pose proof (ends_idle _ _ _ _ _ _ E NA). subst u'. exists r. split; [reflexivity|]. split; [exact NA|].
  assert (Z : object_sound ob <-> returns (idle (V2 := V)) c false (object_acts sh ob) u u).
  { rewrite <- idle_returns by auto.
    rewrite (object_acts_forall sh ob (fun k => false = true \/ checked_out k) (fun _ => True) F).
    split.
    - intros S0. split; [|auto]. revert S0. apply Forall_impl. intros f. apply Forall_impl. intros e S0. right. exact S0.
    - intros [S0 _]. revert S0. apply Forall_impl. intros f. apply Forall_impl. intros e [S0|S0]; [discriminate|exact S0]. }
  rewrite Z. split.
  - intros ->. eapply ends_ret; eauto.
  - intros R. eapply ends_returns; eauto.
Qed.

Lemma idle_object_unwinding c sh (ob : object V U) u : object_drop_d idle c sh ob true u = (u, Ret tt).
Proof.
  destruct (object_drop_d idle c sh ob true u) as [u' r] eqn:E. apply object_ends in E.
  pose proof (ends_unwinding idle c idle_polite _ _ _ _ E). subst. rewrite (ends_idle _ _ _ _ _ _ E); [reflexivity|discriminate].
Qed.
End Acts.

(** ** Owners *)
Section Own.
Context {V V2 U2 : Type} (c c2 : cfg) (sh2 : shuffle V2 U2).
Notation state := (list (object V2 U2) * U2)%type.
Context (own : thing V state -> list nat).

Definition one (dt2 : dtors V2 U2) (i : nat) (p : bool) (s : state) : state * res unit :=
  match nth_error (fst s) i with
  | None => (s, Ret tt)
  | Some ob => let (u', r) := object_drop_d dt2 c2 sh2 ob p (snd s) in ((set_nth (fst s) i [], u'), r)
  end.

Lemma owning_polite dt2 : polite dt2 -> polite (owning own dt2 c2 sh2).
Proof.
  intros P x. change (owning own dt2 c2 sh2 x) with (glue_d (one dt2) (own x)).
  assert (T : forall i s, exists s', one dt2 i true s = (s', Ret tt)).
  { intros i s. unfold one. destruct (nth_error (fst s) i) as [ob|]; [|eauto].
    destruct (object_drop_d dt2 c2 sh2 ob true (snd s)) as [u' r] eqn:E. apply object_ends in E.
    rewrite (ends_unwinding dt2 c2 P _ _ _ _ E). eauto. }
  assert (G : forall l s, exists s', glue_d (one dt2) l true s = (s', Ret tt)).
  { induction l as [| i l IH]; intros s; cbn [glue_d]; [eauto|]. destruct (T i s) as [s' ->]. apply IH. }
  intros u. split; [apply G|]. revert u. induction (own x) as [| i l IH]; intros s; cbn [glue_d]; [discriminate|].
  assert (NA : snd (one dt2 i false s) <> Abort).
  { unfold one. destruct (nth_error (fst s) i) as [ob|]; [|discriminate].
    pose proof (object_no_abort dt2 c2 P sh2 ob false (snd s)) as Z. destruct (object_drop_d _ _ _ _ _ _). exact Z. }
  destruct (one dt2 i false s) as [s1 [[]|m|]]; cbn in NA; [apply IH| |congruence].
  destruct (G l s1) as [s2 ->]. discriminate.
Qed.

(** Objects that have been dropped, and no others. *)
Definition gone (D : nat -> Prop) (objs objs' : list (object V2 U2)) : Prop :=
  forall i, (D i -> nth_error objs' i = option_map (fun _ => []) (nth_error objs i)) /\
            (~ D i -> nth_error objs' i = nth_error objs i).

Lemma one_idle i p (s s' : state) r : fair sh2 -> one idle i p s = (s', r) ->
  gone (fun j => j = i) (fst s) (fst s') /\ snd s' = snd s /\ r <> Abort /\
  (r = Ret tt <-> p = true \/ forall ob, nth_error (fst s) i = Some ob -> object_sound ob).
Proof.
  intros F. unfold one. destruct (nth_error (fst s) i) as [ob|] eqn:N; intros H.
  - assert (G : gone (fun j => j = i) (fst s) (set_nth (fst s) i [])).
    { intros j. split; [intros ->; rewrite (nth_set_nth_same _ _ _ _ N), N; reflexivity|]. intros NE. apply nth_set_nth_other. congruence. }
    destruct p.
    + rewrite idle_object_unwinding in H. inversion H; subst. split; [exact G|]. split; [reflexivity|]. split; [discriminate|]. tauto.
    + destruct (idle_object c2 sh2 ob (snd s) F) as (r0 & E & NA & I0). rewrite E in H. inversion H; subst.
      split; [exact G|]. split; [reflexivity|]. split; [exact NA|]. rewrite I0. split.
      * intros S0. right. intros ob0 X. inversion X; subst. exact S0.
      * intros [X|X]; [discriminate|auto].
  - inversion H; subst. split; [|split; [reflexivity|split; [discriminate|]]].
    + intros j. split; [intros ->; rewrite N; reflexivity|auto].
    + split; [|reflexivity]. intros _. right. discriminate.
Qed.

Lemma empty_sound : object_sound ([] : object V2 U2).
Proof. constructor. Qed.

Lemma gone_in D D' (a b d : list (object V2 U2)) : (forall i, D i \/ ~ D i) -> (forall i, D' i \/ ~ D' i) ->
  gone D a b -> gone D' b d -> gone (fun i => D i \/ D' i) a d.
Proof.
  intros X Y G H i. destruct (G i) as [G1 G2], (H i) as [H1 H2].
  destruct (X i) as [A|A], (Y i) as [B|B]; split; try tauto; intros _.
  - rewrite (H1 B), (G1 A). destruct (nth_error a i); reflexivity.
  - rewrite (H2 B). auto.
  - rewrite (H1 B), (G2 A). reflexivity.
  - rewrite (H2 B). auto.
Qed.

Lemma many_idle : fair sh2 -> forall l p (s s' : state) r, glue_d (one idle) l p s = (s', r) ->
  gone (fun j => In j l) (fst s) (fst s') /\ snd s' = snd s /\ r <> Abort /\
  (r = Ret tt <-> p = true \/ forall i ob, In i l -> nth_error (fst s) i = Some ob -> object_sound ob).
Proof.
  intros F. induction l as [| i l IH]; intros p s s' r H; cbn [glue_d] in H.
  - inversion H; subst. split; [intros i; split; [contradiction|auto]|]. split; [reflexivity|]. split; [discriminate|].
    split; [|reflexivity]. intros _. right. contradiction.
  - destruct (one idle i p s) as [s1 r1] eqn:E. apply (one_idle _ _ _ _ _ F) in E. destruct E as (G1 & U1 & NA & I1).
    assert (X : forall p2 s2 r2, glue_d (one idle) l p2 s1 = (s2, r2) ->
              gone (fun j => In j (i :: l)) (fst s) (fst s2) /\ snd s2 = snd s).
    { intros p2 s2 r2 H2. apply IH in H2. destruct H2 as (G2 & U2' & _). split; [|congruence].
      assert (Z := gone_in _ _ _ _ _ (fun j => match PeanoNat.Nat.eq_dec j i with left e => or_introl e | right e => or_intror e end)
                   (fun j => match in_dec PeanoNat.Nat.eq_dec j l with left e => or_introl e | right e => or_intror e end) G1 G2).
      intros j. destruct (Z j) as [Z1 Z2]. split.
      - intros [<-|I0]; auto.
      - intros NI. apply Z2. intros [->|I0]; apply NI; [left; reflexivity|right; auto]. }
    destruct r1 as [[]|m|]; [| |congruence].
    + destruct (X _ _ _ H) as [X1 X2]. apply IH in H. destruct H as (_ & _ & NA2 & I2).
      split; [exact X1|]. split; [exact X2|]. split; [exact NA2|]. rewrite I2. destruct p; [tauto|].
      assert (OK : forall ob, nth_error (fst s) i = Some ob -> object_sound ob)
        by (destruct (proj1 I1 eq_refl); [discriminate|auto]).
      split; intros [Z|Z]; try discriminate; right; intros j ob J N.
      * destruct J as [<-|J]; [auto|]. destruct (PeanoNat.Nat.eq_dec j i) as [->|NE]; [auto|].
        apply (Z j ob J). rewrite (proj2 (G1 j) NE). exact N.
      * destruct (PeanoNat.Nat.eq_dec j i) as [->|NE].
        -- rewrite (proj1 (G1 i) eq_refl) in N. destruct (nth_error (fst s) i); [|discriminate]. inversion N. apply empty_sound.
        -- rewrite (proj2 (G1 j) NE) in N. apply (Z j ob); [right; auto|auto].
    + destruct (glue_d (one idle) l true s1) as [s2 r2] eqn:E2. destruct (X _ _ _ E2) as [X1 X2].
      apply IH in E2. destruct E2 as (_ & _ & NA2 & I2). rewrite (proj2 I2 (or_introl eq_refl)) in H. inversion H; subst.
      split; [exact X1|]. split; [exact X2|]. split; [discriminate|]. split; [discriminate|].
      intros Z. assert (Y : Panic (A := unit) m = Ret tt); [|discriminate Y]. apply I1. destruct Z as [Z|Z]; [auto|].
      right. intros ob. apply Z. left. reflexivity.
Qed.

Lemma owning_idle x p (s s' : state) r : fair sh2 -> owning own idle c2 sh2 x p s = (s', r) ->
  gone (fun j => In j (own x)) (fst s) (fst s') /\ snd s' = snd s /\ r <> Abort /\
  (r = Ret tt <-> p = true \/ forall i ob, In i (own x) -> nth_error (fst s) i = Some ob -> object_sound ob).
Proof. intros F H. change (owning own idle c2 sh2 x) with (glue_d (one idle) (own x)) in H. eapply many_idle; eauto. Qed.

(** The things of a list of acts own [i]. *)
Definition owner_in (l : list (method V * act V state)) (i : nat) : Prop :=
  exists me x, In (me, ActDestroy x) l /\ In i (own x).

Lemma owner_dec l i : owner_in l i \/ ~ owner_in l i.
Proof.
  induction l as [| [me [k|x]] l IH].
  - right. intros (? & ? & [] & _).
  - destruct IH as [(m & x & A & B)|N]; [left; exists m, x; split; [right|]; auto|].
    right. intros (m & x & [A|A] & B); [discriminate|]. apply N. exists m, x. auto.
  - destruct (in_dec PeanoNat.Nat.eq_dec i (own x)) as [I0|I0]; [left; exists me, x; split; [left|]; auto|].
    destruct IH as [(m & y & A & B)|N]; [left; exists m, y; split; [right|]; auto|].
    right. intros (m & y & [A|A] & B); [inversion A; subst; auto|]. apply N. exists m, y. auto.
Qed.

Definition fine (objs : list (object V2 U2)) (a : method V * act V state) : Prop :=
  match snd a with
  | ActCheck k => checked_out k
  | ActDestroy x => forall i ob, In i (own x) -> nth_error objs i = Some ob -> object_sound ob
  end.

Notation dt := (owning own idle c2 sh2).

Lemma acts_gone : fair sh2 -> forall l p s s', returns dt c p l s s' -> gone (owner_in l) (fst s) (fst s') /\ snd s' = snd s.
Proof.
  intros F. induction l as [| [me a] l IH]; intros p s s' R; inversion R as [|? ? ? s1 ? P R2]; subst.
  - split; [|reflexivity]. intros i. split; [intros (? & ? & [] & _)|auto].
  - apply IH in R2. destruct R2 as [G2 U2']. destruct a as [k|x]; cbn [perform] in P.
    + inversion P; subst. split; [|auto]. intros i. destruct (G2 i) as [A B]. split.
      * intros (m & y & [X|X] & Y); [discriminate|]. apply A. exists m, y. auto.
      * intros N. apply B. intros (m & y & X & Y). apply N. exists m, y. split; [right|]; auto.
    + destruct (owning_idle _ _ _ _ _ F P) as (G1 & U1 & _). split; [|congruence].
      assert (Z := gone_in _ _ _ _ _ (fun j => match in_dec PeanoNat.Nat.eq_dec j (own x) with left e => or_introl e | right e => or_intror e end)
                   (owner_dec l) G1 G2).
      intros j. destruct (Z j) as [Z1 Z2]. split.
      * intros (m & y & [X|X] & Y); apply Z1; [inversion X; subst; auto|right; exists m, y; auto].
      * intros NI. apply Z2. intros [X|(m & y & X & Y)]; apply NI; [exists me, x; split; [left|]; auto|exists m, y; split; [right|]; auto].
Qed.

Lemma acts_fine : fair sh2 -> forall l s, (exists s', returns dt c false l s s') <-> Forall (fine (fst s)) l.
Proof.
  intros F. induction l as [| [me a] l IH]; intros s.
  - split; [constructor|]. intros _. exists s. constructor.
  - rewrite Forall_cons_iff. destruct a as [k|x]; unfold fine at 1; cbn [snd].
    + split.
      * intros [s' R]. inversion R as [|? ? ? s1 ? P R2]; subst. cbn [perform] in P. inversion P; subst.
        split; [apply (check_iff c me); auto|]. apply IH. eauto.
      * intros [A B]. apply IH in B. destruct B as [s' B]. exists s'. econstructor; [|exact B]. cbn [perform]. f_equal. apply check_iff. exact A.
    + destruct (dt x false s) as [s1 r] eqn:P. destruct (owning_idle _ _ _ _ _ F P) as (G1 & _ & _ & I1).
      assert (SAME : (forall i ob, In i (own x) -> nth_error (fst s) i = Some ob -> object_sound ob) ->
                     Forall (fine (fst s1)) l <-> Forall (fine (fst s)) l).
      { intros OK. rewrite !Forall_forall. split; intros H [m [k|y]] I0; specialize (H _ I0); unfold fine in *; cbn [snd] in *; auto;
          intros i ob J N; destruct (in_dec PeanoNat.Nat.eq_dec i (own x)) as [A|A].
        - eauto.
        - apply (H i ob J). rewrite (proj2 (G1 i) A). exact N.
        - rewrite (proj1 (G1 i) A) in N. destruct (nth_error (fst s) i); [|discriminate]. inversion N. apply empty_sound.
        - apply (H i ob J). rewrite <- (proj2 (G1 i) A). exact N. }
      split.
      * intros [s' R]. inversion R as [|? ? ? s2 ? P2 R2]; subst. cbn [perform] in P2. rewrite P in P2. inversion P2; subst.
        destruct (proj1 I1 eq_refl) as [Z|Z]; [discriminate|]. split; [exact Z|]. apply (SAME Z). apply IH. eauto.
      * intros [A B]. apply (SAME A) in B. apply IH in B. destruct B as [s' B]. exists s'.
        rewrite (proj2 I1 (or_intror A)) in P. econstructor; [exact P|exact B].
Qed.

Lemma owner_held sh (ob : object V state) i : fair sh ->
  owner_in (object_acts sh ob) i <-> exists x, In x (object_held ob) /\ In i (own x).
Proof.
  intros F. split.
  - intros (me & x & A & B). exists x. split; [|exact B].
    pose proof (object_acts_forall sh ob (fun _ => True) (fun y => In y (object_held ob)) F) as [_ Z].
    assert (Y : Forall (fun f => Forall (fun e : expectation V state => True) (all_of (f_slot f))) ob).
    { apply Forall_forall. intros f _. apply Forall_forall. auto. }
    specialize (Z (conj Y (fun y H => H))). rewrite Forall_forall in Z. exact (Z _ A).
  - intros (x & A & B). destruct (owner_dec (object_acts sh ob) i) as [Y|N]; [exact Y|exfalso].
    pose proof (object_acts_forall sh ob (fun _ => True) (fun y => ~ In i (own y)) F) as [Z _].
    apply (proj2 (Z ltac:(apply Forall_forall; intros [me [k|y]] I0; cbn [snd]; [auto|]; intros J; apply N; exists me, y; auto)) x A B).
Qed.

Lemma owners sh (ob : object V state) objs u s' r : fair sh -> fair sh2 ->
  object_drop_d dt c sh ob false (objs, u) = (s', r) ->
  r <> Abort /\
  (r = Ret tt <-> object_sound ob /\
     forall x i ob2, In x (object_held ob) -> In i (own x) -> nth_error objs i = Some ob2 -> object_sound ob2).
Proof.
  intros F F2 H. pose proof (object_no_abort dt c (owning_polite idle idle_polite) sh ob false (objs, u)) as NA. rewrite H in NA.
  split; [exact NA|]. apply object_ends in H.
  assert (Z : Forall (fine objs) (object_acts sh ob) <-> object_sound ob /\
     forall x i ob2, In x (object_held ob) -> In i (own x) -> nth_error objs i = Some ob2 -> object_sound ob2).
  { pose proof (object_acts_forall sh ob checked_out (fun x => forall i ob, In i (own x) -> nth_error objs i = Some ob -> object_sound ob) F) as Q.
    unfold fine. rewrite Q. rewrite object_sound_checked. split; intros [A B]; split; auto; eauto. }
  rewrite <- Z. split.
  - intros ->. apply (acts_fine F2 _ (objs, u)). exists s'. eapply ends_ret; eauto.
  - intros Q. apply (acts_fine F2 _ (objs, u)) in Q. destruct Q as [s'' Q]. eapply ends_returns; eauto.
Qed.

(** Everything that was owned is gone, whatever happened. *)
Lemma perform_gone a p (s s' : state) r : fair sh2 -> perform dt c a p s = (s', r) -> gone (owner_in [a]) (fst s) (fst s') /\ snd s' = snd s.
Proof.
  intros F P. destruct a as [me [k|x]]; cbn [perform] in P.
  - inversion P; subst. split; [|reflexivity]. intros i. split; [intros (? & ? & [X|[]] & _); discriminate|auto].
  - destruct (owning_idle _ _ _ _ _ F P) as (G1 & U1 & _). split; [|exact U1]. intros i. destruct (G1 i) as [A B]. split.
    + intros (m & y & [X|[]] & Y). inversion X; subst. auto.
    + intros N. apply B. intros J. apply N. exists me, x. split; [left|]; auto.
Qed.

Lemma ends_gone l p (s s' : state) r : fair sh2 -> ends dt c p l s s' r -> r <> Abort ->
  gone (owner_in l) (fst s) (fst s') /\ snd s' = snd s.
Proof.
  intros F E NA. inversion E as [v R1|l1 x l2 v1 v2 u0 m EL R1 P R3|l1 x l2 v1 v2 u0 EL R1 P|l1 x l2 y l3 v1 v2 v3 v4 u0 m q EL R1 P R3 P2 NR]; subst; try congruence.
  - eapply acts_gone; eauto.
  - destruct (acts_gone F _ _ _ _ R1) as [G1 W1]. destruct (perform_gone _ _ _ _ _ F P) as [G2 W2]. destruct (acts_gone F _ _ _ _ R3) as [G3 W3].
    split; [|congruence].
    pose proof (gone_in _ _ _ _ _ (owner_dec l1) (owner_dec [x]) G1 G2) as G12.
    assert (D : forall i, (owner_in l1 i \/ owner_in [x] i) \/ ~ (owner_in l1 i \/ owner_in [x] i)).
    { intros i. destruct (owner_dec l1 i), (owner_dec [x] i); tauto. }
    pose proof (gone_in _ _ _ _ _ D (owner_dec l2) G12 G3) as G.
    assert (Q : forall i, owner_in (l1 ++ x :: l2) i <-> (owner_in l1 i \/ owner_in [x] i) \/ owner_in l2 i).
    { intros i. unfold owner_in. split.
      - intros (me & y & A & B). apply in_app_or in A. destruct A as [A|[A|A]]; [left; left|left; right|right]; exists me, y; auto. split; [left|]; auto.
      - intros [[(me & y & A & B)|(me & y & [A|[]] & B)]|(me & y & A & B)]; exists me, y; (split; [|exact B]); apply in_or_app; cbn; auto. }
    intros i. rewrite Q. apply G.
Qed.
End Own.

(** ** Setters whose old closures panic *)
Section Setting.
Context {V U : Type} (dt : dtors V U) (c : cfg).

Lemma setters_then th p l st l2 : forall (e e1 e2 : expectation V U) t t1 t2 u u1 u2 m,
  apply_setters_d dt c th p l e t u = (e1, t1, u1, Ret tt) -> apply_setter_d dt c th p st e1 t1 u1 = (e2, t2, u2, Panic m) ->
  apply_setters_d dt c th p (l ++ st :: l2) e t u = (e2, t2, u2, Panic m).
Proof.
  induction l as [| st0 l IH]; intros e e1 e2 t t1 t2 u u1 u2 m H H2; cbn [List.app apply_setters_d] in *.
  - inversion H; subst. rewrite H2. reflexivity.
  - destruct (apply_setter_d dt c th p st0 e t u) as [[[e3 t3] u3] [x|?|]]; [|discriminate|discriminate]. eapply IH; eauto.
Qed.

(** A chain that has returned has poisoned nothing. *)
Definition healthy (kd : kind) (e : expectation V U) : Prop :=
  of_kind kd e /\ matcher_poisoned e = false /\ action_poisoned e = false.

Lemma default_healthy md : healthy (md_kind md) (expectation_default c (md_me md) (md_kind md) : expectation V U).
Proof. unfold healthy, of_kind. destruct (md_kind md); cbn; auto. Qed.

Lemma setter_healthy kd th p st (e e' : expectation V U) t t' u u' y : healthy kd e ->
  apply_setter_d dt c th p st e t u = (e', t', u', Ret y) -> healthy kd e'.
Proof.
  intros (K & M & A).
  assert (SM : forall m k' u1 r, set_matcher_d dt p m (e_common e) u = (k', u1, r) -> r = Ret y -> healthy kd (set_common e k')).
  { intros m k' u1 r. unfold set_matcher_d. unfold matcher_poisoned in M. rewrite M.
    destruct (destroy dt (matcher_things (c_matcher (e_common e))) p u) as [u2 r2]. intros H R. inversion H; subst.
    destruct e; repeat split; auto. }
  assert (SS : forall rf e1 u1 r, set_srfunc_d dt p rf e u = (e1, u1, r) -> r = Ret y -> healthy kd e1).
  { intros rf e1 u1 r. unfold set_srfunc_d. destruct e as [k [old b|old|old]]; cbn [e_action];
      try (intros H R; inversion H; subst; repeat split; auto; fail).
    cbn in A. subst b. destruct (destroy dt (srfunc_things old) p u) as [u2 r2]. intros H R. inversion H; subst. repeat split; auto. }
  assert (MM : forall rf e1 u1 r, set_mrfunc_d dt p rf e u = (e1, u1, r) -> r = Ret y -> healthy kd e1).
  { intros rf e1 u1 r. unfold set_mrfunc_d. destruct e as [k [old b|old|old]]; cbn [e_action];
      try (intros H R; inversion H; subst; repeat split; auto; fail).
    destruct (destroy dt (mrfunc_things old) p u) as [u2 r2]. intros H R. inversion H; subst. repeat split; auto. }
  assert (OT : forall e1 t1 r, says_when st = false -> (forall v, st = StReturnConst v -> exists rf, e_action e = ARef rf) ->
      (match st with StTimes _ | StOnce | StNever | StInSequence _ | StReturnConst _ => True | _ => False end) ->
      apply_setter c th st e t = (e1, t1, r) -> r = Ret y -> healthy kd e1).
  { intros e1 t1 r _ RC W. destruct e as [k a]. destruct st; try contradiction; cbn [apply_setter e_common e_action] in *.
    - unfold common_times. destruct (times_times c x (c_times k)) as [t2 r2]. cbn. intros H R. inversion H; subst. repeat split; auto.
    - unfold common_times. destruct (times_times c (ANum 1) (c_times k)) as [t2 r2]. cbn. intros H R. inversion H; subst. repeat split; auto.
    - intros H R. inversion H; subst. repeat split; auto.
    - destruct (common_in_sequence c k (t s)) as [[k2 s2] r2] eqn:E. intros H R. inversion H; subst. unfold common_in_sequence in E.
      destruct (times_is_exact c (c_times k)) as [[]|?|]; try (inversion E; discriminate).
      destruct (next_handle c (t s)) as [s3 [h|?|]]; inversion E; subst; try discriminate. repeat split; auto.
    - destruct (RC v eq_refl) as [rf ->]. intros H R. inversion H; subst. unfold of_kind in K. cbn [e_action] in K. repeat split; auto. }
  unfold apply_setter_d. cbv zeta.
  destruct st; cbn [fst snd];
    try (match goal with |- context [set_matcher_d dt p ?m ?k u] => destruct (set_matcher_d dt p m k u) as [[? ?] ?] eqn:E end;
         cbn [fst snd]; intros H; inversion H; subst; eapply SM; eauto; fail);
    try (destruct (e_action e) eqn:EA);
    try (match goal with |- context [set_srfunc_d dt p ?m ?k u] => destruct (set_srfunc_d dt p m k u) as [[? ?] ?] eqn:E end;
         cbn [fst snd]; intros H; inversion H; subst; eapply SS; eauto; fail);
    try (match goal with |- context [set_mrfunc_d dt p ?m ?k u] => destruct (set_mrfunc_d dt p m k u) as [[? ?] ?] eqn:E end;
         cbn [fst snd]; intros H; inversion H; subst; eapply MM; eauto; fail).
  all: match goal with |- context [apply_setter ?a ?b ?st0 ?d ?f] => destruct (apply_setter a b st0 d f) as [[? ?] ?] eqn:E end;
    intros H; inversion H; subst; refine (OT _ _ _ eq_refl _ Logic.I eq_refl eq_refl); intros v0 Z; first [discriminate Z | eauto].
Qed.

(** What is set when what was set before panics. *)
Lemma setter_panics kd th p st (e : expectation V U) t u x u' m : healthy kd e ->
  replaced kd st e = [x] -> dt x p u = (u', Panic m) ->
  exists e', apply_setter_d dt c th p st e t u = (e', t, u', Panic m) /\
   (says_when st = true -> held_when e' = handed kd st /\ held_what e' = held_what e /\ matcher_poisoned e' = negb p) /\
   (says_when st = false -> held_what e' = handed kd st /\ held_when e' = held_when e /\
      action_poisoned e' = match kd with KStatic => negb p | _ => false end).
Proof.
  intros (K & M & A) R D.
  assert (G : destroy dt [x] p u = (u', Panic m)) by (unfold destroy; cbn; rewrite D; reflexivity).
  destruct e as [[mt mp sq tm] a]. unfold replaced, of_kind, matcher_poisoned, action_poisoned in *.
  unfold held_when, held_what in R. cbn [e_common e_action c_mpoison c_matcher] in *. subst mp.
  assert (GM : says_when st = true -> destroy dt (matcher_things mt) p u = (u', Panic m)).
  { intros SW. rewrite SW in R. rewrite <- G. f_equal. rewrite <- R. destruct mt; reflexivity. }
  destruct (says_when st) eqn:SW.
  - specialize (GM eq_refl). destruct st; try discriminate SW; unfold apply_setter_d, set_matcher_d; cbn [e_common c_mpoison c_matcher];
      rewrite GM; cbn; eexists; (split; [reflexivity|]); (split; [|discriminate]); intros _; repeat split; destruct kd; reflexivity.
  - clear GM. destruct (says_what kd st) eqn:SO; [|discriminate R].
    destruct a as [rf b|rf|rf], kd; try contradiction; [subst b| |].
    + assert (GA : destroy dt (srfunc_things rf) p u = (u', Panic m)).
      { rewrite <- G. f_equal. rewrite <- R. destruct rf; reflexivity. }
      destruct st; try discriminate SO; unfold apply_setter_d, set_srfunc_d; cbn [e_action];
      rewrite GA; cbn; eexists; (split; [reflexivity|]); (split; [discriminate|]); intros _; repeat split; reflexivity.
    + discriminate R.
    + assert (GA : destroy dt (mrfunc_things rf) p u = (u', Panic m)).
      { rewrite <- G. f_equal. rewrite <- R. destruct rf; reflexivity. }
      destruct st; try discriminate SO; unfold apply_setter_d, set_mrfunc_d; cbn [e_action];
      rewrite GA; cbn; eexists; (split; [reflexivity|]); (split; [discriminate|]); intros _; repeat split; reflexivity.
Qed.

Lemma setters_healthy kd th p l : forall (e e' : expectation V U) t t' u u' x, healthy kd e ->
  apply_setters_d dt c th p l e t u = (e', t', u', Ret x) -> healthy kd e'.
Proof.
  induction l as [| st l IH]; intros e e' t t' u u' x K H; cbn [apply_setters_d] in H; [inversion H; subst; auto|].
  destruct (apply_setter_d dt c th p st e t u) as [[[e2 t2] u2] [y|m|]] eqn:E; [|discriminate|discriminate].
  eapply IH; [|exact H]. eapply setter_healthy; eauto.
Qed.

(** ** Checkpoints *)
Lemma clear_all (s : slot V U) : all_of (slot_clear s) = [].
Proof. destruct s; reflexivity. Qed.

Lemma checkpoint_ends sh : forall ob p u ob' u' r, object_checkpoint_d dt c sh ob p u = (ob', u', r) ->
  (r = Ret tt /\ returns dt c p (flat_map (field_acts sh) ob) u u' /\ Forall2 emptied ob ob') \/
  (exists o1 f o2 o1' f' u1, ob = o1 ++ f :: o2 /\ ob' = o1' ++ f' :: o2 /\
     returns dt c p (flat_map (field_acts sh) o1) u u1 /\ ends dt c p (field_acts sh f) u1 u' r /\ (forall x, r <> Ret x) /\
     Forall2 emptied o1 o1' /\ emptied f f').
Proof.
  induction ob as [| f ob IH]; intros p u ob' u' r H; cbn [object_checkpoint_d] in H.
  - inversion H; subst. left. split; [reflexivity|]. split; constructor.
  - destruct (slot_drop_d dt c (f_decl f) sh (f_slot f) p u) as [u1 q] eqn:E. apply slot_ends in E.
    assert (EM : emptied f (Field (f_decl f) (slot_clear (f_slot f)))) by (split; [reflexivity|apply clear_all]).
    destruct q as [[]|m|].
    + destruct (object_checkpoint_d dt c sh ob p u1) as [[o2 u2] r2] eqn:E2. inversion H; subst.
      apply ends_ret in E. destruct (IH _ _ _ _ _ E2) as [(-> & R & F)|(o1 & g & o3 & o1' & g' & v & -> & -> & R & EN & NR & F & EG)].
      * left. split; [reflexivity|]. split; [cbn [flat_map]; eapply returns_app; eauto|constructor; auto].
      * right. exists (f :: o1), g, o3, (Field (f_decl f) (slot_clear (f_slot f)) :: o1'), g', v. cbn [flat_map List.app].
        split; [reflexivity|]. split; [reflexivity|]. split; [eapply returns_app; eauto|]. split; [exact EN|]. split; [exact NR|].
        split; [constructor; auto|exact EG].
    + inversion H; subst. right. exists [], f, ob, [], (Field (f_decl f) (slot_clear (f_slot f))), u. cbn [flat_map List.app].
      split; [reflexivity|]. split; [reflexivity|]. split; [constructor|]. split; [exact E|]. split; [discriminate|]. split; [constructor|exact EM].
    + inversion H; subst. right. exists [], f, ob, [], (Field (f_decl f) (slot_clear (f_slot f))), u. cbn [flat_map List.app].
      split; [reflexivity|]. split; [reflexivity|]. split; [constructor|]. split; [exact E|]. split; [discriminate|]. split; [constructor|exact EM].
Qed.

Lemma module_checkpoint_ends sh : forall ss p u ss' u' r, module_checkpoint_d dt c sh ss p u = (ss', u', r) ->
  (r = Ret tt /\ Forall (fun x => sm_poison (snd x) = false) ss /\
     returns dt c p (flat_map (static_acts sh) ss) u u' /\ Forall2 static_emptied ss ss') \/
  (exists s1 x s2 s1' x' u1, ss = s1 ++ x :: s2 /\ ss' = s1' ++ x' :: s2 /\ Forall (fun x => sm_poison (snd x) = false) s1 /\
     returns dt c p (flat_map (static_acts sh) s1) u u1 /\ Forall2 static_emptied s1 s1' /\
     if sm_poison (snd x) then x' = x /\ u' = u1 /\ r = Panic MPoison
     else static_emptied x x' /\ ends dt c p (static_acts sh x) u1 u' r /\ (forall x, r <> Ret x)).
Proof.
  induction ss as [| [md sm] ss IH]; intros p u ss' u' r H; cbn [module_checkpoint_d] in H.
  - inversion H; subst. left. split; [reflexivity|]. split; [constructor|]. split; constructor.
  - unfold static_checkpoint_d in H. destruct (sm_poison sm) eqn:PO.
    + inversion H; subst. right. exists [], (md, sm), ss, [], (md, sm), u'. cbn [snd flat_map List.app]. rewrite PO.
      split; [reflexivity|]. split; [reflexivity|]. split; [constructor|]. split; [constructor|]. split; [constructor|]. auto.
    + destruct (slot_drop_d dt c md sh (sm_slot sm) p u) as [u1 q] eqn:E. apply slot_ends in E.
      assert (EM : static_emptied (md, sm) (md, SMutex false (slot_clear (sm_slot sm))))
        by (split; [reflexivity|split; [reflexivity|apply clear_all]]).
      destruct q as [[]|m|].
      * destruct (module_checkpoint_d dt c sh ss p u1) as [[o2 u2] r2] eqn:E2. inversion H; subst.
        apply ends_ret in E. destruct (IH _ _ _ _ _ E2) as [(-> & NP & R & F)|(s1 & x & s2 & s1' & x' & v & -> & -> & NP & R & F & Z)].
        -- left. split; [reflexivity|]. split; [constructor; auto|]. split; [cbn [flat_map]; eapply returns_app; eauto|constructor; auto].
        -- right. exists ((md, sm) :: s1), x, s2, ((md, SMutex false (slot_clear (sm_slot sm))) :: s1'), x', v. cbn [flat_map List.app].
           split; [reflexivity|]. split; [reflexivity|]. split; [constructor; auto|]. split; [eapply returns_app; eauto|].
           split; [constructor; auto|exact Z].
      * inversion H; subst. right. exists [], (md, sm), ss, [], (md, SMutex false (slot_clear (sm_slot sm))), u.
        cbn [flat_map List.app snd]. rewrite PO.
        split; [reflexivity|]. split; [reflexivity|]. split; [constructor|]. split; [constructor|]. split; [constructor|].
        split; [exact EM|]. split; [exact E|discriminate].
      * inversion H; subst. right. exists [], (md, sm), ss, [], (md, SMutex false (slot_clear (sm_slot sm))), u.
        cbn [flat_map List.app snd]. rewrite PO.
        split; [reflexivity|]. split; [reflexivity|]. split; [constructor|]. split; [constructor|]. split; [constructor|].
        split; [exact EM|]. split; [exact E|discriminate].
Qed.
End Setting.
