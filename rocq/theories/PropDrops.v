(** * PropDrops: the destructors of what was handed to a mock (C91) *)

From Coq Require Import NArith List Bool String Permutation Lia.
From Verif Require Import Base Times Expect Mock SysSpec Owns OwnsSpec OwnsProofs Drops DropsSpec DropsProofs DropsMore
  DispatchProofs PropOwns.
Import ListNotations.
Open Scope N_scope.
Open Scope list_scope.

(** ** Data: a user state that lists numbers, and closures whose destructors write theirs. *)
Definition note (n : N) : ucode (list N) (list N) N := fun _ u => (u, Ret n).
Definition noting (n : N) : pred N (list N) := ("noting"%string, fun a u => (u, Ret (a <? n))).
Definition straight2 {V U} (s : gstore V U) : gstore V U := s.
Lemma straight2_fair {V U} : fair (V := V) (U := U) straight2.
Proof. intros st. apply Permutation_refl. Qed.
(** The number of a thing: what its closure returns. *)
Definition number (x : thing N (list N)) : N :=
  match x with
  | ThRet f => match f [] [] with (_, Ret n) => n | _ => 0 end
  | ThMatch _ => 100
  | ThPred _ => 200
  end.
Definition writes (x : thing N (list N)) (u : list N) : list N := u ++ [number x].
Definition writing : dtors N (list N) := fun x _ u => (writes x u, Ret tt).
(** The destructors of the things with numbers above six panic. *)
Definition panicky : dtors N (list N) := fun x p u =>
  (writes x u, if negb p && (6 <? number x) && (number x <? 100) then Panic (MUser (number x)) else Ret tt).

(** Destructors that return are run at the operation that [Owns.v] says, in the order it says, once
    each, and change nothing else. *)
Theorem destructors_that_return_run_in_order :
  forall (V U : Type) (dt : dtors V U) f c sh (y : sys V U) o y' r e,
  (forall x p u, dt x p u = (f x u, Ret tt)) ->
  is_call o = false -> step_o c sh y o = (y', r, e) ->
  exists y'', step_d dt c sh y o = (y'', r) /\
    y_objs y'' = y_objs y' /\ y_stats y'' = y_stats y' /\ y_seqs y'' = y_seqs y' /\
    w_user (y_world y'') = fold_left (fun u x => f x u) (ef_dropped e) (w_user (y_world y')).
Proof.
  intros V U dt f c sh y o y' r e Q NC H. eexists. split; [exact (step_quiet dt f Q _ _ _ _ _ _ _ NC H)|].
  cbn. auto.
Qed.
Print Assumptions destructors_that_return_run_in_order.

Example destructors_that_return_run_in_order_applies :
  let y := fst (run_d writing debug64 straight2 (init [] [])
     [ONew (SDecl [] [ownd]); OExpect 0 0 0%nat [StWith [noting 5]; StReturning (note 1); StReturnOnce (note 2)];
      OExpect 0 0 0%nat [StReturning (note 3)]]) in
  (forall x p u, writing x p u = (writes x u, Ret tt)) /\
  w_user (y_world y) = [1] /\
  snd (step_o debug64 straight2 y (ODrop 0)) = Effect 0 [ThPred (noting 5); ThRet (note 2); ThRet (note 3)] /\
  w_user (y_world (fst (step_d writing debug64 straight2 y (ODrop 0)))) = [1; 200; 2; 3].
Proof. vm_compute. auto. Qed.

(** Without destructors everything is as in [Mock.v]. *)
Theorem destructors_without_effects_change_nothing :
  forall (V U : Type) c sh (y : sys V U) ops, run_d idle c sh y ops = run c sh y ops.
Proof. intros V U c sh y ops. apply idle_run. Qed.
Print Assumptions destructors_without_effects_change_nothing.

Example destructors_without_effects_change_nothing_applies :
  snd (run_d idle debug64 straight (init tt []) owntest) <> [].
Proof. vm_compute. discriminate. Qed.

(** Dropping a mock does, for every expectation in order, its check and the destructors of what it
    holds.  If one of this panics the rest is done while that panic unwinds, and the panic of the drop
    is that one.  Only a second failure aborts.  In any case the mock is gone. *)
Theorem the_first_panic_goes_through :
  forall (V U : Type) (dt : dtors V U) c sh (y : sys V U) i ob y' r,
  nth_error (y_objs y) i = Some ob -> step_d dt c sh y (ODrop i) = (y', r) ->
  nth_error (y_objs y') i = Some [] /\ y_stats y' = y_stats y /\ y_seqs y' = y_seqs y /\
  exists q, ends dt c (w_panicking (y_world y)) (object_acts sh ob) (w_user (y_world y)) (w_user (y_world y')) q /\
    r = match q with Ret _ => Ret None | Panic m => Panic m | Abort => Abort end.
Proof.
  intros V U dt c sh y i ob y' r N H. unfold step_d in H. rewrite N in H.
  destruct (object_drop_d dt c sh ob (w_panicking (y_world y)) (w_user (y_world y))) as [u' q] eqn:E.
  inversion H; subst. cbn [y_objs y_stats y_seqs y_world w_user set_user].
  split; [exact (nth_set_nth_same _ _ _ _ N)|]. split; [reflexivity|]. split; [reflexivity|].
  exists q. split; [apply object_ends; exact E|]. destruct q; reflexivity.
Qed.
Print Assumptions the_first_panic_goes_through.

(** The same for contexts of static methods: the store is empty afterwards, and not poisoned. *)
Theorem the_first_panic_goes_through_contexts :
  forall (V U : Type) (dt : dtors V U) c sh (y : sys V U) s md sm y' r,
  nth_error (y_stats y) s = Some (md, sm) -> sm_poison sm = false -> step_d dt c sh y (OCtxDrop s) = (y', r) ->
  (exists sm', nth_error (y_stats y') s = Some (md, sm') /\ sm_poison sm' = false /\ all_of (sm_slot sm') = []) /\
  y_objs y' = y_objs y /\ y_seqs y' = y_seqs y /\
  exists q, ends dt c (w_panicking (y_world y)) (flat_map (acts_of (md_me md)) (in_order sh (sm_slot sm)))
              (w_user (y_world y)) (w_user (y_world y')) q /\
    r = match q with Ret _ => Ret None | Panic m => Panic m | Abort => Abort end.
Proof.
  intros V U dt c sh y s md sm y' r N NP H. unfold step_d in H. rewrite N in H.
  assert (Z : context_drop_d dt c md sh sm (w_panicking (y_world y)) (w_user (y_world y)) =
              (let (u', q) := slot_drop_d dt c md sh (sm_slot sm) (w_panicking (y_world y)) (w_user (y_world y)) in
               (SMutex false (slot_clear (sm_slot sm)), u', q))).
  { unfold context_drop_d, static_checkpoint_d. rewrite NP. destruct (w_panicking (y_world y)); reflexivity. }
  rewrite Z in H. destruct (slot_drop_d dt c md sh (sm_slot sm) _ _) as [u' q] eqn:E.
  inversion H; subst. cbn [y_objs y_stats y_seqs y_world w_user set_user]. split.
  - exists (SMutex false (slot_clear (sm_slot sm))). split; [exact (nth_set_nth_same _ _ _ _ N)|]. split; [reflexivity|].
    destruct (sm_slot sm); reflexivity.
  - split; [reflexivity|]. split; [reflexivity|]. exists q. split; [apply slot_ends; exact E|]. destruct q; reflexivity.
Qed.
Print Assumptions the_first_panic_goes_through_contexts.

(** The destructor of the first closure panics; that of the second runs all the same. *)
Example the_first_panic_goes_through_applies :
  let y := fst (run_d panicky debug64 straight2 (init [] [])
     [ONew (SDecl [] [ownd]); OExpect 0 0 0%nat [StReturning (note 8)];
      OExpect 0 0 0%nat [StReturning (note 9); StTimes (ANum 0)]]) in
  let (y', r) := step_d panicky debug64 straight2 y (ODrop 0) in
  r = Panic (MUser 8) /\ w_user (y_world y') = [8; 9].
Proof. vm_compute. auto. Qed.

(** A checkpoint goes through the methods in order and stops at the first whose expectations do not
    pass, or whose closures' destructors panic.  That method's expectations are gone like those of the
    methods before it; the others keep theirs. *)
Theorem checkpoints_stop_at_the_first_panic :
  forall (V U : Type) (dt : dtors V U) c sh (y : sys V U) i ob y' r,
  nth_error (y_objs y) i = Some ob -> step_d dt c sh y (OCheckpoint i) = (y', r) ->
  let p := w_panicking (y_world y) in
  let u := w_user (y_world y) in
  let u' := w_user (y_world y') in
  exists ob', nth_error (y_objs y') i = Some ob' /\
  ((r = Ret None /\ returns dt c p (object_acts sh ob) u u' /\ Forall2 emptied ob ob') \/
   (exists o1 f o2 o1' f' u1 q, ob = o1 ++ f :: o2 /\ ob' = o1' ++ f' :: o2 /\
      returns dt c p (object_acts sh o1) u u1 /\ ends dt c p (field_acts sh f) u1 u' q /\
      Forall2 emptied o1 o1' /\ emptied f f' /\
      r = match q with Ret _ => r | Panic m => Panic m | Abort => Abort end /\ (forall x, r <> Ret x))).
Proof.
  intros V U dt c sh y i ob y' r N H p u u'. unfold u'. clear u'. unfold step_d in H. rewrite N in H.
  destruct (object_checkpoint_d dt c sh ob (w_panicking (y_world y)) (w_user (y_world y))) as [[ob' u'] q] eqn:E.
  inversion H; subst. cbn [y_objs y_world w_user set_user]. exists ob'. split; [exact (nth_set_nth_same _ _ _ _ N)|].
  destruct (checkpoint_ends dt c sh _ _ _ _ _ _ E) as [(-> & R & F)|(o1 & f & o2 & o1' & f' & u1 & -> & -> & R & EN & NR & F & EM)].
  - left. auto.
  - right. exists o1, f, o2, o1', f', u1, q. do 6 (split; [auto|]).
    destruct q as [x|m|]; [elim (NR x eq_refl)| |]; (split; [reflexivity|discriminate]).
Qed.
Print Assumptions checkpoints_stop_at_the_first_panic.

(** The checkpoint of a module does so with its functions; it also stops at one whose store is
    poisoned.  It poisons nothing. *)
Theorem module_checkpoints_stop_at_the_first_panic :
  forall (V U : Type) (dt : dtors V U) c sh (y : sys V U) y' r,
  step_d dt c sh y OModCheckpoint = (y', r) ->
  let p := w_panicking (y_world y) in
  let u := w_user (y_world y) in
  let u' := w_user (y_world y') in
  (r = Ret None /\ Forall (fun x => sm_poison (snd x) = false) (y_stats y) /\
     returns dt c p (flat_map (static_acts sh) (y_stats y)) u u' /\ Forall2 static_emptied (y_stats y) (y_stats y')) \/
  (exists s1 x s2 s1' x' u1, y_stats y = s1 ++ x :: s2 /\ y_stats y' = s1' ++ x' :: s2 /\
     Forall (fun x => sm_poison (snd x) = false) s1 /\
     returns dt c p (flat_map (static_acts sh) s1) u u1 /\ Forall2 static_emptied s1 s1' /\
     if sm_poison (snd x) then x' = x /\ u' = u1 /\ r = Panic MPoison
     else static_emptied x x' /\ exists q, ends dt c p (static_acts sh x) u1 u' q /\
       r = match q with Ret _ => r | Panic m => Panic m | Abort => Abort end /\ (forall x, r <> Ret x)).
Proof.
  intros V U dt c sh y y' r H p u u'. unfold u'. clear u'. unfold step_d in H.
  destruct (module_checkpoint_d dt c sh (y_stats y) (w_panicking (y_world y)) (w_user (y_world y))) as [[ss' u'] q] eqn:E.
  inversion H; subst. cbn [y_stats y_world w_user set_user].
  destruct (module_checkpoint_ends dt c sh _ _ _ _ _ _ E) as [(-> & NP & R & F)|(s1 & x & s2 & s1' & x' & u1 & EQ & -> & NP & R & F & Z)].
  - left. auto.
  - right. exists s1, x, s2, s1', x', u1. do 5 (split; [auto|]). destruct (sm_poison (snd x)).
    + destruct Z as (-> & -> & ->). auto.
    + destruct Z as (EM & EN & NR). split; [exact EM|]. exists q. split; [exact EN|].
      destruct q as [z|m|]; [elim (NR z eq_refl)| |]; (split; [reflexivity|discriminate]).
Qed.
Print Assumptions module_checkpoints_stop_at_the_first_panic.

(** The checkpoint of one context, likewise. *)
Theorem context_checkpoints_stop_at_the_first_panic :
  forall (V U : Type) (dt : dtors V U) c sh (y : sys V U) s x y' r,
  nth_error (y_stats y) s = Some x -> step_d dt c sh y (OCtxCheckpoint s) = (y', r) ->
  if sm_poison (snd x) then y' = y /\ r = Panic MPoison
  else exists x' q, nth_error (y_stats y') s = Some x' /\ static_emptied x x' /\
    ends dt c (w_panicking (y_world y)) (static_acts sh x) (w_user (y_world y)) (w_user (y_world y')) q /\
    r = match q with Ret _ => Ret None | Panic m => Panic m | Abort => Abort end.
Proof.
  intros V U dt c sh y s [md sm] y' r N H. unfold step_d in H. rewrite N in H. unfold static_checkpoint_d in H. cbn [snd].
  destruct (sm_poison sm) eqn:PO.
  - inversion H; subst. split; [|reflexivity]. destruct y as [w t ob ss]. cbn [y_world y_seqs y_objs y_stats] in *.
    f_equal; [destruct w; reflexivity|]. clear -N. revert s N. induction ss as [| z ss IH]; intros [| s] N; cbn in *; try discriminate.
    + inversion N; reflexivity.
    + f_equal. auto.
  - destruct (slot_drop_d dt c md sh (sm_slot sm) (w_panicking (y_world y)) (w_user (y_world y))) as [u q] eqn:E.
    inversion H; subst. cbn [y_stats y_world w_user set_user].
    exists (md, SMutex false (slot_clear (sm_slot sm))), q. split; [exact (nth_set_nth_same _ _ _ _ N)|].
    split; [split; [reflexivity|split; [reflexivity|apply clear_all]]|]. split; [exact (slot_ends dt c _ _ _ _ _ _ _ E)|].
    destruct q; reflexivity.
Qed.
Print Assumptions context_checkpoints_stop_at_the_first_panic.

(** Two methods; the closure of the first has a destructor that panics. *)
Example checkpoints_stop_at_the_first_panic_applies :
  let y := fst (run_d panicky debug64 straight2 (init [] [])
     [ONew (SDecl [] [ownd; ownd]); OExpect 0 0 0%nat [StReturning (note 8)]; OExpect 0 1 0%nat [StReturning (note 9)]]) in
  let (y', r) := step_d panicky debug64 straight2 y (OCheckpoint 0) in
  r = Panic (MUser 8) /\ w_user (y_world y') = [8] /\
  map (fun f => List.length (all_of (f_slot f))) (List.concat (y_objs y)) = [1; 1]%nat /\
  map (fun f => List.length (all_of (f_slot f))) (List.concat (y_objs y')) = [0; 1]%nat.
Proof. vm_compute. auto. Qed.

Example module_checkpoints_stop_at_the_first_panic_applies :
  let y := fst (run_d panicky debug64 straight2 (init [] [owns; owns; owns])
     [OCtxExpect 0 0%nat [StReturning (note 3)]; OCtxExpect 1 0%nat [StReturning (note 8)];
      OCtxExpect 2 0%nat [StReturning (note 9)]]) in
  let (y', r) := step_d panicky debug64 straight2 y OModCheckpoint in
  r = Panic (MUser 8) /\ w_user (y_world y') = [3; 8] /\
  map (fun x => List.length (all_of (sm_slot (snd x)))) (y_stats y) = [1; 1; 1]%nat /\
  map (fun x => List.length (all_of (sm_slot (snd x)))) (y_stats y') = [0; 0; 1]%nat.
Proof. vm_compute. auto. Qed.

Example context_checkpoints_stop_at_the_first_panic_applies :
  let y := fst (run_d panicky debug64 straight2 (init [] [owns])
     [OCtxExpect 0 0%nat [StReturning (note 3)]; OCtxExpect 0 0%nat [StReturning (note 8)]; OCtxExpect 0 0%nat [StReturning (note 5)]]) in
  let (y', r) := step_d panicky debug64 straight2 y (OCtxCheckpoint 0) in
  r = Panic (MUser 8) /\ w_user (y_world y') = [3; 8; 5] /\
  map (fun x => List.length (all_of (sm_slot (snd x)))) (y_stats y) = [3]%nat /\
  map (fun x => List.length (all_of (sm_slot (snd x)))) (y_stats y') = [0]%nat.
Proof. vm_compute. auto. Qed.

(** Destructors that follow Rust's advice - not to panic while panicking - abort nothing, whatever
    checks fail and whichever of them panic: no setter, no checkpoint, no drop.  And on a thread that
    is panicking no drop panics. *)
Theorem polite_destructors_never_abort :
  forall (V U : Type) (dt : dtors V U) c sh (y : sys V U) o,
  polite dt -> is_call o = false ->
  snd (step_d dt c sh y o) <> Abort /\
  (w_panicking (y_world y) = true -> forall i, o = ODrop i \/ o = OCtxDrop i -> snd (step_d dt c sh y o) = Ret None).
Proof.
  intros V U dt c sh y o P NC. split; [exact (step_no_abort dt c P sh y o NC)|].
  intros W i [-> | ->]; unfold step_d; rewrite W.
  - destruct (nth_error (y_objs y) i) as [ob|]; [|reflexivity].
    destruct (object_drop_d dt c sh ob true (w_user (y_world y))) as [u' q] eqn:E.
    apply object_ends in E. rewrite (ends_unwinding dt c P _ _ _ _ E). reflexivity.
  - destruct (nth_error (y_stats y) i) as [[md sm]|]; [|reflexivity]. unfold context_drop_d.
    destruct (slot_drop_d dt c md sh (sm_slot sm) true (w_user (y_world y))) as [u' q] eqn:E.
    apply slot_ends in E. rewrite (ends_unwinding dt c P _ _ _ _ E). reflexivity.
Qed.
Print Assumptions polite_destructors_never_abort.

Example polite_destructors_never_abort_applies : polite panicky.
Proof.
  intros x u. split; [eexists; reflexivity|]. unfold panicky. cbn [negb andb snd].
  destruct ((6 <? number x) && (number x <? 100)); discriminate.
Qed.

(** Impolite ones abort. *)
Example impolite_destructors_abort :
  let rude : dtors N (list N) := fun x _ u => (writes x u, Panic (MUser (number x))) in
  snd (run_d rude debug64 straight2 (init [] [])
    [ONew (SDecl [] [ownd]); OExpect 0 0 0%nat [StReturning (note 8); StTimes (ANum 3)]; ODrop 0]) =
  [Ret None; Ret None; Abort].
Proof. vm_compute. reflexivity. Qed.

(** ** Mocks that are owned by closures given to other mocks

    Dropping the outer mock drops the inner ones.  It panics if and only if one of the mocks is not
    satisfied, the outer or any inner, and never aborts, however many are not. *)
Theorem mocks_owned_by_closures_are_checked :
  forall (V V2 U2 : Type) c c2 (own : thing V (list (object V2 U2) * U2) -> list nat) sh sh2
    (ob : object V (list (object V2 U2) * U2)) objs u s' r,
  fair sh -> fair sh2 ->
  object_drop_d (owning own idle c2 sh2) c sh ob false (objs, u) = (s', r) ->
  r <> Abort /\
  (r = Ret tt <-> object_sound ob /\
     forall x i ob2, In x (object_held ob) -> In i (own x) -> nth_error objs i = Some ob2 -> object_sound ob2) /\
  (forall i ob2, nth_error objs i = Some ob2 ->
     ((exists x, In x (object_held ob) /\ In i (own x)) -> nth_error (fst s') i = Some []) /\
     (~ (exists x, In x (object_held ob) /\ In i (own x)) -> nth_error (fst s') i = Some ob2)).
Proof.
  intros V V2 U2 c c2 own sh sh2 ob objs u s' r F F2 H.
  destruct (owners c c2 sh2 own sh ob objs u s' r F F2 H) as [NA E]. split; [exact NA|]. split; [exact E|].
  apply object_ends in H. destruct (ends_gone c c2 sh2 own _ _ _ _ _ F2 H NA) as [G _]. cbn [fst] in G.
  intros i ob2 N. rewrite <- (owner_held own sh ob i F). destruct (G i) as [A B]. rewrite N in A, B. auto.
Qed.
Print Assumptions mocks_owned_by_closures_are_checked.

(** To any depth: destructors that drop mocks are polite if those of what these mocks hold are. *)
Theorem mocks_are_polite :
  forall (V V2 U2 : Type) c2 (own : thing V (list (object V2 U2) * U2) -> list nat) (dt2 : dtors V2 U2) sh2,
  polite dt2 -> polite (owning own dt2 c2 sh2).
Proof. intros V V2 U2 c2 own dt2 sh2. apply owning_polite. Qed.
Print Assumptions mocks_are_polite.

(** An outer mock with two closures, the second owning two mocks of which one was not called. *)
Definition ostate : Type := (list (object N unit) * unit)%type.
Definition onote (n : N) : ucode ostate (list N) N := fun _ u => (u, Ret n).
Definition oown (x : thing N ostate) : list nat :=
  match x with
  | ThRet f => match f [] ([], tt) with (_, Ret 7) => [0; 1]%nat | _ => [] end
  | _ => []
  end.
Definition inner : list (object N unit) :=
  y_objs (fst (run debug64 straight (init tt [])
    [ONew (SDecl [] [ownd]); OExpect 0 0 0%nat [StReturning six];
     ONew (SDecl [] [ownd]); OExpect 1 0 0%nat [StReturning six; StTimes (ANum 2)]])).
Definition outer : object N ostate :=
  match y_objs (fst (run debug64 straight2 (init (inner, tt) [])
    [ONew (SDecl [] [ownd]); OExpect 0 0 0%nat [StReturning (onote 3)]; OExpect 0 0 0%nat [StReturning (onote 7)]])) with
  | ob :: _ => ob
  | [] => []
  end.
Example mocks_owned_by_closures_are_checked_applies :
  let (s', r) := object_drop_d (owning oown idle debug64 straight) debug64 straight2 outer false (inner, tt) in
  List.length (object_held outer) = 2%nat /\ map (@List.length _) inner = [1; 1]%nat /\
  fst s' = [[]; []] /\ match r with Panic (MTooFew _ _ _ _) => True | _ => False end.
Proof. vm_compute. auto. Qed.

(** ** Replacing a closure whose destructor panics

    The setter panics with the destructor's panic, but what it was given is in place.  The lock of the
    expectation is poisoned then, unless the thread was panicking already, and the rest is unchanged. *)
Theorem setters_whose_old_closures_panic :
  forall (V U : Type) (dt : dtors V U) c sh (y : sys V U) i m k l st l2 ob f y1 es e1 x u' msg,
  nth_error (y_objs y) i = Some ob -> nth_error ob m = Some f ->
  let kd := md_kind (f_decl f) in
  let p := w_panicking (y_world y) in
  step_d dt c sh y (OExpect i m k l) = (y1, Ret None) -> set_for y1 i m k = es ++ [e1] ->
  replaced kd st e1 = [x] -> dt x p (w_user (y_world y1)) = (u', Panic msg) ->
  exists y2 e2, step_d dt c sh y (OExpect i m k (l ++ st :: l2)) = (y2, Panic msg) /\
    w_user (y_world y2) = u' /\ y_seqs y2 = y_seqs y1 /\ y_stats y2 = y_stats y1 /\
    set_for y2 i m k = es ++ [e2] /\
    (says_when st = true ->
       held_when e2 = handed kd st /\ held_what e2 = held_what e1 /\ matcher_poisoned e2 = negb p) /\
    (says_when st = false ->
       held_what e2 = handed kd st /\ held_when e2 = held_when e1 /\
       action_poisoned e2 = match kd with KStatic => negb p | _ => false end).
Proof.
  intros V U dt c sh y i m k l st l2 ob f y1 es e1 x u' msg N N2 kd p H SF R D.
  assert (SG : forall w t ss (e : expectation V U),
    set_for (Sys w t (set_nth (y_objs y) i (set_nth ob m (Field (f_decl f) (slot_put (f_slot f) k (slot_get (f_slot f) k ++ [e]))))) ss) i m k =
    slot_get (f_slot f) k ++ [e]).
  { intros w t ss e. unfold set_for. cbn [y_objs]. rewrite (nth_set_nth_same _ _ _ _ N), (nth_set_nth_same _ _ _ _ N2). cbn [f_slot].
    destruct (f_slot f) as [es0|st0]; cbn [slot_get slot_put]; [reflexivity|].
    match goal with |- context [gget (gput st0 k ?q) k] => replace (gget (gput st0 k q) k) with (Some q); [reflexivity|] end.
    generalize (match gget st0 k with Some es => es | None => [] end ++ [e]). intros q. clear.
    induction st0 as [| [k0 es0] st0 IH]; cbn.
    - rewrite PeanoNat.Nat.eqb_refl. auto.
    - destruct (Nat.eqb k0 k) eqn:Z; cbn; rewrite Z; auto. }
  unfold step_d in H |- *. rewrite N, N2 in *. unfold slot_expect_d in *. fold kd in H |- *. fold p in H |- *.
  destruct (apply_setters_d dt c (w_thread (y_world y)) p l (expectation_default c (md_me (f_decl f)) kd) (y_seqs y) (w_user (y_world y)))
    as [[[e t1] u1] q] eqn:E.
  inversion H; subst y1. assert (q = Ret tt) by (apply (@unit_res_ret V); assumption). subst q.
  rewrite SG in SF. apply app_inj_tail in SF. destruct SF as [<- ->]. cbn [y_world w_user set_user] in D.
  pose proof (setters_healthy dt c kd _ _ _ _ _ _ _ _ _ _ (default_healthy c (f_decl f)) E) as HE.
  destruct (setter_panics dt c kd (w_thread (y_world y)) p st e1 t1 u1 x u' msg HE R D) as (e2 & E2 & A & B).
  rewrite (setters_then dt c _ _ l st l2 _ _ _ _ _ _ _ _ _ _ E E2).
  do 2 eexists. split; [reflexivity|]. cbn [y_world w_user set_user y_seqs y_stats]. rewrite SG.
  split; [reflexivity|]. split; [reflexivity|]. split; [reflexivity|]. split; [reflexivity|]. auto.
Qed.
Print Assumptions setters_whose_old_closures_panic.

Example setters_whose_old_closures_panic_applies :
  let y := fst (run_d panicky debug64 straight2 (init [] []) [ONew (SDecl [] [ownd])]) in
  let (y1, r1) := step_d panicky debug64 straight2 y (OExpect 0 0 0%nat [StReturning (note 8)]) in
  let (y2, r2) := step_d panicky debug64 straight2 y (OExpect 0 0 0%nat ([StReturning (note 8)] ++ [StReturnOnce (note 2)])) in
  r1 = Ret None /\ map (replaced KStatic (StReturnOnce (note 2))) (set_for y1 0 0 0%nat) = [[ThRet (note 8)]] /\
  panicky (ThRet (note 8)) false (w_user (y_world y1)) = ([8], Panic (MUser 8)) /\
  r2 = Panic (MUser 8) /\ map held_what (set_for y2 0 0 0%nat) = [[ThRet (note 2)]] /\
  map action_poisoned (set_for y2 0 0 0%nat) = [true] /\
  snd (step debug64 straight2 y2 (OCall 0 0 0%nat [3] (fun v => v))) = Panic MPoison.
Proof. vm_compute. repeat split; reflexivity. Qed.

(** For static methods the panic goes through the guard that [ctx.expect()] returned, too: the whole
    store is poisoned, and every later call of the function panics. *)
Theorem static_setters_whose_old_closures_panic :
  forall (V U : Type) (dt : dtors V U) c sh (y : sys V U) s k l st l2 md sm y1 es e1 x u' msg,
  nth_error (y_stats y) s = Some (md, sm) -> sm_poison sm = false ->
  let kd := md_kind md in
  let p := w_panicking (y_world y) in
  step_d dt c sh y (OCtxExpect s k l) = (y1, Ret None) -> static_set_for y1 s k = es ++ [e1] ->
  replaced kd st e1 = [x] -> dt x p (w_user (y_world y1)) = (u', Panic msg) ->
  exists y2 e2, step_d dt c sh y (OCtxExpect s k (l ++ st :: l2)) = (y2, Panic msg) /\
    w_user (y_world y2) = u' /\ y_seqs y2 = y_seqs y1 /\ y_objs y2 = y_objs y1 /\
    static_set_for y2 s k = es ++ [e2] /\ store_poisoned y1 s = false /\ store_poisoned y2 s = negb p /\
    (says_when st = true ->
       held_when e2 = handed kd st /\ held_what e2 = held_what e1 /\ matcher_poisoned e2 = negb p) /\
    (says_when st = false ->
       held_what e2 = handed kd st /\ held_when e2 = held_when e1 /\
       action_poisoned e2 = match kd with KStatic => negb p | _ => false end).
Proof.
  intros V U dt c sh y s k l st l2 md sm y1 es e1 x u' msg N NP kd p H SF R D.
  assert (SG : forall w t ob b (e : expectation V U),
    static_set_for (Sys w t ob (set_nth (y_stats y) s (md, SMutex b (slot_put (sm_slot sm) k (slot_get (sm_slot sm) k ++ [e]))))) s k =
      slot_get (sm_slot sm) k ++ [e] /\
    store_poisoned (Sys w t ob (set_nth (y_stats y) s (md, SMutex b (slot_put (sm_slot sm) k (slot_get (sm_slot sm) k ++ [e]))))) s = b).
  { intros w t ob b e. unfold static_set_for, store_poisoned. cbn [y_stats]. rewrite (nth_set_nth_same _ _ _ _ N). cbn [sm_slot sm_poison].
    split; [|reflexivity].
    destruct (sm_slot sm) as [es0|st0]; cbn [slot_get slot_put]; [reflexivity|].
    match goal with |- context [gget (gput st0 k ?q) k] => replace (gget (gput st0 k q) k) with (Some q); [reflexivity|] end.
    generalize (match gget st0 k with Some es => es | None => [] end ++ [e]). intros q. clear.
    induction st0 as [| [k0 es0] st0 IH]; cbn.
    - rewrite PeanoNat.Nat.eqb_refl. auto.
    - destruct (Nat.eqb k0 k) eqn:Z; cbn; rewrite Z; auto. }
  unfold step_d in H |- *. rewrite N in *. unfold context_expect_d, slot_expect_d in *. rewrite NP in *. fold kd in H |- *. fold p in H |- *.
  destruct (apply_setters_d dt c (w_thread (y_world y)) p l (expectation_default c (md_me md) kd) (y_seqs y) (w_user (y_world y)))
    as [[[e t1] u1] q] eqn:E.
  destruct q as [[]|m|]; [|discriminate H|discriminate H]. inversion H; subst y1.
  destruct (SG (set_user (y_world y) u1) t1 (y_objs y) false e) as [SG1 SG2].
  rewrite SG1 in SF. apply app_inj_tail in SF. destruct SF as [<- ->]. cbn [y_world w_user set_user] in D.
  pose proof (setters_healthy dt c kd _ _ _ _ _ _ _ _ _ _ (default_healthy c md) E) as HE.
  destruct (setter_panics dt c kd (w_thread (y_world y)) p st e1 t1 u1 x u' msg HE R D) as (e2 & E2 & A & B).
  rewrite (setters_then dt c _ _ l st l2 _ _ _ _ _ _ _ _ _ _ E E2).
  destruct (SG (set_user (y_world y) u') t1 (y_objs y) (negb p) e2) as [SG3 SG4].
  do 2 eexists. split; [reflexivity|]. cbn [y_world w_user set_user y_seqs y_objs].
  split; [reflexivity|]. split; [reflexivity|]. split; [reflexivity|]. split; [exact SG3|]. split; [exact SG2|]. split; [exact SG4|]. auto.
Qed.
Print Assumptions static_setters_whose_old_closures_panic.

Example static_setters_whose_old_closures_panic_applies :
  let y := init [] [owns] in
  let (y1, r1) := step_d panicky debug64 straight2 y (OCtxExpect 0 0%nat [StReturning (note 8)]) in
  let (y2, r2) := step_d panicky debug64 straight2 y (OCtxExpect 0 0%nat ([StReturning (note 8)] ++ [StReturnOnce (note 2)])) in
  r1 = Ret None /\ map (replaced KStatic (StReturnOnce (note 2))) (static_set_for y1 0 0%nat) = [[ThRet (note 8)]] /\
  r2 = Panic (MUser 8) /\ store_poisoned y2 0 = true /\
  snd (step debug64 straight2 y2 (OStaticCall 0 0%nat [3])) = Panic MPoison.
Proof. vm_compute. repeat split; reflexivity. Qed.
