(** * PointProofs: where the expectations of a test come from *)

From Coq Require Import PeanoNat NArith List Bool String Lia.
From Verif Require Import Base Times TimesSpec Expect ExpectProofs Mock Spec CallProofs DispatchProofs FifoProofs
  MessageSpec MessageProofs MessageRuns PointSpec.
Import ListNotations.
Open Scope N_scope.

Section PointProofs.
Context {V U : Type}.
Implicit Types (e : expectation V U) (es : list (expectation V U)).

(** ** What calls do to an expectation *)

Definition act_kept (a a' : action V U) : Prop :=
  match a, a' with
  | AStatic rf _, AStatic rf' _ =>
      rf' = rf \/ (rf' = SExpired /\ (exists f, rf = SOnce f \/ exists o, rf = SOnceSt o f))
  | ARef rf, ARef rf' => rf' = rf
  | AMut (XDefault _), AMut (XDefault _) => True
  | AMut (XMut f _), AMut (XMut f' _) => f' = f
  | AMut (XMutSt o f _), AMut (XMutSt o' f' _) => f' = f /\ o' = o
  | AMut (XVar _), AMut (XVar _) => True
  | _, _ => False
  end.
Definition kept e e' : Prop :=
  c_matcher (e_common e') = c_matcher (e_common e) /\ c_seq (e_common e') = c_seq (e_common e)
  /\ trange_of (c_times (e_common e')) = trange_of (c_times (e_common e))
  /\ act_kept (e_action e) (e_action e').
Definition used e : Prop := exists b, e_action e = AStatic SExpired b.

Lemma act_kept_refl a : act_kept a a.
Proof. destruct a as [rf b|rf|[o|f o|t f o|v]]; cbn; auto. Qed.
Lemma act_kept_trans a b c : act_kept a b -> act_kept b c -> act_kept a c.
Proof.
  destruct a as [ra pa|ra|[oa|fa oa|ta fa oa|va]], b as [rb pb|rb|[ob|fb ob|tb fb ob|vb]]; cbn; try contradiction;
    destruct c as [rc pc|rc|[oc|fc oc|tc fc oc|vc]]; cbn; try contradiction; try congruence; try tauto.
  - intros [->|[-> O]]; [auto|]. intros [->|[-> O2]]; auto.
  - intros [-> ->] [-> ->]. auto.
Qed.
Lemma kept_refl e : kept e e.
Proof. repeat split. apply act_kept_refl. Qed.
Lemma kept_trans e1 e2 e3 : kept e1 e2 -> kept e2 e3 -> kept e1 e3.
Proof.
  intros (A & B & C & D) (A' & B' & C' & D'). repeat split; try congruence. exact (act_kept_trans _ _ _ D D').
Qed.
Lemma core_kept e e' : same_core e e' -> kept e e' /\ counted e' = counted e /\ (used e' -> used e).
Proof.
  intros (A & B & C & D). unfold kept, counted, used. rewrite A, B, C, D. split; [|split; auto].
  repeat split. apply act_kept_refl.
Qed.
Lemma wrap_le c n : uwrap1 c n <= n + 1.
Proof. unfold uwrap1. destruct (_ <? _); lia. Qed.
Lemma call_kept c me e args wr w e' w' r : expectation_call c me e args wr w = (e', w', r) ->
  kept e e' /\ counted e' <= counted e + 1.
Proof.
  intros E. apply expectation_call_shape in E as (A & _ & B & C & D & _ & _ & F). split.
  - repeat split; auto. unfold act_kept.
    destruct (e_action e) as [ra pa|ra|[oa|fa oa|ta fa oa|va]], (e_action e') as [rb pb|rb|[ob|fb ob|tb fb ob|vb]]; tauto.
  - unfold counted. rewrite D. apply wrap_le.
Qed.

Lemma expectations_call_kept c me es args wr w es' w' r e' : expectations_call c me es args wr w = (es', w', r) ->
  In e' es' -> exists e, In e es /\ kept e e' /\ counted e' <= counted e + 1.
Proof.
  intros E I. apply expectations_call_any in E as [(i & e & e1 & w1 & r0 & N & _ & X & -> & _)|(r0 & _ & F & _)].
  - apply In_nth_error in I as [j J]. destruct (Nat.eq_dec i j) as [->|Q].
    + rewrite (nth_set_nth_same _ _ _ _ N) in J. injection J as <-. exists e.
      split; [exact (nth_error_In _ _ N)|]. exact (call_kept _ _ _ _ _ _ _ _ _ X).
    + rewrite nth_set_nth_other in J by exact Q. exists e'. split; [exact (nth_error_In _ _ J)|].
      split; [apply kept_refl|lia].
  - apply In_nth_error in I as [j J]. destruct (Forall2_nth_r _ _ _ _ _ F J) as (e & N & S).
    apply core_kept in S as (S1 & S2 & _). exists e. split; [exact (nth_error_In _ _ N)|]. split; [exact S1|lia].
Qed.

(** ** What chains of setters make *)

Definition right_range c (x : times_arg) (r : trange) : Prop :=
  rstart r = arg_min x /\ match arg_max x with Some m => rend r = m + 1 | None => rend r = umax c end.
Lemma uadd_small c n : n < umax c -> uadd1 c n = Ret (n + 1).
Proof. intros L. unfold uadd1. apply N.ltb_lt in L. now rewrite L. Qed.
Lemma from_right c x r : sound_arg (umax c) x -> trange_from c x = Ret r -> right_range c x r.
Proof.
  intros [B Z]. unfold right_range. destruct x as [n|a b|a| |a b|b|b]; cbn in *.
  - rewrite uadd_small by exact B. cbn. intros E. injection E as <-. auto.
  - destruct (N.ltb_spec a b); [|discriminate]. intros E. injection E as <-. cbn. split; [reflexivity|]. lia.
  - intros E. injection E as <-. auto.
  - intros E. injection E as <-. auto.
  - destruct (N.leb_spec a b); [|discriminate]. rewrite uadd_small by apply B. cbn. intros E. injection E as <-. auto.
  - intros E. injection E as <-. cbn. split; [reflexivity|]. destruct b; [congruence|lia].
  - rewrite uadd_small by exact B. cbn. intros E. injection E as <-. auto.
Qed.

(** What is known of an expectation that the setters have made. *)
Record made c (e0 : expectation V U) (done : list (setter V U)) (x : times_arg) (s : string) (e : expectation V U) : Prop := Made {
  md_text : matcher_show (c_matcher (e_common e)) = text_from done s;
  md_range : right_range c (final_count done x) (trange_of (c_times (e_common e)));
  md_count : counted e = counted e0;
  md_seq : c_seq (e_common e) <> None -> c_seq (e_common e0) <> None \/ exists q, In (StInSequence q) done;
  md_once : (exists b f, e_action e = AStatic (SOnce f) b \/ exists t, e_action e = AStatic (SOnceSt t f) b) ->
    (exists b f, e_action e0 = AStatic (SOnce f) b \/ exists t, e_action e0 = AStatic (SOnceSt t f) b)
    \/ exists y, In y done /\ once_setter y;
  md_used : used e -> used e0
}.
Lemma made_refl c e x (s : string) : matcher_show (c_matcher (e_common e)) = s -> right_range c x (trange_of (c_times (e_common e))) ->
  made c e [] x s e.
Proof. intros A B. constructor; auto. Qed.

Definition next_count (y : setter V U) (x : times_arg) : times_arg :=
  match y with StTimes z => z | StOnce => ANum 1 | StNever => ANum 0 | _ => x end.
Definition next_text (y : setter V U) (s : string) : string :=
  match y with
  | StWith ps => String.concat ", " (map fst ps)
  | StWithf _ => "<function>"
  | StWithfSt _ => "<single threaded function>"
  | _ => s
  end.
Lemma final_next y l x : final_count (y :: l) x = final_count l (next_count y x).
Proof. destruct y; reflexivity. Qed.
Lemma text_next y l s : text_from (y :: l) s = text_from l (next_text y s).
Proof. destruct y; reflexivity. Qed.

(** One setter that returns. *)
Lemma setter_made c th y e t e1 t1 x : 1 < umax c -> (forall z, y = StTimes z -> sound_arg (umax c) z) ->
  right_range c x (trange_of (c_times (e_common e))) ->
  apply_setter c th y e t = (e1, t1, Ret tt) ->
  made c e [y] x (matcher_show (c_matcher (e_common e))) e1.
Proof.
  intros U1 Sm R E.
  assert (Ti : forall z, sound_arg (umax c) z -> next_count y x = z -> (forall s, next_text y s = s) ->
     (fst (lift_common e (common_times c z (e_common e))), t, snd (lift_common e (common_times c z (e_common e)))) = (e1, t1, Ret tt) ->
     made c e [y] x (matcher_show (c_matcher (e_common e))) e1).
  { intros z B Ny Ty Q. unfold lift_common, common_times, times_times in Q. cbn [fst snd] in Q.
    destruct (trange_from c z) as [r| |] eqn:F; cbn in Q; try discriminate. injection Q as <- _.
    constructor; cbn; auto.
    - change (matcher_show (c_matcher (e_common e)) = text_from [y] (matcher_show (c_matcher (e_common e)))).
      rewrite text_next, Ty. reflexivity.
    - change (right_range c (final_count [y] x) r). rewrite final_next, Ny. exact (from_right _ _ _ B F). }
  assert (Mt : forall m, next_count y x = x -> (forall s, next_text y s = matcher_show m) ->
     (fst (lift_common e (common_set_matcher m (e_common e))), t, snd (lift_common e (common_set_matcher m (e_common e)))) = (e1, t1, Ret tt) ->
     made c e [y] x (matcher_show (c_matcher (e_common e))) e1).
  { intros m Ny Ty Q. unfold lift_common, common_set_matcher in Q. destruct (c_mpoison (e_common e)); [discriminate|].
    cbn in Q. injection Q as <- _. constructor; cbn; auto.
    - change (matcher_show m = text_from [y] (matcher_show (c_matcher (e_common e)))). now rewrite text_next, Ty.
    - change (right_range c (final_count [y] x) (trange_of (c_times (e_common e)))). now rewrite final_next, Ny. }
  assert (Ac : forall p : expectation V U * res unit, next_count y x = x -> (forall s, next_text y s = s) ->
     (snd p = Ret tt -> e_common (fst p) = e_common e /\
        ((exists b f, e_action (fst p) = AStatic (SOnce f) b \/ exists t, e_action (fst p) = AStatic (SOnceSt t f) b) ->
           once_setter y \/ e_action (fst p) = e_action e)
        /\ (used (fst p) -> used e)) ->
     (fst p, t, snd p) = (e1, t1, Ret tt) -> made c e [y] x (matcher_show (c_matcher (e_common e))) e1).
  { intros p Ny Ty H Q. injection Q as <- _ R1. destruct (H R1) as (H1 & H2 & H3). constructor; rewrite ?H1; auto.
    - now rewrite text_next, Ty.
    - now rewrite final_next, Ny.
    - unfold counted. now rewrite H1.
    - intros O. destruct (H2 O) as [O2|O2]; [right; exists y; cbn; auto|left]. now rewrite <- O2. }
  assert (Sr : forall rf, next_count y x = x -> (forall s, next_text y s = s) -> rf <> SExpired ->
     ((exists f, rf = SOnce f \/ exists t, rf = SOnceSt t f) -> once_setter y) ->
     (fst (set_srfunc rf e), t, snd (set_srfunc rf e)) = (e1, t1, Ret tt) ->
     made c e [y] x (matcher_show (c_matcher (e_common e))) e1).
  { intros rf Ny Ty X O. apply Ac; auto. unfold set_srfunc. destruct (e_action e) as [rf0 [|]|rf0|rf0] eqn:A; cbn; try discriminate; intros _.
    - split; [reflexivity|]. split.
      + intros (b & f & [Q|(t0 & Q)]); injection Q as -> _; left; apply O; eauto.
      + intros [b Q]. cbn in Q. injection Q as -> _. congruence.
    - split; [reflexivity|]. split; [auto|]. intros [b Q]. exists b. congruence.
    - split; [reflexivity|]. split; [auto|]. intros [b Q]. exists b. congruence. }
  assert (Mr : forall rf, next_count y x = x -> (forall s, next_text y s = s) ->
     (fst (set_mrfunc rf e), t, snd (set_mrfunc rf e)) = (e1, t1, Ret tt) ->
     made c e [y] x (matcher_show (c_matcher (e_common e))) e1).
  { intros rf Ny Ty. apply Ac; auto. unfold set_mrfunc. destruct (e_action e) as [rf0 b0|rf0|rf0] eqn:A; cbn; intros _;
      (split; [reflexivity|]); (split; [|intros [b Q]; first [exists b; congruence|discriminate]]); auto.
    intros (b & f & [Q|(t0 & Q)]); discriminate. }
  destruct y as [z| | |ps|f|f|i|f|f|f|f|v|v|v]; cbn [apply_setter] in E.
  - exact (Ti z (Sm z eq_refl) eq_refl (fun _ => eq_refl) E).
  - refine (Ti (ANum 1) _ eq_refl (fun _ => eq_refl) E). split; [exact U1|discriminate].
  - injection E as <- _. constructor; cbn; auto. split; reflexivity.
  - exact (Mt (MtPred ps) eq_refl (fun _ => eq_refl) E).
  - exact (Mt (MtFunc f) eq_refl (fun _ => eq_refl) E).
  - exact (Mt (MtFuncSt th f) eq_refl (fun _ => eq_refl) E).
  - unfold common_in_sequence in E. destruct (times_is_exact c (c_times (e_common e))) as [[|]| |]; try discriminate.
    destruct (next_handle c (t i)) as [q [h| |]]; try discriminate. injection E as <- _. constructor; cbn; auto.
    intros _. right. exists i. auto.
  - destruct (e_action e) as [ | | ] eqn:A; cbn in E; try rewrite <- A in E;
      first [refine (Sr (SMut f) eq_refl (fun _ => eq_refl) _ _ E); [discriminate|intros (g & [Q|(? & Q)]); discriminate]
            |exact (Mr (XMut f None) eq_refl (fun _ => eq_refl) E)].
  - destruct (e_action e) as [ | | ] eqn:A; cbn in E; try rewrite <- A in E;
      first [refine (Sr (SMutSt th f) eq_refl (fun _ => eq_refl) _ _ E); [discriminate|intros (g & [Q|(? & Q)]); discriminate]
            |exact (Mr (XMutSt th f None) eq_refl (fun _ => eq_refl) E)].
  - refine (Sr (SOnce f) eq_refl (fun _ => eq_refl) _ _ E); [discriminate|]. intros _. exact I.
  - refine (Sr (SOnceSt th f) eq_refl (fun _ => eq_refl) _ _ E); [discriminate|]. intros _. exact I.
  - destruct (e_action e) as [ | | ] eqn:A.
    1,3: refine (Sr (SMut (const_fn v)) eq_refl (fun _ => eq_refl) _ _ E); [discriminate|intros (g & [Q|(? & Q)]); discriminate].
    refine (Ac (set_action e (ARef (RConst v)), Ret tt) eq_refl (fun _ => eq_refl) _ E). cbn. intros _.
    split; [reflexivity|]. split; [intros (b & g & [Q|(? & Q)]); discriminate|intros [b Q]; discriminate].
  - refine (Sr (SMutSt th (const_fn v)) eq_refl (fun _ => eq_refl) _ _ E); [discriminate|]. intros (g & [Q|(? & Q)]); discriminate.
  - exact (Mr (XVar v) eq_refl (fun _ => eq_refl) E).
Qed.
(** One that does not leaves the expectation as it was, up to poison. *)
Lemma setter_panics c th y e t e1 t1 r : r <> Ret tt -> apply_setter c th y e t = (e1, t1, r) -> kept e e1 /\ counted e1 = counted e
  /\ e_action e1 = e_action e.
Proof.
  intros R E.
  assert (Same : forall r0, (e, t, r0) = (e1, t1, r) -> kept e e1 /\ counted e1 = counted e /\ e_action e1 = e_action e).
  { intros r0 Q. injection Q as <- _ _. split; [apply kept_refl|auto]. }
  assert (Sc : forall k, c_matcher k = c_matcher (e_common e) -> c_seq k = c_seq (e_common e) -> c_times k = c_times (e_common e) ->
    kept e (set_common e k) /\ counted (set_common e k) = counted e /\ e_action (set_common e k) = e_action e).
  { intros k A B C. unfold kept, counted. cbn. rewrite A, B, C. repeat split. apply act_kept_refl. }
  assert (Ti : forall z, (fst (lift_common e (common_times c z (e_common e))), t, snd (lift_common e (common_times c z (e_common e)))) = (e1, t1, r) ->
     kept e e1 /\ counted e1 = counted e /\ e_action e1 = e_action e).
  { intros z Q. unfold lift_common, common_times, times_times in Q. cbn [fst snd] in Q.
    destruct (trange_from c z) as [r0| |] eqn:F; cbn in Q; injection Q as <- _ Q; [congruence| |]; apply Sc; reflexivity. }
  assert (Mt : forall m, (fst (lift_common e (common_set_matcher m (e_common e))), t, snd (lift_common e (common_set_matcher m (e_common e)))) = (e1, t1, r) ->
     kept e e1 /\ counted e1 = counted e /\ e_action e1 = e_action e).
  { intros m Q. unfold lift_common, common_set_matcher in Q. destruct (c_mpoison (e_common e)); cbn in Q; injection Q as <- _ Q; [|congruence].
    apply Sc; reflexivity. }
  assert (Sr : forall rf, (fst (set_srfunc rf e), t, snd (set_srfunc rf e)) = (e1, t1, r) ->
     kept e e1 /\ counted e1 = counted e /\ e_action e1 = e_action e).
  { intros rf. unfold set_srfunc. destruct (e_action e) as [rf0 [|]|rf0|rf0] eqn:A; cbn; intros Q; first [exact (Same _ Q)|injection Q as _ _ Q; symmetry in Q; contradiction]. }
  assert (Mr : forall rf, (fst (set_mrfunc rf e), t, snd (set_mrfunc rf e)) = (e1, t1, r) ->
     kept e e1 /\ counted e1 = counted e /\ e_action e1 = e_action e).
  { intros rf. unfold set_mrfunc. destruct (e_action e) as [rf0 [|]|rf0|rf0] eqn:A; cbn; intros Q; first [exact (Same _ Q)|injection Q as _ _ Q; symmetry in Q; contradiction]. }
  destruct y as [z| | |ps|f|f|i|f|f|f|f|v|v|v]; cbn [apply_setter] in E; eauto.
  - injection E as _ _ Q. congruence.
  - unfold common_in_sequence in E. destruct (times_is_exact c (c_times (e_common e))) as [[|]| |].
    + destruct (next_handle c (t i)) as [q [h| |]]; injection E as <- _ Q; [congruence| |]; apply Sc; reflexivity.
    + injection E as <- _ _. apply Sc; reflexivity.
    + injection E as <- _ _. apply Sc; reflexivity.
    + injection E as <- _ _. apply Sc; reflexivity.
  - destruct (e_action e) eqn:A; eauto.
  - destruct (e_action e) eqn:A; eauto.
  - destruct (e_action e) eqn:A; eauto. injection E as _ _ Q. congruence.
Qed.

Lemma made_cons c e y done x e1 e2 : made c e [y] x (matcher_show (c_matcher (e_common e))) e1 ->
  made c e1 done (next_count y x) (next_text y (matcher_show (c_matcher (e_common e)))) e2 ->
  made c e (y :: done) x (matcher_show (c_matcher (e_common e))) e2.
Proof.
  intros A B. constructor.
  - rewrite text_next. apply B.
  - rewrite final_next. apply B.
  - rewrite (md_count _ _ _ _ _ _ B). apply A.
  - intros S. destruct (md_seq _ _ _ _ _ _ B S) as [S1|[q Q]]; [|right; exists q; now right].
    destruct (md_seq _ _ _ _ _ _ A S1) as [S2|[q [Q|[]]]]; [now left|right; exists q; now left].
  - intros S. destruct (md_once _ _ _ _ _ _ B S) as [S1|[q [Q O]]]; [|right; exists q; split; [now right|exact O]].
    destruct (md_once _ _ _ _ _ _ A S1) as [S2|[q [[Q|[]] O]]]; [now left|right; exists q; split; [now left|exact O]].
  - intros S. apply (md_used _ _ _ _ _ _ A), (md_used _ _ _ _ _ _ B), S.
Qed.

Lemma setters_made c th l : 1 < umax c -> sound_setters (umax c) l -> forall e t e1 t1 r x,
  right_range c x (trange_of (c_times (e_common e))) ->
  apply_setters c th l e t = (e1, t1, r) ->
  exists done rest, l = done ++ rest /\ (r = Ret tt -> rest = [])
    /\ made c e done x (matcher_show (c_matcher (e_common e))) e1.
Proof.
  intros U1. induction l as [|y l IH]; intros Sm e t e1 t1 r x R E; cbn in E.
  - injection E as <- _ <-. exists [], []. split; [reflexivity|]. split; [auto|]. apply made_refl; auto.
  - destruct (apply_setter c th y e t) as [[e2 t2] r2] eqn:A. destruct r2 as [[]|m|].
    + assert (M : made c e [y] x (matcher_show (c_matcher (e_common e))) e2).
      { apply (setter_made _ _ _ _ _ _ _ _ U1 (fun z Q => Sm z (or_introl Q)) R A). }
      assert (R2 := md_range _ _ _ _ _ _ M). rewrite final_next in R2. cbn [final_count] in R2.
      destruct (IH (fun z I => Sm z (or_intror I)) _ _ _ _ _ _ R2 E) as (done & rest & -> & Q & M2).
      exists (y :: done), rest. split; [reflexivity|]. split; [exact Q|]. refine (made_cons _ _ _ _ _ _ _ M _).
      assert (T := md_text _ _ _ _ _ _ M). rewrite text_next in T. cbn [text_from] in T. rewrite <- T. exact M2.
    + injection E as <- _ <-. exists [], (y :: l). split; [reflexivity|]. split; [discriminate|].
      destruct (setter_panics c th y e t e2 t2 (Panic m) ltac:(discriminate) A) as ((M & S & Ra & _) & C & Ac).
      constructor; cbn; rewrite ?M, ?S, ?Ra, ?Ac; auto. unfold used. now rewrite Ac.
    + injection E as <- _ <-. exists [], (y :: l). split; [reflexivity|]. split; [discriminate|].
      destruct (setter_panics c th y e t e2 t2 Abort ltac:(discriminate) A) as ((M & S & Ra & _) & C & Ac).
      constructor; cbn; rewrite ?M, ?S, ?Ra, ?Ac; auto. unfold used. now rewrite Ac.
Qed.

(** ** Stores *)

Definition held (s : slot V U) e : Prop := exists es, stored s es /\ In e es.
Definition at_site (y : sys V U) (st : site) (md : mdecl V) (s : slot V U) : Prop :=
  match st with
  | SiteObj i j => exists ob, nth_error (y_objs y) i = Some ob /\ nth_error ob j = Some (Field md s)
  | SiteStat k => exists b, nth_error (y_stats y) k = Some (md, SMutex b s)
  end.

Lemma held_get s k e : In e (slot_get s k) -> held s e.
Proof.
  destruct s as [es|g]; cbn.
  - intros I. now exists es.
  - destruct (gget g k) as [es|] eqn:G; [|intros []]. intros I. destruct (gget_In _ _ _ G) as [k' J]. exists es. split; [now exists k'|exact I].
Qed.
Lemma held_put s k es e : held (slot_put s k es) e -> held s e \/ In e es.
Proof.
  destruct s as [l|g]; cbn; intros (x & S & J); cbn in S.
  - subst. now right.
  - destruct S as [k' S]. destruct (gput_In _ _ _ _ _ S) as [K| ->]; [|now right]. left. exists x. split; [now exists k'|exact J].
Qed.
Lemma held_clear s e : ~ held (slot_clear s) e.
Proof. destruct s as [l|g]; intros (x & S & J); cbn in S; [subst; destruct J|destruct S as [k []]]. Qed.
Lemma held_new md e : ~ held (slot_new md) e.
Proof. unfold slot_new. destruct (md_generic md); intros (x & S & J); cbn in S; [destruct S as [k []]|subst; destruct J]. Qed.

Definition from (b : bool) (s : slot V U) e' : Prop :=
  exists e, held s e /\ kept e e' /\ counted e' <= counted e + (if b then 1 else 0) /\ (b = false -> used e' -> used e).
Lemma from_refl b s e : held s e -> from b s e.
Proof. intros H. exists e. split; [exact H|]. split; [apply kept_refl|]. split; [lia|auto]. Qed.

Lemma slot_call_from c md s k args wr w s' w' r e' : slot_call c md s k args wr w = (s', w', r) -> held s' e' -> from true s e'.
Proof.
  destruct s as [es|g]; cbn.
  - destruct (expectations_call c (md_me md) es args wr w) as [[es' w1] r1] eqn:E. intros Q. injection Q as <- _ _.
    intros (x & -> & J). destruct (expectations_call_kept _ _ _ _ _ _ _ _ _ _ E J) as (e & I & K & L).
    exists e. split; [now exists es|]. split; [exact K|]. split; [exact L|discriminate].
  - destruct (gget g k) as [es|] eqn:G; [|intros Q; injection Q as <- _ _; apply from_refl].
    destruct (expectations_call c (md_me md) es args wr w) as [[es' w1] r1] eqn:E. intros Q. injection Q as <- _ _. intros H.
    destruct (held_put (SGeneric g) k es' e' H) as [H0|J]; [now apply from_refl|].
    destruct (expectations_call_kept _ _ _ _ _ _ _ _ _ _ E J) as (e & I & K & L).
    exists e. split; [|split; [exact K|split; [exact L|discriminate]]].
    destruct (gget_In _ _ _ G) as [k' J2]. exists es. split; [now exists k'|exact I].
Qed.

(** Just set. *)
Definition fresh c md l e' (r : res (option V)) : Prop :=
  exists th t t' r0, apply_setters c th l (expectation_default c (md_me md) (md_kind md)) t = (e', t', r0) /\ r = unit_res r0.
Lemma slot_expect_from c md s k th l t s' t' r e' : slot_expect c md s k th l t = (s', t', r) -> held s' e' ->
  held s e' \/ fresh c md l e' (unit_res r).
Proof.
  unfold slot_expect. destruct (apply_setters _ _ _ _ _) as [[e t1] r1] eqn:E. intros Q. injection Q as <- _ <-. intros H.
  apply held_put in H as [H|H]; [now left|]. apply in_app_iff in H as [H|[<-|[]]]; [left; exact (held_get _ _ _ H)|].
  right. exists th, t, t1, r1. auto.
Qed.

(** ** One step *)

Definition earlier (y : sys V U) (o : op V U) (r : res (option V)) st md e' : Prop :=
  exists s, at_site y st md s /\ from (calls_site st o) s e' /\ (validates_site st o -> r <> Ret None).
Lemma unmoved (y : sys V U) (o : op V U) r st md s e : at_site y st md s -> held s e -> (validates_site st o -> r <> Ret None) -> earlier y o r st md e.
Proof. intros A H N. exists s. split; [exact A|]. split; [now apply from_refl|exact N]. Qed.

Lemma unit_ret (r : res unit) : @unit_res V r = Ret None -> r = Ret tt.
Proof. destruct r as [[]|m|]; [auto|discriminate|discriminate]. Qed.

Lemma nth_set {A} (l : list A) i x j z : nth_error (set_nth l i x) j = Some z ->
  (i = j /\ z = x /\ exists old, nth_error l i = Some old) \/ (i <> j /\ nth_error l j = Some z).
Proof.
  intros N. destruct (Nat.eq_dec i j) as [->|Q].
  - left. split; [reflexivity|]. destruct (nth_error l j) as [old|] eqn:O.
    + rewrite (nth_set_nth_same _ _ _ _ O) in N. injection N as <-. eauto.
    + exfalso. revert j O N. induction l as [|a l IH]; intros [|j] O N; cbn in *; try discriminate. exact (IH _ O N).
  - right. split; [exact Q|]. now rewrite nth_set_nth_other in N.
Qed.

Section Step.
Context (sh : shuffle V U).

(** What a checkpoint leaves is what was there, and nothing if it succeeds. *)
Lemma object_checkpoint_held c o p o' r j md s e : object_checkpoint c sh o p = (o', r) -> nth_error o' j = Some (Field md s) -> held s e ->
  nth_error o j = Some (Field md s) /\ r <> Ret tt.
Proof.
  revert o' r j. induction o as [|[md0 s0] o IH]; intros o' r j; cbn.
  - intros E. injection E as <- _. destruct j; discriminate.
  - destruct (slot_drop c md0 sh s0 p) as [x|m|].
    + destruct (object_checkpoint c sh o p) as [o2 r2]. intros E. injection E as <- <-. destruct j as [|j]; cbn.
      * intros Q. injection Q as _ <-. intros H. destruct (held_clear _ _ H).
      * exact (IH _ _ j eq_refl).
    + intros E. injection E as <- <-. destruct j as [|j]; cbn.
      * intros Q. injection Q as _ <-. intros H. destruct (held_clear _ _ H).
      * intros Q _. split; [exact Q|discriminate].
    + intros E. injection E as <- <-. destruct j as [|j]; cbn.
      * intros Q. injection Q as _ <-. intros H. destruct (held_clear _ _ H).
      * intros Q _. split; [exact Q|discriminate].
Qed.
Lemma static_checkpoint_held c md sm p sm' r e : static_checkpoint c md sh sm p = (sm', r) -> held (sm_slot sm') e -> sm' = sm /\ r <> Ret tt.
Proof.
  unfold static_checkpoint. destruct (sm_poison sm).
  - intros E. injection E as <- <-. split; [reflexivity|discriminate].
  - intros E. injection E as <- <-. intros H. destruct (held_clear _ _ H).
Qed.
Lemma context_drop_held c md sm p sm' r e : context_drop c md sh sm p = (sm', r) -> held (sm_slot sm') e -> sm' = sm /\ r <> Ret tt.
Proof.
  unfold context_drop. destruct p.
  - intros E. injection E as <- <-. intros H. destruct (held_clear _ _ H).
  - apply static_checkpoint_held.
Qed.
Lemma module_checkpoint_held c ss p ss' r j md b s e : module_checkpoint c sh ss p = (ss', r) -> nth_error ss' j = Some (md, SMutex b s) -> held s e ->
  nth_error ss j = Some (md, SMutex b s) /\ r <> Ret tt.
Proof.
  revert ss' r j. induction ss as [|[md0 s0] ss IH]; intros ss' r j; cbn.
  - intros E. injection E as <- _. destruct j; discriminate.
  - destruct (static_checkpoint c md0 sh s0 p) as [sm' r0] eqn:C.
    assert (First : Some (md0, sm') = Some (md, SMutex b s) -> held s e ->
      Some (md0, s0) = Some (md, SMutex b s) /\ r0 <> Ret tt).
    { intros Q H. injection Q as -> ->. destruct (static_checkpoint_held _ _ _ _ _ _ e C H) as [-> N]. auto. }
    destruct r0 as [[]|m|].
    + destruct (module_checkpoint c sh ss p) as [o2 r2]. intros E. injection E as <- <-. destruct j as [|j]; cbn.
      * intros Q H. destruct (First Q H) as [_ N]. congruence.
      * exact (IH _ _ j eq_refl).
    + intros E. injection E as <- <-. destruct j as [|j]; cbn.
      * intros Q H. destruct (First Q H) as [P _]. split; [exact P|discriminate].
      * intros Q _. split; [exact Q|discriminate].
    + intros E. injection E as <- <-. destruct j as [|j]; cbn.
      * intros Q H. destruct (First Q H) as [P _]. split; [exact P|discriminate].
      * intros Q _. split; [exact Q|discriminate].
Qed.

Ltac same := intros E; injection E as <- <-; intros A H; left; refine (unmoved _ _ _ _ _ _ _ A H _); intros W; inversion W; subst.

Lemma step_held c y o y' r st md s e' : step c sh y o = (y', r) -> at_site y' st md s -> held s e' ->
  earlier y o r st md e' \/ exists l, sets_site st o l /\ fresh c md l e' r.
Proof.
  destruct o as [sd|i j k l|i j k args wr|i|i|t k l|t k args|t|t| |t|b|f]; cbn [step].
  - intros E. injection E as <- <-. intros A H. destruct st as [i j|t]; cbn in A.
    + destruct A as (ob & N & F). destruct (Nat.lt_ge_cases i (List.length (y_objs y))) as [L|L].
      * rewrite nth_error_app1 in N by exact L. left. refine (unmoved _ _ _ _ _ s _ _ H _); [exists ob; auto|]. intros W. inversion W.
      * rewrite nth_error_app2 in N by exact L. destruct (i - _)%nat as [|q]; cbn in N; [|destruct q; discriminate].
        injection N as <-. unfold object_new in F. rewrite nth_error_map in F. destruct (nth_error (struct_fields sd) j); [|discriminate].
        cbn in F. injection F as <- <-. destruct (held_new _ _ H).
    + left. refine (unmoved y _ _ (SiteStat t) md s _ A H _). intros W. inversion W.
  - (* expect *)
    destruct (nth_error (y_objs y) i) as [ob|] eqn:O; [|same]. destruct (nth_error ob j) as [[md0 s0]|] eqn:F; [|same].
    cbn [f_decl f_slot]. destruct (slot_expect c md0 s0 k _ l _) as [[s' t'] r1] eqn:X. intros E. injection E as <- <-. intros A H.
    assert (NV : validates_site st (OExpect i j k l) -> @unit_res V r1 <> Ret None) by (intros W; inversion W).
    destruct st as [a b|a]; cbn in A.
    + destruct A as (ob' & N1 & N2). apply nth_set in N1 as [(<- & -> & _)|[_ N1]].
      * apply nth_set in N2 as [(<- & N2 & _)|[_ N2]].
        -- injection N2 as -> ->. destruct (slot_expect_from _ _ _ _ _ _ _ _ _ _ _ X H) as [H0|H0].
           ++ left. refine (unmoved _ _ _ _ _ s0 _ _ H0 NV). exists ob. auto.
           ++ right. exists l. split; [constructor|exact H0].
        -- left. refine (unmoved _ _ _ _ _ s _ _ H NV). exists ob. auto.
      * left. refine (unmoved _ _ _ _ _ s _ _ H NV). exists ob'. auto.
    + left. exact (unmoved y (OExpect i j k l) _ (SiteStat a) md s _ A H NV).
  - (* call *)
    destruct (nth_error (y_objs y) i) as [ob|] eqn:O; [|same]. destruct (nth_error ob j) as [[md0 s0]|] eqn:F; [|same].
    unfold field_call. cbn [f_decl f_slot]. destruct (slot_call c md0 s0 k args wr _) as [[s' w'] r1] eqn:X. intros E. injection E as <- <-. intros A H.
    match goal with |- earlier _ _ ?r _ _ _ \/ _ => assert (NV : @validates_site V U st (OCall i j k args wr) -> r <> Ret None) by (intros W; inversion W) end.
    destruct st as [a b|a]; cbn in A.
    + destruct A as (ob' & N1 & N2). apply nth_set in N1 as [(<- & -> & _)|[_ N1]].
      * apply nth_set in N2 as [(<- & N2 & _)|[_ N2]].
        -- injection N2 as -> ->. left. exists s0. split; [exists ob; auto|]. split; [|exact NV].
           cbn [calls_site]. rewrite !Nat.eqb_refl. cbn [andb]. exact (slot_call_from _ _ _ _ _ _ _ _ _ _ _ X H).
        -- left. refine (unmoved _ _ _ _ _ s _ _ H NV). exists ob. auto.
      * left. refine (unmoved _ _ _ _ _ s _ _ H NV). exists ob'. auto.
    + left. exact (unmoved y (OCall i j k args wr) _ (SiteStat a) md s _ A H NV).
  - (* checkpoint *)
    destruct (nth_error (y_objs y) i) as [ob|] eqn:O.
    2: { same. cbn in A. destruct A as (ob & N & _). congruence. }
    destruct (object_checkpoint c sh ob _) as [ob' r1] eqn:X. intros E. injection E as <- <-. intros A H.
    destruct st as [a b|a]; cbn in A.
    + destruct A as (ob2 & N1 & N2). apply nth_set in N1 as [(<- & -> & _)|[Q N1]].
      * destruct (object_checkpoint_held _ _ _ _ _ _ _ _ _ X N2 H) as [N3 R]. left.
        refine (unmoved _ _ _ _ _ s _ _ H _); [exists ob; auto|]. intros _ Z. exact (R (unit_ret _ Z)).
      * left. refine (unmoved _ _ _ _ _ s _ _ H _); [exists ob2; auto|]. intros W. inversion W; subst. congruence.
    + left. refine (unmoved y _ _ (SiteStat a) md s _ A H _). intros W. inversion W.
  - (* drop *)
    destruct (nth_error (y_objs y) i) as [ob|] eqn:O.
    2: { same. cbn in A. destruct A as (ob & N & _). congruence. }
    intros E. injection E as <- <-. intros A H.
    destruct st as [a b|a]; cbn in A.
    + destruct A as (ob2 & N1 & N2). apply nth_set in N1 as [(<- & -> & _)|[Q N1]]; [destruct b; discriminate|].
      left. refine (unmoved _ _ _ _ _ s _ _ H _); [exists ob2; auto|]. intros W. inversion W; subst. congruence.
    + left. refine (unmoved y _ _ (SiteStat a) md s _ A H _). intros W. inversion W.
  - (* context expect *)
    destruct (nth_error (y_stats y) t) as [[md0 sm]|] eqn:O; [|same].
    destruct (context_expect c md0 sm k l _ _) as [[sm' t'] r1] eqn:X. intros E. injection E as <- <-. intros A H.
    assert (NV : validates_site st (OCtxExpect t k l) -> @unit_res V r1 <> Ret None) by (intros W; inversion W).
    destruct st as [a b|a]; cbn in A.
    + left. exact (unmoved y (OCtxExpect t k l) _ (SiteObj a b) md s _ A H NV).
    + destruct A as (b & N). apply nth_set in N as [(<- & N & _)|[_ N]].
      * injection N as -> <-. unfold context_expect in X. destruct (sm_poison sm).
        { injection X as -> _ _. left. refine (unmoved _ _ _ _ _ s _ _ H NV). exists b. exact O. }
        destruct (slot_expect c md0 (sm_slot sm) k _ l _) as [[s' t2] r2] eqn:X2.
        assert (G : s' = s /\ r2 = r1) by (destruct r2; injection X as _ <- _ <-; auto). destruct G as [-> ->].
        destruct (slot_expect_from _ _ _ _ _ _ _ _ _ _ _ X2 H) as [H0|H0].
        -- left. refine (unmoved _ _ _ _ _ (sm_slot sm) _ _ H0 NV). exists (sm_poison sm). destruct sm. exact O.
        -- right. exists l. split; [constructor|exact H0].
      * left. refine (unmoved _ _ _ _ _ s _ _ H NV). exists b. exact N.
  - (* static call *)
    destruct (nth_error (y_stats y) t) as [[md0 sm]|] eqn:O; [|same].
    destruct (static_call c md0 sm k args _) as [[sm' w'] r1] eqn:X. intros E. injection E as <- <-. intros A H.
    match goal with |- earlier _ _ ?r _ _ _ \/ _ => assert (NV : @validates_site V U st (OStaticCall t k args) -> r <> Ret None) by (intros W; inversion W) end.
    destruct st as [a b|a]; cbn in A.
    + left. exact (unmoved y (OStaticCall t k args) _ (SiteObj a b) md s _ A H NV).
    + destruct A as (b & N). apply nth_set in N as [(<- & N & _)|[_ N]].
      * injection N as -> <-. unfold static_call in X. destruct (sm_poison sm).
        { injection X as -> _ _. left. refine (unmoved _ _ _ _ _ s _ _ H NV). exists b. exact O. }
        destruct (slot_call c md0 (sm_slot sm) k args _ _) as [[s' t2] r2] eqn:X2.
        assert (G : s' = s) by (destruct r2 as [[?|]|?|]; injection X as _ <- _ _; auto). subst s'.
        left. exists (sm_slot sm). split; [exists (sm_poison sm); destruct sm; exact O|]. split; [|exact NV].
        cbn [calls_site]. rewrite Nat.eqb_refl. exact (slot_call_from _ _ _ _ _ _ _ _ _ _ _ X2 H).
      * left. refine (unmoved _ _ _ _ _ s _ _ H NV). exists b. exact N.
  - (* context checkpoint *)
    destruct (nth_error (y_stats y) t) as [[md0 sm]|] eqn:O.
    2: { same. cbn in A. destruct A as (b & N). congruence. }
    destruct (static_checkpoint c md0 sh sm _) as [sm' r1] eqn:X. intros E. injection E as <- <-. intros A H.
    destruct st as [a b|a]; cbn in A.
    + left. refine (unmoved y _ _ (SiteObj a b) md s _ A H _). intros W. inversion W.
    + destruct A as (b & N). apply nth_set in N as [(<- & N & _)|[Q N]].
      * injection N as -> <-. destruct (static_checkpoint_held _ _ _ _ _ _ e' X H) as [<- R]. left.
        refine (unmoved _ _ _ _ _ s _ _ H _); [exists b; exact O|]. intros _ Z. exact (R (unit_ret _ Z)).
      * left. refine (unmoved _ _ _ _ _ s _ _ H _); [exists b; exact N|]. intros W. inversion W; subst. congruence.
  - (* context drop *)
    destruct (nth_error (y_stats y) t) as [[md0 sm]|] eqn:O.
    2: { same. cbn in A. destruct A as (b & N). congruence. }
    destruct (context_drop c md0 sh sm _) as [sm' r1] eqn:X. intros E. injection E as <- <-. intros A H.
    destruct st as [a b|a]; cbn in A.
    + left. refine (unmoved y _ _ (SiteObj a b) md s _ A H _). intros W. inversion W.
    + destruct A as (b & N). apply nth_set in N as [(<- & N & _)|[Q N]].
      * injection N as -> <-. destruct (context_drop_held _ _ _ _ _ _ e' X H) as [<- R]. left.
        refine (unmoved _ _ _ _ _ s _ _ H _); [exists b; exact O|]. intros _ Z. exact (R (unit_ret _ Z)).
      * left. refine (unmoved _ _ _ _ _ s _ _ H _); [exists b; exact N|]. intros W. inversion W; subst. congruence.
  - (* module *)
    destruct (module_checkpoint c sh (y_stats y) _) as [ss r1] eqn:X. intros E. injection E as <- <-. intros A H.
    destruct st as [a b|a]; cbn in A.
    + left. refine (unmoved y _ _ (SiteObj a b) md s _ A H _). intros W. inversion W.
    + destruct A as (b & N). destruct (module_checkpoint_held _ _ _ _ _ _ _ _ _ _ X N H) as [N3 R]. left.
      refine (unmoved _ _ _ _ _ s _ _ H _); [exists b; exact N3|]. intros _ Z. exact (R (unit_ret _ Z)).
  - same.
  - same.
  - same.
Qed.
End Step.
End PointProofs.
