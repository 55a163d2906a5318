(** * PropPoint: C82, failures point to the line that set the expectation *)

From Coq Require Import PeanoNat NArith List Bool String Ascii Lia.
From Verif Require Import Base Times TimesSpec Expect Mock Spec.
From Verif Require Import Ast AstSpec TyEq Rewrite Derive DeriveSpec Names CallSpec Sig SigSpec MockFn MockFnSpec
  Item MockItem ItemSpec PropItems GenSpec GenProofs GenRun GenRunSpec PropGenRun ModRun PipeSpec ModSpec ModRunSpec PropModRun.
From Verif Require Import Messages MessageSpec MessageText PointSpec PointProofs PointRuns PointGenSpec PointGen PropMessages.
Import ListNotations.
Open Scope N_scope.
Open Scope list_scope.

(** A test of any length, with any closures that do not panic in mockall's own words.  Whatever
    operation fails, with a message about an expectation, there is an earlier line that set
    this expectation, for the function that the operation calls or validates: the message has
    the name of the function, the text of the arguments and the bound that this line gives.
    The function was called at least as often as the message says, and the expectation was not
    validated in between. *)
Theorem failures_point_to_the_expectation :
  forall (V U : Type) c (sh : shuffle V U) u decls l y rs i o m,
  (forall s x, In x (sh s) -> In x s) ->
  Forall polite_op l -> Forall (sound_op (umax c)) l -> N.of_nat (List.length l) < umax c ->
  run c sh (init u decls) l = (y, rs) ->
  nth_error l i = Some o -> nth_error rs i = Some (Panic m) ->
  explained decls l rs i o m.
Proof.
  intros V U c sh u decls l y rs i o m S P So L R N M. exact (run_explained sh S c u decls l y rs i o m R P So L N M).
Qed.

(** The same of the code that the macros generate, in terms of what the user wrote. *)
Theorem generated_failures_point_to_the_expectation :
  forall (V U : Type) hash m g (te : types V) c (sh : shuffle V U) u l y0 y rs i o x,
  mock_it hash m = Some g -> well_formed m -> same_fns m -> distinct_names g ->
  (forall s z, In z (sh s) -> In z s) ->
  Forall (named m) l -> Forall (sound_uop m (umax c)) l -> N.of_nat (List.length l) < umax c ->
  ginit g u = Some y0 -> grun g te c sh y0 l = Some (y, rs) ->
  nth_error l i = Some o -> nth_error rs i = Some (Panic x) ->
  uexplained m l rs i o x.
Proof.
  intros V U hash m g te c sh u l y0 y rs i o x G WF SF DN Sh Na So Len I R N P.
  destruct (generated_code_runs_like_the_model V U hash m g te G WF SF DN) as (sd & st & D & F & Run).
  destruct (Run c sh u l Na) as (y1 & y2 & I1 & R1 & _). rewrite I in I1. injection I1 as <-. rewrite R in R1. injection R1 as <- E.
  exact (generated_explained hash m te sd st D F c sh u l rs i o x Sh (eq_sym E) Na So Len N P).
Qed.

Theorem generated_module_failures_point_to_the_expectation :
  forall (V U : Type) vis n items g (te : types V) c (sh : shuffle V U) u l y0 y rs i o x,
  gen_mod (from_module vis n items) = Some g ->
  free_functions items -> parsed_fns items -> distinct_fns items ->
  (forall s z, In z (sh s) -> In z s) ->
  Forall (named_fn items) l -> Forall (sound_mop (umax c)) l -> N.of_nat (List.length l) < umax c ->
  minit g u = Some y0 -> mrun g te c sh y0 l = Some (y, rs) ->
  nth_error l i = Some o -> nth_error rs i = Some (Panic x) ->
  mexplained items l rs i o x.
Proof.
  intros V U vis n items g te c sh u l y0 y rs i o x G FF PF DF Sh Na So Len I R N P.
  destruct (generated_module_runs_like_the_model V U vis n items g te G FF PF DF) as (st & D & F & Run).
  destruct (Run c sh u l Na) as (y1 & y2 & I1 & R1 & _). rewrite I in I1. injection I1 as <-. rewrite R in R1. injection R1 as <- E.
  exact (generated_module_explained n items te st D F c sh u l rs i o x Sh (eq_sym E) Na So Len N P).
Qed.

(** ** Unambiguous messages *)

Definition no_blanks (m : mockable_struct) : Prop :=
  ~ has_char " " (ms_name m) /\ forall who x, In x (fns_at m who) -> ~ has_char " " (fn_name x).

Lemma generated_proper {V U} m (l : list (uop V U)) rs i o x : no_blanks m -> (forall w, x <> Base.MUser w) ->
  uexplained m l rs i o x -> proper x.
Proof.
  intros [B1 B2] Nu E.
  assert (Nm : forall us fn, uname m us fn -> ~ has_char " " fn).
  { intros us fn U0. assert (X : exists who y, In y (fns_at m who) /\ fn = (ms_name m ++ "::" ++ fn_name y)%string).
    { destruct us; cbn in U0; destruct U0 as (who & y & I & _ & _ & Q); exists who, y; auto. }
    destruct X as (who & y & I & ->). intros H. apply has_app in H as [H|H]; [exact (B1 H)|].
    destruct H as [H|[H|H]]; [discriminate H|discriminate H|exact (B2 _ _ I H)]. }
  assert (Pt : forall us fn s n done, points_to (usets m) (ucalls m) (uvalidates m) (uname m) l rs i us fn s n done -> ~ has_char " " fn).
  { intros us fn s n done (j & o' & rest & H & _). exact (Nm _ _ H). }
  destruct x as [| | | | |w|fn s [|n k]|fn s []|fn s n k|fn s n k|d sq lv|sq lv| |d]; unfold uexplained in E; cbn [explains] in E; cbn;
    try exact Logic.I; try (now destruct (Nu w));
    destruct E as (us & done & E); decompose [and] E; eauto.
Qed.

(** When two tests of one mock fail with the same text, it is the same failure. *)
Theorem generated_messages_tell_failures :
  forall (V U : Type) hash m g (te : types V) c (sh : shuffle V U) u user l y0 y rs i x l' y' rs' i' x',
  mock_it hash m = Some g -> well_formed m -> same_fns m -> distinct_names g -> no_blanks m ->
  (forall s z, In z (sh s) -> In z s) -> ginit g u = Some y0 ->
  Forall (named m) l -> Forall (sound_uop m (umax c)) l -> N.of_nat (List.length l) < umax c ->
  grun g te c sh y0 l = Some (y, rs) -> nth_error rs i = Some (Panic x) -> (forall w, x <> Base.MUser w) ->
  Forall (named m) l' -> Forall (sound_uop m (umax c)) l' -> N.of_nat (List.length l') < umax c ->
  grun g te c sh y0 l' = Some (y', rs') -> nth_error rs' i' = Some (Panic x') -> (forall w, x' <> Base.MUser w) ->
  message user x = message user x' -> x = x'.
Proof.
  intros V U hash m g te c sh u user l y0 y rs i x l' y' rs' i' x' G WF SF DN NB Sh I Na So Le R P Nu Na' So' Le' R' P' Nu'.
  assert (Pr : forall k z ks j v, Forall (named m) k -> Forall (sound_uop m (umax c)) k -> N.of_nat (List.length k) < umax c ->
     grun g te c sh y0 k = Some (z, ks) -> nth_error ks j = Some (Panic v) -> (forall w, v <> Base.MUser w) -> proper v).
  { clear - G WF SF DN NB Sh I. intros k z ks j v Na So Le R P Nu.
    assert (Ln : List.length ks = List.length k).
    { destruct (generated_code_runs_like_the_model V U hash m g te G WF SF DN) as (sd & st & _ & _ & Run).
      destruct (Run c sh u k Na) as (y1 & y2 & I1 & R1 & _). rewrite I in I1. injection I1 as <-. rewrite R in R1. injection R1 as _ ->.
      rewrite run_len. apply map_length. }
    assert (No : exists o, nth_error k j = Some o).
    { destruct (nth_error k j) eqn:Q; [eauto|]. apply nth_error_None in Q. assert (j < List.length ks)%nat by (apply nth_error_Some; congruence). lia. }
    destruct No as [o No].
    exact (generated_proper m k ks j o v NB Nu
      (generated_failures_point_to_the_expectation V U hash m g te c sh u k y0 z ks j o v G WF SF DN Sh Na So Le I R No P)). }
  apply messages_tell_failures; [exact (Pr _ _ _ _ _ Na So Le R P Nu)|exact (Pr _ _ _ _ _ Na' So' Le' R' P' Nu')].
Qed.

(** ** Cases *)

(** Two expectations for one method; the second is not met, and the line that set it is 2. *)
Definition pointing : list (op N unit) :=
  [ONew foo_decl; OExpect 0 0 0%nat [StWith [is5]; StTimes (ANum 1); answer 7];
   OExpect 0 0 0%nat [StTimes (AIncl 2 3); answer 8];
   OCall 0 0 0%nat [5] same; OCall 0 0 0%nat [4] same; OCheckpoint 0].

Lemma polite_answer n : polite_setter (answer n).
Proof. intros a u u' m. discriminate. Qed.
Lemma polite_is5 : Forall (fun p => polite (snd p)) [is5].
Proof. repeat constructor. intros a u u' m. discriminate. Qed.

Example failures_point_to_the_expectation_applies :
  Forall polite_op pointing /\ Forall (sound_op (umax debug64)) pointing
  /\ N.of_nat (List.length pointing) < umax debug64
  /\ snd (run debug64 asis start pointing)
     = [Ret None; Ret None; Ret None; Ret (Some 7); Ret (Some 8);
        Panic (MTooFew "MockFoo::bar" "<anything>" 1 2)]
  /\ sets_site (SiteObj 0 0) (OExpect 0 0 0%nat [StTimes (AIncl 2 3); answer 8]) [StTimes (AIncl 2 3); answer 8]
  /\ text_of [StTimes (AIncl 2 3); answer 8] = "<anything>"%string
  /\ arg_min (count_of [StTimes (AIncl 2 3); answer 8]) = 2
  /\ text_of [StWith [is5]; StTimes (ANum 1); answer 7] = "var == 5"%string.
Proof.
  split; [|split; [|split; [reflexivity|split; [vm_compute; reflexivity|]]]].
  3: { split; [constructor|]. split; [reflexivity|]. split; reflexivity. }
  - unfold pointing. repeat (apply Forall_cons; [intros k S; inversion S; subst|]); try apply Forall_nil.
    + repeat (apply Forall_cons; [first [exact polite_is5|exact Logic.I|apply polite_answer]|]). apply Forall_nil.
    + repeat (apply Forall_cons; [first [exact polite_is5|exact Logic.I|apply polite_answer]|]). apply Forall_nil.
  - unfold pointing. repeat (apply Forall_cons; [intros w k S z Z; inversion S; subst|]); try apply Forall_nil.
    + destruct Z as [Z|[Z|[Z|[]]]]; try discriminate. injection Z as <-. split; [reflexivity|discriminate].
    + destruct Z as [Z|[Z|[]]]; try discriminate. injection Z as <-. split; [split; reflexivity|discriminate].
Qed.

(** Bounds such as [times(..0)] have to be excluded: see [too_many_messages_are_true_refuted].
    Bounds of an expectation that a panic interrupts are those before the panic. *)
Example interrupted_setters :
  snd (run debug64 asis start
    [ONew foo_decl; OExpect 0 0 0%nat [StTimes (ANum 2); answer 7; StTimes (ARange 3 3)]; OCheckpoint 0])
  = [Ret None; Panic MBackwards; Panic (MTooFew "MockFoo::bar" "<anything>" 0 2)].
Proof. vm_compute. reflexivity. Qed.

(** The mock of C74: the failing drop is about the line with [b]'s expectation. *)
Example generated_failures_point_to_the_expectation_applies :
  no_blanks rn_mock /\ Forall (sound_uop rn_mock (umax debug64)) run_test
  /\ N.of_nat (List.length run_test) < umax debug64
  /\ nth_error run_test 10 = Some (UDrop 0)
  /\ uvalidates (V := nat) (U := nat) rn_mock (USiteObj 0 (trait_at rn_mock (Some 0%nat)) "b") (UDrop 0)
  /\ uname rn_mock (USiteObj 0 (trait_at rn_mock (Some 0%nat)) "b") "MockFoo::b"
  /\ ucalls (V := nat) (U := nat) rn_mock (USiteObj 0 (trait_at rn_mock (Some 0%nat)) "b")
       (UCall 0 (Some 1%nat) "b" 0%nat [] (fun x => x)) = true.
Proof.
  split; [|split; [|split; [reflexivity|split; [reflexivity|split; [constructor|split; [|reflexivity]]]]]].
  - split; [cbn; intuition discriminate|]. intros [[|[|[|[|i]]]]|] x I; cbn in I; repeat destruct I as [<-|I]; cbn; intuition discriminate.
  - unfold run_test. repeat (apply Forall_cons; [intros w k S; inversion S; subst; (split;
      [repeat (apply Forall_cons; [exact Logic.I|]); apply Forall_nil
      |intros z Z; repeat (destruct Z as [Z|Z]; [first [discriminate Z|injection Z as <-; split; [reflexivity|discriminate]]|]); destruct Z])|]).
    apply Forall_nil.
  - exists (Some 0%nat). eexists. split; [left; reflexivity|]. repeat split.
Qed.

(** And the module of C75. *)
Example generated_module_failures_point_to_the_expectation_applies :
  Forall (sound_mop (umax debug64)) mr_test /\ N.of_nat (List.length mr_test) < umax debug64
  /\ nth_error mr_test 5 = Some MCheckpoint
  /\ mvalidates (V := nat) (U := nat) "r#type" MCheckpoint /\ mname mr_items "r#type" "r#type".
Proof.
  split; [|split; [reflexivity|split; [reflexivity|split; [constructor|]]]].
  - unfold mr_test. repeat (apply Forall_cons; [intros w k S; inversion S; subst; (split;
      [repeat (apply Forall_cons; [exact Logic.I|]); apply Forall_nil
      |intros z Z; repeat (destruct Z as [Z|Z]; [first [discriminate Z|injection Z as <-; split; [reflexivity|discriminate]]|]); destruct Z])|]).
    apply Forall_nil.
  - eexists. split; [right; right; left; reflexivity|]. split; reflexivity.
Qed.

(** ** What is not so

    The name in a message need not tell which of a mock's functions it is about: those of two
    traits may be called alike. *)
Definition two_bars : mockable_struct :=
  MockableStruct [] [] no_generics [] "MockFoo" VPublic
    [ItemImpl [] false no_generics (Some (false, Path false [Seg "A" PaNone])) (ty_of "MockFoo")
       [IiFn (ex_fn [] "bar" [ex_self] None)];
     ItemImpl [] false no_generics (Some (false, Path false [Seg "B" PaNone])) (ty_of "MockFoo")
       [IiFn (ex_fn [] "bar" [] None)]].
Theorem names_in_messages_are_unique_refuted :
  exists hash m g w w' name, mock_it hash m = Some g /\ well_formed m /\ same_fns m
    /\ distinct_names g /\ distinct_functions g
    /\ w <> w' /\ uname m w name /\ uname m w' name.
Proof.
  exists ex_hash, two_bars, (ex_gen two_bars), (USiteObj 0 (Some (Path false [Seg "A" PaNone])) "bar"),
    (USiteStat (Some (Path false [Seg "B" PaNone])) "bar"), "MockFoo::bar"%string.
  split; [reflexivity|]. split; [|split; [|split; [|split; [|split; [discriminate|split]]]]].
  - split; [split|auto].
    + intros f [].
    + intros x f [<-|[<-|[]]] I _; cbn in I; destruct I as [<-|[]]; reflexivity.
  - intros x y bx b' p [<-|[<-|[]]] [<-|[<-|[]]] E E'; cbn in E, E'; try reflexivity; injection E as _ <-; discriminate.
  - split; [|split; [|split]]; cbn; repeat constructor; cbn; try (intuition discriminate).
    + destruct H as [<-|[<-|[]]]; cbn; repeat constructor; cbn; intuition discriminate.
    + destruct H as [<-|[<-|[]]]; cbn; repeat constructor; cbn; intuition discriminate.
  - split; [|split].
    + cbn. repeat constructor; cbn; intuition discriminate.
    + intros t I. cbn in I. destruct I as [<-|[<-|[]]]; (split; [cbn; repeat constructor; cbn; intuition discriminate|]);
        intros n J K; cbn in J, K; destruct J as [<-|[]]; intuition discriminate.
    + intros i j t u n D E E' J K. destruct i as [|[|[|i]]]; cbn in E; try discriminate; injection E as <-;
        (destruct j as [|[|[|j]]]; cbn in E'; try discriminate; injection E' as <-); try congruence;
        cbn in J, K; destruct J as [<-|[]], K as [K|[]]; discriminate K.
  - exists (Some 0%nat). eexists. split; [left; reflexivity|]. repeat split.
  - exists (Some 1%nat). eexists. split; [left; reflexivity|]. repeat split.
Qed.

Print Assumptions failures_point_to_the_expectation.
Print Assumptions generated_failures_point_to_the_expectation.
Print Assumptions generated_module_failures_point_to_the_expectation.
Print Assumptions generated_messages_tell_failures.
Print Assumptions names_in_messages_are_unique_refuted.
