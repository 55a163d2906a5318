(** * PropGenRun: the generated code behaves like the mocks of the other files (C74)

    [GenRun] executes the items that the macro emits, resolving every name as
    rustc does.  [Mock] is the model about which the theorems on counts,
    sequences, static methods and so on are stated. *)

From Coq Require Import List Bool String NArith Arith Permutation Lia.
From Verif Require Import Base Times Expect Mock Spec SysSpec PropStatics SuperProofs.
From Verif Require Import Ast AstSpec TyEq Rewrite Derive DeriveSpec
  Names Sig MockFn MockFnSpec MockFnProofs Item ItemProofs
  NameProofs MockItem ItemSpec PropItems GenSpec GenProofs
  GenRun GenRunSpec GenRunLists GenRunObj GenRunDesc GenRunProofs GenRunNames GenRunFns GenRunCount.
Import ListNotations.
Open Scope string_scope.
Open Scope list_scope.

(** ** C74: a test of the generated mock is a test of Mock.v *)

(** [te] says which argument and return types can be printed and have defaults.
    The mock that the input describes is in the terms of the input alone
    ([described_mock]); operations refer to functions by their name. *)
Theorem generated_code_runs_like_the_model :
  forall (V U : Type) hash m g (te : types V),
  mock_it hash m = Some g -> well_formed m -> same_fns m -> distinct_names g ->
  exists sd st,
    described_mock hash m te sd st
    /\ (forall who x f, In x (fns_at m who) -> same_name (fn_name x) f = true ->
          exists d,
            nth_error (if has_self x then struct_fields sd else st)
                      (position (trait_at m who) f (if has_self x then object_fns m else static_fns m))
            = Some d
            /\ described hash m te (trait_at m who, x) d)
    /\ forall c sh u (l : list (uop V U)), Forall (named m) l ->
         exists y0 y,
           ginit g u = Some y0
           /\ grun g te c sh y0 l = Some (y, snd (run c sh (init u st) (map (to_op m sd) l)))
           /\ gy_world y = y_world (fst (run c sh (init u st) (map (to_op m sd) l))).
Proof.
  intros V U hash m g te G WF SF DN.
  destruct (mock_it_built hash m g G) as (s & M & -> & FM & FT).
  exists (GenRunProofs.sd s te), (GenRunProofs.st s te). split; [|split].
  - exact (is_described hash m s M FM FT WF DN te).
  - exact (declaration hash m s M FM FT WF SF DN G te).
  - intros c sh u l F.
    destruct (init_sim (U := U) hash m s FM FT WF DN G te u) as (y0 & I & S).
    destruct (run_sim hash m s M FM FT WF SF DN G te c sh l y0 _ S F) as (y & R & S').
    exists y0, y. split; [exact I|]. split; [exact R|]. exact (si_world _ _ _ _ S').
Qed.
Print Assumptions generated_code_runs_like_the_model.

(** A generic mock with two methods, a trait that is implemented for two types, and
    another trait of the same name. *)
Definition rn_impl (a : ident) (p : path) (l : list fn_item) : item_impl :=
  ItemImpl [] false no_generics (Some (false, p))
    (TPath (Path false [Seg "MockFoo" (PaAngle [GaType (ty_of a)])])) (map IiFn l).
Definition rn_mock : mockable_struct :=
  ex_struct [rn_impl "u8" ex_tr [ex_fn [] "b" [ex_self] None];
             rn_impl "u16" ex_tr [ex_fn [] "b" [ex_self] None];
             ex_impl [] ex_mtr [ex_fn [] "c" [ex_mut] None; ex_fn [] "make" [] (Some (ty_of "u8"))]].

Lemma rn_well_formed : well_formed rn_mock.
Proof.
  split; [split|discriminate].
  - intros f [<-|[<-|[]]] _; reflexivity.
  - intros x f [<-|[<-|[<-|[]]]] I _; cbn in I; repeat (destruct I as [<-|I]; [reflexivity|]); destruct I.
Qed.
Lemma rn_same_fns : same_fns rn_mock.
Proof.
  intros x y bx b' p [<-|[<-|[<-|[]]]] [<-|[<-|[<-|[]]]] E E'; cbn in E, E'; try reflexivity;
    injection E as _ <-; discriminate.
Qed.

Lemma rn_clear : clear_names ex_hash rn_mock.
Proof.
  constructor.
  - intros [[|[|[|[|i]]]]|]; cbn; repeat constructor; cbn; intuition discriminate.
  - intros x b p [<-|[<-|[<-|[]]]] E; cbn in E; injection E as _ <-;
      [exact ex_tr_simple|exact ex_tr_simple|exact ex_mtr_simple].
  - intros x y b b' p q [<-|[<-|[<-|[]]]] [<-|[<-|[<-|[]]]] E E'; cbn in E, E'; injection E as _ <-;
      injection E' as _ <-; auto; discriminate.
  - intros x y b b' p q [<-|[<-|[<-|[]]]] [<-|[<-|[<-|[]]]] E E'; cbn in E, E'; injection E as _ <-;
      injection E' as _ <-; auto; discriminate.
  - intros [[|[|[|[|i]]]]|] x n I S _; cbn in I; intuition (subst; try discriminate).
  - intros x u I S; cbn in I; destruct I as [<-|[<-|[]]]; [|discriminate].
    cbn. intros E. destruct u as [|a [|b u]]; cbn in E; discriminate.
Qed.

Lemma rn_distinct : distinct_names (ex_gen rn_mock).
Proof.
  destruct (mock_it_built ex_hash rn_mock (ex_gen rn_mock) eq_refl) as (s & M & -> & _).
  exact (clear_distinct ex_hash rn_mock s M rn_clear).
Qed.

(** ** Names *)

(** The names are distinct unless functions, traits or fields are called alike. *)
Theorem clear_names_are_distinct :
  forall hash m g, mock_it hash m = Some g -> clear_names hash m -> distinct_names g.
Proof.
  intros hash m g G C. destruct (mock_it_built hash m g G) as (s & M & -> & _).
  exact (clear_distinct hash m s M C).
Qed.
Print Assumptions clear_names_are_distinct.

Example clear_names_are_distinct_applies :
  mock_it ex_hash rn_mock = Some (ex_gen rn_mock) /\ clear_names ex_hash rn_mock
  /\ map gf_name (gm_fields (ex_gen rn_mock)) = ["Tr_expectations"; "m__Tr_1_expectations"; "a"; "_t0"].
Proof. split; [reflexivity|]. split; [exact rn_clear|reflexivity]. Qed.

(** Methods may be called like the fields that hold the expectations of a trait, or
    the markers of type parameters; then the structure has two fields of one
    name and does not compile. *)
Definition clash_trait : mockable_struct :=
  MockableStruct [] [] no_generics [ex_fn [] "Tr_expectations" [ex_self] None] "MockFoo" VPublic
    [ItemImpl [] false no_generics (Some (false, ex_tr)) (ty_of "MockFoo")
       [IiFn (ex_fn [] "a" [ex_self] None)]].
Definition clash_marker : mockable_struct :=
  MockableStruct [] [] ex_generics [ex_fn [] "_t0" [ex_self] None] "MockFoo" VPublic [].

Theorem distinct_names_refuted :
  exists hash m g, mock_it hash m = Some g /\ well_formed m /\ same_fns m
    /\ NoDup (map fn_name (ms_methods m)) /\ ~ distinct_names g.
Proof.
  exists ex_hash, clash_trait, (ex_gen clash_trait). split; [reflexivity|]. split; [|split; [|split]].
  - split; [split|auto].
    + intros f [<-|[]] _; reflexivity.
    + intros x f [<-|[]] I _; cbn in I. destruct I as [<-|[]]; reflexivity.
  - intros x y bx b' p [<-|[]] [<-|[]] _ _. reflexivity.
  - repeat constructor; auto.
  - intros [N _]. cbn in N. inversion N as [|? ? A _]. apply A. cbn. auto.
Qed.
Print Assumptions distinct_names_refuted.

Theorem marker_names_refuted :
  exists hash m g, mock_it hash m = Some g /\ well_formed m /\ ms_impls m = []
    /\ NoDup (map fn_name (ms_methods m)) /\ ~ distinct_names g.
Proof.
  exists ex_hash, clash_marker, (ex_gen clash_marker). split; [reflexivity|]. split; [|split; [|split]].
  - split; [split|discriminate].
    + intros f [<-|[]] _; reflexivity.
    + intros x f [].
  - reflexivity.
  - repeat constructor; auto.
  - intros [N _]. cbn in N. inversion N as [|? ? A _]. apply A. cbn. auto.
Qed.
Print Assumptions marker_names_refuted.

(** Functions, too, have different names, unless the input has functions or constants
    that are called alike, or like generated ones. *)
Theorem clear_functions_are_distinct :
  forall hash m g, mock_it hash m = Some g -> clear_functions m -> distinct_functions g.
Proof.
  intros hash m g G C. destruct (mock_it_built hash m g G) as (s & M & -> & _).
  exact (clear_fns_distinct hash m s M C).
Qed.
Print Assumptions clear_functions_are_distinct.

Lemma rn_clear_functions : clear_functions rn_mock.
Proof.
  constructor.
  - intros [[|[|[|[|i]]]]|]; cbn; repeat constructor; cbn; intuition discriminate.
  - constructor.
  - intros c [].
  - intros x [<-|[<-|[]]]; (split; [|discriminate]); intros [E|[[E|(u & E)]|(u & E)]]; cbn in E; try discriminate;
      destruct u as [|a [|b u]]; discriminate.
  - intros y x [<-|[<-|[<-|[]]]] I; cbn in I; repeat (destruct I as [<-|I]; [intros [E|(u & E)]; discriminate|]);
      destruct I.
  - intros y x z [<-|[<-|[<-|[]]]] I [<-|[<-|[]]]; cbn in I;
      repeat (destruct I as [<-|I]; [discriminate|]); destruct I.
  - intros i j y z x x' b c NE E E' I I' N B C.
    destruct i as [|[|[|[|i]]]]; [| | | |destruct i; discriminate]; try discriminate; injection E as <-;
    destruct j as [|[|[|[|j]]]]; [| | | |destruct j; discriminate| | | | |destruct j; discriminate
                                 | | | | |destruct j; discriminate];
      try discriminate; injection E' as <-; try now elim NE.
    all: cbn in I, I', B, C; injection B as <-; injection C as <-.
    all: repeat match goal with H : _ \/ _ |- _ => destruct H as [<-|H] end; try contradiction; try discriminate N.
    + do 2 eexists. exists 0%nat, "u8", "u16". cbn. repeat split; auto; discriminate.
    + do 2 eexists. exists 0%nat, "u16", "u8". cbn. repeat split; auto; discriminate.
Qed.

Example clear_functions_are_distinct_applies :
  mock_it ex_hash rn_mock = Some (ex_gen rn_mock) /\ clear_functions rn_mock
  /\ own_functions (ex_gen rn_mock) = ["a"; "s"; "s_context"; "expect_a"; "checkpoint"; "new"]
  /\ map block_functions (gm_trait_impls (ex_gen rn_mock))
     = [["expect_b"]; ["expect_b"]; ["expect_c"; "make_context"]].
Proof. split; [reflexivity|]. split; [exact rn_clear_functions|]. split; reflexivity. Qed.

(** A method called [checkpoint] clashes with the generated one; methods of one name
    in two traits have [expect_] functions of one name. *)
Definition clash_checkpoint : mockable_struct :=
  MockableStruct [] [] no_generics [ex_fn [] "checkpoint" [ex_mut] None] "MockFoo" VPublic [].
Definition clash_expect : mockable_struct :=
  MockableStruct [] [] no_generics [] "MockFoo" VPublic
    [ItemImpl [] false no_generics (Some (false, ex_tr)) (ty_of "MockFoo") [IiFn (ex_fn [] "a" [ex_self] None)];
     ItemImpl [] false no_generics (Some (false, path_of "Us")) (ty_of "MockFoo")
       [IiFn (ex_fn [] "a" [ex_self] None)]].

Theorem checkpoint_methods_refuted :
  exists hash m g, mock_it hash m = Some g /\ well_formed m /\ ms_impls m = []
    /\ NoDup (map fn_name (ms_methods m)) /\ distinct_names g /\ ~ distinct_functions g.
Proof.
  exists ex_hash, clash_checkpoint, (ex_gen clash_checkpoint). split; [reflexivity|].
  split; [|split; [|split; [|split]]].
  - split; [split|auto].
    + intros f [<-|[]] _; reflexivity.
    + intros x f [].
  - reflexivity.
  - repeat constructor; auto.
  - split; [|split; [|split]]; [..|intros ss []]; cbn; repeat constructor; cbn; tauto.
  - intros [N _]. cbn in N. inversion N as [|? ? A _]. apply A. cbn. auto.
Qed.
Print Assumptions checkpoint_methods_refuted.

Theorem methods_of_two_traits_refuted :
  exists hash m g, mock_it hash m = Some g /\ well_formed m /\ same_fns m /\ ms_methods m = []
    /\ (forall who, NoDup (map fn_name (fns_at m who)))
    /\ clear_names hash m /\ ~ distinct_functions g.
Proof.
  exists ex_hash, clash_expect, (ex_gen clash_expect). split; [reflexivity|].
  split; [|split; [|split; [|split; [|split]]]].
  - split; [split|auto].
    + intros f [].
    + intros x f [<-|[<-|[]]] I _; cbn in I; destruct I as [<-|[]]; reflexivity.
  - intros x y bx b' p [<-|[<-|[]]] [<-|[<-|[]]] E E'; cbn in E, E'; try reflexivity;
      injection E as _ <-; discriminate.
  - reflexivity.
  - intros [[|[|[|i]]]|]; cbn; repeat constructor; cbn; auto.
  - constructor.
    + intros [[|[|[|i]]]|]; cbn; repeat constructor; cbn; intuition discriminate.
    + intros x b p [<-|[<-|[]]] E; cbn in E; injection E as _ <-; [exact ex_tr_simple|].
      split; [discriminate|]. split; [|cbn; no_text]. repeat constructor; try discriminate; no_text.
    + intros x y b b' p q [<-|[<-|[]]] [<-|[<-|[]]] E E'; cbn in E, E'; injection E as _ <-;
        injection E' as _ <-; auto; discriminate.
    + intros x y b b' p q [<-|[<-|[]]] [<-|[<-|[]]] E E'; cbn in E, E'; injection E as _ <-;
        injection E' as _ <-; auto; discriminate.
    + intros [[|[|[|i]]]|] x n I S P; now elim P.
    + intros x u [].
  - intros (_ & _ & D).
    destruct (D 0%nat 1%nat _ _ "expect_a" ltac:(discriminate) eq_refl eq_refl) as (l & k & n & i & j & E & _).
    + cbn. auto.
    + cbn. auto.
    + discriminate.
Qed.
Print Assumptions methods_of_two_traits_refuted.

Theorem undeclared_names_do_not_compile :
  forall (V U : Type) hash m g (te : types V),
  mock_it hash m = Some g -> same_fns m ->
  forall c sh (y : gsys V U) (o : uop V U), ~ named m o -> gstep g te c sh y o = None.
Proof.
  intros V U hash m g te G SF.
  destruct (mock_it_built hash m g G) as (s & M & -> & FM & FT).
  exact (undeclared_step hash m s M FT SF te).
Qed.
Print Assumptions undeclared_names_do_not_compile.

Example undeclared_names_do_not_compile_applies :
  mock_it ex_hash rn_mock = Some (ex_gen rn_mock) /\ same_fns rn_mock
  /\ ~ named rn_mock (UCall 0 (Some 0%nat) "a" 0%nat [] (fun x : nat => x) : uop nat nat)
  /\ ~ named rn_mock (UCtxExpect None "a" 0%nat [] : uop nat nat)
  /\ named rn_mock (UCtxExpect None "s" 0%nat [] : uop nat nat).
Proof.
  split; [reflexivity|]. split; [exact rn_same_fns|]. split; [|split].
  - intros (x & I & S & H). cbn in I. destruct I as [<-|[]]. discriminate.
  - intros (x & I & S & H). cbn in I. destruct I as [<-|[<-|[]]]; discriminate.
  - eexists. split; [right; left; reflexivity|]. split; reflexivity.
Qed.

(** ** Consequences, for the generated code itself *)

(** The order of the hash maps cannot be observed, except in which of several
    failures is reported. *)
Theorem generated_code_hides_hash_order :
  forall (V U : Type) hash m g (te : types V) c (sh1 sh2 : shuffle V U) u l,
  mock_it hash m = Some g -> well_formed m -> same_fns m -> distinct_names g ->
  fair sh1 -> fair sh2 -> Forall (named m) l ->
  exists y0 y1 y2 r1 r2,
    ginit g u = Some y0
    /\ grun g te c sh1 y0 l = Some (y1, r1) /\ grun g te c sh2 y0 l = Some (y2, r2)
    /\ gy_world y1 = gy_world y2 /\ Forall2 Spec.same_outcome r1 r2.
Proof.
  intros V U hash m g te c sh1 sh2 u l G WF SF DN F1 F2 N.
  destruct (generated_code_runs_like_the_model V U hash m g te G WF SF DN) as (sd & st & _ & _ & R).
  destruct (R c sh1 u l N) as (y0 & y1 & I1 & R1 & W1).
  destruct (R c sh2 u l N) as (y0' & y2 & I2 & R2 & W2).
  rewrite I1 in I2. injection I2 as <-.
  destruct (hash_order_is_irrelevant V U c sh1 sh2 u st (map (to_op m sd) l) F1 F2) as (E & O).
  exists y0, y1, y2. do 2 eexists. split; [exact I1|]. split; [exact R1|]. split; [exact R2|].
  split; [|exact O]. now rewrite W1, W2, E.
Qed.
Print Assumptions generated_code_hides_hash_order.

Lemma returns_static hash m (V : Type) (te : types V) x d :
  described hash m te x d ->
  (forall t b, sg_output (fi_sig (snd x)) = Some t -> ~ borrows b t) -> md_kind d = Expect.KStatic.
Proof.
  intros D O. destruct (md_kind d) eqn:E; auto; exfalso.
  - destruct (proj1 (ds_ref _ _ _ _ _ D) E) as (t & H & B). exact (O t false H B).
  - destruct (proj1 (ds_mut _ _ _ _ _ D) E) as (t & H & B). exact (O t true H B).
Qed.

(** A whole test of the generated code: a mock whose method [x] is expected [n]
    times and returns [v] answers [q <= n] calls with [v], and is then content when
    dropped exactly if [q = n]; otherwise the panic names the mock and the
    method and both counts. *)
Theorem generated_mock_counts_calls :
  forall (V U : Type) hash m g (te : types V) c (sh : shuffle V U) u who x k n q (v : V) args wr,
  mock_it hash m = Some g -> well_formed m -> same_fns m -> distinct_names g ->
  fair sh -> (n < umax c)%N -> (N.of_nat q <= n)%N ->
  In x (fns_at m who) -> has_self x = true ->
  (forall t b, sg_output (fi_sig x) = Some t -> ~ borrows b t) ->
  exists y0 y,
    ginit g u = Some y0
    /\ grun g te c sh y0
         (UNew :: UExpect 0 who (fn_name x) k [StTimes (ANum n); StReturnConst v]
          :: repeat (UCall 0 who (fn_name x) k args wr) q ++ [UDrop 0])
       = Some (y, Ret None :: Ret None :: repeat (Ret (Some v)) q
                  ++ [if (N.of_nat q =? n)%N then Ret None
                      else Panic (MTooFew (ms_name m ++ "::" ++ fn_name x)%string "<anything>"
                                          (N.of_nat q) n)]).
Proof.
  intros V U hash m g te c sh u who x k n q v args wr G WF SF DN F B Q I HS O.
  destruct (generated_code_runs_like_the_model V U hash m g te G WF SF DN) as (sd & st & _ & L & R).
  assert (SN : same_name (fn_name x) (fn_name x) = true) by apply String.eqb_refl.
  destruct (L who x (fn_name x) I SN) as (d & E & D). rewrite HS in E.
  assert (N : declares m who true (fn_name x)) by (exists x; auto).
  destruct (R c sh u (UNew :: UExpect 0 who (fn_name x) k [StTimes (ANum n); StReturnConst v]
          :: repeat (UCall 0 who (fn_name x) k args wr) q ++ [UDrop 0])) as (y0 & y & I0 & R0 & _).
  { constructor; [exact Logic.I|]. constructor; [exact N|]. apply Forall_app. split.
    - apply Forall_forall. intros o J. apply repeat_spec in J. subst o. exact N.
    - repeat constructor. }
  exists y0, y. split; [exact I0|]. rewrite R0. do 2 f_equal.
  cbn [map to_op]. rewrite map_app, map_repeat'. cbn [map to_op].
  refine (eq_trans (test_run c sh F d (returns_static _ _ _ _ _ _ D O) n B v k sd _ E u st args wr q Q) _).
  unfold verdict. rewrite (ds_name _ _ _ _ _ D). cbn [snd]. now destruct (N.of_nat q =? n)%N.
Qed.
Print Assumptions generated_mock_counts_calls.

(** The call after the last one expected panics. *)
Theorem generated_mock_refuses_surplus_calls :
  forall (V U : Type) hash m g (te : types V) c (sh : shuffle V U) u who x k n (v : V) args wr,
  mock_it hash m = Some g -> well_formed m -> same_fns m -> distinct_names g ->
  fair sh -> (n < umax c)%N ->
  In x (fns_at m who) -> has_self x = true ->
  (forall t b, sg_output (fi_sig x) = Some t -> ~ borrows b t) ->
  exists y0 y,
    ginit g u = Some y0
    /\ grun g te c sh y0
         (UNew :: UExpect 0 who (fn_name x) k [StTimes (ANum n); StReturnConst v]
          :: repeat (UCall 0 who (fn_name x) k args wr) (S (N.to_nat n)))
       = Some (y, Ret None :: Ret None :: repeat (Ret (Some v)) (N.to_nat n)
                  ++ [Panic (MCall (ms_name m ++ "::" ++ fn_name x)%string "<anything>"
                                   (if (n =? 0)%N then TeNever else TeTooMany (n + 1) n))]).
Proof.
  intros V U hash m g te c sh u who x k n v args wr G WF SF DN F B I HS O.
  destruct (generated_code_runs_like_the_model V U hash m g te G WF SF DN) as (sd & st & _ & L & R).
  assert (SN : same_name (fn_name x) (fn_name x) = true) by apply String.eqb_refl.
  destruct (L who x (fn_name x) I SN) as (d & E & D). rewrite HS in E.
  assert (N : declares m who true (fn_name x)) by (exists x; auto).
  destruct (R c sh u (UNew :: UExpect 0 who (fn_name x) k [StTimes (ANum n); StReturnConst v]
          :: repeat (UCall 0 who (fn_name x) k args wr) (S (N.to_nat n)))) as (y0 & y & I0 & R0 & _).
  { constructor; [exact Logic.I|]. constructor; [exact N|].
    apply Forall_forall. intros o J. apply repeat_spec in J. subst o. exact N. }
  exists y0, y. split; [exact I0|]. rewrite R0. do 2 f_equal.
  cbn [map to_op]. rewrite map_repeat'. cbn [to_op].
  refine (eq_trans (surplus_run c sh d (returns_static _ _ _ _ _ _ D O) n B v k sd _ E u st args wr) _).
  now rewrite (ds_name _ _ _ _ _ D).
Qed.
Print Assumptions generated_mock_refuses_surplus_calls.

(** The call as the messages show it. *)
Definition calling {V} (hash : list pargs -> N) m (te : types V) who (f : ident) (args : list V) : string :=
  (ms_name m ++ "::" ++ f
   ++ "(" ++ join_comma (map (snd (te (module_of hash m (trait_at m who) f))) args) ++ ")")%string.

(** A static method that is expected [n] times and returns [v] answers [q <= n] calls
    with [v], and its context is content when dropped exactly if [q = n]; after that
    the method expects nothing. *)
Theorem generated_static_methods_count_calls :
  forall (V U : Type) hash m g (te : types V) c (sh : shuffle V U) u who x k n q (v : V) args args',
  mock_it hash m = Some g -> well_formed m -> same_fns m -> distinct_names g ->
  fair sh -> (n < umax c)%N -> (N.of_nat q <= n)%N ->
  In x (fns_at m who) -> has_self x = false ->
  (forall t b, sg_output (fi_sig x) = Some t -> ~ borrows b t) ->
  exists y0 y,
    ginit g u = Some y0
    /\ grun g te c sh y0
         (UCtxExpect who (fn_name x) k [StTimes (ANum n); StReturnConst v]
          :: repeat (UStaticCall who (fn_name x) k args) q
          ++ [UCtxDrop who (fn_name x); UStaticCall who (fn_name x) k args'])
       = Some (y, Ret None :: repeat (Ret (Some v)) q
                  ++ [if (N.of_nat q =? n)%N then Ret None
                      else Panic (MTooFew (ms_name m ++ "::" ++ fn_name x)%string "<anything>"
                                          (N.of_nat q) n);
                      Panic (MNoMatch (calling hash m te who (fn_name x) args'))]).
Proof.
  intros V U hash m g te c sh u who x k n q v args args' G WF SF DN F B Q I HS O.
  destruct (generated_code_runs_like_the_model V U hash m g te G WF SF DN) as (sd & st & _ & L & R).
  assert (SN : same_name (fn_name x) (fn_name x) = true) by apply String.eqb_refl.
  destruct (L who x (fn_name x) I SN) as (d & E & D). rewrite HS in E.
  assert (N : declares m who false (fn_name x)) by (exists x; auto).
  destruct (R c sh u (UCtxExpect who (fn_name x) k [StTimes (ANum n); StReturnConst v]
          :: repeat (UStaticCall who (fn_name x) k args) q
          ++ [UCtxDrop who (fn_name x); UStaticCall who (fn_name x) k args'])) as (y0 & y & I0 & R0 & _).
  { constructor; [exact N|]. apply Forall_app. split.
    - apply Forall_forall. intros o J. apply repeat_spec in J. subst o. exact N.
    - repeat constructor; exact N. }
  exists y0, y. rewrite R0. cbn [map to_op]. rewrite map_app, map_repeat'. cbn [map to_op].
  destruct (static_test_run c sh F d (returns_static _ _ _ _ _ _ D O) n B v k st _ E u args q
              [OStaticCall (position (trait_at m who) (fn_name x) (static_fns m)) k args'] Q) as (w & t & T).
  unfold chain in T. rewrite T.
  split; [exact I0|]. do 2 f_equal.
  assert (X := fresh_call c sh d k st _ E w t args').
  cbn [run]. destruct (step c sh (Sys w t [] (fresh st)) _) as [z r]. cbn [snd] in *. rewrite X.
  assert (C : call_desc (md_me d) args' = calling hash m te who (fn_name x) args').
  { unfold call_desc, calling. rewrite (ds_desc _ _ _ _ _ D), (ds_debug _ _ _ _ _ D). now rewrite !append_assoc. }
  rewrite C. unfold verdict. rewrite (ds_name _ _ _ _ _ D). now destruct (N.of_nat q =? n)%N.
Qed.
Print Assumptions generated_static_methods_count_calls.

(** A test of the example: the mock's destructor reports the first method that is not
    satisfied, that of [Tr]. *)
Definition run_te : types nat := fun _ => (None, fun _ => "?").
Definition run_test : list (uop nat nat) :=
  [UNew;
   UExpect 0 None "a" 0%nat [StTimes (ANum 1); StReturnConst 5%nat];
   UExpect 0 (Some 0%nat) "b" 0%nat [StTimes (ANum 2); StReturnConst 6%nat];
   UExpect 0 (Some 2%nat) "c" 0%nat [StReturnConst 7%nat];
   UCall 0 (Some 2%nat) "c" 0%nat [] (fun x => x);
   UCall 0 None "a" 0%nat [1%nat] (fun x => x);
   UCall 0 (Some 0%nat) "b" 0%nat [] (fun x => x);
   UCtxExpect None "s" 3%nat [StReturnConst 8%nat];
   UStaticCall None "s" 3%nat [];
   UStaticCall None "s" 4%nat [];
   UDrop 0].

Example generated_code_runs_like_the_model_applies :
  mock_it ex_hash rn_mock = Some (ex_gen rn_mock) /\ well_formed rn_mock /\ same_fns rn_mock
  /\ distinct_names (ex_gen rn_mock) /\ Forall (named rn_mock) run_test
  /\ match ginit (ex_gen rn_mock) 0%nat with
     | Some y => option_map snd (grun (ex_gen rn_mock) run_te debug64 (fun s => s) y run_test)
     | None => None
     end
     = Some [Ret None; Ret None; Ret None; Ret None; Ret (Some 7%nat); Ret (Some 5%nat); Ret (Some 6%nat);
             Ret None; Ret (Some 8%nat); Panic (MNoMatch "MockFoo::s()");
             Panic (MTooFew "MockFoo::b" "<anything>" 1 2)].
Proof.
  split; [reflexivity|]. split; [exact rn_well_formed|]. split; [exact rn_same_fns|].
  split; [exact rn_distinct|]. split.
  - unfold run_test. repeat (apply Forall_cons; [cbn [named]; first
      [exact Logic.I
      |eexists; split; [left; reflexivity|split; reflexivity]
      |eexists; split; [right; left; reflexivity|split; reflexivity]]|]).
    apply Forall_nil.
  - vm_compute. reflexivity.
Qed.

(** The static method [s], expected three times and called twice. *)
Example generated_static_methods_count_calls_applies :
  mock_it ex_hash rn_mock = Some (ex_gen rn_mock) /\ well_formed rn_mock /\ same_fns rn_mock
  /\ distinct_names (ex_gen rn_mock) /\ fair (fun s : gstore nat nat => rev s)
  /\ (3 < umax debug16)%N /\ (N.of_nat 2 <= 3)%N
  /\ (exists x, In x (fns_at rn_mock None) /\ fn_name x = "s" /\ has_self x = false
        /\ forall t b, sg_output (fi_sig x) = Some t -> ~ borrows b t)
  /\ calling ex_hash rn_mock run_te None "s" [1%nat; 2%nat] = "MockFoo::s(?, ?)".
Proof.
  split; [reflexivity|]. split; [exact rn_well_formed|]. split; [exact rn_same_fns|].
  split; [exact rn_distinct|].
  split; [intros s; symmetry; apply Permutation_rev|].
  split; [reflexivity|]. split; [discriminate|]. split; [|reflexivity].
  eexists. split; [right; left; reflexivity|]. split; [reflexivity|]. split; [reflexivity|].
  intros t b H. vm_compute in H. injection H as <-. intros (l & e & X & _). discriminate X.
Qed.

(** The method [b] of [Tr], expected three times and called twice, or four times. *)
Example generated_mock_counts_calls_applies :
  let x := ex_fn [] "b" [ex_self] None in
  mock_it ex_hash rn_mock = Some (ex_gen rn_mock) /\ well_formed rn_mock /\ same_fns rn_mock
  /\ distinct_names (ex_gen rn_mock) /\ fair (fun s : gstore nat nat => rev s)
  /\ (3 < umax debug16)%N /\ (N.of_nat 2 <= 3)%N
  /\ In x (fns_at rn_mock (Some 0%nat)) /\ has_self x = true
  /\ (forall t b, sg_output (fi_sig x) = Some t -> ~ borrows b t).
Proof.
  split; [reflexivity|]. split; [exact rn_well_formed|]. split; [exact rn_same_fns|].
  split; [exact rn_distinct|].
  split; [intros s; symmetry; apply Permutation_rev|].
  split; [reflexivity|]. split; [discriminate|]. split; [left; reflexivity|]. split; [reflexivity|]. discriminate.
Qed.
