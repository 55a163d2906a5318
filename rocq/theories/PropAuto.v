(** * PropAuto: which mocks may be moved to and shared between threads (C83) *)

From Coq Require Import List Bool String NArith Arith.
From Verif Require Import Base Times Expect Mock.
From Verif Require Import Ast AstSpec TyEq Rewrite Derive DeriveSpec
  Names Sig MockFn MockFnSpec MockFnProofs PropOutput Item ItemProofs
  NameProofs MockItem ItemSpec PropItems GenSpec GenProofs GenRun GenRunSpec GenRunLists GenRunObj GenRunDesc
  GenRunProofs GenRunNames AutoTraits AutoSpec AutoProofs.
Import ListNotations.
Open Scope string_scope.
Open Scope list_scope.

(** ** Mock objects *)

(** Whatever the user's types implement ([knows]), the mock is [Send] ([Sync]) exactly if its
    type parameters and what its methods lend are. *)
Theorem mocks_are_as_safe_as_what_they_lend :
  forall hash m g knows at_ own a,
  mock_it hash m = Some g -> well_formed m -> distinct_names g ->
  (forall tr x, In (tr, x) (object_fns m) -> movable own true (stored (sg_output (fi_sig x))) = true) ->
  exists t, mock_gty g = Some t /\ (auto (known knows at_ own) a t <-> safe knows at_ own a m).
Proof.
  intros hash m g knows at_ own a G WF DN MV.
  destruct (mock_it_built hash m g G) as (s & M & -> & FM & FT).
  assert (D : good s) by exact (is_good hash m s FM FT WF DN G).
  assert (O := objects_built hash m s FM FT WF DN).
  eexists. split; [exact (mock_is s D)|].
  rewrite (mock_auto _ s D a _ (mock_is s D)), (mo_generics _ _ _ M). unfold safe.
  split; (intros [P Q]; split; [exact P|]).
  - intros tr x I. destruct (in_l _ _ _ _ O I) as (c & J & B).
    apply (built_auto knows at_ own a (tr, x) c B (MV _ _ I)), Q, J.
  - intros c I. destruct (in_r _ _ _ _ O I) as ([tr x] & J & B).
    apply (built_auto knows at_ own a (tr, x) c B (MV _ _ J)). exact (Q tr x J).
Qed.
Print Assumptions mocks_are_as_safe_as_what_they_lend.

(** In particular, arguments, returned values, predicates and closures that are not [Send]
    do not matter. *)
Theorem mocks_that_lend_nothing_are_send_and_sync :
  forall hash m g user a,
  mock_it hash m = Some g -> well_formed m -> distinct_names g ->
  type_names (ms_generics m) = [] ->
  (forall tr x, In (tr, x) (object_fns m) -> lends x -> separated x) ->
  exists t, mock_gty g = Some t /\ auto user a t.
Proof.
  intros hash m g user a G WF DN T L.
  destruct (mock_it_built hash m g G) as (s & M & -> & FM & FT).
  assert (D : good s) by exact (is_good hash m s FM FT WF DN G).
  assert (O := objects_built hash m s FM FT WF DN).
  eexists. split; [exact (mock_is s D)|].
  apply (mock_auto _ s D a _ (mock_is s D)). rewrite (mo_generics _ _ _ M), T. split; [intros i []|].
  intros c I. destruct (in_r _ _ _ _ O I) as ([tr x] & J & (_ & S & B & b & H & HS & HA & _)).
  unfold cell_gty. destruct (is_method_generic (snd c)) eqn:E; [apply generic_auto|].
  apply expectations_auto. left. cbn [priv_module gp_kind].
  apply (kind_static _ _ H). rewrite HS. intros X.
  apply L in J; [|exact X]. apply (method_separated b (snd c) x H HS HA B) in J. congruence.
Qed.
Print Assumptions mocks_that_lend_nothing_are_send_and_sync.

(** "Mock objects are always [Send]" (mockall/src/lib.rs 149): not if they lend what is not,
    even if nothing is generic. *)
Definition au_rc : ty := TPath (Path false [Seg "Rc" (PaAngle [GaType (ty_of "u32")])]).
Definition au_lend : mockable_struct :=
  MockableStruct [] [] no_generics [ex_fn [] "a" [ex_self] (Some (TRef None false au_rc))] "MockFoo" VPublic [].

Theorem mocks_are_always_send_refuted :
  exists hash m g t knows at_ own,
    mock_it hash m = Some g /\ well_formed m /\ distinct_names g
    /\ type_names (ms_generics m) = []
    /\ mock_gty g = Some t
    /\ (forall u, knows Send u <-> u <> absolute at_ [] own au_rc)
    /\ ~ auto (known knows at_ own) Send t.
Proof.
  exists ex_hash, au_lend, (ex_gen au_lend).
  assert (WF : well_formed au_lend).
  { split; [split|]; [|intros x f []|intros _; reflexivity]. intros f [<-|[]] _; reflexivity. }
  assert (DN : distinct_names (ex_gen au_lend)).
  { split; [|split; [|split]]; [..|intros ss []]; repeat constructor; cbn; intuition discriminate. }
  destruct (mocks_are_as_safe_as_what_they_lend ex_hash au_lend (ex_gen au_lend)
              (fun _ u => u <> absolute [] [] [] au_rc) [] [] Send eq_refl WF DN) as (t & T & Q).
  { intros tr x [E|[]]. injection E as <- <-. reflexivity. }
  exists t, (fun _ u => u <> absolute [] [] [] au_rc), [], [].
  split; [reflexivity|]. split; [exact WF|]. split; [exact DN|]. split; [reflexivity|].
  split; [exact T|]. split; [tauto|].
  intros A. apply Q in A as [_ A].
  refine (A None _ (or_introl eq_refl) _ _ eq_refl).
  - exists (TRef None false au_rc), false. split; [reflexivity|].
    exists None, au_rc. split; [reflexivity|discriminate].
  - cbn. intros [(i & C & _)|(_ & _ & w & [C _])]; destruct C.
Qed.
Print Assumptions mocks_are_always_send_refuted.

(** [mock! { pub Foo<T> { fn a(&self, x: Rc<u32>) -> Rc<u32>; fn r(&self) -> &T;
    fn g<U>(&self, u: U) -> &U; }  impl Tr for Foo<T> { fn b(&mut self) -> &mut Vec<S>; } }] *)
Definition au_arg (i : ident) (t : ty) : fnarg := FaTyped (PatIdent false false i false) t.
Definition au_gen : fn_item :=
  FnItem [] VInherited (Signature "g" (Generics true [GpType "U" [] None] None)
                                  [ex_self; au_arg "u" (ty_of "U")] (Some (TRef None false (ty_of "U"))) None).
Definition au_vec : ty := TPath (Path false [Seg "Vec" (PaAngle [GaType (ty_of "S")])]).
Definition au_mock : mockable_struct :=
  MockableStruct [] [] ex_generics
    [ex_fn [] "a" [ex_self; au_arg "x" au_rc] (Some au_rc);
     ex_fn [] "r" [ex_self] (Some (TRef None false (ty_of "T"))); au_gen] "MockFoo" VPublic
    [ex_impl [] ex_tr [ex_fn [] "b" [ex_mut] (Some (TRef None true au_vec))]].

Definition au_own : list ident := ["Expectation"; "Expectations"].
Lemma au_well_formed : well_formed au_mock.
Proof.
  split; [split|]; [| |discriminate].
  - intros f [<-|[<-|[<-|[]]]] X; [reflexivity| |]; first [reflexivity|discriminate X].
  - intros x f [<-|[]] [<-|[]] _; reflexivity.
Qed.
Lemma au_distinct : distinct_names (ex_gen au_mock).
Proof.
  split; [|split; [|split]].
  1-3: vm_compute; repeat constructor; cbn; intuition discriminate.
  intros ss [<-|[]]. split; vm_compute; repeat constructor; cbn; intuition discriminate.
Qed.
Lemma au_movable tr x : In (tr, x) (object_fns au_mock) ->
  movable au_own true (stored (sg_output (fi_sig x))) = true.
Proof.
  intros I. cbn in I. destruct I as [E|[E|[E|[E|[]]]]]; injection E as _ <-; reflexivity.
Qed.

(** It is [Send] in a crate where [T] and [Vec<S>] are, though [Rc<u32>] and [U] are not; it is
    not [Sync] if [Vec<S>] is not. *)
Definition au_knows (a : marker) (t : ty) : Prop :=
  t = absolute [] [] au_own (ty_of "T") \/ a = Send /\ t = absolute [] [] au_own au_vec.
Example mocks_are_as_safe_as_what_they_lend_applies :
  mock_it ex_hash au_mock = Some (ex_gen au_mock) /\ well_formed au_mock /\ distinct_names (ex_gen au_mock)
  /\ safe au_knows [] au_own Send au_mock /\ ~ safe au_knows [] au_own Sync au_mock.
Proof.
  split; [reflexivity|]. split; [exact au_well_formed|]. split; [exact au_distinct|]. split.
  - split; [intros i [<-|[]]; left; reflexivity|].
    intros tr x I. cbn in I. destruct I as [E|[E|[E|[E|[]]]]]; injection E as _ <-.
    + intros _ _. right. split; reflexivity.
    + intros (t & mu & E & l & e & B & _). injection E as <-. discriminate.
    + intros _ _. left. reflexivity.
    + intros _ N. elim N. left. exists "U". split; [now left|]. split; [|reflexivity].
      intros (l & b & [(d & [E|[]])|(f & [] & _)] & I & _). injection E as <- <-. destruct I.
  - intros [_ X]. specialize (X (Some ex_tr) (ex_fn [] "b" [ex_mut] (Some (TRef None true au_vec)))).
    destruct X as [X|[X _]]; try discriminate.
    + now left.
    + exists (TRef None true au_vec), true. split; [reflexivity|].
      exists None, au_vec. split; [reflexivity|discriminate].
    + intros [(i & C & _)|(_ & _ & w & [C _])]; destruct C.
Qed.

(** No type parameters, a method with [Rc<u32>] and one that lends its parameter's type. *)
Definition au_plain : mockable_struct :=
  MockableStruct [] [] no_generics [ex_fn [] "a" [ex_self; au_arg "x" au_rc] (Some au_rc); au_gen]
    "MockFoo" VPublic [].
Example mocks_that_lend_nothing_are_send_and_sync_applies :
  mock_it ex_hash au_plain = Some (ex_gen au_plain) /\ well_formed au_plain
  /\ distinct_names (ex_gen au_plain) /\ type_names (ms_generics au_plain) = []
  /\ (forall tr x, In (tr, x) (object_fns au_plain) -> lends x -> separated x)
  /\ In (None, au_gen) (object_fns au_plain) /\ lends au_gen.
Proof.
  split; [reflexivity|]. split; [|split; [|split; [reflexivity|split; [|split; [cbn; tauto|]]]]].
  - split; [split|]; [|intros x f []|intros _; reflexivity].
    intros f [<-|[<-|[]]] X; first [reflexivity|discriminate X].
  - split; [|split; [|split]]; [vm_compute; repeat constructor; cbn; intuition discriminate..|intros ss []].
  - intros tr x I. cbn in I. destruct I as [E|[E|[]]]; injection E as _ <-.
    + intros (t & mu & E & l & e & B & _). injection E as <-. discriminate.
    + intros _. left. exists "U". split; [now left|]. split; [|reflexivity].
      intros (l & b & [(d & [E|[]])|(f & [] & _)] & I & _). injection E as <- <-. destruct I.
  - exists (TRef None false (ty_of "U")), false. split; [reflexivity|].
    exists None, (ty_of "U"). split; [reflexivity|discriminate].
Qed.

(** ** Functions without [self] *)

(** The static that holds the expectations of a function (of a struct or of a module) is
    [Sync], as rustc demands of statics, whatever the function's types are: functions that
    lend something are refused. *)
Theorem statics_are_sync :
  forall b f user ns, build b = Some f -> build_error b = false ->
  ~ has_receiver (sg_inputs (b_sig b)) ->
  auto user Sync (static_gty ns (priv_module f)).
Proof.
  intros b f user ns H E R. apply static_sync. cbn [priv_module gp_kind].
  apply (kind_static f b H). intros L.
  assert (X : build_error b = true) by (apply static_functions_cannot_borrow; eauto). congruence.
Qed.
Print Assumptions statics_are_sync.

(** [fn make(x: Rc<u32>) -> Rc<u32>] *)
Definition au_static : builder :=
  Builder [] None 2 None (Signature "make" no_generics [au_arg "x" au_rc] (Some au_rc) None)
          None None None VInherited.
Example statics_are_sync_applies :
  exists f, build au_static = Some f /\ build_error au_static = false
    /\ ~ has_receiver (sg_inputs (b_sig au_static)) /\ gp_generic_guard (priv_module f) = false.
Proof.
  eexists. split; [reflexivity|]. split; [reflexivity|]. split; [|reflexivity].
  intros (r & m & c & t & [E|[]]). discriminate.
Qed.

(** ** Generic functions *)

(** Expectations that are kept apart by type are stored as [Box<dyn AnyExpectations>], for
    which they must be [Send] and [Sync]: they are where the where clause of the [impl] holds.
    Without borrowing, nothing is asked. *)
Theorem generic_expectations_are_send_and_sync :
  forall b f user ns k a, build b = Some f ->
  gp_generic (priv_module f) = Some k -> grants user ns (listed (gk_any_where k)) ->
  auto user a (expectations_gty ns (priv_module f)).
Proof.
  intros b f user ns k a H K W. rewrite expectations_auto.
  cbn [priv_module gp_generic gp_kind gp_owned] in *. unfold generic_part in K.
  destruct (_ && _); [|discriminate]. injection K as <-. cbn [gk_any_where] in W.
  unfold kind_of. destruct (mf_return_ref f || mf_return_refmut f) eqn:E.
  - right. unfold send_syncify in W. cbn [listed] in W.
    assert (X : user Send ns (mf_owned_output f) /\ user Sync ns (mf_owned_output f)).
    { apply W. destruct (where_clause (mf_egenerics f)); [apply in_app_iff; right|]; now left. }
    destruct a; apply X.
  - apply orb_false_iff in E as [-> ->]. now left.
Qed.
Print Assumptions generic_expectations_are_send_and_sync.

(** [fn g<U>(&self, u: U) -> &U]: the clause asks for [U: Send + Sync]. *)
Definition au_generic : builder := Builder [] None 2 None (fi_sig au_gen) None None None VInherited.
Example generic_expectations_are_send_and_sync_applies :
  exists f k, build au_generic = Some f /\ gp_generic (priv_module f) = Some k
    /\ listed (gk_any_where k) = [GenSpec.shared (ty_of "U")]
    /\ grants (fun _ _ t => t = ty_of "U") [] (listed (gk_any_where k)).
Proof.
  eexists. eexists. split; [reflexivity|]. split; [reflexivity|]. split; [reflexivity|].
  intros t [E|[]]. injection E as <-. split; reflexivity.
Qed.

(** ** Contexts and guards *)

(** A context may be moved to another thread, not be shared; what [expect] of a context gives
    must be used where it was made: it holds the lock. *)
Theorem contexts_move_and_guards_stay :
  forall f user ns,
  auto user Send context_gty /\ ~ auto user Sync context_gty
  /\ ~ auto user Send (guard_gty ns (priv_module f)).
Proof.
  intros f user ns. split; [now left|]. split; [intros [X|[]]; discriminate|].
  unfold guard_gty. destruct (gp_generic_guard _); cbn; intros [[X _] _]; discriminate.
Qed.
Print Assumptions contexts_move_and_guards_stay.
