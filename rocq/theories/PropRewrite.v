(** * PropRewrite: C42 - C45 *)

From Coq Require Import List Bool String NArith Arith Lia.
From Verif Require Import Ast AstSpec Rewrite RewriteProofs SuperProofs Derive DeriveSpec VisProofs.
Import ListNotations.
Open Scope string_scope.
Open Scope list_scope.

(** ** C42: visibilities *)

(** An item of the module [m] whose visibility does not start with [self] is
    usable in exactly the same part of the program after Mockall has moved it
    into the modules [ns] below [m]. *)
Theorem visibility_means_the_same : forall m ns v r,
  usable_in m v = Some r ->
  ~ starts_with "self" v ->
  usable_in (m ++ ns) (expectation_visibility v (List.length ns)) = Some r.
Proof. exact visibility_kept. Qed.
Print Assumptions visibility_means_the_same.

(** [pub(in super::super)] of an item in [a::b::c], moved into two modules. *)
Example visibility_means_the_same_applies :
  let v := VRestricted true (Path false [seg_of "super"; seg_of "super"]) in
  usable_in ["a"; "b"; "c"] v = Some (Within ["a"])
  /\ ~ starts_with "self" v
  /\ expectation_visibility v 2
     = VRestricted true (Path false (repeat (seg_of "super") 4))
  /\ usable_in ["a"; "b"; "c"; "__mock_Foo"; "__bar"] v = Some (Within ["a"; "b"; "c"]).
Proof. cbn. repeat split; discriminate. Qed.

(** The full claim is false: every visibility that starts with [self], such as
    [pub(self)], is turned into one that the compiler rejects. *)
Theorem visibility_means_the_same_for_all_refuted :
  exists m ns v r,
    usable_in m v = Some r
    /\ usable_in (m ++ ns) (expectation_visibility v (List.length ns)) <> Some r.
Proof.
  exists ["a"], ["__mock_Foo"; "__bar"], (VRestricted false (path_of "self")), (Within ["a"]).
  split; [reflexivity|]. cbn. discriminate.
Qed.
Print Assumptions visibility_means_the_same_for_all_refuted.

Theorem self_visibility_is_rejected : forall m ns v,
  starts_with "self" v -> ns <> [] ->
  usable_in (m ++ ns) (expectation_visibility v (List.length ns)) = None.
Proof. exact self_visibility_rejected. Qed.
Print Assumptions self_visibility_is_rejected.

Example self_visibility_is_rejected_applies :
  starts_with "self" (VRestricted false (path_of "self"))
  /\ expectation_visibility (VRestricted false (path_of "self")) 1
     = VRestricted true (Path false [seg_of "super"; seg_of "self"]).
Proof. split; reflexivity. Qed.

(** ** C43: paths *)

(** The names that the private module of a method declares itself, whatever the
    method: mock_function.rs 868-889 and the structures generated there.  (A
    static method's module has also [MutexGuard], [ExpectationGuard], [Context]
    and [get_expectations], a generic method's [GenericExpectations].)  For
    names of the standard library such as [Box] the shadowing only matters to a
    user who means something else by them. *)
Definition module_names : list ident :=
  ["CaseTreeExt"; "Box"; "mem"; "DerefMut"; "Range"; "Mutex"; "Vec";
   "Rfunc"; "Matcher"; "Common"; "Expectation"; "Expectations"].

(** Every path in a type names in the generated modules what it named in the
    module [m] of the mocked item, whatever names [own] these modules declare,
    as long as the type does not use one of these names, and uses no [super] in
    an argument of a path segment other than the last or in [impl Trait]. *)
Theorem paths_mean_the_same : forall m ns own t,
  movable own true t = true ->
  absolute m ns own (supersuperfy (List.length ns) t) = absolute m [] own t.
Proof. exact supersuperfy_absolute. Qed.
Print Assumptions paths_mean_the_same.

Theorem generics_mean_the_same : forall m ns own g,
  movable_generics own g = true ->
  absolute_generics m ns own (supersuperfy_generics (List.length ns) g)
  = absolute_generics m [] own g.
Proof. exact supersuperfy_generics_absolute. Qed.
Print Assumptions generics_mean_the_same.

(** [&'a mut <super::T as super::super::Tr>::Out<crate::U, fn(super::V) -> W>] *)
Definition sample_type : ty :=
  TRef (Some "a") true
    (TQPath (TPath (Path false [seg_of "super"; seg_of "T"])) 3
       (Path false [seg_of "super"; seg_of "super"; seg_of "Tr";
                    Seg "Out" (PaAngle
                      [GaType (TPath (Path false [seg_of "crate"; seg_of "U"]));
                       GaType (TBareFn "" [] [TPath (Path false [seg_of "super"; seg_of "V"])]
                                 (Some (ty_of "W")))])])).

Example paths_mean_the_same_applies :
  movable module_names true sample_type = true
  /\ supersuperfy 2 sample_type <> sample_type
  /\ absolute ["a"; "b"] ["__mock_Foo"; "__bar"] module_names sample_type
     <> absolute ["a"; "b"] [] module_names sample_type
  /\ absolute ["a"; "b"] [] module_names (ty_of "W")
     = TPath (Path false [seg_of "<scope>"; seg_of "a"; seg_of "b"; seg_of "W"]).
Proof. repeat split; try reflexivity; vm_compute; discriminate. Qed.

Example generics_mean_the_same_applies :
  let g := Generics true
             [GpType "T" [BTrait false [] (Path false [seg_of "super"; seg_of "Tr"])] None]
             (Some [WpType None (TPath (Path false [seg_of "super"; seg_of "X"]))
                      [BTrait false [] (path_of "Clone")]]) in
  movable_generics module_names g = true
  /\ absolute_generics ["a"] ["n"] module_names g <> absolute_generics ["a"] [] module_names g.
Proof. split; [reflexivity|vm_compute; discriminate]. Qed.

(** Without the condition the claim is false.  First,
    [<T as Tr<super::X>>::Out]: only the arguments of the last segment are
    rewritten. *)
Theorem paths_in_inner_arguments_refuted :
  exists m ns t,
    supersuperfy_error t = false
    /\ absolute m ns [] (supersuperfy (List.length ns) t) <> absolute m [] [] t.
Proof.
  exists ["a"], ["n"],
    (TQPath (ty_of "T") 1
       (Path false [Seg "Tr" (PaAngle [GaType (TPath (Path false [seg_of "super"; seg_of "X"]))]);
                    seg_of "Out"])).
  split; [reflexivity|]. vm_compute. discriminate.
Qed.
Print Assumptions paths_in_inner_arguments_refuted.

(** Second, [self::super::X]. *)
Theorem paths_from_self_super_refuted :
  exists m ns t,
    supersuperfy_error t = false
    /\ absolute m ns [] (supersuperfy (List.length ns) t) <> absolute m [] [] t.
Proof.
  exists ["a"], ["n"], (TPath (Path false [seg_of "self"; seg_of "super"; seg_of "X"])).
  split; [reflexivity|]. vm_compute. discriminate.
Qed.
Print Assumptions paths_from_self_super_refuted.

(** Third, a type of the user called like something in the generated module:
    every plain path that starts with such a name changes its meaning. *)
Theorem shadowed_names_refuted : forall m ns i,
  ns <> [] -> In i module_names ->
  absolute m ns module_names (supersuperfy (List.length ns) (ty_of i))
  <> absolute m [] module_names (ty_of i).
Proof.
  intros m ns i Hn Hi.
  assert (Hk : i =? "crate" = false /\ i =? "super" = false /\ i =? "self" = false).
  { cbn in Hi. repeat destruct Hi as [<-|Hi]; repeat split; reflexivity || contradiction. }
  destruct Hk as (K1 & K2 & K3).
  assert (He : existsb (String.eqb i) module_names = true).
  { apply existsb_exists. exists i. rewrite String.eqb_refl. auto. }
  unfold ty_of, path_of, seg_of.
  cbn [supersuperfy supersuperfy_path on_last supersuperfy_seg supersuperfy_pargs].
  unfold add_supers. cbn [starts_with_super]. rewrite K2.
  cbn [absolute absolute_path map absolute_seg absolute_pargs].
  unfold absolute_segs, resolve. cbn [map seg_id]. rewrite K1, K2, K3.
  destruct ns as [|n ns]; [congruence|].
  cbn [hidden]. rewrite He. cbn [target_segs skipn]. unfold here.
  intros E. injection E as E.
  apply app_inv_tail in E.
  apply (f_equal (@List.length seg)) in E. rewrite !map_length, app_length in E.
  cbn in E. lia.
Qed.
Print Assumptions shadowed_names_refuted.

Example shadowed_names_refuted_applies :
  In "Matcher" module_names
  /\ absolute ["a"] ["__mock_Foo"; "__bar"] module_names (ty_of "Matcher")
     = TPath (Path false [seg_of "<scope>"; seg_of "a"; seg_of "__mock_Foo"; seg_of "__bar";
                          seg_of "Matcher"]).
Proof. split; [cbn; tauto|reflexivity]. Qed.

(** ** C44: [Self] *)

(** If the macro accepts the type, its new text is its old text with the mock's
    own type written in the place of [Self], and nothing else changed. *)
Theorem self_is_replaced : forall actual g t,
  deselfify_error g t = false -> self_reachable t = true ->
  tokens (deselfify actual g t) = put_for_self actual g (tokens t).
Proof. exact deselfify_tokens. Qed.
Print Assumptions self_is_replaced.

(** So no [Self] is left (the mock and its parameters are not called so). *)
Theorem no_self_is_left : forall actual g t,
  deselfify_error g t = false -> self_reachable t = true ->
  has_self (self_type_tokens actual g) = false ->
  has_self (tokens (deselfify actual g t)) = false.
Proof.
  intros a g t He Hr Hs. rewrite self_is_replaced by assumption.
  unfold has_self, put_for_self in *.
  induction (tokens t) as [|k l IH]; auto.
  cbn [flat_map]. rewrite existsb_app, IH, orb_false_r.
  destruct (is_self k) eqn:E; auto. cbn. rewrite E. reflexivity.
Qed.
Print Assumptions no_self_is_left.

(** [Result<&'a Self, Box<dyn Fn2<Self>>>] in [impl<T> Foo<T>]. *)
Definition self_sample : ty :=
  TPath (Path false
    [Seg "Result" (PaAngle
       [GaType (TRef (Some "a") false (ty_of "Self"));
        GaType (TPath (Path false [Seg "Box" (PaAngle
          [GaType (TDyn true [BTrait false [] (Path false [Seg "Fn2" (PaAngle [GaType (ty_of "Self")])])])])]))])]).

Example self_is_replaced_applies :
  let g := Generics true [GpType "T" [] None] None in
  deselfify_error g self_sample = false /\ self_reachable self_sample = true
  /\ has_self (self_type_tokens "MockFoo" g) = false
  /\ has_self (tokens self_sample) = true
  /\ deselfify "MockFoo" g (ty_of "Self")
     = TPath (Path false [Seg "MockFoo" (PaAngle [GaType (ty_of "T")])]).
Proof. cbn. repeat split. Qed.

(** A type without [Self] keeps its text. *)
Theorem other_types_keep_their_text : forall actual g t,
  deselfify_error g t = false -> has_self (tokens t) = false -> self_reachable t = true ->
  tokens (deselfify actual g t) = tokens t.
Proof.
  intros a g t He Hs Hr. rewrite self_is_replaced by assumption. apply put_free. assumption.
Qed.
Print Assumptions other_types_keep_their_text.

Example other_types_keep_their_text_applies :
  deselfify_error no_generics sample_type = false
  /\ has_self (tokens sample_type) = false /\ self_reachable sample_type = true.
Proof. repeat split. Qed.

(** Elsewhere [Self] survives without an error: [fn(Self)], [Box<dyn Fn(Self)>],
    [impl Tr<Self>] and [Iterator<Item: Tr<Self>>] (as a constraint). *)
Theorem self_in_function_types_refuted : forall actual g,
  Forall (fun t => deselfify_error g t = false
                   /\ has_self (tokens t) = true
                   /\ deselfify actual g t = t)
    [ TBareFn "" [] [ty_of "Self"] None;
      TPath (Path false [Seg "Box" (PaAngle [GaType (TDyn true
        [BTrait false [] (Path false [Seg "Fn" (PaParen [ty_of "Self"] None)])])])]);
      TImplTrait [BTrait false [] (Path false [Seg "Tr" (PaAngle [GaType (ty_of "Self")])])];
      TPath (Path false [Seg "It" (PaAngle [GaConstraint "Item"
        [BTrait false [] (Path false [Seg "Tr" (PaAngle [GaType (ty_of "Self")])])]])])
    ].
Proof. intros. repeat constructor. Qed.
Print Assumptions self_in_function_types_refuted.

(** ** C45: anonymous lifetimes *)

(** If the macro accepts the type, its new text is its old text with ['static]
    in the place of ['_], and nothing else changed. *)
Theorem anonymous_lifetimes_become_static : forall t,
  deanonymize_error t = false -> anon_reachable t = true ->
  tokens (deanonymize t) = put_static (tokens t).
Proof. exact deanonymize_tokens. Qed.
Print Assumptions anonymous_lifetimes_become_static.

Theorem no_anonymous_lifetime_is_left : forall t,
  deanonymize_error t = false -> anon_reachable t = true ->
  has_anon (tokens (deanonymize t)) = false.
Proof.
  intros t He Hr. rewrite anonymous_lifetimes_become_static by assumption.
  unfold has_anon, put_static. induction (tokens t) as [|k l IH]; auto.
  cbn [map existsb]. rewrite IH, orb_false_r. destruct (is_anon k) eqn:E; auto.
Qed.
Print Assumptions no_anonymous_lifetime_is_left.

(** A named lifetime occurs where it occurred before. *)
Theorem named_lifetimes_are_unchanged : forall t l n,
  deanonymize_error t = false -> anon_reachable t = true -> l <> "_" ->
  nth_error (tokens t) n = Some (TkLt l) ->
  nth_error (tokens (deanonymize t)) n = Some (TkLt l).
Proof.
  intros t l n He Hr Hl Hn. rewrite anonymous_lifetimes_become_static by assumption.
  unfold put_static. rewrite nth_error_map, Hn. cbn.
  destruct (String.eqb_spec l "_"); [contradiction|reflexivity].
Qed.
Print Assumptions named_lifetimes_are_unchanged.

(** [&'_ (X<'a, '_>, dyn Tr<'_> + '_)]. *)
Definition anon_sample : ty :=
  TRef (Some "_") false
    (TTuple [TPath (Path false [Seg "X" (PaAngle [GaLifetime "a"; GaLifetime "_"])]);
             TDyn true [BTrait false [] (Path false [Seg "Tr" (PaAngle [GaLifetime "_"])]);
                        BLifetime "_"]]).

Example anonymous_lifetimes_become_static_applies :
  deanonymize_error anon_sample = false /\ anon_reachable anon_sample = true
  /\ has_anon (tokens anon_sample) = true
  /\ nth_error (tokens anon_sample) 5 = Some (TkLt "a").
Proof. repeat split. Qed.

(** The full claim is false: [Option<X<'_>>] is accepted and keeps its ['_]. *)
Theorem nested_anonymous_lifetimes_refuted :
  exists t, deanonymize_error t = false
            /\ has_anon (tokens t) = true /\ deanonymize t = t.
Proof.
  exists (TPath (Path false [Seg "Option" (PaAngle
            [GaType (TPath (Path false [Seg "X" (PaAngle [GaLifetime "_"])]))])])).
  repeat split.
Qed.
Print Assumptions nested_anonymous_lifetimes_refuted.
