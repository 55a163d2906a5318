(** * PropOutput: what expectations store and return (C53) *)

From Coq Require Import List Bool String NArith Arith Lia.
From Verif Require Import Ast AstSpec TyEq Rewrite Derive DeriveSpec Names Subst Sig MockFn MockFnSpec
  MockFnProofs PropRewrite.
Import ListNotations.
Open Scope string_scope.
Open Scope list_scope.

(** The stored type, read in the generated module [m ++ ns], is what [stored]
    says, read in the module [m] of the user. *)
Theorem expectations_store_the_owned_output :
  forall (b : builder) (f : mock_function) m ns own,
    build b = Some f ->
    List.length ns = b_levels b ->
    movable own true (stored (sg_output (b_sig b))) = true ->
    absolute m ns own (mf_owned_output f) = absolute m [] own (stored (sg_output (b_sig b))).
Proof.
  intros b f m ns own H L M. apply build_built in H as (dg & di & ce & sig & B).
  rewrite (bt_owned _ _ _ _ _ _ B).
  replace (mf_output f) with (fst (output_of (b_levels b) (sg_output (b_sig b))))
    by (rewrite <- (bt_output _ _ _ _ _ _ B); reflexivity).
  rewrite output_stored, <- L. apply paths_mean_the_same. exact M.
Qed.
Print Assumptions expectations_store_the_owned_output.

(** A trait object is boxed.  [Box] is a name of the generated module, which
    imports [::std::boxed::Box] (mock_function.rs 871-877), so the theorem above
    applies to it only for modules without that name. *)
Theorem expectations_store_boxed_objects :
  forall (b : builder) (f : mock_function) m ns own l mu d bs,
    build b = Some f ->
    List.length ns = b_levels b ->
    sg_output (b_sig b) = Some (TRef l mu (TDyn d bs)) ->
    l <> Some "static" ->
    movable own true (TDyn d bs) = true ->
    exists bs',
      mf_owned_output f = TPath (Path false [Seg "Box" (PaAngle [GaType (TDyn d bs')])])
      /\ absolute m ns own (TDyn d bs') = absolute m [] own (TDyn d bs).
Proof.
  intros b f m ns own l mu d bs H L O S M. apply build_built in H as (dg & di & ce & sig & B).
  rewrite (bt_owned _ _ _ _ _ _ B).
  replace (mf_output f) with (fst (output_of (b_levels b) (sg_output (b_sig b))))
    by (rewrite <- (bt_output _ _ _ _ _ _ B); reflexivity).
  rewrite output_stored, O, stored_other by (apply not_static; exact S). rewrite <- L.
  exists (map (supersuperfy_bound (List.length ns)) bs).
  split; [reflexivity|].
  rewrite <- (paths_mean_the_same m ns own (TDyn d bs) M). reflexivity.
Qed.
Print Assumptions expectations_store_boxed_objects.

(** Methods of expectations differ between functions that return a value, a
    reference and a mutable reference. *)
Theorem expectation_kinds :
  forall (b : builder) (f : mock_function),
    build b = Some f ->
    (kind_of f = KRef <-> exists t, sg_output (b_sig b) = Some t /\ borrows false t)
    /\ (kind_of f = KRefMut <-> exists t, sg_output (b_sig b) = Some t /\ borrows true t)
    /\ (mf_boxed f = true <->
        exists l m d bs, sg_output (b_sig b) = Some (TRef l m (TDyn d bs)) /\ l <> Some "static").
Proof.
  intros b f H. apply build_built in H as (dg & di & ce & sig & B).
  destruct (output_ref (b_levels b) (sg_output (b_sig b))) as (R & M & X).
  rewrite <- (bt_output _ _ _ _ _ _ B) in R, M, X. cbn [fst snd] in R, M, X.
  rewrite <- (bt_ref _ _ _ _ _ _ B) in R. rewrite <- (bt_refmut _ _ _ _ _ _ B) in M.
  split; [|split; [|exact X]].
  - rewrite <- R. unfold kind_of. destruct (mf_return_ref f); [tauto|].
    destruct (mf_return_refmut f); split; discriminate.
  - rewrite <- M. unfold kind_of. destruct (mf_return_ref f) eqn:E1.
    + destruct (mf_return_refmut f) eqn:E2; [|split; discriminate]. exfalso.
      destruct R as [R _]. destruct (R eq_refl) as (t & O & l & e & -> & _).
      destruct M as [M _]. destruct (M eq_refl) as (t & O' & l' & e' & -> & _). congruence.
    + destruct (mf_return_refmut f); split; congruence.
Qed.
Print Assumptions expectation_kinds.

(** Functions without a receiver can't return a reference that is not
    ['static]; exactly these are refused for it. *)
Theorem static_functions_cannot_borrow :
  forall (b : builder),
    build_error b = true <->
    (exists f, build b = Some f)
    /\ ~ has_receiver (sg_inputs (b_sig b))
    /\ exists t m, sg_output (b_sig b) = Some t /\ borrows m t.
Proof.
  intros b. unfold build_error. destruct (build b) as [f|] eqn:H.
  2: { split; [discriminate|]. intros ((f & E) & _). discriminate. }
  pose proof (expectation_kinds b f H) as (R & M & _).
  apply build_built in H as (dg & di & ce & sig & B).
  assert (S : mf_is_static f = true <-> ~ has_receiver (sg_inputs (b_sig b))).
  { rewrite (bt_static _ _ _ _ _ _ B), forallb_forall. split.
    - intros A (r & m & c & t & I).
      apply (prepared_receivers _ _ _ _ _ (bt_prepared _ _ _ _ _ _ B)) in I.
      apply A in I. discriminate.
    - intros N [r m c t|p t] I; auto. elim N. exists r, m, c, t.
      apply (prepared_receivers _ _ _ _ _ (bt_prepared _ _ _ _ _ _ B)). exact I. }
  assert (O : mf_return_ref f || mf_return_refmut f = true
              <-> exists t m, sg_output (b_sig b) = Some t /\ borrows m t).
  { unfold kind_of in R, M. split.
    - intros E. destruct (mf_return_ref f).
      + destruct R as [R _]. destruct (R eq_refl) as (t & X & Y). eauto.
      + cbn [orb] in E. rewrite E in M. destruct M as [M _].
        destruct (M eq_refl) as (t & X & Y). eauto.
    - intros (t & m & X & Y). destruct m.
      + assert (K : exists t, sg_output (b_sig b) = Some t /\ borrows true t) by eauto.
        apply M in K. destruct (mf_return_ref f); [reflexivity|].
        destruct (mf_return_refmut f); [reflexivity|discriminate].
      + assert (K : exists t, sg_output (b_sig b) = Some t /\ borrows false t) by eauto.
        apply R in K. destruct (mf_return_ref f); [reflexivity|].
        destruct (mf_return_refmut f); discriminate. }
  rewrite andb_true_iff, S, O. split; intros X; [|tauto]. split; [eauto|exact X].
Qed.
Print Assumptions static_functions_cannot_borrow.

(** [fn foo(&self) -> t] in a module two levels below the user's. *)
Definition returning (t : ty) : builder :=
  Builder [] None 2 None
    (Signature "foo" no_generics [FaReceiver (Some None) false false (ty_of "Self")] (Some t) None)
    (Some "MockX") None None VPublic.

(** [&'a [super::T]], [&mut dyn super::Tr] and [&'static dyn Tr]. *)
Example expectations_store_the_owned_output_applies :
  let x := TPath (Path false [seg_of "super"; seg_of "T"]) in
  let tr := BTrait false [] (Path false [seg_of "super"; seg_of "Tr"]) in
  (exists f, build (returning (TRef (Some "a") false (TSlice x))) = Some f
             /\ kind_of f = KRef /\ mf_boxed f = false
             /\ mf_owned_output f
                = in_std "vec" "Vec" (PaAngle [GaType (supersuperfy 2 x)]))
  /\ movable module_names true (stored (Some (TRef (Some "a") false (TSlice x)))) = true
  /\ (exists f, build (returning (TRef None true (TDyn true [tr]))) = Some f
                /\ kind_of f = KRefMut /\ mf_boxed f = true)
  /\ movable module_names true (TDyn true [tr]) = true
  /\ (exists f, build (returning (TRef (Some "static") true (TDyn true [tr]))) = Some f
                /\ kind_of f = KStatic /\ mf_boxed f = false)
  /\ stored (Some (TRef (Some "static") true (TDyn true [tr])))
     = TRef (Some "static") true (TParen (TDyn true [tr])).
Proof.
  cbv zeta. repeat split; eexists; repeat split; reflexivity.
Qed.

Example static_functions_cannot_borrow_applies :
  let b := returning (TRef None false (ty_of "u32")) in
  let s := with_inputs (b_sig b) [FaTyped (PatIdent false false "x" false) (TRef None false (ty_of "u32"))] in
  build_error b = false
  /\ build_error (Builder [] None 2 None s None None None VPublic) = true
  /\ build_error (Builder [] None 2 None (with_output s (Some (TRef (Some "static") false (ty_of "u32"))))
                    None None None VPublic) = false.
Proof. repeat split; reflexivity. Qed.

(** A path is recognised by its text: [&std::path::Path] is not [&Path], and the
    expectation stores the unsized [Path] itself. *)
Theorem other_unsized_paths_refuted :
  exists b f,
    build b = Some f
    /\ sg_output (b_sig b)
       = Some (TRef None false (TPath (Path false (map seg_of ["std"; "path"; "Path"]))))
    /\ mf_owned_output f = TPath (Path false (map seg_of ["std"; "path"; "Path"])).
Proof.
  exists (returning (TRef None false (TPath (Path false (map seg_of ["std"; "path"; "Path"]))))).
  eexists. repeat split; reflexivity.
Qed.
Print Assumptions other_unsized_paths_refuted.

(** Likewise [&(dyn A + B)]: the parentheses, which two bounds need, hide the
    trait object. *)
Theorem parenthesised_objects_refuted :
  exists b f d,
    build b = Some f
    /\ d = TParen (TDyn true [BTrait false [] (path_of "A"); BTrait false [] (path_of "B")])
    /\ sg_output (b_sig b) = Some (TRef None false d)
    /\ mf_owned_output f = d /\ mf_boxed f = false.
Proof.
  exists (returning (TRef None false
    (TParen (TDyn true [BTrait false [] (path_of "A"); BTrait false [] (path_of "B")])))).
  eexists. eexists. repeat split; reflexivity.
Qed.
Print Assumptions parenthesised_objects_refuted.
