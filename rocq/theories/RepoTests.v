(** * RepoTests: the model and mockall's own tests

    What the model makes of the declarations in mockall's tests and documentation
    (RepoDecls.v).  They all compile, so the model must accept them and generate the
    functions that the tests call; and the theorems on generated code are of use only
    if their hypotheses hold for such declarations.  These are tests of the model,
    not theorems about it: no claim rests on them. *)

From Coq Require Import List Bool String NArith Arith.
From Verif Require Import Ast AstSpec TyEq Rewrite Derive DeriveSpec Names Subst Sig MockFn MockFnSpec Item
  MockItem Errors ItemSpec GenSpec GenRun GenRunSpec ModRun ModSpec PipeSpec ModRunSpec Scopes ScopeSpec
  RepoChecks RepoDecls.
Import ListNotations.
Open Scope string_scope.
Open Scope list_scope.

Definition is_some {A} (x : option A) : bool := match x with Some _ => true | None => false end.
Definition all_decls : list decl := flat_map en_decls repo_decls.

(** The test of conditional compilation declares functions twice, under conditions
    that exclude each other; the model takes all of them to hold. *)
Definition unconditional : list decl :=
  flat_map en_decls (filter (fun e => negb (String.eqb (en_file e) "mockall/tests/mock_cfg.rs")) repo_decls).

Example how_many_declarations :
  (List.length repo_decls, List.length all_decls, List.length unconditional) = (218, 235, 234).
Proof. vm_compute. reflexivity. Qed.

Lemma check {A} (f : A -> bool) (P : A -> Prop) l :
  (forall x, f x = true -> P x) -> forallb f l = true -> forall x, In x l -> P x.
Proof. intros H F x I. apply H. rewrite forallb_forall in F. auto. Qed.

(** Every declaration is accepted. *)
Example all_accepted : forall d, In d all_decls -> exists g, generated sample_hash d = Some g.
Proof.
  apply (check (fun d => is_some (generated sample_hash d))).
  - intros d H. destruct (generated sample_hash d); [eauto|discriminate].
  - vm_compute. reflexivity.
Qed.

(** The mocks, modules, and functions for expectations that the tests use are there. *)
Definition all_provided (e : entry) : list ident :=
  flat_map (fun d => match generated sample_hash d with Some g => provided g | None => [] end) (en_decls e).
Example all_names_provided : forall e, In e repo_decls -> incl (en_used e) (all_provided e).
Proof.
  apply (check (fun e => forallb (fun i => in_strings i (all_provided e)) (en_used e))).
  - intros e H i I. rewrite forallb_forall in H. exact (proj1 (memb_in _ _ _) (H _ I)).
  - vm_compute. reflexivity.
Qed.

(** The hypotheses of C74, and the names that rustc compares. *)
Example all_run_like_the_model : forall d m, In d unconditional -> structure d = Some m ->
  well_formed m /\ same_fns m
  /\ exists g, generated sample_hash d = Some (inl g) /\ distinct_names g /\ distinct_functions g.
Proof.
  intros d m I S. revert d I m S.
  refine (check (fun d =>
    match structure d with
    | Some m =>
        well_formedb m && same_fnsb m
        && match generated sample_hash d with
           | Some (inl g) => distinct_namesb g && distinct_functionsb g
           | _ => false
           end
    | None => true
    end) _ _ _ _).
  - intros d H m S. rewrite S in H. rewrite !andb_true_iff in H. destruct H as [[W F] G].
    split; [now apply well_formedb_ok|]. split; [now apply same_fnsb_ok|].
    destruct (generated sample_hash d) as [[g|]|]; try discriminate. apply andb_true_iff in G as [G1 G2].
    exists g. split; [auto|]. split; [now apply distinct_namesb_ok|now apply distinct_functionsb_ok].
  - vm_compute. reflexivity.
Qed.

(** Those of C75. *)
Example all_modules_run_like_the_model : forall d v n l, In d all_decls -> d = DMod v n (Some l) ->
  free_functions l /\ parsed_fns l /\ distinct_fns l
  /\ exists g, generated sample_hash d = Some (inr g) /\ distinct_items g.
Proof.
  intros d v n l I E. revert d I v n l E.
  refine (check (fun d =>
    match d with
    | DMod v n (Some l) =>
        free_functionsb l && parsed_fnsb l && distinct_fnsb l
        && match generated sample_hash d with Some (inr g) => distinct_itemsb g | _ => false end
    | DMod _ _ None => false
    | _ => true
    end) _ _ _ _).
  - intros d H v n l ->. rewrite !andb_true_iff in H. destruct H as [[[F P] D] G].
    split; [now apply free_functionsb_ok|]. split; [now apply parsed_fnsb_ok|].
    split; [now apply distinct_fnsb_ok|].
    destruct (generated sample_hash _) as [[|g]|]; try discriminate.
    exists g. split; [auto|now apply distinct_itemsb_ok].
  - vm_compute. reflexivity.
Qed.

(** Those of C76: every method has a signature of the kind that the theorem is about,
    and no impl block has parameters of its own. *)
Example all_scopable : forall d m, In d all_decls -> structure d = Some m ->
  (forall x, In x (ms_methods m ++ flat_map impl_fns (ms_impls m)) -> scopable (ms_generics m) x)
  /\ forall x k, In x (ms_impls m) -> In k (keys (im_generics x)) -> In k (keys (ms_generics m)).
Proof.
  intros d m I S. revert d I m S.
  refine (check (fun d =>
    match structure d with
    | Some m =>
        forallb (scopableb (ms_generics m)) (ms_methods m ++ flat_map impl_fns (ms_impls m)) && impl_keysb m
    | None => true
    end) _ _ _ _).
  - intros d H m S. rewrite S in H. apply andb_true_iff in H as [H K]. split.
    + exact (check _ _ _ (scopableb_ok _) H).
    + intros x k. now apply impl_keysb_ok.
  - vm_compute. reflexivity.
Qed.
Example all_modules_scopable : forall d v n l, In d all_decls -> d = DMod v n (Some l) ->
  forall x, In x (module_fns l) -> scopable no_generics x.
Proof.
  intros d v n l I E. revert d I v n l E.
  refine (check (fun d =>
    match d with
    | DMod v n (Some l) => forallb (scopableb no_generics) (module_fns l)
    | _ => true
    end) _ _ _ _).
  - intros d H v n l ->. exact (check _ _ _ (scopableb_ok _) H).
  - vm_compute. reflexivity.
Qed.

(** ** What does not compile *)

(** Of the declarations that do not compile, two have methods returning [impl Trait], which
    the macros turn into boxed trait objects that rustc does not allow (mockall/src/lib.rs
    560-590), and one has a renamed [concretize], so that its type parameter has to be
    ['static] and is not (1327-1336): the macros accept them.  The last one has an impl block
    with a parameter of its own (1390-1413): some generated code does not declare it. *)
Example refused_by_rustc :
  map (fun e => (en_line e, map (fun d => is_some (generated sample_hash d)) (en_decls e))) repo_bad_decls
  = [(566, [true]); (581, [true]); (1330, [true]); (1404, [true])].
Proof. vm_compute. reflexivity. Qed.

Definition badly_scoped (d : decl) : bool :=
  match structure d, generated sample_hash d with
  | Some m, Some (inl g) =>
      existsb (fun ss => existsb (fun p => existsb (fun u =>
        negb (well_scopedb (keys (ms_generics m) ++ flat_map (fun x => keys (im_generics x)) (ms_impls m)) u))
        (uses p)) (gs_privmods ss)) (gm_substructs g)
  | _, _ => false
  end.
Example undeclared_impl_parameter :
  map (fun e => (en_line e, map badly_scoped (en_decls e))) repo_bad_decls
  = [(566, [false]); (581, [false]); (1330, [false]); (1404, [true])].
Proof. vm_compute. reflexivity. Qed.
Example declared_elsewhere : existsb badly_scoped all_decls = false.
Proof. vm_compute. reflexivity. Qed.

(** ** Tests of the whole output: mockall_derive/src/lib.rs 1396-1590 *)

Definition in_super : visibility := VRestricted false (path_of "super").
Definition in_crate : visibility := VRestricted false (path_of "crate").
Definition vis_calls (g : gen_mock) := map (fun c => (gc_vis c, sg_ident (gc_sig c))) (gm_calls g).
Definition vis_expects (g : gen_mock) := map (fun c => (ge_vis c, ge_name c)) (gm_expects g).
Definition of_mock {A} (d : decl) (f : gen_mock -> A) : option A :=
  match generated sample_hash d with Some (inl g) => Some (f g) | _ => None end.
Definition of_mod {A} (d : decl) (f : gen_module -> A) : option A :=
  match generated sample_hash d with Some (inr g) => Some (f g) | _ => None end.
Definition must_use (a : attribute) : bool := path_eqb (apath a) (path_of "must_use").

Example inherent_method_visibility :
  of_mock whole_inherent_method_visibility (fun g => (vis_calls g, vis_expects g))
  = let v := [VInherited; VPublic; in_crate; in_super;
              VRestricted true (Path false [Seg "crate" PaNone; Seg "outer" PaNone])] in
    Some (combine v ["foo"; "bar"; "baz"; "bean"; "boom"],
          combine v ["expect_foo"; "expect_bar"; "expect_baz"; "expect_bean"; "expect_boom"]).
Proof. vm_compute. reflexivity. Qed.

Example must_use_struct :
  of_mock whole_must_use_struct (fun g => (existsb must_use (gm_attrs g), gm_vis g, gm_name g))
  = Some (true, VPublic, "MockFoo").
Proof. vm_compute. reflexivity. Qed.

(** Two impl blocks; one checkpoint; specific types. *)
Example specific_impl :
  of_mock whole_specific_impl (fun g =>
    (map (fun t => (gt_path t, gt_self t, map (fun c => (ge_vis c, ge_name c, ge_mod c, ge_args c)) (gt_expects t)))
         (gm_trait_impls g), List.length (gm_checkpoint g)))
  = Some (map (fun t =>
      let a := PaAngle [GaType (ty_of t)] in
      (path_of "Bar", Seg "MockFoo" a, [(VPublic, "expect_bar", ["__mock_MockFoo_Bar"; "__bar"], a)])) ["u32"; "i32"],
      1).
Proof. vm_compute. reflexivity. Qed.

Example doc_comments :
  of_mod whole_doc_comments (fun g => map (fun c => (gc_attrs c, gc_vis c, sg_ident (gc_sig c))) (body_calls g))
  = Some [([Attribute (path_of "doc") None "= "" Function docs"""], VPublic, "bar")].
Proof. vm_compute. reflexivity. Qed.

Example method_visibility :
  of_mock whole_method_visibility (fun g => (vis_calls g, vis_expects g))
  = let v := [VInherited; VPublic; in_super; in_crate;
              VRestricted true (Path false [Seg "super" PaNone; Seg "x" PaNone])] in
    Some (combine v ["foo"; "bar"; "baz"; "bang"; "bean"],
          combine v ["expect_foo"; "expect_bar"; "expect_baz"; "expect_bang"; "expect_bean"]).
Proof. vm_compute. reflexivity. Qed.

Example must_use_method :
  of_mock whole_must_use_method (fun g =>
    (map (fun c => (map apath (gc_attrs c), gc_dead_code c, gc_vis c)) (gm_calls g), map ge_attrs (gm_expects g)))
  = Some ([([path_of "must_use"], true, VInherited)], [[]]).
Proof. vm_compute. reflexivity. Qed.
Example must_use_static_method :
  of_mock whole_must_use_static_method (fun g =>
    (map (fun c => (map apath (gc_attrs c), gc_dead_code c, gc_vis c)) (gm_calls g), map gx_attrs (gm_contexts g)))
  = Some ([([path_of "must_use"], true, VInherited)], [[]]).
Proof. vm_compute. reflexivity. Qed.
Example must_use_trait : of_mock whole_must_use_trait gm_attrs = Some [].
Proof. vm_compute. reflexivity. Qed.

Example elided_lifetimes_test : generated sample_hash whole_elided_lifetimes = None.
Proof. vm_compute. reflexivity. Qed.
Example external_module_test : generated sample_hash whole_external_module = None.
Proof. vm_compute. reflexivity. Qed.
Example trait_visibility :
  of_mock whole_trait_visibility (fun g => (gm_vis g, gm_name g)) = Some (in_super, "MockFoo").
Proof. vm_compute. reflexivity. Qed.
