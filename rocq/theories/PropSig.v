(** * PropSig: the signatures of mocked methods

    Property C64. *)

From Coq Require Import List Bool String NArith Arith Lia.
From Verif Require Import Ast AstSpec TyEq Rewrite RewriteProofs Derive DeriveSpec CallSpec Subst Sig
  SigSpec SigProofs.
Import ListNotations.
Open Scope string_scope.
Open Scope list_scope.

Lemma adapted_arg name g a :
  match a with FaTyped p _ => demutify_pat_error p | _ => false end = false ->
  match demutify_arg a with
  | FaTyped _ t | FaReceiver _ _ true t => deselfify_error g t
  | FaReceiver _ _ false _ => false
  end = false ->
  match deselfify_arg name g (demutify_arg a) with
  | FaTyped p t => add_to_type_error p t
  | _ => false
  end = false ->
  adapted name g a (added_arg (deselfify_arg name g (demutify_arg a)))
          (added_lifetimes (deselfify_arg name g (demutify_arg a))).
Proof.
  intros P D A. destruct a as [r m c t|p t].
  - destruct r as [r|]; cbn in *.
    + destruct c; cbn; repeat split; auto using andb_true_r; try discriminate.
      intros _. apply deselfify_tokens; auto.
    + destruct c; cbn; repeat split; auto using andb_false_r; try discriminate.
      intros _. apply deselfify_tokens; auto.
  - cbn [demutify_arg deselfify_arg added_arg added_lifetimes adapted] in *.
    destruct (add_to_type_added (demutify_pat p) (deselfify name g t)) as (U & O & S & F & C).
    rewrite deselfify_bounded in S.
    destruct p as [b m i s| |]; try discriminate. cbn [demutify_pat] in *.
    split; [reflexivity|]. split; [auto|]. split; [intros B; rewrite S; auto|].
    exists (arg_lifetime (PatIdent b false i s)).
    split; [exists i; split; reflexivity|]. split; [exact F|]. intros R.
    assert (T := deselfify_tokens name g t D R).
    rewrite U, C, T. split; [reflexivity|]. split; [reflexivity|].
    intros B. now rewrite S.
Qed.

(** ** C64 *)

(** If the macro accepts a method, the signature of the mock method is that of the
    method, adapted. *)
Theorem signatures_are_adapted : forall name g s,
  mockable_method_error name g s = false ->
  adapted_sig name g s (mockable_method name g s).
Proof.
  intros name g s E. unfold mockable_method_error in E.
  cbn [sg_inputs with_inputs] in E.
  apply existsb_orb in E as [E _]. apply existsb_orb in E as [E Eo].
  apply existsb_orb in E as [E Ea]. apply existsb_orb in E as [Ep Es].
  unfold add_lifetime_parameters_error in Ea. cbn [sg_inputs with_inputs] in Ea.
  unfold adapted_sig, mockable_method, add_lifetime_parameters.
  cbn [sg_ident sg_abi sg_inputs sg_output sg_generics with_inputs with_output with_generics].
  split; [reflexivity|]. split; [reflexivity|]. split; [|split; [|split]].
  - exists (map (fun a => added_lifetimes (deselfify_arg name g (demutify_arg a))) (sg_inputs s)).
    split.
    + apply existsb_false_F in Ep. unfold demutify in Es, Ea |- *.
      rewrite !map_map in *.
      assert (X : forall a, In a (sg_inputs s) ->
        adapted name g a (added_arg (deselfify_arg name g (demutify_arg a)))
                (added_lifetimes (deselfify_arg name g (demutify_arg a)))).
      { intros a I. apply adapted_arg.
        - rewrite Forall_forall in Ep. specialize (Ep _ I). destruct a; auto.
        - apply existsb_false_F in Es. rewrite Forall_forall in Es.
          apply (Es (demutify_arg a)). now apply in_map.
        - apply existsb_false_F in Ea. rewrite Forall_forall in Ea.
          specialize (Ea (deselfify_arg name g (demutify_arg a))).
          destruct (deselfify_arg name g (demutify_arg a)) eqn:D; auto.
          apply Ea. rewrite <- D. now apply in_map with (f := fun x => deselfify_arg name g (demutify_arg x)). }
      clear - X. induction (sg_inputs s) as [|a l IH]; cbn; constructor.
      * apply X. left. reflexivity.
      * apply IH. intros b I. apply X. right. exact I.
    + cbn [dewhereselfify params]. f_equal. f_equal.
      unfold demutify. rewrite flat_map_concat_map, !map_map. reflexivity.
  - intros w. rewrite dewhereselfify_preds. reflexivity.
  - intros ->. reflexivity.
  - intros t H. rewrite H in *. destruct (deimplify_returned t) as (t1 & D & Rt). rewrite D in *.
    exists t1. eexists. split; [reflexivity|]. split; [exact Rt|]. intros S A N.
    apply existsb_orb in Eo as [E1 E2].
    rewrite deanonymize_tokens; [|exact E2|apply deselfify_anon; assumption].
    now rewrite deselfify_tokens.
Qed.
Print Assumptions signatures_are_adapted.

(** [fn foo<T>(mut self: Box<Self>, mut x: &dyn A, y: (&mut (dyn A + 'static), Self)) -> impl
    Future<Output = Self> where Self: Sized, T: A]. *)
Definition sig_sample : signature :=
  Signature "foo" (Generics true [GpType "T" [] None]
      (Some [WpType None (ty_of "Self") [BTrait false [] (path_of "Sized")];
             WpType None (ty_of "T") [BTrait false [] (path_of "A")]]))
    [FaReceiver None true true
       (TPath (Path false [Seg "Box" (PaAngle [GaType (ty_of "Self")])]));
     FaTyped (PatIdent false true "x" false) (TRef None false (TDyn true [BTrait false [] (path_of "A")]));
     FaTyped (PatIdent false false "y" false)
       (TTuple [TRef None true (TParen (TDyn true [BTrait false [] (path_of "A"); BLifetime "static"]));
                ty_of "Self"])]
    (Some (TImplTrait [BTrait false [] (Path false [Seg "Future" (PaAngle [GaAssocType "Output" (ty_of "Self")])])]))
    None.

Example signatures_are_adapted_applies :
  mockable_method_error "MockFoo" no_generics sig_sample = false
  /\ Forall (fun a => self_reachable match a with FaReceiver _ _ _ t | FaTyped _ t => t end = true)
       (sg_inputs sig_sample)
  /\ mockable_method "MockFoo" no_generics sig_sample
     = Signature "foo" (Generics true [GpType "T" [] None; GpLifetime "__mockall_x" []]
           (Some [WpType None (ty_of "T") [BTrait false [] (path_of "A")]]))
         [FaReceiver None false true
            (TPath (Path false [Seg "Box" (PaAngle [GaType (ty_of "MockFoo")])]));
          FaTyped (PatIdent false false "x" false)
            (TRef None false (TParen (TDyn true [BTrait false [] (path_of "A"); BLifetime "__mockall_x"])));
          FaTyped (PatIdent false false "y" false)
            (TTuple [TRef None true (TParen (TDyn true [BTrait false [] (path_of "A"); BLifetime "static"]));
                     ty_of "MockFoo"])]
         (Some (pinned (boxed [BTrait false []
            (Path false [Seg "Future" (PaAngle [GaAssocType "Output" (ty_of "MockFoo")])])])))
         None.
Proof.
  split; [reflexivity|]. split; [|reflexivity]. repeat constructor.
Qed.

(** Two trait objects in one argument get one name, declared twice. *)
Theorem lifetimes_are_declared_once_refuted :
  exists name g s l,
    mockable_method_error name g s = false
    /\ ~ In (GpLifetime l []) (params (sg_generics s))
    /\ params (sg_generics (mockable_method name g s)) = [GpLifetime l []; GpLifetime l []].
Proof.
  exists "MockFoo", no_generics,
    (Signature "foo" no_generics
       [FaTyped (PatIdent false false "x" false)
          (TTuple [TRef None false (TDyn true [BTrait false [] (path_of "A")]);
                   TRef None false (TDyn true [BTrait false [] (path_of "B")])])] None None),
    "__mockall_x".
  split; [reflexivity|]. split; [intros []|reflexivity].
Qed.
Print Assumptions lifetimes_are_declared_once_refuted.

(** A reference to a trait object under a raw
    name is refused, although the same argument with another name or another
    type is not. *)
Theorem raw_names_of_objects_are_refused : forall name g f i r m d b m',
  existsb (fun x => match x with BLifetime _ => true | _ => false end) b = false ->
  prefix "r#" i = true ->
  mockable_method_error name g
    (Signature f no_generics [FaTyped (PatIdent false m' i false) (TRef r m (TDyn d b))] None None)
  = true.
Proof.
  intros name g f i r m d b m' B P. unfold mockable_method_error.
  cbn [sg_inputs with_inputs sg_output deimplify demutify map demutify_arg demutify_pat deselfify_arg
       deselfify add_lifetime_parameters_error existsb].
  rewrite !orb_true_iff. left. left. right.
  left. cbn [add_to_type_error existsb].
  unfold is_lifetime_bound. rewrite deselfify_bounds, B. cbn. exact P.
Qed.
Print Assumptions raw_names_of_objects_are_refused.

Example raw_names_of_objects_are_refused_applies :
  prefix "r#" "r#type" = true
  /\ mockable_method_error "MockFoo" no_generics
       (Signature "foo" no_generics
          [FaTyped (PatIdent false false "r#type" false) (TRef None false (ty_of "u8"))] None None) = false
  /\ mockable_method_error "MockFoo" no_generics
       (Signature "foo" no_generics
          [FaTyped (PatIdent false false "ty" false)
             (TRef None false (TDyn true [BTrait false [] (path_of "A")]))] None None) = false.
Proof. repeat split; reflexivity. Qed.
