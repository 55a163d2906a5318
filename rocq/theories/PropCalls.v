(** * PropCalls: handing arguments to expectations (C62, C63) *)

From Coq Require Import List Bool String NArith Arith Lia.
From Verif Require Import Ast AstSpec TyEq Rewrite Derive DeriveSpec CallSpec Names Subst Sig
  MockFn MockFnSpec GenericsProofs AttrProofs ClosureProofs MockFnProofs.
Import ListNotations.
Open Scope string_scope.
Open Scope list_scope.

(** ** C62: arguments *)

Lemma demut p : demutify_pat p = without_mut p.
Proof. destruct p; reflexivity. Qed.

Lemma first_fn_mut l : first_is_fnmut l = true <-> fn_mut_first l.
Proof.
  unfold first_is_fnmut, fn_mut_first. split.
  - destruct l as [|[m f [ld [|[i a] r]]| |] l]; try discriminate. intros E.
    apply String.eqb_eq in E. subst i. repeat eexists.
  - intros (m & f & ld & a & r & rest & ->). reflexivity.
Qed.

(** What the map of concretized types holds. *)
Lemma in_conc g t e :
  In (t, e) (conc_types g) ->
  exists i l, declared g i l /\ l <> [] /\
    ( (t = ty_of i /\ e = ConcEntry (object_ref (first_is_fnmut l) l) None (first_is_fnmut l))
      \/ (t = TRef None false (ty_of i)
          /\ e = ConcEntry (object_ref (first_is_fnmut l) l) None (first_is_fnmut l))
      \/ (t = TRef None true (ty_of i) /\ e = ConcEntry (object_ref true l) None (first_is_fnmut l))
      \/ (t = TRef None false (TSlice (ty_of i))
          /\ e = ConcEntry (TRef None false (TSlice (object_ref false l))) (Some l) (first_is_fnmut l))).
Proof.
  unfold conc_types. rewrite <- in_rev, in_flat_map. intros ([i l] & I & H).
  apply bounded_declared in I. exists i, l. split; auto. cbn [fst snd] in H.
  unfold save_types in H. destruct l as [|b l]; [destruct H|]. split; [discriminate|].
  change ref_dyn with object_ref in H.
  set (fm := first_is_fnmut (b :: l)) in *. cbn [In] in H.
  destruct H as [H|[H|[H|[H|[]]]]]; injection H as <- <-; auto 6.
Qed.

Lemma conc_lookup g t :
  match lookup t (conc_types g) with
  | Some e => In (t, e) (conc_types g)
  | None => forall v, ~ In (t, v) (conc_types g)
  end.
Proof.
  destruct (lookup t (conc_types g)) eqn:E; [apply lookup_some|apply lookup_none]; exact E.
Qed.

Definition simple_pat (p : pat) : Prop := exists r m i s, p = PatIdent r m i s.

Lemma conc_fits g args :
  (forall p t, In (p, t) (typed_args args) ->
     simple_pat p /\ pat_name p <> Some "self" /\ ~ shared_fn_mut g t) ->
  Forall3 (fits g) (typed_args (map (concretized_input g) args))
          (flat_map (concretized_call g) args)
          (typed_args (map (concretized_arg g) args)).
Proof.
  induction args as [|a args IH]; intros H; [constructor|].
  destruct a as [r m c t|p t]; cbn [map flat_map concretized_arg concretized_call concretized_input].
  { apply IH. exact H. }
  destruct (H p t) as (SP & NS & SF); [left; reflexivity|].
  assert (IH' : Forall3 (fits g) (typed_args (map (concretized_input g) args))
          (flat_map (concretized_call g) args) (typed_args (map (concretized_arg g) args))).
  { apply IH. intros q u I. apply H. right. exact I. }
  assert (N : pat_is_self (demutify_pat p) = false).
  { destruct p as [b k i s| |]; auto. cbn in *. apply String.eqb_neq. congruence. }
  rewrite N, demut.
  assert (L := conc_lookup g t). destruct (lookup t (conc_types g)) as [e|].
  - destruct (in_conc _ _ _ L) as (i & l & D & NE & [[-> ->]|[[-> ->]|[[-> ->]|[-> ->]]]]);
      cbn [ce_ty ce_mut ce_bounds ty_of].
    + destruct (first_is_fnmut l); (apply F3cons; [|exact IH']).
      * destruct SP as (r & m & j & s & ->). cbn [without_mut].
        apply (FitsMutRef g (PatIdent r true j s)); auto. repeat eexists.
      * apply FitsRef. exact D.
    + destruct (first_is_fnmut l) eqn:FM.
      * exfalso. apply SF. exists i, l. split; auto. split; auto. apply first_fn_mut. exact FM.
      * apply F3cons; [|exact IH']. apply FitsRefArg. exact D.
    + destruct (first_is_fnmut l); (apply F3cons; [|exact IH']).
      * destruct SP as (r & m & j & s & ->). cbn [without_mut].
        apply (FitsRefArg g (PatIdent r true j s)). exact D.
      * apply FitsRefArg. exact D.
    + destruct (first_is_fnmut l); (apply F3cons; [|exact IH']).
      * destruct SP as (r & m & j & s & ->). cbn [without_mut].
        apply (FitsSlice g (PatIdent r true j s)). exact D.
      * apply FitsSlice. exact D.
  - apply F3cons; [|exact IH']. apply FitsSame.
Qed.

Lemma closure_fits g args :
  distinct_keys (fn_types g) = true ->
  (forall p t, In (p, t) (typed_args args) -> pat_name p <> Some "self") ->
  Forall3 (fits g) (typed_args args) (flat_map (declosured_call g) args)
          (typed_args (map (declosured_arg g) args)).
Proof.
  intros DK. induction args as [|a args IH]; intros H; [constructor|].
  destruct a as [r m c t|p t]; cbn [map flat_map declosured_arg declosured_call].
  { apply IH. exact H. }
  assert (NS := H p t (or_introl eq_refl)).
  assert (IH' := IH (fun q u I => H q u (or_intror I))).
  assert (N : pat_is_self (demutify_pat p) = false).
  { destruct p as [b k i s| |]; auto. cbn in *. apply String.eqb_neq. congruence. }
  rewrite N, demut. unfold has_key.
  destruct (lookup t (fn_types g)) as [u|] eqn:L; (apply F3cons; [|exact IH']).
  - apply lookup_some, in_fn_types in L as (i & l & b & -> & -> & D & _). apply FitsBox. exact D.
  - apply FitsSame.
Qed.

Lemma moved_typed n l : moved_args n l = map (fun x => (fst x, supersuperfy n (snd x))) (typed_args l).
Proof.
  unfold moved_args, typed_args. induction l as [|a l IH]; auto. cbn [flat_map].
  rewrite map_app, IH. destruct a; reflexivity.
Qed.

(** A mock function hands each of its arguments, in order, to the expectation,
    in a form that has the type that the expectation takes. *)
Theorem arguments_are_handed_over :
  forall (b : builder) (f : mock_function),
    build b = Some f ->
    (forall p t, In (p, t) (typed_args (sg_inputs (b_sig b))) ->
       simple_pat p /\ pat_name p <> Some "self"
       /\ (b_concretize b = true -> ~ shared_fn_mut (sg_generics (b_sig b)) t)) ->
    exists ts,
      Forall3 (fits (sg_generics (b_sig b))) (typed_args (sg_inputs (mf_sig f))) (mf_call_exprs f)
              (combine (mf_argnames f) ts)
      /\ List.length ts = List.length (mf_argnames f)
      /\ mf_argty f = map (supersuperfy (b_levels b)) ts.
Proof.
  intros b f H P. apply build_built in H as (dg & di & ce & sig & B).
  exists (map snd (typed_args di)).
  rewrite (bt_argnames _ _ _ _ _ _ B), (bt_argty _ _ _ _ _ _ B), (bt_calls _ _ _ _ _ _ B),
    (bt_sig _ _ _ _ _ _ B), moved_typed, !map_map, !map_length. cbn [fst snd].
  split; [|split; reflexivity].
  assert (C : forall l : list (pat * ty), combine (map fst l) (map snd l) = l).
  { induction l as [|[x y] l IH]; cbn; congruence. }
  rewrite C. assert (PR := bt_prepared _ _ _ _ _ _ B). unfold prepared in PR.
  destruct (b_concretize b) eqn:BC.
  - cbn [concretize_args] in PR. injection PR as _ <- <- <-. cbn [with_inputs sg_inputs].
    apply conc_fits. intros p t I. destruct (P p t I) as (P1 & P2 & P3). auto.
  - unfold declosurefy in PR.
    destruct (distinct_keys (fn_types (sg_generics (b_sig b)))) eqn:DK; [|discriminate].
    injection PR as _ <- <- <-. apply closure_fits; auto.
    intros p t I. apply (P p t I).
Qed.
Print Assumptions arguments_are_handed_over.

(** The mock function itself keeps the declared names and types of its
    arguments. *)
Theorem mock_functions_keep_their_arguments :
  forall (b : builder) (f : mock_function),
    build b = Some f ->
    Forall2 (fun a a' =>
      match a, a' with
      | FaTyped p t, FaTyped p' t' => t' = t /\ without_mut p' = without_mut p
      | FaReceiver _ _ _ _, _ => a' = a
      | _, _ => False
      end) (sg_inputs (b_sig b)) (sg_inputs (mf_sig f))
    /\ sg_ident (mf_sig f) = sg_ident (b_sig b)
    /\ sg_generics (mf_sig f) = sg_generics (b_sig b)
    /\ sg_output (mf_sig f) = sg_output (b_sig b)
    /\ sg_abi (mf_sig f) = sg_abi (b_sig b).
Proof.
  intros b f H. apply build_built in H as (dg & di & ce & sig & B).
  rewrite (bt_sig _ _ _ _ _ _ B). assert (PR := bt_prepared _ _ _ _ _ _ B). unfold prepared in PR.
  assert (R : forall l, Forall2 (fun a a' =>
      match a, a' with
      | FaTyped p t, FaTyped p' t' => t' = t /\ without_mut p' = without_mut p
      | FaReceiver _ _ _ _, _ => a' = a
      | _, _ => False
      end) l l).
  { induction l as [|[]]; constructor; auto. }
  destruct (b_concretize b).
  - cbn [concretize_args] in PR. injection PR as _ _ _ <-. cbn [with_inputs sg_inputs].
    split; [|repeat split].
    set (g := sg_generics (b_sig b)). clear. induction (sg_inputs (b_sig b)) as [|a l IH]; cbn [map];
      constructor; auto. destruct a as [r m c t|p t]; cbn [concretized_input]; auto.
    destruct (match lookup t (conc_types g) with Some e => ce_mut e | None => false end); auto.
    destruct p; auto.
  - destruct (declosurefy _ _) as [[[x y] z]|]; [|discriminate]. injection PR as _ _ _ <-. auto.
Qed.
Print Assumptions mock_functions_keep_their_arguments.

(** A predicate gets a reference to every argument, or to what it refers to. *)
Theorem predicates_get_references :
  forall (b : builder) (f : mock_function),
    build b = Some f ->
    Forall3 (fun a e t =>
      (is_ref (snd a) = true -> e = PrArg (fst a))
      /\ (is_ref (snd a) = false -> e = PrRef (fst a))
      /\ t = (referent (snd a), TRef None false (referent (snd a))))
      (combine (mf_argnames f) (mf_argty f)) (mf_predexprs f)
      (combine (mf_predty f) (mf_refpredty f))
    /\ List.length (mf_argnames f) = List.length (mf_argty f)
    /\ List.length (mf_predty f) = List.length (mf_argty f)
    /\ List.length (mf_refpredty f) = List.length (mf_argty f).
Proof.
  intros b f H. apply build_built in H as (dg & di & ce & sig & B).
  rewrite (bt_argnames _ _ _ _ _ _ B), (bt_argty _ _ _ _ _ _ B), (bt_predexprs _ _ _ _ _ _ B),
    (bt_predty _ _ _ _ _ _ B), (bt_refpredty _ _ _ _ _ _ B), !map_length.
  split; [|auto]. induction (moved_args (b_levels b) di) as [|[p t] l IH]; cbn [map combine];
    constructor; auto. cbn [fst snd].
  destruct t; cbn; repeat split; intros; try discriminate; reflexivity.
Qed.
Print Assumptions predicates_get_references.

(** [fn foo<F: FnMut(), T: Debug>(&self, f: F, x: &mut T, y: &[T], z: u32)], concretized
    or not. *)
Definition fn_mut : bound := BTrait false [] (Path false [Seg "FnMut" (PaParen [] None)]).
Definition debug : bound := BTrait false [] (path_of "Debug").
Definition var (i : ident) : pat := PatIdent false false i false.
Definition hand_sig (f : ty) : signature :=
  Signature "foo"
    (Generics true [GpType "F" [fn_mut] None; GpType "T" [debug] None] None)
    [FaReceiver (Some None) false false (TRef None false (ty_of "Self"));
     FaTyped (var "f") f;
     FaTyped (var "x") (TRef None true (ty_of "T"));
     FaTyped (var "y") (TRef None false (TSlice (ty_of "T")));
     FaTyped (var "z") (ty_of "u32")] None None.
Definition hand_builder (a : list attribute) (f : ty) : builder :=
  Builder a (Some 0) 2 None (hand_sig f) (Some "MockA") None None VPublic.
Definition concretized : attribute := Attribute (path_of "concretize") None "".

Example arguments_are_handed_over_applies :
  (forall a, In a [[]; [concretized]] ->
   forall p t, In (p, t) (typed_args (sg_inputs (b_sig (hand_builder a (ty_of "F"))))) ->
       simple_pat p /\ pat_name p <> Some "self"
       /\ ~ shared_fn_mut (sg_generics (b_sig (hand_builder a (ty_of "F")))) t)
  /\ option_map mf_call_exprs (build (hand_builder [] (ty_of "F")))
     = Some [CBoxNew (var "f"); CArg (var "x"); CArg (var "y"); CArg (var "z")]
  /\ option_map (fun f => (mf_call_exprs f, mf_argty f, sg_inputs (mf_sig f)))
                (build (hand_builder [concretized] (ty_of "F")))
     = Some ([CMutRefTo (var "f"); CArg (var "x"); CDynSlice (var "y") [debug]; CArg (var "z")],
             [object_ref true [fn_mut]; object_ref true [debug];
              TRef None false (TSlice (object_ref false [debug])); ty_of "u32"],
             FaReceiver (Some None) false false (TRef None false (ty_of "Self"))
             :: FaTyped (PatIdent false true "f" false) (ty_of "F")
             :: skipn 2 (sg_inputs (hand_sig (ty_of "F")))).
Proof.
  split; [|split; reflexivity].
  intros a _ p t I. cbn in I.
  assert (E : (exists i, p = var i /\ i <> "self") /\ t <> TRef None false (ty_of "F")
              /\ t <> TRef None false (ty_of "T")).
  { repeat destruct I as [I|I]; try injection I as <- <-; try tauto;
      (split; [eexists; split; [reflexivity|discriminate]|split; discriminate]). }
  destruct E as ((i & -> & NI) & E1 & E2).
  split; [repeat eexists|]. split; [cbn; congruence|].
  intros (j & l & -> & [(d & D)|(w & D & _)] & _); [|destruct D].
  cbn in D. destruct D as [D|[D|[]]]; injection D as <- _ _; congruence.
Qed.

(** In a concretized function, an argument [&F] with [F: FnMut()] is passed where a
    mutable reference is wanted. *)
Theorem arguments_are_handed_over_refuted :
  exists b f a e a',
    build b = Some f
    /\ In a (typed_args (sg_inputs (mf_sig f))) /\ In e (mf_call_exprs f)
    /\ In a' (combine (mf_argnames f) (mf_argty f))
    /\ e = CArg (without_mut (fst a)) /\ fst a' = var "f"
    /\ snd a = TRef None false (ty_of "F") /\ snd a' = object_ref true [fn_mut].
Proof.
  exists (hand_builder [concretized] (TRef None false (ty_of "F"))).
  eexists. exists (PatIdent false true "f" false, TRef None false (ty_of "F")), (CArg (var "f")),
    (var "f", object_ref true [fn_mut]).
  split; [reflexivity|]. split; [left; reflexivity|]. split; [left; reflexivity|].
  split; [left; reflexivity|]. repeat split.
Qed.
Print Assumptions arguments_are_handed_over_refuted.

(** ** C63: concretized functions *)

(** The expectation of a concretized function has none of the function's own
    parameters; arguments [T], [&T], [&mut T] and [&[T]] become references to
    trait objects of [T]'s bounds and the others keep their types. *)
Theorem concretized_functions_are_not_generic :
  forall (b : builder) (f : mock_function),
    build b = Some f -> b_concretize b = true ->
    params (mf_call_generics f) = [] /\ where_clause (mf_call_generics f) = None
    /\ Forall2 (fun x t' =>
         forall i l,
           declared (sg_generics (b_sig b)) i l -> l <> [] ->
           (forall l', declared (sg_generics (b_sig b)) i l' -> l' = l) ->
           let moved t := t' = supersuperfy (b_levels b) t in
           (snd x = ty_of i \/ snd x = TRef None false (ty_of i) ->
              (fn_mut_first l -> moved (object_ref true l))
              /\ (~ fn_mut_first l -> moved (object_ref false l)))
           /\ (snd x = TRef None true (ty_of i) -> moved (object_ref true l))
           /\ (snd x = TRef None false (TSlice (ty_of i)) ->
               moved (TRef None false (TSlice (object_ref false l)))))
         (typed_args (sg_inputs (b_sig b))) (mf_argty f)
    /\ Forall2 (fun x t' =>
         (forall i l u, declared (sg_generics (b_sig b)) i l ->
            In u [ty_of i; TRef None false (ty_of i); TRef None true (ty_of i);
                  TRef None false (TSlice (ty_of i))] -> snd x <> u) ->
         t' = supersuperfy (b_levels b) (snd x))
         (typed_args (sg_inputs (b_sig b))) (mf_argty f).
Proof.
  intros b f H BC. apply build_built in H as (dg & di & ce & sig & B).
  assert (PR := bt_prepared _ _ _ _ _ _ B). unfold prepared in PR. rewrite BC in PR.
  cbn [concretize_args] in PR. injection PR as <- <- _ _.
  set (g := sg_generics (b_sig b)) in *.
  destruct (bt_generics _ _ _ _ _ _ B) as (sa & sr & ma & mr & _ & S & _).
  cbn [supersuperfy_generics no_generics params where_clause lt_token map option_map] in S.
  assert (ARG : mf_argty f
    = map (fun x => supersuperfy (b_levels b)
                      match lookup (snd x) (conc_types g) with Some e => ce_ty e | None => snd x end)
          (typed_args (sg_inputs (b_sig b)))).
  { rewrite (bt_argty _ _ _ _ _ _ B), moved_typed, map_map. cbn [fst snd].
    clear. induction (sg_inputs (b_sig b)) as [|[r m c t|p t] l IH]; auto.
    change (typed_args (FaTyped p t :: l)) with ((p, t) :: typed_args l).
    cbn [map snd concretized_arg].
    change (typed_args (FaTyped ?q ?u :: ?m)) with ((q, u) :: typed_args m).
    cbn [map snd]. rewrite IH. reflexivity. }
  rewrite ARG. split; [|split; [|split]].
  - injection S as <- _ _. reflexivity.
  - injection S as <- _ _. reflexivity.
  - clear. induction (typed_args (sg_inputs (b_sig b))) as [|[p t] l IH]; cbn [map]; constructor; auto.
    cbn [snd]. intros i l0 D NE U. cbv zeta.
    assert (KEY : forall u e, In (u, e) (save_types i l0) -> t = u ->
              exists e', lookup t (conc_types g) = Some e' /\ In (t, e') (conc_types g)).
    { intros u e I ->. assert (L := conc_lookup g u). destruct (lookup u (conc_types g)) as [e'|].
      - exists e'. auto.
      - elim (L e). unfold conc_types. rewrite <- in_rev, in_flat_map. exists (i, l0).
        split; [apply bounded_declared; exact D|exact I]. }
    unfold save_types in KEY. destruct l0 as [|b0 l0]; [congruence|].
    change ref_dyn with object_ref in KEY. set (l1 := b0 :: l0) in *. cbn [In] in KEY.
    split; [|split].
    + intros T.
      assert (X : exists e', lookup t (conc_types g) = Some e' /\ In (t, e') (conc_types g))
        by (destruct T as [T|T];
            [eapply KEY; [left; reflexivity|exact T]|eapply KEY; [right; left; reflexivity|exact T]]).
      destruct X as (e' & -> & I). apply in_conc in I as (j & l2 & D2 & _ & C).
      assert (E : e' = ConcEntry (object_ref (first_is_fnmut l2) l2) None (first_is_fnmut l2) /\ j = i).
      { destruct T as [->| ->]; destruct C as [[C ->]|[[C ->]|[[C ->]|[C ->]]]]; try discriminate;
          injection C as <-; auto. }
      destruct E as [-> ->]. rewrite (U _ D2). cbn [ce_ty]. rewrite <- first_fn_mut.
      destruct (first_is_fnmut l1); split; intros; try reflexivity; congruence.
    + intros T.
      assert (X : exists e', lookup t (conc_types g) = Some e' /\ In (t, e') (conc_types g))
        by (eapply KEY; [do 2 right; left; reflexivity|exact T]).
      destruct X as (e' & -> & I). apply in_conc in I as (j & l2 & D2 & _ & C). subst t.
      destruct C as [[C ->]|[[C ->]|[[C ->]|[C ->]]]]; try discriminate. injection C as <-.
      rewrite (U _ D2). reflexivity.
    + intros T.
      assert (X : exists e', lookup t (conc_types g) = Some e' /\ In (t, e') (conc_types g))
        by (eapply KEY; [do 3 right; left; reflexivity|exact T]).
      destruct X as (e' & -> & I). apply in_conc in I as (j & l2 & D2 & _ & C). subst t.
      destruct C as [[C ->]|[[C ->]|[[C ->]|[C ->]]]]; try discriminate. injection C as <-.
      rewrite (U _ D2). reflexivity.
  - clear. induction (typed_args (sg_inputs (b_sig b))) as [|[p t] l IH]; cbn [map]; constructor; auto.
    cbn [snd]. intros N. assert (L := conc_lookup g t).
    destruct (lookup t (conc_types g)) as [e|]; auto.
    apply in_conc in L as (i & l0 & D & _ & C). exfalso.
    destruct C as [[C _]|[[C _]|[[C _]|[C _]]]]; apply (N i l0 t D); cbn; auto 6.
Qed.
Print Assumptions concretized_functions_are_not_generic.

Example concretized_functions_are_not_generic_applies :
  build (hand_builder [concretized] (ty_of "F")) <> None
  /\ b_concretize (hand_builder [concretized] (ty_of "F")) = true
  /\ declared (sg_generics (hand_sig (ty_of "F"))) "T" [debug]
  /\ (forall l', declared (sg_generics (hand_sig (ty_of "F"))) "T" l' -> l' = [debug])
  /\ (forall i l u, declared (sg_generics (hand_sig (ty_of "F"))) i l ->
        In u [ty_of i; TRef None false (ty_of i); TRef None true (ty_of i);
              TRef None false (TSlice (ty_of i))] -> ty_of "u32" <> u).
Proof.
  split; [discriminate|]. split; [reflexivity|]. split; [left; exists None; right; left; reflexivity|].
  split.
  - intros l' [(d & [D|[D|[]]])|(w & [] & _)]; congruence.
  - intros i l u [(d & [D|[D|[]]])|(w & [] & _)]; injection D as <- _ _;
      intros [<-|[<-|[<-|[<-|[]]]]]; discriminate.
Qed.

(** A type parameter inside of another type is left where nothing declares it. *)
Theorem concretized_inner_types_refuted :
  exists b f t,
    build b = Some f /\ b_concretize b = true
    /\ In (GpType "F" [fn_mut] None) (params (sg_generics (b_sig b)))
    /\ mf_argty f = t :: skipn 1 (mf_argty f)
    /\ t = TPath (Path false [Seg "Vec" (PaAngle [GaType (ty_of "F")])])
    /\ params (mf_egenerics f) = [].
Proof.
  exists (hand_builder [concretized] (TPath (Path false [Seg "Vec" (PaAngle [GaType (ty_of "F")])]))).
  do 2 eexists. split; [reflexivity|]. split; [reflexivity|]. split; [left; reflexivity|].
  split; [reflexivity|]. split; reflexivity.
Qed.
Print Assumptions concretized_inner_types_refuted.
