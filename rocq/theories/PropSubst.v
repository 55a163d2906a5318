(** * PropSubst: associated types (C55) *)

From Coq Require Import List Bool String NArith Arith Lia.
From Verif Require Import Ast AstSpec TyEq Rewrite Derive DeriveSpec Subst Sig Item SubstProofs.
Import ListNotations.
Open Scope string_scope.
Open Scope list_scope.

(** [#[automock(type A = T; ...)]]: the last type declared for a name counts. *)
Theorem last_declared_type_counts :
  forall (l : list (ident * option ty)) (i : ident) (t : ty),
    assoc_get (parse_attrs l) i = Some t <->
    exists l1 l2, l = l1 ++ (i, Some t) :: l2 /\ forall u, ~ In (i, Some u) l2.
Proof.
  intros l i t. unfold parse_attrs.
  induction l as [|[j o] l IH] using rev_ind.
  - cbn. split; [discriminate|]. intros (l1 & l2 & E & _). destruct l1; discriminate.
  - rewrite fold_left_app. cbn [fold_left fst snd].
    set (a := fold_left _ l _) in *.
    destruct o as [u|].
    + rewrite assoc_get_insert. destruct (i =? j) eqn:E.
      * apply String.eqb_eq in E. subst j. split.
        -- intros H. injection H as ->. exists l, []. split; auto.
        -- intros (l1 & l2 & H & N). destruct l2 as [|x l2] using rev_ind.
           ++ apply app_inj_tail in H as [_ H]. congruence.
           ++ clear IHl2. rewrite app_comm_cons, app_assoc in H.
              apply app_inj_tail in H as [_ H]. subst x. elim (N u).
              apply in_app_iff. right. left. reflexivity.
      * rewrite IH. split; intros (l1 & l2 & H & N).
        -- subst l. exists l1, (l2 ++ [(j, Some u)]). rewrite <- app_assoc. split; auto.
           intros v I. apply in_app_iff in I as [I|[I|[]]]; [exact (N v I)|].
           injection I as -> _. rewrite String.eqb_refl in E. discriminate.
        -- destruct l2 as [|x l2] using rev_ind.
           ++ apply app_inj_tail in H as [_ H]. injection H as -> _.
              rewrite String.eqb_refl in E. discriminate.
           ++ clear IHl2. rewrite app_comm_cons, app_assoc in H.
              apply app_inj_tail in H as [H _]. subst l. exists l1, l2. split; auto.
              intros v I. apply (N v). apply in_app_iff. auto.
    + rewrite IH. split; intros (l1 & l2 & H & N).
      * subst l. exists l1, (l2 ++ [(j, None)]). rewrite <- app_assoc. split; auto.
        intros v I. apply in_app_iff in I as [I|[I|[]]]; [exact (N v I)|discriminate].
      * destruct l2 as [|x l2] using rev_ind.
        -- apply app_inj_tail in H as [_ H]. discriminate.
        -- clear IHl2. rewrite app_comm_cons, app_assoc in H.
           apply app_inj_tail in H as [H _]. subst l. exists l1, l2. split; auto.
           intros v I. apply (N v). apply in_app_iff. auto.
Qed.
Print Assumptions last_declared_type_counts.

(** The mocked trait: every associated type gets its declared type, every
    argument and return type of every method has the declared types in place of
    [Self::A] and [<Self as Trait>::A], and everything else stays. *)
Theorem associated_types_are_replaced :
  forall (a : list (ident * ty)) (t : item_trait),
    substitute_trait_error a t = false ->
    (forall at_ s, In (TiFn at_ s) (it_items t) ->
       (forall p u, In (FaTyped p u) (sg_inputs s) -> plain u = true)
       /\ (forall u, sg_output s = Some u -> plain u = true)) ->
    let put := everywhere (project (assoc_get a) (it_ident t)) in
    let t' := substitute_trait a t in
    (it_attrs t', it_vis t', it_unsafe t', it_ident t', it_generics t')
      = (it_attrs t, it_vis t, it_unsafe t, it_ident t, it_generics t)
    /\ Forall2 (fun i i' =>
         match i with
         | TiType n b d => exists u, assoc_get a n = Some u /\ i' = TiType n [] (Some u)
         | TiFn at_ s =>
             i' = TiFn at_ (Signature (sg_ident s) (sg_generics s)
                              (map (fun x => match x with
                                             | FaTyped p u => FaTyped p (put u)
                                             | x => x
                                             end) (sg_inputs s))
                              (option_map put (sg_output s)) (sg_abi s))
         | i => i' = i
         end) (it_items t) (it_items t').
Proof.
  intros a t E P put t'. split; [reflexivity|]. subst t'. cbn [substitute_trait with_items it_items].
  unfold substitute_trait_error in E. revert E P. generalize (it_items t) as l.
  induction l as [|i l IH]; cbn [map]; constructor.
  - cbn in E. apply orb_false_iff in E as [E _]. destruct i as [n u d|at_ s|n b d|s]; auto.
    + cbn [substitute_trait_item]. f_equal. destruct (P at_ s (or_introl eq_refl)) as [P1 P2].
      unfold substitute_sig_error in E. apply orb_false_iff in E as [E1 E2].
      unfold substitute_sig, with_output, with_inputs. cbn. f_equal.
      * assert (G : forall i, In i (sg_inputs s) ->
          substitute_arg a (it_ident t) i
          = match i with FaTyped p u => FaTyped p (put u) | x => x end).
        { intros [r m c u|p u] I; auto. cbn [substitute_arg]. f_equal.
          apply (proj1 (substituted a (it_ident t))); [|eauto].
          destruct (substitute_error a (it_ident t) u) eqn:X; auto.
          assert (Y : existsb (fun x => match x with
             | FaTyped _ t0 => substitute_error a (it_ident t) t0
             | FaReceiver _ _ _ _ => false end) (sg_inputs s) = true).
          { apply existsb_exists. exists (FaTyped p u). auto. }
          congruence. }
        apply map_ext_in. exact G.
      * destruct (sg_output s) as [u|] eqn:O; auto. cbn. f_equal.
        apply (proj1 (substituted a (it_ident t))); auto.
    + cbn [substitute_trait_item]. destruct (assoc_get a n) as [u|]; [eauto|discriminate].
  - apply IH.
    + cbn in E. apply orb_false_iff in E as [_ E]. exact E.
    + intros at_ s I. apply (P at_ s). right. exact I.
Qed.
Print Assumptions associated_types_are_replaced.

(** None is left, if the declared types don't mention any themselves. *)
Theorem no_associated_type_is_left :
  forall (types : ident -> option ty) (tr : ident) (t : ty),
    (forall i u, types i = Some u -> projects types tr u = false) ->
    projects types tr (everywhere (project types tr) t) = false.
Proof. intros types tr t C. apply (proj1 (nothing_left tr types C)). Qed.
Print Assumptions no_associated_type_is_left.

Theorem types_without_associated_types_are_unchanged :
  forall (types : ident -> option ty) (tr : ident) (t : ty),
    projects types tr t = false -> everywhere (project types tr) t = t.
Proof. intros types tr t. apply (proj1 (unchanged types tr)). Qed.
Print Assumptions types_without_associated_types_are_unchanged.

(** [trait T { type A; type B; fn foo(&self, x: Vec<Self::A>, y: (&[<Self as T>::B], Self::C))
    -> Option<fn(Self::A)>; }] with [type A = u32; type B = String;] *)
Definition self_ty (i : ident) : ty := TPath (Path false [seg_of "Self"; seg_of i]).
Definition self_as (t i : ident) : ty :=
  TQPath (ty_of "Self") 1 (Path false [seg_of t; seg_of i]).
Definition applied (i : ident) (t : ty) : ty := TPath (Path false [Seg i (PaAngle [GaType t])]).
Definition arg (i : ident) : pat := PatIdent false false i false.
Definition self_ref : fnarg := FaReceiver (Some None) false false (TRef None false (ty_of "Self")).

Definition assoc_example (a b : ty) : item_trait :=
  ItemTrait [] VPublic false "T" no_generics
    [TiType "A" [] None; TiType "B" [BTrait false [] (path_of "Clone")] None;
     TiConst "N" "usize" (Some "3");
     TiFn [] (Signature "foo" no_generics
               [self_ref;
                FaTyped (arg "x") (applied "Vec" a);
                FaTyped (arg "y") (TTuple [TRef None false (TSlice b); self_ty "C"])]
               (Some (applied "Option" (TBareFn "" [] [a] None))) None)].

Example associated_types_are_replaced_applies :
  let a := [("A", ty_of "u32"); ("B", ty_of "String")] in
  let t := assoc_example (self_ty "A") (self_as "T" "B") in
  substitute_trait_error a t = false
  /\ (forall at_ s, In (TiFn at_ s) (it_items t) ->
       (forall p u, In (FaTyped p u) (sg_inputs s) -> plain u = true)
       /\ (forall u, sg_output s = Some u -> plain u = true))
  /\ it_items (substitute_trait a t)
     = [TiType "A" [] (Some (ty_of "u32")); TiType "B" [] (Some (ty_of "String"));
        TiConst "N" "usize" (Some "3")]
       ++ skipn 3 (it_items (assoc_example (ty_of "u32") (ty_of "String")))
  /\ (forall i u, assoc_get a i = Some u -> projects (assoc_get a) "T" u = false)
  /\ projects (assoc_get a) "T" (self_as "T" "B") = true
  /\ parse_attrs [("A", Some (ty_of "bool")); ("B", Some (ty_of "String")); ("A", Some (ty_of "u32"))] = a.
Proof.
  cbv zeta. split; [reflexivity|]. split.
  { intros at_ s I. cbn in I. destruct I as [I|[I|[I|[I|[]]]]]; try discriminate.
    injection I as <- <-. cbn. split.
    - intros p u [I|[I|[I|[]]]]; try discriminate; injection I as <- <-; reflexivity.
    - intros u E. injection E as <-. reflexivity. }
  split; [reflexivity|]. split; [|split; reflexivity].
  intros i u E. cbn in E.
  destruct (i =? "A"); [injection E as <-; reflexivity|].
  destruct (i =? "B"); [injection E as <-; reflexivity|discriminate].
Qed.

(** The generic arguments of a projection are lost: [Self::A<'a>] becomes the
    declared type, with none of its lifetimes. *)
Theorem generic_associated_types_refuted :
  exists a tr t t',
    substitute_error a tr t = false
    /\ t = TPath (Path false [seg_of "Self"; Seg "A" (PaAngle [GaLifetime "b"])])
    /\ assoc_get a "A" = Some (TRef (Some "a") false (ty_of "u32"))
    /\ substitute_type a tr t = t' /\ t' = TRef (Some "a") false (ty_of "u32").
Proof.
  exists [("A", TRef (Some "a") false (ty_of "u32"))], "T".
  eexists. eexists. repeat split; reflexivity.
Qed.
Print Assumptions generic_associated_types_refuted.

(** Bounds of generic parameters and where clauses are not substituted: in
    [fn foo<X: Into<Self::A>>(x: X)] the projection stays. *)
Theorem associated_types_in_bounds_refuted :
  exists a tr s b,
    substitute_sig_error a tr s = false
    /\ params (sg_generics s) = [GpType "X" [b] None]
    /\ projects_bound (assoc_get a) tr b = true
    /\ sg_generics (substitute_sig a tr s) = sg_generics s.
Proof.
  exists [("A", ty_of "u32")], "T",
    (Signature "foo" (Generics true [GpType "X"
        [BTrait false [] (Path false [Seg "Into" (PaAngle [GaType (self_ty "A")])])] None] None)
        [FaTyped (arg "x") (ty_of "X")] None None).
  eexists. repeat split; reflexivity.
Qed.
Print Assumptions associated_types_in_bounds_refuted.

(** The declared types are not substituted themselves: [type B = Vec<Self::A>]. *)
Theorem associated_types_in_declarations_refuted :
  exists a tr t,
    substitute_error a tr t = false /\ plain t = true
    /\ projects (assoc_get a) tr (substitute_type a tr t) = true.
Proof.
  exists [("A", ty_of "u32"); ("B", applied "Vec" (self_ty "A"))], "T", (self_ty "B").
  repeat split; reflexivity.
Qed.
Print Assumptions associated_types_in_declarations_refuted.

(** Nor are constraints on associated types: [impl Iterator<Item: Into<Self::A>>]. *)
Theorem associated_types_in_constraints_refuted :
  exists a tr t,
    substitute_error a tr t = false
    /\ projects (assoc_get a) tr t = true
    /\ substitute_type a tr t = t.
Proof.
  exists [("A", ty_of "u32")], "T",
    (TImplTrait [BTrait false [] (Path false [Seg "Iterator" (PaAngle
       [GaConstraint "Item" [BTrait false []
          (Path false [Seg "Into" (PaAngle [GaType (self_ty "A")])])]])])]).
  repeat split; reflexivity.
Qed.
Print Assumptions associated_types_in_constraints_refuted.
