(** * PropClosure: closures as arguments (C54) *)

From Coq Require Import List Bool String NArith Arith Lia.
From Verif Require Import Ast AstSpec TyEq Derive DeriveSpec AttrProofs ClosureProofs.
Import ListNotations.
Open Scope string_scope.
Open Scope list_scope.

(** The arguments that the expectation gets, one by one: same name, and a boxed
    closure instead of a type parameter bounded by [Fn], [FnMut] or [FnOnce];
    anything else keeps its type. *)
Theorem closure_arguments_are_boxed :
  forall (g : generics) (args : list fnarg) g' args' calls,
    declosurefy g args = Some (g', args', calls) ->
    Forall2 (fun a a' =>
      match a, a' with
      | FaReceiver _ _ _ _, _ => a' = a
      | FaTyped p t, FaTyped p' t' =>
          p' = without_mut p
          /\ (forall i l b, t = ty_of i -> declared g i l -> In b l -> closure_bound b ->
                            t' = boxed l)
          /\ ((forall i, t = ty_of i -> ~ closure_param g i) -> t' = t)
      | FaTyped _ _, FaReceiver _ _ _ _ => False
      end) args args'.
Proof.
  intros g args g' args' calls H. unfold declosurefy in H.
  destruct (distinct_keys (fn_types g)) eqn:D; [|discriminate]. injection H as <- <- <-.
  induction args as [|a args IH]; cbn [map]; constructor; auto.
  destruct a as [r m c t|p t]; cbn [declosured_arg]; [reflexivity|].
  split; [destruct p; reflexivity|]. split.
  - intros i l b -> Dc I C.
    assert (E : lookup (ty_of i) (fn_types g) = Some (boxed l)).
    { apply closure_lookup; auto. exists l, b. auto. }
    rewrite E. reflexivity.
  - intros N. rewrite (other_lookup g t N). reflexivity.
Qed.

(** What the mock passes to the expectation for the arguments, in the same
    order. *)
Theorem closure_arguments_are_passed :
  forall (g : generics) (args : list fnarg) g' args' calls,
    declosurefy g args = Some (g', args', calls) ->
    (forall p t, In (FaTyped p t) args -> pat_name p <> Some "self") ->
    Forall2 (fun x c =>
      ((exists i, snd x = ty_of i /\ closure_param g i) -> c = CBoxNew (without_mut (fst x)))
      /\ ((forall i, snd x = ty_of i -> ~ closure_param g i) -> c = CArg (without_mut (fst x))))
      (typed_args args) calls.
Proof.
  intros g args g' args' calls H S. unfold declosurefy in H.
  destruct (distinct_keys (fn_types g)) eqn:D; [|discriminate]. injection H as _ _ <-.
  induction args as [|a args IH]; [constructor|]. unfold typed_args. cbn [flat_map].
  assert (IH' := IH (fun p t I => S p t (or_intror I))).
  destruct a as [r m c t|p t]; cbn [declosured_call app]; auto.
  assert (N : pat_is_self (demutify_pat p) = false).
  { specialize (S p t (or_introl eq_refl)). destruct p as [b m i s| |]; auto. cbn in *.
    apply String.eqb_neq. congruence. }
  rewrite N. destruct (has_key t (fn_types g)) eqn:K; constructor; auto; cbn [fst snd].
  - split; [destruct p; reflexivity|]. intros X. exfalso.
    apply has_key_spec in K. destruct (keys_are_idents g t K) as (i & ->).
    apply has_key_spec, closure_key in K. exact (X i eq_refl K).
  - split; [|destruct p; reflexivity]. intros (i & -> & C). apply closure_key in C. congruence.
Qed.

(** The type parameters and where predicates that go away are exactly those of
    closures. *)
Theorem closure_parameters_are_removed :
  forall (g : generics) (args : list fnarg) g' args' calls,
    declosurefy g args = Some (g', args', calls) ->
    (subseq (params g') (params g)
     /\ forall p, In p (params g') <->
          In p (params g) /\ forall i l d, p = GpType i l d -> ~ closure_param g i)
    /\ (subseq (preds g') (preds g)
        /\ forall w, In w (preds g') <->
             In w (preds g)
             /\ forall f i l, w = WpType f (ty_of i) l -> keyword i = false -> ~ closure_param g i).
Proof.
  intros g args g' args' calls H. unfold declosurefy in H.
  destruct (distinct_keys (fn_types g)) eqn:D; [|discriminate]. injection H as <- _ _.
  split.
  - cbn [declosured_generics params]. split; [apply subseq_filter|].
    intros p. rewrite filter_In. split; intros [I X]; split; auto.
    + intros i l d ->. rewrite <- closure_key. intros E. rewrite E in X. discriminate.
    + destruct p as [|i l d|]; auto. specialize (X i l d eq_refl). rewrite <- closure_key in X.
      destruct (has_key (ty_of i) (fn_types g)); auto; contradiction.
  - set (keep := fun p => match p with
                | WpType _ t _ =>
                    match ident_of_ty t with
                    | Some i => negb (has_key (ty_of i) (fn_types g))
                    | None => true
                    end
                | WpLifetime _ _ => true
                end).
    assert (P : preds (declosured_generics g) = filter keep (preds g)).
    { unfold preds. cbn [declosured_generics where_clause]. destruct (where_clause g) as [w|]; auto.
      fold keep. destruct (filter keep w); reflexivity. }
    rewrite P. split; [apply subseq_filter|].
    intros w. rewrite filter_In. split; intros [I X]; split; auto.
    + intros f i l -> K. rewrite <- closure_key. intros E. cbn [keep] in X.
      assert (Y : ident_of_ty (ty_of i) = Some i) by (apply ident_of_ty_spec; auto).
      unfold keep in X. rewrite Y, E in X. discriminate.
    + destruct w as [|f t l]; auto. cbn [keep]. unfold keep.
      destruct (ident_of_ty t) as [i|] eqn:Y; auto. apply ident_of_ty_spec in Y as [-> K].
      specialize (X f i l eq_refl K). rewrite <- closure_key in X.
      destruct (has_key (ty_of i) (fn_types g)); auto; contradiction.
Qed.

(** It is refused exactly if a type parameter has two closure bounds. *)
Theorem two_closure_bounds_are_refused :
  forall (g : generics) (args : list fnarg),
    declosurefy g args = None
    <-> exists i l1 b1 l2 b2 l3,
          all_bounds g i = l1 ++ b1 :: l2 ++ b2 :: l3 /\ closure_bound b1 /\ closure_bound b2.
Proof.
  intros g args. unfold declosurefy.
  assert (S : distinct_keys (fn_types g) = false <-> exists i l1 b1 l2 b2 l3,
          all_bounds g i = l1 ++ b1 :: l2 ++ b2 :: l3 /\ closure_bound b1 /\ closure_bound b2).
  { rewrite panics_spec. split.
    - intros (i & I). apply two_in_list in I as (l1 & a & l2 & b & l3 & E & F & F').
      apply is_fn_bound_spec in F, F'. exists i, l1, a, l2, b, l3. auto.
    - intros (i & l1 & a & l2 & b & l3 & E & F & F'). apply is_fn_bound_spec in F, F'.
      exists i. apply two_in_list. exists l1, a, l2, b, l3. auto. }
  rewrite <- S. destruct (distinct_keys (fn_types g)); split; congruence.
Qed.

(** [fn foo<T, F: Fn(u32) -> T + Send>(&self, mut f: F, x: T) where T: Copy] *)
Definition fn_bound (n : ident) : bound :=
  BTrait false [] (Path false [Seg n (PaParen [ty_of "u32"] (Some (ty_of "T")))]).
Definition send : bound := BTrait false [] (path_of "Send").
Definition closure_example : generics * list fnarg :=
  (Generics true [GpType "T" [] None; GpType "F" [fn_bound "Fn"; send] None]
     (Some [WpType None (ty_of "T") [BTrait false [] (path_of "Copy")]]),
   [FaReceiver (Some None) false false (ty_of "Self");
    FaTyped (PatIdent false true "f" false) (ty_of "F");
    FaTyped (PatIdent false false "x" false) (ty_of "T")]).

Example closure_example_applies :
  let '(g, args) := closure_example in
  closure_param g "F" /\ ~ closure_param g "T"
  /\ declosurefy g args
     = Some (Generics true [GpType "T" [] None]
               (Some [WpType None (ty_of "T") [BTrait false [] (path_of "Copy")]]),
             [FaReceiver (Some None) false false (ty_of "Self");
              FaTyped (PatIdent false false "f" false) (boxed [fn_bound "Fn"; send]);
              FaTyped (PatIdent false false "x" false) (ty_of "T")],
             [CBoxNew (PatIdent false false "f" false); CArg (PatIdent false false "x" false)]).
Proof.
  split; [|split; [|reflexivity]].
  - apply closure_key. reflexivity.
  - rewrite <- closure_key. discriminate.
Qed.

(** Bounds that are declared elsewhere than the closure bound are lost:
    [F: Fn(u32)] with [where F: Send] becomes [Box<dyn Fn(u32)>]. *)
Theorem other_closure_bounds_refuted :
  exists g i l l' p g' t' c,
    declared g i l /\ In (fn_bound "Fn") l /\ declared g i l' /\ In send l' /\ ~ In send l
    /\ declosurefy g [FaTyped p (ty_of i)] = Some (g', [FaTyped p t'], c)
    /\ t' = boxed l.
Proof.
  exists (Generics true [GpType "F" [fn_bound "Fn"] None]
            (Some [WpType None (ty_of "F") [send]])), "F", [fn_bound "Fn"], [send],
    (PatIdent false false "f" false), no_generics, (boxed [fn_bound "Fn"]),
    [CBoxNew (PatIdent false false "f" false)].
  split; [left; exists None; left; reflexivity|]. split; [left; reflexivity|].
  split; [right; exists None; split; [left|]; reflexivity|]. split; [left; reflexivity|].
  split; [intros [E|[]]; discriminate|]. split; reflexivity.
Qed.

(** [fn foo<F: Fn(u32) + FnOnce(u32)>(f: F)] is refused. *)
Example two_closure_bounds_are_refused_applies :
  let g := Generics true [GpType "F" [fn_bound "Fn"; send; fn_bound "FnOnce"] None] None in
  all_bounds g "F" = [] ++ fn_bound "Fn" :: [send] ++ fn_bound "FnOnce" :: []
  /\ declosurefy g [FaTyped (PatIdent false false "f" false) (ty_of "F")] = None
  /\ declosurefy (fst closure_example) (snd closure_example) <> None.
Proof. cbv zeta. repeat split. discriminate. Qed.

(** A closure parameter inside of another type is removed from the parameters,
    but stays in the type: [fn foo<F: Fn(u32)>(f: Option<F>)] *)
Theorem closures_inside_types_refuted :
  exists g i p t g' c,
    closure_param g i
    /\ In (GpType i [fn_bound "Fn"] None) (params g)
    /\ t = TPath (Path false [Seg "Option" (PaAngle [GaType (ty_of i)])])
    /\ declosurefy g [FaTyped p t] = Some (g', [FaTyped p t], c)
    /\ params g' = [].
Proof.
  exists (Generics true [GpType "F" [fn_bound "Fn"] None] None), "F",
    (PatIdent false false "f" false),
    (TPath (Path false [Seg "Option" (PaAngle [GaType (ty_of "F")])])), no_generics,
    [CArg (PatIdent false false "f" false)].
  split; [apply closure_key; reflexivity|]. split; [left; reflexivity|]. repeat split.
Qed.

Print Assumptions closure_arguments_are_boxed.
Print Assumptions closure_arguments_are_passed.
Print Assumptions closure_parameters_are_removed.
Print Assumptions two_closure_bounds_are_refused.
Print Assumptions other_closure_bounds_refuted.
Print Assumptions closures_inside_types_refuted.
