(** * PropGenerics: the generics of methods and impls (C48, C49) *)

From Coq Require Import List Bool String NArith Arith Lia.
From Verif Require Import Ast AstSpec Rewrite TyEq Derive DeriveSpec GenericsProofs.
Import ListNotations.
Open Scope string_scope.
Open Scope list_scope.

(** ** C48: splitting *)

(** The return group is the lifetime parameters that occur in the return
    type; the argument group, those that occur in an argument and not in the
    return type; the type generics, the type parameters.  All keep their
    order and their bounds.  Function types are excluded: see
    [lifetimes_in_function_types_refuted]. *)
Theorem generics_are_split :
  forall (g : generics) (args : list fnarg) (rt : option ty),
    bracketed g ->
    forallb plain_arg args = true ->
    (forall t, rt = Some t -> no_fn_types t = true) ->
    let returned l := match rt with Some t => mentionsb l t | None => false end in
    let '(tg, alv, rlv) := split_lifetimes g args rt in
    rlv = filter (fun x => returned (fst x)) (lifetime_params g)
    /\ alv = filter (fun x => negb (returned (fst x)) && existsb (arg_mentionsb (fst x)) args)
                    (lifetime_params g)
    /\ params tg = filter is_type_param (params g)
    /\ (existsb is_type_param (params g) = true -> where_clause tg = where_clause g).
Proof.
  intros g args rt B A R. cbv zeta. destruct (lt_token g) eqn:L.
  - pose proof (split_groups g args rt L A) as S.
    destruct (split_lifetimes g args rt) as [[tg alv] rlv].
    assert (Y : match rt with Some t => no_fn_types t | None => true end = true).
    { destruct rt as [t|]; auto. }
    destruct (S Y) as (S1 & S2 & S3 & S4 & _). repeat split; auto.
    intros X. rewrite S4, X. reflexivity.
  - specialize (B L). unfold split_lifetimes, lifetime_params. rewrite L, B. cbn.
    repeat split; auto.
Qed.

(** So a lifetime parameter that is used is in exactly one group. *)
Theorem used_lifetimes_are_in_one_group :
  forall (g : generics) (args : list fnarg) (rt : option ty) (l : lifetime) (b : list lifetime),
    bracketed g ->
    forallb plain_arg args = true ->
    (forall t, rt = Some t -> no_fn_types t = true) ->
    In (GpLifetime l b) (params g) ->
    ((exists t, rt = Some t /\ mentionsb l t = true)
     \/ exists a, In a args /\ arg_mentionsb l a = true) ->
    let '(_, alv, rlv) := split_lifetimes g args rt in
    (In (l, b) alv /\ ~ In (l, b) rlv) \/ (In (l, b) rlv /\ ~ In (l, b) alv).
Proof.
  intros g args rt l b B A R I U.
  pose proof (generics_are_split g args rt B A R) as S. cbv zeta in S.
  destruct (split_lifetimes g args rt) as [[tg alv] rlv]. destruct S as (-> & -> & _ & _).
  rewrite !filter_In. cbn [fst].
  assert (P : In (l, b) (lifetime_params g)).
  { unfold lifetime_params. apply in_flat_map. exists (GpLifetime l b). split; auto. left. reflexivity. }
  destruct (match rt with Some t => mentionsb l t | None => false end) eqn:E; cbn [negb andb].
  - right. split; [auto|]. intros [_ X]. discriminate.
  - left. destruct U as [(t & -> & X)|(a & Ia & X)]; [congruence|].
    split; [|intros [_ Y]; discriminate]. split; auto. apply existsb_exists. eauto.
Qed.

(** [fn foo<'a, 'b, T: Copy>(&'a self, x: Vec<&'b T>) -> &'a T] *)
Definition split_example : generics * list fnarg * option ty :=
  (Generics true [GpLifetime "a" []; GpLifetime "b" ["a"];
                  GpType "T" [BTrait false [] (Path false [seg_of "Copy"])] None] None,
   [FaReceiver (Some (Some "a")) false false (ty_of "Self");
    FaTyped (PatIdent false false "x" false)
      (TPath (Path false [Seg "Vec" (PaAngle [GaType (TRef (Some "b") false (ty_of "T"))])]))],
   Some (TRef (Some "a") false (ty_of "T"))).

Example generics_are_split_applies :
  let '(g, args, rt) := split_example in
  bracketed g /\ forallb plain_arg args = true
  /\ (forall t, rt = Some t -> no_fn_types t = true)
  /\ split_lifetimes g args rt
     = (Generics true [GpType "T" [BTrait false [] (Path false [seg_of "Copy"])] None] None,
        [("b", ["a"])], [("a", [])]).
Proof.
  split; [discriminate|]. split; [reflexivity|].
  split; [intros t E; injection E as <-|]; reflexivity.
Qed.

(** The remaining parts of the property fail.  A lifetime that is neither in
    the arguments nor in the return type is in no group; *)
Theorem unused_lifetimes_refuted :
  exists (g : generics) (args : list fnarg) (rt : option ty) l,
    In (GpLifetime l []) (params g)
    /\ where_outlives g l "static"
    /\ let '(tg, alv, rlv) := split_lifetimes g args rt in
       params tg = [] /\ alv = [] /\ rlv = [] /\ where_clause tg = None.
Proof.
  exists (Generics true [GpLifetime "a" []] (Some [WpLifetime "a" ["static"]])), [], None, "a".
  split; [left; reflexivity|]. split.
  - exists ["static"]. split; left; reflexivity.
  - repeat split.
Qed.

(** a const parameter is in no group, though an argument uses it; *)
Theorem const_parameters_refuted :
  exists (g : generics) (args : list fnarg) (i : ident) (t : ty) (p : pat),
    In (GpConst i t None) (params g)
    /\ In (FaTyped p (TArray (ty_of "u8") i)) args
    /\ let '(tg, alv, rlv) := split_lifetimes g args None in
       params tg = [] /\ alv = [] /\ rlv = [].
Proof.
  exists (Generics true [GpConst "N" (ty_of "usize") None] None),
    [FaTyped (PatIdent false false "x" false) (TArray (ty_of "u8") "N")],
    "N", (ty_of "usize"), (PatIdent false false "x" false).
  split; [left; reflexivity|]. split; [left; reflexivity|]. repeat split.
Qed.

(** the where clause is dropped if there is no type parameter
    ([fn foo<'a>(&'a self) where Self: 'a, Vec<u8>: Foo<'a>]); *)
Theorem where_clause_is_dropped_refuted :
  exists (g : generics) (args : list fnarg) t b,
    where_bound g t b
    /\ let '(tg, alv, rlv) := split_lifetimes g args None in
       alv = [("a", [])] /\ where_clause tg = None.
Proof.
  exists (Generics true [GpLifetime "a" []] (Some [WpType None (ty_of "Foo") [BLifetime "a"]])),
    [FaReceiver (Some (Some "a")) false false (ty_of "Self")], (ty_of "Foo"), (BLifetime "a").
  split; [exists None, [BLifetime "a"]; split; left; reflexivity|]. repeat split.
Qed.

(** and a lifetime that occurs only in the parentheses of [Fn(&'a T)] is in
    no group. *)
Theorem lifetimes_in_function_types_refuted :
  exists (g : generics) (t : ty) (p : pat) l,
    In (GpLifetime l []) (params g) /\ mentionsb l t = true
    /\ (let '(_, alv, rlv) := split_lifetimes g [FaTyped p t] None in alv = [] /\ rlv = [])
    /\ (let '(_, alv, rlv) := split_lifetimes g [] (Some t) in alv = [] /\ rlv = []).
Proof.
  exists (Generics true [GpLifetime "a" []] None),
    (TPath (Path false [Seg "Box" (PaAngle [GaType (TDyn true
       [BTrait false [] (Path false
          [Seg "Fn" (PaParen [TRef (Some "a") false (ty_of "T")] None)])])])])),
    (PatIdent false false "f" false), "a".
  split; [left; reflexivity|]. repeat split.
Qed.

Print Assumptions generics_are_split.
Print Assumptions used_lifetimes_are_in_one_group.
Print Assumptions unused_lifetimes_refuted.
Print Assumptions const_parameters_refuted.
Print Assumptions where_clause_is_dropped_refuted.
Print Assumptions lifetimes_in_function_types_refuted.

(** ** C49: merging *)

(** Every parameter of both, once: those of [x], then those of [y] that [x]
    does not have. *)
Theorem merged_parameters :
  forall x y : generics,
    bracketed x -> bracketed y -> NoDup (keys x) -> NoDup (keys y) ->
    NoDup (keys (merge_generics x y))
    /\ (forall k, In k (keys (merge_generics x y)) <-> In k (keys x) \/ In k (keys y))
    /\ exists more, keys (merge_generics x y) = keys x ++ more /\ subseq more (keys y).
Proof.
  intros x y Bx By Nx Ny. rewrite merged_keys by assumption. split; [|split].
  - apply NoDup_app_filter; assumption.
  - intros k. rewrite in_app_iff, filter_In.
    destruct (in_dec pkey_dec k (keys x)); tauto || intuition discriminate.
  - eexists. split; [reflexivity|].
    induction (keys y) as [|k l IH]; [apply sub_nil|]. cbn [filter].
    inversion Ny; subst. destruct (in_dec pkey_dec k (keys x)).
    + apply sub_drop. auto.
    + apply sub_keep. auto.
Qed.

(** The bounds of type parameters and the bounds on types in where clauses are
    those of both. *)
Theorem merged_bounds_are_of_both :
  forall (x y : generics) (i : ident) (b : bound),
    bracketed x -> bracketed y ->
    (has_bound (merge_generics x y) i b <-> has_bound x i b \/ has_bound y i b).
Proof. exact merged_bounds. Qed.

Theorem merged_where_bounds_are_of_both :
  forall (x y : generics) (t : ty) (b : bound),
    where_bound (merge_generics x y) t b <-> where_bound x t b \/ where_bound y t b.
Proof. exact merged_where. Qed.

(** Merging with empty generics. *)
Theorem merging_empty_generics :
  forall x y : generics,
    blank y ->
    (bracketed x -> merge_generics x y = x)
    /\ (NoDup (map subject_of (preds x)) ->
        (forall f t b, In (WpType f t b) (preds x) -> f = None) ->
        merge_generics y x = x).
Proof.
  intros x y B. split; intros; [apply merge_blank_right|apply merge_blank_left]; assumption.
Qed.

Definition bnd (s : ident) : bound := BTrait false [] (Path false [seg_of s]).

(** [<'a, T: Copy, V> where T: Debug] and [<T: Send, W> where T: Clone, W: Debug] *)
Definition merge_example : generics * generics :=
  (Generics true [GpLifetime "a" []; GpType "T" [bnd "Copy"] None; GpType "V" [] None]
     (Some [WpType None (ty_of "T") [bnd "Debug"]]),
   Generics true [GpType "T" [bnd "Send"] None; GpType "W" [] None]
     (Some [WpType None (ty_of "T") [bnd "Clone"]; WpType None (ty_of "W") [bnd "Debug"]])).

Example merged_parameters_applies :
  let '(x, y) := merge_example in
  bracketed x /\ bracketed y /\ NoDup (keys x) /\ NoDup (keys y)
  /\ merge_generics x y
     = Generics true [GpLifetime "a" []; GpType "T" [bnd "Copy"; bnd "Send"] None;
                      GpType "V" [] None; GpType "W" [] None]
         (Some [WpType None (ty_of "T") [bnd "Debug"; bnd "Clone"];
                WpType None (ty_of "W") [bnd "Debug"]]).
Proof.
  split; [discriminate|]. split; [discriminate|].
  repeat split; repeat constructor; cbn; intuition discriminate.
Qed.

Example merging_empty_generics_applies :
  let '(_, x) := merge_example in
  blank no_generics /\ bracketed x /\ NoDup (map subject_of (preds x))
  /\ (forall f t b, In (WpType f t b) (preds x) -> f = None).
Proof.
  split; [repeat split|]. split; [discriminate|]. split.
  - repeat constructor; cbn; intuition discriminate.
  - cbn. intros f t b [E|[E|[]]]; injection E as <- <- <-; reflexivity.
Qed.

(** Merging into empty generics is not always the identity: the where clause
    is merged with itself, so [where for<'a> T: Foo<'a>] becomes
    [where for<'a, 'a> T: Foo<'a>], which the compiler rejects. *)
Theorem merging_into_empty_generics_refuted :
  exists x y : generics,
    blank x /\ bracketed y /\ NoDup (keys y) /\ NoDup (map subject_of (preds y))
    /\ (exists t l, preds y = [WpType (Some ["a"]) t l]
                    /\ preds (merge_generics x y) = [WpType (Some ["a"; "a"]) t l])
    /\ merge_generics x y <> y.
Proof.
  exists no_generics,
    (Generics true [GpType "T" [] None]
       (Some [WpType (Some ["a"]) (ty_of "T")
                [BTrait false [] (Path false [Seg "Foo" (PaAngle [GaLifetime "a"])])]])).
  split; [repeat split|]. split; [discriminate|].
  split; [repeat constructor; intros []|]. split; [repeat constructor; intros []|].
  split; [|discriminate]. eexists. eexists. split; reflexivity.
Qed.

(** The bounds of a lifetime parameter that both have are those of the first
    only; the same for where predicates on lifetimes. *)
Theorem merged_lifetime_bounds_refuted :
  exists x y : generics,
    bracketed x /\ bracketed y /\ NoDup (keys x) /\ NoDup (keys y)
    /\ In (GpLifetime "a" ["b"]) (params y)
    /\ where_outlives y "a" "c"
    /\ params (merge_generics x y) = [GpLifetime "a" []; GpLifetime "b" []; GpLifetime "c" []]
    /\ where_clause (merge_generics x y) = Some [WpLifetime "a" []].
Proof.
  exists (Generics true [GpLifetime "a" []; GpLifetime "b" []; GpLifetime "c" []]
            (Some [WpLifetime "a" []])),
    (Generics true [GpLifetime "a" ["b"]] (Some [WpLifetime "a" ["c"]])).
  split; [discriminate|]. split; [discriminate|].
  split; [repeat constructor; cbn; intuition discriminate|].
  split; [repeat constructor; intros []|].
  split; [left; reflexivity|]. split; [|split; reflexivity].
  exists ["c"]. split; left; reflexivity.
Qed.

Print Assumptions merged_parameters.
Print Assumptions merged_bounds_are_of_both.
Print Assumptions merged_where_bounds_are_of_both.
Print Assumptions merging_empty_generics.
Print Assumptions merging_into_empty_generics_refuted.
Print Assumptions merged_lifetime_bounds_refuted.
