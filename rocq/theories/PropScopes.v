(** * PropScopes: parameters in generated code (C76) *)

From Coq Require Import List Bool Ascii String NArith Arith Lia.
From Verif Require Import Ast AstSpec Rewrite Derive DeriveSpec Names Subst Sig MockFn MockFnSpec MockFnProofs
  GenProofs PropItems Item ItemProofs MockItem ModRun ModRunSpec Scopes ItemSpec GenSpec GenRunSpec GenRunProofs ScopeSpec ScopeBuild.
Import ListNotations.
Open Scope string_scope.
Open Scope list_scope.

Lemma Forall2_map_r {A B C} (R : A -> C -> Prop) (h : B -> C) l r :
  Forall2 (fun x y => R x (h y)) l r -> Forall2 R l (map h r).
Proof. induction 1; constructor; auto. Qed.

Lemma more_names n n' u : (forall k, In k n' -> In k n) -> well_scoped n u -> well_scoped n' u.
Proof. intros S [H N]. split; auto. Qed.

(** Wherever the code that is generated for a method names a lifetime or type
    parameter of the struct or of the method, the parameter is declared there,
    and no parameter is declared twice. *)
Theorem generated_parameters_are_declared : forall hash m g,
  mock_it hash m = Some g -> well_formed m ->
  Forall2 (fun x p =>
    gp_name p = inner_mod_ident (fn_name x)
    /\ (scopable (ms_generics m) x ->
        Forall (well_scoped (keys (ms_generics m) ++ keys (sg_generics (fi_sig x)))) (uses p)))
    (ms_methods m) (gm_privmods g).
Proof.
  intros hash m g H [[P1 _] B]. apply mock_it_built in H as (s & _ & -> & F & _).
  cbn [gen_struct gm_privmods]. apply Forall2_map_r.
  apply (Forall2_imp _ _ _ _ F). intros x f I Bf.
  destruct (made_method _ _ _ Bf) as (N & _ & _ & SS & _). split; [cbn; now rewrite N|]. intros SC.
  apply (build_scoped _ _ _ _ Bf); auto. unfold bracketed. apply P1; auto.
Qed.
Print Assumptions generated_parameters_are_declared.

(** The same for the methods of an implemented trait, if the impl block declares
    only parameters of the struct. *)
Theorem generated_trait_parameters_are_declared : forall hash m g ss,
  mock_it hash m = Some g -> well_formed m -> In ss (gm_substructs g) ->
  exists x, In x (ms_impls m)
    /\ (exists b p, im_trait x = Some (b, p) /\ gs_name ss = substruct_ident (ms_name m) (ss_name hash p))
    /\ Forall2 (fun y p =>
         gp_name p = inner_mod_ident (fn_name y)
         /\ (scopable (ms_generics m) y ->
             (forall k, In k (keys (im_generics x)) -> In k (keys (ms_generics m))) ->
             Forall (well_scoped (keys (ms_generics m) ++ keys (im_generics x)
                                  ++ keys (sg_generics (fi_sig y)))) (uses p)))
         (impl_fns x) (gs_privmods ss).
Proof.
  intros hash m g ss H [[_ P2] B] I. apply mock_it_built in H as (s & M & -> & _ & F).
  cbn [gen_struct gm_substructs] in I. apply in_map_iff in I as (t & <- & I). apply unique_in in I.
  destruct (Forall2_in_r _ _ _ _ F I) as (x & Ix & Nt).
  assert (Tt := new_trait_made _ _ _ _ _ _ Nt). assert (Ft := new_trait_fns _ _ _ _ _ _ Nt).
  exists x. split; auto. split.
  { destruct (tm_path _ _ _ Tt) as [b P]. exists b, (mt_path t). split; auto.
    cbn [substruct gs_name]. now rewrite (mo_name _ _ _ M), (tm_ss _ _ _ Tt). }
  cbn [substruct gs_privmods]. apply Forall2_map_r.
  apply (Forall2_imp _ _ _ _ Ft). intros y f Iy Bf.
  destruct (made_trait _ _ _ _ _ _ Bf) as (N & _ & _ & SS & _). split; [cbn; now rewrite N|]. intros SC IN.
  assert (W : Forall (well_scoped (keys (ms_generics m) ++ keys (sg_generics (fi_sig y)))) (uses (priv_module f))).
  { apply (build_scoped _ _ _ _ Bf); auto. unfold bracketed. exact (P2 _ _ Ix Iy). }
  revert W. apply Forall_impl. intros u. apply more_names. intros k. rewrite !in_app_iff.
  intros [K|[K|K]]; auto.
Qed.
Print Assumptions generated_trait_parameters_are_declared.

(** The same for the functions of a module. *)
Lemma foreign_scopable sg abi x : scopable sg x -> scopable sg (foreign_fn abi x).
Proof.
  intros [D C R L O T]. constructor; auto.
  - intros l I. destruct (L l I) as [L1 L2 L3 L4 L5]. constructor; auto.
  - intros i I N. destruct (T i I N) as [T1 T2 T3 T4]. constructor; auto.
Qed.

Theorem generated_module_parameters_are_declared : forall m g,
  gen_mod m = Some g -> parsed_fns (mm_content m) ->
  Forall2 (fun x p =>
    gp_name p = inner_mod_ident (fn_name x)
    /\ (scopable no_generics x ->
        Forall (well_scoped (keys (sg_generics (fi_sig x)))) (uses p)))
    (module_fns (mm_content m)) (body_mods g).
Proof.
  intros m g. unfold gen_mod, module_content.
  destruct (all_some _ (mm_content m)) as [cs|] eqn:A; [|discriminate].
  cbn [option_map]. intros E P. injection E as <-. unfold body_mods. cbn [gd_body].
  apply all_some_spec in A. revert P. generalize dependent cs.
  induction (mm_content m) as [|i items IH]; intros cs A P.
  { inversion A. constructor. }
  inversion A as [|? c ? cs' HA A']. subst. cbn [List.concat]. rewrite !flat_map_app.
  assert (PI : parsed_fns [i]) by (intros x I; apply P; apply in_flat_map in I as (j & [->|[]] & J);
    apply in_flat_map; exists j; split; [left|]; auto).
  unfold module_fns. cbn [flat_map]. apply Forall2_app; [|apply (IH _ A'); intros x I; apply P;
    apply in_flat_map in I as (j & J1 & J2); apply in_flat_map; exists j; split; [right|]; auto].
  assert (ONE : forall x f (b : builder), build b = Some f -> b_sig b = fi_sig x -> b_attrs b = fi_attrs x ->
    b_struct_generics b = None -> bracketed (sg_generics (fi_sig x)) ->
    gp_name (priv_module f) = inner_mod_ident (fn_name x)
    /\ (scopable no_generics x ->
        Forall (well_scoped (keys (sg_generics (fi_sig x)))) (uses (priv_module f)))).
  { intros x f b H HS HAT HG BX. destruct (build_built _ _ H) as (dg & di & ce & sig & BT).
    assert (PR := bt_prepared _ _ _ _ _ _ BT). split.
    - cbn [priv_module gp_name]. unfold mf_name. rewrite (bt_sig _ _ _ _ _ _ BT).
      destruct (prepared_sig _ _ _ _ _ PR) as (N & _). now rewrite N, HS.
    - intros SC. change (keys (sg_generics (fi_sig x))) with (keys no_generics ++ keys (sg_generics (fi_sig x))).
      apply (build_scoped b); auto.
      + now rewrite HG.
      + intros _. reflexivity.
      + rewrite (bt_static _ _ _ _ _ _ BT). unfold has_self. rewrite <- HS. apply static_receivers.
        exact (prepared_receivers _ _ _ _ _ PR). }
  destruct i as [x u|abi xs|s|s|s|s]; cbn [item_content] in HA; try discriminate.
  - destruct (build _) as [f|] eqn:B; [|discriminate]. injection HA as <-. cbn. constructor; [|constructor].
    apply (ONE x f _ B); auto. apply PI. cbn. auto.
  - apply all_some_spec in HA. clear A A' IH P cs'. unfold parsed_fns, module_fns in PI. cbn [flat_map] in PI.
    rewrite app_nil_r in PI.
    induction HA as [|y d ys ds H HA IHy]; [constructor|]. cbn [flat_map].
    rewrite flat_map_app. apply Forall2_app.
    + destruct y as [x u|t]; cbn [foreign_content] in H; [|discriminate].
      destruct (build _) as [f|] eqn:B; [|discriminate]. injection H as <-. cbn. constructor; [|constructor].
      destruct (ONE (foreign_fn abi x) f _ B) as [N W]; auto.
      { apply (PI x). cbn. auto. }
      split; [exact N|]. intros SC. apply W. now apply foreign_scopable.
    + apply IHy. intros x I. apply PI. cbn [flat_map]. apply in_or_app. auto.
  - injection HA as <-. constructor.
  - injection HA as <-. constructor.
Qed.
Print Assumptions generated_module_parameters_are_declared.

(** ** Examples *)

Definition sc_arg (n : ident) (t : ty) : fnarg := FaTyped (PatIdent false false n false) t.
Definition sc_with (n : ident) (a : list garg) : ty := TPath (Path false [Seg n (PaAngle a)]).
Definition sc_fnonce : bound := BTrait false [] (Path false [Seg "FnOnce" (PaParen [ty_of "T"] None)]).

(** [fn get<'a, F: FnOnce(T)>(&'a self, k: &'a str, f: F) -> &'a T] *)
Definition sc_get : fn_item :=
  FnItem [] VInherited
    (Signature "get" (Generics true [GpLifetime "a" []; GpType "F" [sc_fnonce] None] None)
       [FaReceiver (Some (Some "a")) false false (TRef (Some "a") false (ty_of "Self"));
        sc_arg "k" (TRef (Some "a") false (ty_of "str")); sc_arg "f" (ty_of "F")]
       (Some (TRef (Some "a") false (ty_of "T"))) None).
(** [fn view(&self, s: &str) -> Bar<'s>] *)
Definition sc_view : fn_item :=
  ex_fn [] "view" [ex_self; sc_arg "s" (TRef None false (ty_of "str"))]
    (Some (sc_with "Bar" [GaLifetime "s"])).
(** [fn put<Q: Debug>(q: Q) -> T] *)
Definition sc_put : fn_item :=
  FnItem [] VInherited
    (Signature "put"
       (Generics true [GpType "Q" [BTrait false [] (path_of "Debug")] None] None)
       [sc_arg "q" (ty_of "Q")] (Some (ty_of "T")) None).
(** [#[concretize] fn open<P: AsRef<T>>(&self, ps: &[P])] *)
Definition sc_open : fn_item :=
  FnItem [Attribute (path_of "concretize") None ""] VInherited
    (Signature "open"
       (Generics true [GpType "P" [BTrait false [] (Path false [Seg "AsRef" (PaAngle [GaType (ty_of "T")])])] None] None)
       [ex_self; sc_arg "ps" (TRef None false (TSlice (ty_of "P")))] None None).
Definition sc_generics : generics := Generics true [GpLifetime "s" []; GpType "T" [] None] None.
Definition sc_impl : item_impl :=
  ItemImpl [] false ex_generics (Some (false, ex_tr))
    (sc_with "MockFoo" [GaLifetime "s"; GaType (ty_of "T")]) (map IiFn [sc_get]).
Definition sc_struct : mockable_struct :=
  MockableStruct [] [] sc_generics [sc_get; sc_view; sc_put; sc_open] "MockFoo" VPublic [sc_impl].

Lemma sc_well_formed : well_formed sc_struct.
Proof.
  split; [|discriminate]. split.
  - intros f [<-|[<-|[<-|[<-|[]]]]]; discriminate || reflexivity.
  - intros x f [<-|[]] [<-|[]]. discriminate.
Qed.

Ltac sc_cases := repeat match goal with
  | H : _ \/ _ |- _ => destruct H
  | H : False |- _ => destruct H
  | H : In _ _ |- _ => cbn in H
  | H : exists _, _ |- _ => destruct H
  | H : _ /\ _ |- _ => destruct H
  | H : Exists _ _ |- _ => inversion H; clear H; subst
  | H : ?x = ?y |- _ => first [is_var x; subst x | is_var y; subst y | discriminate H | injection H; clear H; intros]
  end.
Ltac sc_lt A := constructor;
  [ split; (intros [H|H]; unfold in_param, in_pred, in_bound in H; sc_cases)
  | intros p t I H; cbn in I; sc_cases; unfold in_ty in H; cbn in H; sc_cases; (split; [reflexivity|]);
    (split; [let K := fresh in intros K; cbn in K; sc_cases; cbn; intuition discriminate|]);
    first [solve [left; cbn; auto] | right; split; [exact A|]; intros o E (? & ? & F & _); sc_cases]
  | let H := fresh in intros H; cbn in H; sc_cases; try (split; reflexivity)
  | intros (t & E & H); cbn in E; sc_cases; unfold in_ty in H; cbn in H; sc_cases;
    first [solve [left; cbn; auto] | right; split; [exact A|]; split; [reflexivity|]]
  | first [discriminate | let N := fresh in intros _ N; exfalso; apply N; cbn; auto] ].

Lemma sc_get_apart : ~ kept_apart sc_generics sc_get.
Proof.
  intros [[(i & I & N & _)|(_ & A & _)]|[H _]]; [| |discriminate].
  - cbn in I. sc_cases. apply N. apply ClosureProofs.closure_key. reflexivity.
  - destruct (A (GpLifetime "a" []) (or_introl eq_refl)) as (? & ? & ? & E & _). discriminate.
Qed.

Lemma sc_get_chosen i : In i (type_names (sg_generics (fi_sig sc_get))) -> ~ chosen sc_get i -> type_fits sc_get i.
Proof.
  intros I _. cbn in I. sc_cases. constructor.
  - repeat constructor; unfold in_param, in_bound; intros H; sc_cases.
  - intros f t b [].
  - intros p t I H. cbn in I. sc_cases; unfold in_ty in H; cbn in H; sc_cases. reflexivity.
  - intros (t & E & H). injection E as <-. cbn in H. sc_cases.
Qed.

Ltac sc_all A :=
  constructor;
  [ cbn; repeat constructor; cbn; intuition discriminate
  | cbn; intuition discriminate
  | intros k I; cbn in I; split; [intros ->; sc_cases|]; intros i -> J; cbn in *; sc_cases
  | intros l I; cbn in I; sc_cases; sc_lt A
  | intros i I H; cbn in I; sc_cases; destruct H as [H|H]; unfold in_param, in_pred, in_bound in H; sc_cases
  | ].

Lemma sc_get_scopable : scopable sc_generics sc_get.
Proof.
  sc_all sc_get_apart; [|exact sc_get_chosen].
  eexists. split; [left; reflexivity|reflexivity].
Qed.

Lemma sc_view_scopable : scopable sc_generics sc_view.
Proof. sc_all I. intros i []. Qed.

Lemma sc_put_scopable : scopable sc_generics sc_put.
Proof.
  sc_all I. intros i I N. cbn in I. sc_cases. destruct N. split; [cbn; auto|]. split; [|reflexivity].
  intros K. apply ClosureProofs.closure_key in K. discriminate.
Qed.

Lemma sc_open_scopable : scopable sc_generics sc_open.
Proof.
  sc_all I. intros i I _. cbn in I. sc_cases. constructor.
  - repeat constructor; unfold in_param, in_bound; intros H; cbn in H; sc_cases.
  - intros f t b [].
  - intros p t I H. cbn in I. sc_cases; unfold in_ty in H; cbn in H; sc_cases. split; [cbn; auto|].
    eexists. split; [left; eexists; left; reflexivity|discriminate].
  - intros (t & E & _). discriminate.
Qed.

Example generated_parameters_are_declared_applies :
  mock_it ex_hash sc_struct = Some (ex_gen sc_struct) /\ well_formed sc_struct
  /\ Forall (scopable (ms_generics sc_struct)) (ms_methods sc_struct)
  /\ map (fun p => List.length (uses p)) (gm_privmods (ex_gen sc_struct)) = [20; 21; 32; 21]%nat.
Proof.
  split; [reflexivity|]. split; [exact sc_well_formed|]. split; [|vm_compute; reflexivity].
  apply Forall_cons; [exact sc_get_scopable|]. apply Forall_cons; [exact sc_view_scopable|].
  apply Forall_cons; [exact sc_put_scopable|]. apply Forall_cons; [exact sc_open_scopable|constructor].
Qed.

Example generated_trait_parameters_are_declared_applies :
  mock_it ex_hash sc_struct = Some (ex_gen sc_struct) /\ well_formed sc_struct
  /\ (exists ss, In ss (gm_substructs (ex_gen sc_struct)) /\ List.length (gs_privmods ss) = 1%nat)
  /\ Forall (scopable (ms_generics sc_struct)) (impl_fns sc_impl)
  /\ (forall k, In k (keys (im_generics sc_impl)) -> In k (keys (ms_generics sc_struct))).
Proof.
  split; [reflexivity|]. split; [exact sc_well_formed|]. split.
  { eexists. split; [left; reflexivity|reflexivity]. }
  split; [apply Forall_cons; [exact sc_get_scopable|constructor]|]. cbn. tauto.
Qed.

(** [fn cmp<'a>(x: &'a str, y: &'a str) -> u32] in a module, and [sc_put] without
    a struct. *)
Definition sc_cmp : fn_item :=
  FnItem [] VInherited
    (Signature "cmp" (Generics true [GpLifetime "a" []] None)
       [sc_arg "x" (TRef (Some "a") false (ty_of "str")); sc_arg "y" (TRef (Some "a") false (ty_of "str"))]
       (Some (ty_of "u32")) None).
Definition sc_module : mockable_module :=
  from_module VPublic "m" [ItForeign (Some "C") [FiFn sc_cmp true]; ItFn sc_put false].

Lemma sc_cmp_apart : ~ kept_apart no_generics sc_cmp.
Proof.
  intros [[(i & I & _)|(_ & A & _)]|(_ & [H|[_ H]])]; [destruct I| |now destruct H|now destruct H].
  destruct (A (GpLifetime "a" []) (or_introl eq_refl)) as (? & ? & ? & E & _). discriminate.
Qed.
Example generated_module_parameters_are_declared_applies :
  (exists g, gen_mod sc_module = Some g) /\ parsed_fns (mm_content sc_module)
  /\ module_fns (mm_content sc_module) = [sc_cmp; sc_put]
  /\ Forall (scopable no_generics) [sc_cmp; sc_put].
Proof.
  split; [eexists; reflexivity|]. split; [intros x [<-|[<-|[]]]; discriminate|]. split; [reflexivity|].
  repeat apply Forall_cons; [| |constructor].
  - sc_all sc_cmp_apart. intros i [].
  - sc_all I. intros i I N. cbn in I. sc_cases. destruct N. split; [cbn; auto|]. split; [|reflexivity].
    intros K. apply ClosureProofs.closure_key in K. discriminate.
Qed.

(** ** What is not declared *)

(** The private module of method [x] names a parameter [k] of the struct or of [x] where
    it is not declared. *)
Definition undeclared (m : mockable_struct) (x : fn_item) (k : pkey) : Prop :=
  well_formed m /\ In x (ms_methods m)
  /\ In k (keys (ms_generics m) ++ keys (sg_generics (fi_sig x)))
  /\ exists g p u, mock_it ex_hash m = Some g /\ In p (gm_privmods g)
       /\ gp_name p = inner_mod_ident (fn_name x)
       /\ In u (uses p) /\ ~ closed k [] (us_scopes u) (us_types u).

Definition sc_one (g : generics) (a : list attribute) (l : list fnarg) (o : option ty) : fn_item :=
  FnItem a VInherited (Signature "foo" g l o None).
Definition sc_only (x : fn_item) : mockable_struct :=
  MockableStruct [] [] no_generics [x] "MockFoo" VPublic [].

Lemma sc_only_formed x : bracketed (sg_generics (fi_sig x)) -> well_formed (sc_only x).
Proof. intros B. split; [|reflexivity]. split; [intros f [<-|[]]; exact B|intros y f []]. Qed.

Section check.
Context (k : pkey).
Definition key_dec (a b : pkey) : {a = b} + {a <> b}.
Proof. decide equality; apply string_dec. Defined.
Definition token_dec (a b : token) : {a = b} + {a <> b}.
Proof. decide equality; apply string_dec. Defined.
Definition hasb (l : list token) : bool := if in_dec token_dec (tok k) l then true else false.
Definition param_hasb (p : gparam) : bool :=
  match p with
  | GpLifetime _ b => existsb (fun l => if key_dec k (KLifetime l) then true else false) b
  | GpType _ b _ => existsb (fun b => hasb (bound_tokens b)) b
  | GpConst _ t _ => hasb (tokens t)
  end.
Fixpoint closedb (outer : list pkey) (l : list generics) (ts : list ty) : bool :=
  match l with
  | [] => if existsb (fun t => hasb (tokens t)) ts then if in_dec key_dec k outer then true else false else true
  | g :: r => (if existsb param_hasb (params g) then if in_dec key_dec k (outer ++ keys g) then true else false
               else true) && closedb (outer ++ keys g) r ts
  end.
Lemma hasb_in l : hasb l = true -> In (tok k) l.
Proof. unfold hasb. destruct (in_dec _ _ _); [auto|discriminate]. Qed.
Lemma closedb_closed l : forall outer ts, closed k outer l ts -> closedb outer l ts = true.
Proof.
  induction l as [|g r IH]; cbn [closed closedb]; intros outer ts C.
  - destruct (existsb _ ts) eqn:E; auto. destruct (in_dec key_dec k outer) as [|N]; auto. destruct N. apply C.
    apply existsb_exists in E as (t & I & E). apply Exists_exists. exists t. split; auto. now apply hasb_in.
  - destruct C as [C1 C2]. rewrite (IH _ _ C2), andb_true_r.
    destruct (existsb _ _) eqn:E; auto. destruct (in_dec key_dec k _) as [|N]; auto. destruct N. apply C1. left.
    apply existsb_exists in E as (p & I & E). apply Exists_exists. exists p. split; auto.
    destruct p as [l b|i b d|i t d]; cbn in E |- *.
    + apply existsb_exists in E as (j & J & E). destruct (key_dec _ _); [|discriminate]. eauto.
    + apply existsb_exists in E as (j & J & E). apply Exists_exists. exists j. split; auto. now apply hasb_in.
    + now apply hasb_in.
Qed.
Lemma not_closed p : existsb (fun u => negb (closedb [] (us_scopes u) (us_types u))) (uses p) = true ->
  exists u, In u (uses p) /\ ~ closed k [] (us_scopes u) (us_types u).
Proof.
  intros E. apply existsb_exists in E as (u & I & E). exists u. split; auto. intros C.
  apply closedb_closed in C. rewrite C in E. discriminate.
Qed.
End check.

Lemma undeclared_only x k :
  bracketed (sg_generics (fi_sig x)) -> In k (keys (sg_generics (fi_sig x))) ->
  match mock_it ex_hash (sc_only x) with
  | Some g => match gm_privmods g with
              | [p] => gp_name p = inner_mod_ident (fn_name x)
                       /\ existsb (fun u => negb (closedb k [] (us_scopes u) (us_types u))) (uses p) = true
              | _ => False
              end
  | None => False
  end -> undeclared (sc_only x) x k.
Proof.
  intros B I H. split; [now apply sc_only_formed|]. split; [left; reflexivity|]. split; [exact I|].
  destruct (mock_it _ _) as [g|]; [|destruct H]. exists g. destruct (gm_privmods g) as [|p [|]]; try now destruct H.
  destruct H as [N H]. exists p. apply not_closed in H as (u & H). exists u.
  split; [reflexivity|]. split; [left; reflexivity|]. split; auto.
Qed.
Ltac sc_undeclared := apply undeclared_only; [discriminate|cbn; tauto|split; vm_compute; reflexivity].

Definition sc_a : generics := Generics true [GpLifetime "a" []] None.
Definition sc_str : ty := TRef (Some "a") false (ty_of "str").

(** [fn foo<'a>(&mut self, x: &'a str) -> &mut u32] *)
Theorem ref_mut_lifetimes_refuted : exists m x,
  sg_inputs (fi_sig x) = [ex_mut; sc_arg "x" sc_str]
  /\ (exists t, sg_output (fi_sig x) = Some t /\ borrows true t)
  /\ params (sg_generics (fi_sig x)) = [GpLifetime "a" []]
  /\ undeclared m x (KLifetime "a").
Proof.
  exists (sc_only (sc_one sc_a [] [ex_mut; sc_arg "x" sc_str] (Some (TRef None true (ty_of "u32"))))),
    (sc_one sc_a [] [ex_mut; sc_arg "x" sc_str] (Some (TRef None true (ty_of "u32")))).
  split; [reflexivity|].
  split. { eexists. split; [reflexivity|]. eexists _, _. split; [reflexivity|discriminate]. }
  split; [reflexivity|]. sc_undeclared.
Qed.
Print Assumptions ref_mut_lifetimes_refuted.

(** [fn foo<'a, Q>(&self, x: &'a Q)] *)
Theorem generic_argument_lifetimes_refuted : exists m x,
  sg_inputs (fi_sig x) = [ex_self; sc_arg "x" (TRef (Some "a") false (ty_of "Q"))]
  /\ sg_output (fi_sig x) = None
  /\ params (sg_generics (fi_sig x)) = [GpLifetime "a" []; GpType "Q" [] None]
  /\ undeclared m x (KLifetime "a").
Proof.
  pose (x := sc_one (Generics true [GpLifetime "a" []; GpType "Q" [] None] None) []
               [ex_self; sc_arg "x" (TRef (Some "a") false (ty_of "Q"))] None).
  exists (sc_only x), x. repeat (split; [reflexivity|]). sc_undeclared.
Qed.
Print Assumptions generic_argument_lifetimes_refuted.

(** [#[concretize] fn foo<'a, P: AsRef>(&self, x: &'a str, p: P)] *)
Theorem concretized_lifetimes_refuted : exists m x,
  concretized x = true
  /\ sg_inputs (fi_sig x) = [ex_self; sc_arg "x" sc_str; sc_arg "p" (ty_of "P")]
  /\ sg_output (fi_sig x) = None
  /\ undeclared m x (KLifetime "a").
Proof.
  pose (x := sc_one (Generics true [GpLifetime "a" []; GpType "P" [BTrait false [] (path_of "AsRef")] None] None)
               [Attribute (path_of "concretize") None ""]
               [ex_self; sc_arg "x" sc_str; sc_arg "p" (ty_of "P")] None).
  exists (sc_only x), x. repeat (split; [reflexivity|]). sc_undeclared.
Qed.
Print Assumptions concretized_lifetimes_refuted.

(** [fn foo<'a>(&self, x: Baz<'a>) -> Bar<'a>] *)
Theorem shared_lifetimes_refuted : exists m x,
  sg_inputs (fi_sig x) = [ex_self; sc_arg "x" (sc_with "Baz" [GaLifetime "a"])]
  /\ sg_output (fi_sig x) = Some (sc_with "Bar" [GaLifetime "a"])
  /\ params (sg_generics (fi_sig x)) = [GpLifetime "a" []]
  /\ undeclared m x (KLifetime "a").
Proof.
  pose (x := sc_one sc_a [] [ex_self; sc_arg "x" (sc_with "Baz" [GaLifetime "a"])]
               (Some (sc_with "Bar" [GaLifetime "a"]))).
  exists (sc_only x), x. repeat (split; [reflexivity|]). sc_undeclared.
Qed.
Print Assumptions shared_lifetimes_refuted.

(** [fn foo<'a>() -> Bar<'a>] *)
Theorem static_lifetimes_refuted : exists m x,
  sg_inputs (fi_sig x) = []
  /\ sg_output (fi_sig x) = Some (sc_with "Bar" [GaLifetime "a"])
  /\ params (sg_generics (fi_sig x)) = [GpLifetime "a" []]
  /\ undeclared m x (KLifetime "a").
Proof.
  pose (x := sc_one sc_a [] [] (Some (sc_with "Bar" [GaLifetime "a"]))).
  exists (sc_only x), x. repeat (split; [reflexivity|]). sc_undeclared.
Qed.
Print Assumptions static_lifetimes_refuted.

(** [fn foo<'a, Q: Tag<'a>>(&self, q: Q)] *)
Theorem bound_lifetimes_refuted : exists m x,
  sg_inputs (fi_sig x) = [ex_self; sc_arg "q" (ty_of "Q")]
  /\ sg_output (fi_sig x) = None
  /\ undeclared m x (KLifetime "a").
Proof.
  pose (x := sc_one (Generics true [GpLifetime "a" []; GpType "Q"
                 [BTrait false [] (Path false [Seg "Tag" (PaAngle [GaLifetime "a"])])] None] None) []
               [ex_self; sc_arg "q" (ty_of "Q")] None).
  exists (sc_only x), x. repeat (split; [reflexivity|]). sc_undeclared.
Qed.
Print Assumptions bound_lifetimes_refuted.

(** [fn foo<F: FnOnce(T)>(&self, f: Option<F>)] *)
Theorem nested_closures_refuted : exists m x,
  sg_inputs (fi_sig x) = [ex_self; sc_arg "f" (sc_with "Option" [GaType (ty_of "F")])]
  /\ sg_output (fi_sig x) = None
  /\ params (sg_generics (fi_sig x)) = [GpType "F" [sc_fnonce] None]
  /\ undeclared m x (KType "F").
Proof.
  pose (x := sc_one (Generics true [GpType "F" [sc_fnonce] None] None) []
               [ex_self; sc_arg "f" (sc_with "Option" [GaType (ty_of "F")])] None).
  exists (sc_only x), x. repeat (split; [reflexivity|]). sc_undeclared.
Qed.
Print Assumptions nested_closures_refuted.

(** [impl<U> Tr for MockFoo<U> { fn a(&self, u: U) }] for [struct Foo<T>]: the
    parameter of the impl block is not declared. *)
Theorem impl_parameters_refuted : exists m g x y ss p u,
  mock_it ex_hash m = Some g /\ well_formed m
  /\ ms_impls m = [x] /\ impl_fns x = [y] /\ keys (im_generics x) = [KType "U"]
  /\ In ss (gm_substructs g) /\ In p (gs_privmods ss) /\ gp_name p = inner_mod_ident (fn_name y)
  /\ In u (uses p) /\ ~ closed (KType "U") [] (us_scopes u) (us_types u).
Proof.
  pose (y := ex_fn [] "a" [ex_self; sc_arg "u" (ty_of "U")] None).
  pose (x := ItemImpl [] false (Generics true [GpType "U" [] None] None) (Some (false, ex_tr))
               (sc_with "MockFoo" [GaType (ty_of "U")]) [IiFn y]).
  pose (m := MockableStruct [] [] ex_generics [] "MockFoo" VPublic [x]).
  exists m, (ex_gen m), x, y.
  destruct (gm_substructs (ex_gen m)) as [|ss [|]] eqn:E; [discriminate| |discriminate]. exists ss.
  assert (L : map (fun p => (gp_name p, existsb (fun u => negb (closedb (KType "U") [] (us_scopes u) (us_types u))) (uses p)))
                (gs_privmods ss) = [(inner_mod_ident (fn_name y), true)]).
  { change ss with (hd ss [ss]). rewrite <- E. vm_compute. reflexivity. }
  destruct (gs_privmods ss) as [|p [|]]; try discriminate. cbn [map] in L. injection L as N H.
  apply not_closed in H as (u & H). exists p, u. split; [reflexivity|].
  split. { split; [|discriminate]. split; [intros f []|]. intros z f [<-|[]] [<-|[]]. reflexivity. }
  repeat (split; [reflexivity|]). split; [left; reflexivity|]. split; [left; reflexivity|].
  split; [exact N|]. exact H.
Qed.
Print Assumptions impl_parameters_refuted.
