(** * PropModRun: the mock of a module as a whole

    Property C75. *)

From Coq Require Import List Bool String Ascii NArith Arith Permutation Lia.
From Verif Require Import Base Times Expect Mock Spec SysSpec SysProofs SuperProofs Samples PropStatics.
From Verif Require Import Ast AstSpec TyEq Rewrite Derive DeriveSpec Names CallSpec
  Sig SigSpec MockFn MockFnSpec Item ItemProofs
  NameProofs PipeProofs PropItems MockItem ItemSpec PipeSpec ModSpec PropModules
  GenRun GenRunSpec GenRunLists GenRunProofs GenRunCount ModRun ModRunSpec ModRunProofs.
Import ListNotations.
Open Scope string_scope.
Open Scope list_scope.

(** ** C75 *)

(** A test of the mock of a module, with functions found by their names, is a test
    of Mock.v with a static method for each function of the module ([described_fn],
    in terms of the input). *)
Theorem generated_module_runs_like_the_model :
  forall (V U : Type) vis n items g (te : types V),
  gen_mod (from_module vis n items) = Some g ->
  free_functions items -> parsed_fns items -> distinct_fns items ->
  exists st,
    Forall2 (described_fn n te) (module_fns items) st
    /\ (forall x f, In x (module_fns items) -> same_name (fn_name x) f = true ->
          exists d, nth_error st (place f (module_fns items)) = Some d /\ described_fn n te x d)
    /\ forall c sh u (l : list (mop V U)), Forall (named_fn items) l ->
         exists y0 y,
           minit g u = Some y0
           /\ mrun g te c sh y0 l = Some (y, snd (run c sh (init u st) (map (to_mod_op items) l)))
           /\ my_world y = y_world (fst (run c sh (init u st) (map (to_mod_op items) l))).
Proof.
  intros V U vis n items g te G FF PF DF. destruct (a_module vis n items g G) as (fs & M).
  exists (mst fs te). split; [|split].
  - exact (is_described_fns n items g fs M FF PF te).
  - exact (mdeclaration n items g fs M FF PF DF te).
  - intros c sh u l F.
    destruct (minit_sim (U := U) n items g fs M FF PF DF te u) as (y0 & I & S).
    destruct (mrun_sim n items g fs M FF PF DF te c sh l y0 _ S F) as (y & R & S').
    exists y0, y. split; [exact I|]. split; [exact R|]. exact (mi_world _ _ _ _ S').
Qed.
Print Assumptions generated_module_runs_like_the_model.

(** Other names do not compile. *)
Theorem undeclared_functions_do_not_compile :
  forall (V U : Type) vis n items g (te : types V) c sh (y : msys V U) (o : mop V U),
  gen_mod (from_module vis n items) = Some g ->
  free_functions items -> parsed_fns items ->
  ~ named_fn items o -> mstep g te c sh y o = None.
Proof.
  intros V U vis n items g te c sh y o G FF PF N. destruct (a_module vis n items g G) as (fs & M).
  exact (mundeclared_step n items g fs M FF PF te c sh y o N).
Qed.
Print Assumptions undeclared_functions_do_not_compile.

Lemma not_a_context s : "checkpoint" = (s ++ "_context")%string -> False.
Proof.
  intros J. assert (L := f_equal String.length J). rewrite append_length in L. cbn in L.
  destruct s as [|a1 [|a2 [|a3 s]]]; cbn in *; try discriminate. lia.
Qed.

(** The functions of the mock module have different names, if those of the module
    have, and are not called like generated ones. *)
Theorem clear_modules_are_distinct :
  forall vis n items g,
  gen_mod (from_module vis n items) = Some g ->
  free_functions items -> parsed_fns items -> distinct_fns items -> clear_fns items ->
  distinct_items g.
Proof.
  intros vis n items g G FF PF DF CF. destruct (a_module vis n items g G) as (fs & M).
  assert (E : map (fun f => unraw_name (mf_name f)) fs = map (fun x => unraw_name (fn_name x)) (module_fns items)).
  { assert (F := mcells_link n items g fs M FF PF (fun _ => (None, fun _ : nat => ""))).
    unfold mcells in F. revert F. generalize (module_fns items). clear. induction fs as [|f fs IH]; intros l F;
      inversion F as [|x ? l' ? (N & _) F']; subst; auto. cbn in *. now rewrite N, IH with (1 := F'). }
  unfold distinct_items. rewrite (mo_calls _ _ _ _ M), (mo_contexts _ _ _ _ M), !map_map.
  change (map (fun x => unraw_name (sg_ident (gc_sig (call_fn x None)))) fs)
    with (map (fun f => unraw_name (mf_name f)) fs).
  change (map (fun x => gx_name (context_fn x None)) fs)
    with (map (fun f => context_ident (mf_name f)) fs).
  assert (EC : map (fun f => context_ident (mf_name f)) fs
               = map (fun x => (unraw_name (fn_name x) ++ "_context")%string) (module_fns items)).
  { revert E. generalize (module_fns items). clear. induction fs as [|f fs IH]; intros [|x l] E; try discriminate; auto.
    cbn [map] in *. injection E as E E'. rewrite (IH _ E'). unfold context_ident. now rewrite unraw_same, E. }
  rewrite E, EC. apply NoDup_app_intro; [exact DF|apply NoDup_app_intro|].
  - eapply NoDup_map_factor; [|exact DF]. intros x y _ _ H. cbn in H. now apply append_inj_r in H.
  - repeat constructor; auto.
  - intros a I J. apply in_map_iff in I as (x & <- & I). destruct J as [J|[]].
    exact (not_a_context _ J).
  - intros a I J. apply in_map_iff in I as (x & <- & I). destruct (CF x I) as [C1 C2].
    apply in_app_iff in J as [J|[J|[]]]; [|congruence].
    apply in_map_iff in J as (y & E' & J). symmetry in E'. exact (C2 y J E').
Qed.
Print Assumptions clear_modules_are_distinct.

(** [pub mod m { use a::b; impl S {} #[cfg(unix)] pub fn f(mut x: u32) -> impl Tr;
      extern "C" { fn g(x: u32); } pub fn h<T>() -> &'static T; }] *)
Definition mr_items : list item :=
  ex_items ++ [ItFn (FnItem [] VPublic
    (Signature "r#type" (Generics true [GpType "T" [] None] None) [] (Some (ty_of "T")) None)) false].

Lemma mr_free : free_functions mr_items.
Proof.
  intros i [<-|[<-|[<-|[<-|[<-|[]]]]]]; auto. intros x u [E|[]]. injection E as <- _. reflexivity.
Qed.
Lemma mr_parsed : parsed_fns mr_items.
Proof. intros x [<-|[<-|[<-|[]]]] H; first [discriminate H|reflexivity]. Qed.
Lemma mr_distinct : distinct_fns mr_items.
Proof. unfold distinct_fns. cbn. repeat constructor; cbn; intuition discriminate. Qed.
Lemma mr_clear : clear_fns mr_items.
Proof. intros x [<-|[<-|[<-|[]]]]; (split; [discriminate|]); intros y [<-|[<-|[<-|[]]]]; discriminate. Qed.

Definition mr_gen : gen_module :=
  match gen_mod (from_module VPublic "m" mr_items) with
  | Some g => g
  | None => GenModule VPublic "" [] []
  end.

Example clear_modules_are_distinct_applies :
  gen_mod (from_module VPublic "m" mr_items) = Some mr_gen
  /\ free_functions mr_items /\ parsed_fns mr_items /\ distinct_fns mr_items /\ clear_fns mr_items
  /\ map gx_name (body_contexts mr_gen) = ["f_context"; "g_context"; "type_context"].
Proof. exact (conj eq_refl (conj mr_free (conj mr_parsed (conj mr_distinct (conj mr_clear eq_refl))))). Qed.

Definition mr_te : types nat := fun _ => (None, fun _ => "?").
Definition mr_test : list (mop nat nat) :=
  [MExpect "f" 0%nat [StTimes (ANum 1); StReturnConst 5%nat];
   MExpect "r#type" 3%nat [StTimes (ANum 2); StReturnConst 6%nat];
   MCall "f" 0%nat [1%nat]; MCall "r#type" 3%nat []; MCall "r#type" 4%nat [];
   MCheckpoint; MCheckpoint; MCall "f" 0%nat [2%nat]].
Example generated_module_runs_like_the_model_applies :
  gen_mod (from_module VPublic "m" mr_items) = Some mr_gen
  /\ free_functions mr_items /\ parsed_fns mr_items /\ distinct_fns mr_items
  /\ Forall (named_fn mr_items) mr_test
  /\ match minit mr_gen 0%nat with
     | Some y => option_map snd (mrun mr_gen mr_te debug64 (fun s => s) y mr_test)
     | None => None
     end
     = Some [Ret None; Ret None; Ret (Some 5%nat); Ret (Some 6%nat); Panic (MNoMatch "mock_m::r#type()");
             Panic (MTooFew "r#type" "<anything>" 1 2); Ret None; Panic (MNoMatch "mock_m::f(?)")].
Proof.
  split; [reflexivity|]. split; [exact mr_free|]. split; [exact mr_parsed|]. split; [exact mr_distinct|]. split.
  - unfold mr_test. repeat (apply Forall_cons; [cbn [named_fn]; first
      [exact Logic.I
      |eexists; split; [left; reflexivity|reflexivity]
      |eexists; split; [right; right; left; reflexivity|reflexivity]]|]).
    apply Forall_nil.
  - vm_compute. reflexivity.
Qed.

Example undeclared_functions_do_not_compile_applies :
  ~ named_fn mr_items (MCall "S" 0%nat [] : mop nat nat)
  /\ ~ named_fn mr_items (MCtxDrop "f_context" : mop nat nat)
  /\ named_fn mr_items (MCtxDrop "type" : mop nat nat).
Proof.
  split; [|split].
  - intros (x & I & N). cbn in I. repeat (destruct I as [<-|I]; [discriminate|]). destruct I.
  - intros (x & I & N). cbn in I. repeat (destruct I as [<-|I]; [discriminate|]). destruct I.
  - eexists. split; [right; right; left; reflexivity|reflexivity].
Qed.

(** A function called [checkpoint], or like another's context, clashes. *)
Definition clashing (a b : ident) : list item :=
  [ItFn (ex_fn [] a [] None) false; ItFn (ex_fn [] b [] None) false].
Lemma clashing_ok a b : unraw_name a <> unraw_name b ->
  free_functions (clashing a b) /\ parsed_fns (clashing a b) /\ distinct_fns (clashing a b).
Proof.
  intros N. split; [|split].
  - intros i [<-|[<-|[]]]; reflexivity.
  - intros x [<-|[<-|[]]] _; reflexivity.
  - unfold distinct_fns. cbn. repeat constructor; cbn; intuition.
Qed.

Theorem checkpoint_functions_refuted :
  exists vis n items g, gen_mod (from_module vis n items) = Some g
    /\ free_functions items /\ parsed_fns items /\ distinct_fns items
    /\ In "checkpoint" (map fn_name (module_fns items)) /\ ~ distinct_items g.
Proof.
  exists VPublic, "m", (clashing "checkpoint" "a"), (match gen_mod (from_module VPublic "m" (clashing "checkpoint" "a"))
    with Some g => g | None => mr_gen end).
  split; [reflexivity|]. destruct (clashing_ok "checkpoint" "a") as (A & B & C); [discriminate|].
  repeat split; auto. { cbn. auto. }
  intros N. cbn in N. inversion N as [|? ? X _]. apply X. cbn. auto 8.
Qed.
Print Assumptions checkpoint_functions_refuted.

Theorem context_functions_refuted :
  exists vis n items g, gen_mod (from_module vis n items) = Some g
    /\ free_functions items /\ parsed_fns items /\ distinct_fns items
    /\ ~ In "checkpoint" (map fn_name (module_fns items)) /\ ~ distinct_items g.
Proof.
  exists VPublic, "m", (clashing "a_context" "a"), (match gen_mod (from_module VPublic "m" (clashing "a_context" "a"))
    with Some g => g | None => mr_gen end).
  split; [reflexivity|]. destruct (clashing_ok "a_context" "a") as (A & B & C); [discriminate|].
  split; [exact A|]. split; [exact B|]. split; [exact C|]. split. { cbn. intuition discriminate. }
  intros N. cbn in N. inversion N as [|? ? X _]. apply X. cbn. auto 8.
Qed.
Print Assumptions context_functions_refuted.

(** ** Whole tests *)

Lemma fn_returns_static n (V : Type) (te : types V) x d :
  described_fn n te x d ->
  (forall t b, sg_output (fi_sig x) = Some t -> ~ borrows b t) -> md_kind d = Expect.KStatic.
Proof.
  intros D O. destruct (md_kind d) eqn:E; auto; exfalso.
  - destruct (proj1 (df_ref _ _ _ _ D) E) as (t & H & B). exact (O t false H B).
  - destruct (proj1 (df_mut _ _ _ _ D) E) as (t & H & B). exact (O t true H B).
Qed.

(** The call as the messages show it. *)
Definition calling {V} (n : ident) (te : types V) (f : ident) (args : list V) : string :=
  ("mock_" ++ unraw_name n ++ "::" ++ f
   ++ "(" ++ join_comma (map (snd (te ["__" ++ unraw_name f])) args) ++ ")")%string.

Lemma described_call {V} n (te : types V) x d args :
  described_fn n te x d -> call_desc (md_me d) args = calling n te (fn_name x) args.
Proof.
  intros D. unfold call_desc, calling. rewrite (df_desc _ _ _ _ D), (df_debug _ _ _ _ D).
  now rewrite !append_assoc.
Qed.

(** A function that is expected [n] times and returns [v] answers [q <= n] calls with
    [v], and its context is content when dropped exactly if [q = n]; after that the
    function expects nothing. *)
Theorem generated_module_counts_calls :
  forall (V U : Type) vis name items g (te : types V) c (sh : shuffle V U) u x k n q (v : V) args args',
  gen_mod (from_module vis name items) = Some g ->
  free_functions items -> parsed_fns items -> distinct_fns items ->
  fair sh -> (n < umax c)%N -> (N.of_nat q <= n)%N ->
  In x (module_fns items) ->
  (forall t b, sg_output (fi_sig x) = Some t -> ~ borrows b t) ->
  let f := fn_name x in
  exists y0 y,
    minit g u = Some y0
    /\ mrun g te c sh y0
         (MExpect f k [StTimes (ANum n); StReturnConst v]
          :: repeat (MCall f k args) q ++ [MCtxDrop f; MCall f k args'])
       = Some (y, Ret None :: repeat (Ret (Some v)) q
                  ++ [if (N.of_nat q =? n)%N then Ret None
                      else Panic (MTooFew f "<anything>" (N.of_nat q) n);
                      Panic (MNoMatch (calling name te f args'))]).
Proof.
  intros V U vis name items g te c sh u x k n q v args args' G FF PF DF F B Q I O f.
  destruct (generated_module_runs_like_the_model V U vis name items g te G FF PF DF) as (st & _ & L & R).
  assert (SN : same_name f f = true) by apply String.eqb_refl.
  destruct (L x f I SN) as (d & E & D).
  assert (N : declares_fn items f) by (exists x; auto).
  destruct (R c sh u (MExpect f k [StTimes (ANum n); StReturnConst v]
          :: repeat (MCall f k args) q ++ [MCtxDrop f; MCall f k args'])) as (y0 & y & I0 & R0 & _).
  { constructor; [exact N|]. apply Forall_app. split.
    - apply Forall_forall. intros o J. apply repeat_spec in J. subst o. exact N.
    - repeat constructor; exact N. }
  exists y0, y. rewrite R0.
  cbn [map to_mod_op]. rewrite map_app, map_repeat'. cbn [map to_mod_op].
  destruct (static_test_run c sh F d (fn_returns_static _ _ _ _ _ D O) n B v k st _ E u args q
              [OStaticCall (place f (module_fns items)) k args'] Q) as (w & t & T).
  unfold chain in T. rewrite T. change (calling name te f args') with (calling name te (fn_name x) args').
  rewrite <- (described_call name te x d args' D).
  split; [exact I0|]. do 2 f_equal.
  assert (X := fresh_call c sh d k st _ E w t args').
  cbn [run]. destruct (step c sh (Sys w t [] (fresh st)) _) as [z r]. cbn [snd] in *. rewrite X.
  do 3 f_equal. unfold verdict. rewrite (df_name _ _ _ _ D). now destruct (N.of_nat q =? n)%N.
Qed.
Print Assumptions generated_module_counts_calls.

(** The call after the last one expected panics.  The panic drops the context, which
    forgets the failure: the next test starts without expectations. *)
Theorem generated_module_refuses_surplus_calls :
  forall (V U : Type) vis name items g (te : types V) c (sh : shuffle V U) u x k n (v : V) args,
  gen_mod (from_module vis name items) = Some g ->
  free_functions items -> parsed_fns items -> distinct_fns items ->
  fair sh -> (n < umax c)%N ->
  In x (module_fns items) ->
  (forall t b, sg_output (fi_sig x) = Some t -> ~ borrows b t) ->
  let f := fn_name x in
  exists y0 y,
    minit g u = Some y0
    /\ mrun g te c sh y0
         (MExpect f k [StTimes (ANum n); StReturnConst v]
          :: repeat (MCall f k args) (S (N.to_nat n))
          ++ [MUnwinding true; MCtxDrop f; MUnwinding false; MCall f k args])
       = Some (y, Ret None :: repeat (Ret (Some v)) (N.to_nat n)
                  ++ [Panic (Base.MCall f "<anything>" (if (n =? 0)%N then TeNever else TeTooMany (n + 1) n));
                      Ret None; Ret None; Ret None; Panic (MNoMatch (calling name te f args))]).
Proof.
  intros V U vis name items g te c sh u x k n v args G FF PF DF F B I O f.
  destruct (generated_module_runs_like_the_model V U vis name items g te G FF PF DF) as (st & _ & L & R).
  assert (SN : same_name f f = true) by apply String.eqb_refl.
  destruct (L x f I SN) as (d & E & D).
  assert (N : declares_fn items f) by (exists x; auto).
  destruct (R c sh u (MExpect f k [StTimes (ANum n); StReturnConst v]
          :: repeat (MCall f k args) (S (N.to_nat n))
          ++ [MUnwinding true; MCtxDrop f; MUnwinding false; MCall f k args])) as (y0 & y & I0 & R0 & _).
  { constructor; [exact N|]. apply Forall_app. split.
    - apply Forall_forall. intros o J. apply repeat_spec in J. subst o. exact N.
    - repeat constructor; exact N. }
  exists y0, y. split; [exact I0|]. rewrite R0. do 2 f_equal.
  cbn [map to_mod_op]. rewrite map_app, map_repeat'. cbn [map to_mod_op].
  refine (eq_trans (static_surplus_run c sh F d (fn_returns_static _ _ _ _ _ D O) n B v k st _ E u args) _).
  unfold surplus. change (calling name te f args) with (calling name te (fn_name x) args).
  now rewrite (df_name _ _ _ _ D), <- (described_call name te x d args D).
Qed.
Print Assumptions generated_module_refuses_surplus_calls.

(** The order of the hash maps cannot be observed, except in which of several
    failures is reported. *)
Theorem generated_module_hides_hash_order :
  forall (V U : Type) vis n items g (te : types V) c (sh1 sh2 : shuffle V U) u l,
  gen_mod (from_module vis n items) = Some g ->
  free_functions items -> parsed_fns items -> distinct_fns items ->
  fair sh1 -> fair sh2 -> Forall (named_fn items) l ->
  exists y0 y1 y2 r1 r2,
    minit g u = Some y0
    /\ mrun g te c sh1 y0 l = Some (y1, r1) /\ mrun g te c sh2 y0 l = Some (y2, r2)
    /\ my_world y1 = my_world y2 /\ Forall2 Spec.same_outcome r1 r2.
Proof.
  intros V U vis n items g te c sh1 sh2 u l G FF PF DF F1 F2 N.
  destruct (generated_module_runs_like_the_model V U vis n items g te G FF PF DF) as (st & _ & _ & R).
  destruct (R c sh1 u l N) as (y0 & y1 & I1 & R1 & W1).
  destruct (R c sh2 u l N) as (y0' & y2 & I2 & R2 & W2).
  rewrite I1 in I2. injection I2 as <-.
  destruct (hash_order_is_irrelevant V U c sh1 sh2 u st (map (to_mod_op items) l) F1 F2) as (E & O).
  exists y0, y1, y2. do 2 eexists. split; [exact I1|]. split; [exact R1|]. split; [exact R2|].
  split; [|exact O]. now rewrite W1, W2, E.
Qed.
Print Assumptions generated_module_hides_hash_order.

(** The foreign function [g], expected three times and called twice, or four times. *)
Example generated_module_counts_calls_applies :
  let x := FnItem [] VInherited (Signature "g" no_generics [ex_typed false] None None) in
  gen_mod (from_module VPublic "m" mr_items) = Some mr_gen
  /\ free_functions mr_items /\ parsed_fns mr_items /\ distinct_fns mr_items
  /\ fair (fun s : gstore nat nat => rev s)
  /\ (3 < umax debug16)%N /\ (N.of_nat 2 <= 3)%N
  /\ In x (module_fns mr_items)
  /\ (forall t b, sg_output (fi_sig x) = Some t -> ~ borrows b t)
  /\ calling "m" mr_te (fn_name x) [7%nat] = "mock_m::g(?)".
Proof.
  split; [reflexivity|]. split; [exact mr_free|]. split; [exact mr_parsed|]. split; [exact mr_distinct|].
  split; [intros s; symmetry; apply Permutation_rev|].
  split; [reflexivity|]. split; [discriminate|]. split; [right; left; reflexivity|]. split; [discriminate|reflexivity].
Qed.
