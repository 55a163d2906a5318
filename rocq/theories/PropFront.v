(** * PropFront: what the macros read (C86), and [#[automock]] written out with [mock!] (C87) *)

From Coq Require Import List Bool String NArith Arith Lia.
From Verif Require Import Ast AstSpec TyEq Rewrite Derive DeriveSpec Names Subst SubstProofs PropSubst Sig MockFn Item
  ItemProofs MockItem Errors BodySpec PipeSpec PropPipeline PropBody EndSpec EndProofs PropEnd Front FrontSpec.
Import ListNotations.
Open Scope string_scope.
Open Scope list_scope.

(** ** The parsers *)

Lemma braces_read l : forall c m c' m', read_braces l c m = Read (c', m') <->
  Forall brace_item l
  /\ c' = c ++ flat_map (fun i => match i with RaConst n e => [(n, e)] | _ => [] end) l
  /\ m' = m ++ flat_map (fun i => match i with RaBare f => [f] | _ => [] end) l.
Proof.
  induction l as [|i l IH]; intros c m c' m'; cbn [read_braces flat_map].
  - rewrite !app_nil_r. split; [intros X; injection X as <- <-; auto|intros (_ & -> & ->); reflexivity].
  - destruct i; try (split; [discriminate|]; intros (F & _); inversion F; contradiction);
      rewrite IH, <- !app_assoc; cbn [app]; split; intros (F & ? & ?).
    + split; auto. constructor; [exact Logic.I|exact F].
    + inversion F; auto.
    + split; auto. constructor; [exact Logic.I|exact F].
    + inversion F; auto.
Qed.

Lemma impl_item_read i y : read_impl_item i = Read y <-> item_reads i y.
Proof.
  split.
  - destruct i as [f|n e|n t|[at_ v s]|s|s]; cbn; try discriminate.
    4: destruct v; try discriminate.
    all: intros X; injection X as <-; constructor.
  - intros []; reflexivity.
Qed.

Lemma impl_items_read l : forall k, read_impl_items l = Read k <-> Forall2 item_reads l k.
Proof.
  induction l as [|i l IH]; intros k; cbn [read_impl_items].
  - split; [intros X; injection X as <-; constructor|]. intros X; inversion X; reflexivity.
  - split.
    + destruct (read_impl_item i) as [y|m|] eqn:E; cbn; try discriminate.
      destruct (read_impl_items l) as [r|m|] eqn:F; cbn; try discriminate. intros X. injection X as <-.
      constructor; [now apply impl_item_read|now apply IH].
    + intros X. inversion X as [|? y ? r A B]; subst. apply impl_item_read in A. apply IH in B.
      rewrite A. cbn. rewrite B. reflexivity.
Qed.

Lemma impl_read x y : read_impl x = Read y <-> block_reads x y.
Proof.
  unfold read_impl. split.
  - destruct (read_impl_items (ri_items x)) as [l|m|] eqn:E; cbn; try discriminate. intros X. injection X as <-.
    constructor; try reflexivity. now apply impl_items_read.
  - destruct y as [a u g t s l]. intros [A U G T S L]. cbn in *. subst. apply impl_items_read in L. now rewrite L.
Qed.

Lemma impls_read l : forall p k, read_impls l p = Read k <->
  exists r, k = p ++ r /\ Forall2 (fun i y => exists x, i = RmImpl x /\ block_reads x y) l r.
Proof.
  induction l as [|i l IH]; intros p k; cbn [read_impls].
  - split.
    + intros X; injection X as <-. exists []. split; [now rewrite app_nil_r|constructor].
    + intros (r & -> & F). inversion F. now rewrite app_nil_r.
  - destruct i as [x|t|v n c|s].
    2-4: split; [discriminate|]; intros (r & _ & F); inversion F as [|? ? ? ? (x & X & _)]; discriminate.
    split.
    + destruct (read_impl x) as [y|m|] eqn:E; cbn; try discriminate. intros X. apply IH in X as (r & -> & F).
      exists (y :: r). split; [now rewrite <- app_assoc|]. constructor; [|exact F].
      exists x. split; [reflexivity|]. now apply impl_read.
    + intros (r & -> & F). inversion F as [|? y ? r' (x' & X & B) F' ]; subst. injection X as <-.
      apply impl_read in B. rewrite B. cbn [and_then]. apply IH. exists r'. split; [now rewrite <- app_assoc|exact F'].
Qed.

Lemma mock_read r d : read_mock r = Read d <-> mock_reads r d.
Proof.
  unfold read_mock. split.
  - destruct (read_braces (rm_braces r) [] []) as [[c m]|e|] eqn:B; cbn [and_then]; try discriminate.
    destruct (read_impls (rm_items r) []) as [k|e|] eqn:I; cbn [and_then]; try discriminate.
    intros X. injection X as <-. apply braces_read in B as (F & -> & ->). apply impls_read in I as (y & -> & G).
    constructor; auto.
  - destruct d as [a v n [gt gp gw] c m i]. intros [A V N P T W B C M I]. cbn in *.
    assert (X : read_braces (rm_braces r) [] [] = Read (c, m)) by (apply braces_read; auto).
    rewrite X. cbn [and_then].
    assert (Y : read_impls (rm_items r) [] = Read i) by (apply impls_read; exists i; auto).
    rewrite Y. cbn [and_then fst snd]. subst. destruct (rm_params r); reflexivity.
Qed.

(** ** C86 *)

(** [mock!] makes a mock of what is written, if that is functions without bodies and constants in
    the braces, followed by impl blocks; otherwise it makes nothing. *)
Theorem mock_reads_its_grammar :
  forall hash r k g,
  do_mock hash r = Expands k g
  <-> k = None /\ exists d m, mock_reads r d /\ mock_macro hash d = Some m /\ g = GMock m.
Proof.
  intros hash r k g. unfold do_mock. split.
  - destruct (read_mock r) as [d|e|] eqn:R; try discriminate. unfold emit.
    destruct (mock_macro hash d) as [m|] eqn:M; cbn; [|discriminate]. intros X. injection X as <- <-.
    split; [reflexivity|]. exists d, m. split; [now apply mock_read|auto].
  - intros (-> & d & m & R & M & ->). apply mock_read in R. rewrite R, M. reflexivity.
Qed.
Print Assumptions mock_reads_its_grammar.

Lemma alike_item_read i j : alike i j -> read_impl_item i = read_impl_item j.
Proof. intros []; reflexivity. Qed.
Lemma alike_items_read l k : Forall2 alike l k -> read_impl_items l = read_impl_items k.
Proof. intros F. induction F as [|i j l k A F IH]; cbn; [reflexivity|]. now rewrite (alike_item_read i j A), IH. Qed.
Lemma alike_impls_read l k : Forall2 alike_items l k -> forall p, read_impls l p = read_impls k p.
Proof.
  intros F. induction F as [|i j l k A F IH]; intros p; cbn [read_impls]; [reflexivity|].
  destruct A as [i|x r A].
  - destruct i as [x|t|v n c|s]; auto. destruct (read_impl x); cbn; auto.
  - unfold read_impl at 2. cbn [ri_attrs ri_unsafe ri_generics ri_trait ri_self ri_items].
    rewrite <- (alike_items_read _ _ A). fold (read_impl x). unfold read_impl.
    destruct (read_impl_items (ri_items x)); cbn; auto.
Qed.

(** A body changes nothing in the impl blocks of [mock!]. *)
Theorem bodies_do_not_matter :
  forall hash r l, Forall2 alike_items (rm_items r) l -> do_mock hash (with_raw_items r l) = do_mock hash r.
Proof.
  intros hash r l F. unfold do_mock, read_mock, with_raw_items.
  cbn [rm_attrs rm_vis rm_name rm_params rm_where rm_braces rm_items].
  now rewrite (alike_impls_read _ _ F []).
Qed.
Print Assumptions bodies_do_not_matter.

(** [#[automock]] leaves the item where it is, in front of the mock, and takes nothing but traits,
    impl blocks and modules, with nothing but types in its own brackets. *)
Theorem automock_keeps_the_item :
  forall hash a i k g, do_automock hash a i = Expands k g ->
  k = Some i
  /\ (exists l, a = map type_attr l)
  /\ ((exists t, i = RmTrait t) \/ (exists x, i = RmImpl x)
      \/ (exists v n c, i = RmMod v n (Some c))).
Proof.
  intros hash a i k g H. unfold do_automock in H.
  destruct (read_attrs a) as [l|e|] eqn:R; try discriminate.
  destruct (parse_attrs_error l) eqn:E; [discriminate|].
  assert (A : exists l0, a = map type_attr l0).
  { clear H. revert l R E. induction a as [|[n t|s] a IH]; intros l R E; cbn in R; [now exists []| |discriminate].
    destruct (read_attrs a) as [l'|e|]; cbn in R; try discriminate. injection R as <-.
    cbn in E. destruct t as [t|]; [|discriminate]. destruct (IH l' eq_refl E) as (l0 & ->).
    now exists ((n, t) :: l0). }
  unfold emit in H. destruct (mock_item_of hash l i) as [x|] eqn:M; [|discriminate]. injection H as <- <-.
  split; [reflexivity|]. split; [exact A|].
  destruct i as [y|t|v n c|s]; cbn in M; [eauto| eauto| |discriminate].
  right. right. destruct c as [c|]; [eauto|discriminate].
Qed.
Print Assumptions automock_keeps_the_item.

Lemma attrs_read l : read_attrs (map type_attr l) = Read (map (fun x => (fst x, Some (snd x))) l).
Proof. induction l as [|[n t] l IH]; cbn; [reflexivity|]. now rewrite IH. Qed.
Lemma attrs_no_error (l : list (ident * ty)) : parse_attrs_error (map (fun x => (fst x, Some (snd x))) l) = false.
Proof. induction l as [|[n t] l IH]; cbn; auto. Qed.

(** On impl blocks and modules the types in the brackets are ignored. *)
Theorem types_are_for_traits :
  forall hash l i, (forall t, i <> RmTrait t) ->
  do_automock hash (map type_attr l) i = do_automock hash [] i.
Proof.
  intros hash l i N. unfold do_automock. rewrite attrs_read, attrs_no_error.
  destruct i as [x|t|v n c|s]; cbn; try reflexivity. now destruct (N t).
Qed.
Print Assumptions types_are_for_traits.

(** [#[automock]] refuses impl blocks with functions that have no body. *)
Lemma other_refused hash y s : In (IiOther s) (im_items y) -> automock_impl hash y = None.
Proof.
  intros I. unfold automock_impl, unless.
  assert (E : from_impl_error y = true).
  { unfold from_impl_error. destruct (im_trait y) as [[b p]|].
    - rewrite !orb_true_iff. right. left. left. right. apply existsb_exists. exists (IiOther s). auto.
    - rewrite !orb_true_iff. right. left. apply existsb_exists. exists (IiOther s). auto. }
  now rewrite E.
Qed.

Lemma as_impl_reads x : (forall f, ~ In (RaBare f) (ri_items x)) -> (forall s, ~ In (RaVerbatim s) (ri_items x)) ->
  block_reads x (as_impl x).
Proof.
  intros B V. constructor; try reflexivity. cbn. apply F2_map. intros i I.
  destruct i; cbn; try constructor; [now destruct (B f)|now destruct (V tokens)].
Qed.

Lemma wfns_map l k : Forall2 item_reads l k ->
  raw_fns l = impl_wfns (flat_map (fun i => match i with IiFn f => [f] | _ => [] end) k).
Proof.
  intros F. induction F as [|i j l k A F IH]; [reflexivity|]. unfold raw_fns, impl_wfns in *. cbn [flat_map].
  rewrite map_app, IH. f_equal. destruct A; reflexivity.
Qed.

Lemma F2_nth {A B} (R : A -> B -> Prop) l k : Forall2 R l k -> forall n,
  match nth_error l n, nth_error k n with
  | Some a, Some b => R a b
  | None, None => True
  | _, _ => False
  end.
Proof. intros F. induction F as [|a b l k H F IH]; intros [|n]; cbn; auto. apply IH. Qed.

(** Whatever the macros accept is the declaration that is written, function by function; so C84
    speaks about the text.  The mock of a module is the business of C68. *)
Theorem accepted_text_is_what_is_mocked :
  forall hash c k g, expansion_of hash c = Expands k (GMock g) ->
  exists src, call_reads c src /\ expand hash src = Some g
    /\ forall who, written src who = call_fns c who.
Proof.
  intros hash c k g H. destruct c as [r|a i]; cbn [expansion_of] in H.
  - apply mock_reads_its_grammar in H as (_ & d & m & R & M & X). injection X as <-.
    exists (SMock d). split; [exact R|]. split; [exact M|].
    destruct R as [_ _ _ _ _ _ B _ ME I]. intros [n|]; cbn.
    + assert (F := F2_nth _ _ _ I n).
      destruct (nth_error (rm_items r) n) as [i|], (nth_error (md_impls d) n) as [y|]; try contradiction; auto.
      destruct F as (x & -> & F). symmetry. apply wfns_map. apply F.
    + rewrite ME. clear -B. induction B as [|i l X B IH]; [reflexivity|].
      unfold impl_wfns, raw_fns in *. cbn [flat_map]. rewrite map_app, IH. f_equal. destruct i; try contradiction; reflexivity.
  - assert (K := automock_keeps_the_item _ _ _ _ _ H). destruct K as (_ & (l & ->) & _).
    unfold do_automock in H. rewrite attrs_read, attrs_no_error in H.
    destruct i as [x|t|v n c|s]; cbn in H; [| | |discriminate].
    + destruct (automock_impl hash (as_impl x)) as [m|] eqn:M; cbn in H; [|discriminate]. injection H as <- <-.
      assert (NB : forall f, ~ In (RaBare f) (ri_items x)).
      { intros f I. rewrite (other_refused hash (as_impl x) (sg_ident (fi_sig f))) in M; [discriminate|].
        cbn. apply in_map_iff. now exists (RaBare f). }
      assert (NV : forall s, ~ In (RaVerbatim s) (ri_items x)).
      { intros s I. rewrite (other_refused hash (as_impl x) s) in M; [discriminate|].
        cbn. apply in_map_iff. now exists (RaVerbatim s). }
      assert (B := as_impl_reads x NB NV).
      exists (SImpl (as_impl x)). split; [|split; [exact M|]].
      * split; [eauto|]. auto.
      * assert (W := wfns_map _ _ (br_items _ _ B)).
        intros [[|n]|]; cbn [written call_fns]; change (im_trait (as_impl x)) with (ri_trait x);
          destruct (ri_trait x); try reflexivity; symmetry; exact W.
    + destruct (automock_trait hash _ t) as [m|] eqn:M; cbn in H; [|discriminate]. injection H as <- <-.
      exists (STrait (map (fun x => (fst x, Some (snd x))) l) t). split; [|split; [exact M|]].
      * split; [reflexivity|]. eauto.
      * intros [[|n]|]; reflexivity.
    + destruct (automock_module v n c); discriminate.
Qed.
Print Assumptions accepted_text_is_what_is_mocked.

(** [#[automock(type A = u32;)] impl S { ... }] and [mock!] with

      #[derive(Clone)] pub Foo<T> where T: Tr { fn a(&self); const N: u8 = 1; fn b() -> u32; }
      impl Tr for Foo { fn a(&mut self) -> &mut u32; }

    with and without a body. *)
Definition fr_block (i : raw_impl_item) : raw_item :=
  RmImpl (RawImpl [] false no_generics (Some (false, path_of "Tr")) (ty_of "Foo") [i]).
Definition fr_mock (l : list raw_impl_item) (i : raw_impl_item) : raw_mock :=
  RawMock [Attribute (path_of "derive") (Some "Clone") ""] VPublic "Foo"
    (Generics true [GpType "T" [BLifetime "static"] None] None)
    (Some [WpType None (ty_of "T") [BTrait false [] (path_of "Tr")]]) l [fr_block i].
Definition fr_braces : list raw_impl_item :=
  [RaBare (FnItem [] VInherited em_a); RaConst "N" ": u8 = 1"; RaBare (FnItem [] VPublic em_b)].
Definition fr_bare : raw_impl_item := RaBare (FnItem [] VInherited em_c).
Definition fr_body : raw_impl_item := RaFn (FnItem [] VInherited em_c).
Definition fr_inherent : raw_impl :=
  RawImpl [] false no_generics None (ty_of "S") [RaFn (FnItem [] VPublic em_a); RaConst "N" ": u8 = 1"].

Definition expands (x : expansion) : bool := match x with Expands _ _ => true | _ => false end.

Example mock_reads_its_grammar_applies :
  let run l i := do_mock PropItems.ex_hash (fr_mock l i) in
  expands (run fr_braces fr_bare) = true
  /\ run (fr_braces ++ [RaFn (FnItem [] VInherited em_c)]) fr_bare = CompileError "Unsupported in this context"
  /\ run (fr_braces ++ [RaType "A" (ty_of "u8")]) fr_bare = CompileError "Unsupported in this context"
  /\ run fr_braces (RaBare (FnItem [] VPublic em_c)) = Refused
  /\ run fr_braces (RaVerbatim "type A;") = Refused.
Proof. repeat split; vm_compute; reflexivity. Qed.

Example bodies_do_not_matter_applies :
  Forall2 alike_items (rm_items (fr_mock fr_braces fr_bare)) [fr_block fr_body]
  /\ with_raw_items (fr_mock fr_braces fr_bare) [fr_block fr_body] = fr_mock fr_braces fr_body
  /\ expands (do_mock PropItems.ex_hash (fr_mock fr_braces fr_body)) = true.
Proof.
  split; [|split; [reflexivity|vm_compute; reflexivity]]. constructor; [|constructor].
  apply (alike_impl (RawImpl [] false no_generics (Some (false, path_of "Tr")) (ty_of "Foo") [fr_bare]) [fr_body]).
  constructor; constructor.
Qed.

Example automock_keeps_the_item_applies :
  let at_ := [type_attr ("A", ty_of "u32")] in
  expands (do_automock PropItems.ex_hash [type_attr ("A", TRef (Some "static") false (ty_of "str"))] (RmTrait en_trait)) = true
  /\ expands (do_automock PropItems.ex_hash at_ (RmImpl fr_inherent)) = true
  /\ expands (do_automock PropItems.ex_hash [] (RmMod VPublic "m" (Some [ItFn (FnItem [] VPublic em_b) false]))) = true
  /\ do_automock PropItems.ex_hash [RtOther "A = u32"] (RmImpl fr_inherent) = CompileError "expected `type`"
  /\ do_automock PropItems.ex_hash [RtType "A" None] (RmImpl fr_inherent) = Refused
  /\ do_automock PropItems.ex_hash [] (RmOther "struct S;") = Refused
  /\ do_automock PropItems.ex_hash [] (RmImpl (RawImpl [] false no_generics None (ty_of "S") [RaBare (FnItem [] VInherited em_a)])) = Refused.
Proof. repeat split; vm_compute; reflexivity. Qed.
