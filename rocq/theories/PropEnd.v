(** * PropEnd: every accepted macro call makes a mock that works (C84) *)

From Coq Require Import List Bool String NArith Arith Lia.
From Verif Require Import Base Times Expect Mock.
From Verif Require Import Ast AstSpec TyEq Rewrite Derive DeriveSpec Names Subst SubstProofs PropSubst Sig SigSpec SigProofs PropSig
  MockFn MockFnSpec MockFnProofs Item ItemProofs
  NameProofs MockItem ItemSpec PropItems PipeSpec PipeProofs PropPipeline Errors GenSpec GenProofs GenRun GenRunSpec GenRunProofs
  GenRunNames PropGenRun PointGen EndSpec EndProofs.
Import ListNotations.
Open Scope string_scope.
Open Scope list_scope.

Lemma attrs_defined l :
  defined (flat_map (fun x => match snd x with Some t => [(fst x, t)] | None => [] end) l)
          (assoc_get (parse_attrs l)).
Proof.
  assert (T : parse_attrs l = parse_attrs (map (fun p => (fst p, Some (snd p)))
    (flat_map (fun x : ident * option ty => match snd x with Some t => [(fst x, t)] | None => [] end) l))).
  { unfold parse_attrs.
    match goal with |- fold_left ?f ?l _ = fold_left ?g ?m _ =>
      cut (forall a, fold_left f l a = fold_left g m a); [auto|] end.
    induction l as [|[n [t|]] r IH]; intros a; [reflexivity|..]; cbn; apply IH. }
  intros n t. rewrite T, last_declared_type_counts. generalize (flat_map
    (fun x : ident * option ty => match snd x with Some t0 => [(fst x, t0)] | None => [] end) l). intros k. split.
  - intros (l1 & l2 & E & N). apply map_eq_app in E as (k1 & k2 & E & E1 & E2).
    destruct k2 as [|[j u] k2]; [discriminate|]. cbn in E2. injection E2 as -> -> E2.
    exists k1, k2. split; [exact E|]. intros u I. apply (N u). rewrite <- E2.
    apply in_map_iff. now exists (n, u).
  - intros (l1 & l2 & -> & N). exists (map (fun p => (fst p, Some (snd p))) l1), (map (fun p => (fst p, Some (snd p))) l2).
    split; [now rewrite map_app|]. intros u I. apply in_map_iff in I as ([j w] & E & I). cbn in E.
    injection E as -> ->. exact (N u I).
Qed.

Lemma types_associated src : associated src (assoc_get (known_types src)).
Proof.
  destruct src as [l t|x|d]; cbn; [apply attrs_defined| |auto].
  destruct (im_trait x); [apply impl_types_defined|auto].
Qed.

Lemma before_lends src s mu :
  (substituting src = true -> substitute_sig_error (known_types src) (trait_name src) s = false) ->
  plain_output s ->
  ((exists l e, sg_output (before src s) = Some (TRef l mu e) /\ l <> Some "static" /\ l <> Some "_")
   <-> lent (assoc_get (known_types src)) (trait_name src) mu s).
Proof.
  intros E P. unfold before, lent. destruct (substituting src) eqn:S.
  - specialize (E eq_refl). unfold substitute_sig_error in E. apply orb_false_iff in E as [_ E].
    unfold plain_output in P. cbn. destruct (sg_output s) as [t|]; cbn.
    2: { split; [intros (l & e & X & _)|intros (t & l & e & X & _)]; discriminate. }
    split.
    + intros (l & e & X & N). injection X as X.
      destruct (proj1 (substitute_ref (known_types src) (trait_name src) t l mu E P)) as (e' & Y); eauto.
      exists t, l, e'. auto.
    + intros (u & l & e & X & Y & N). injection X as <-.
      destruct (proj2 (substitute_ref (known_types src) (trait_name src) t l mu E P)) as (e' & Z); eauto.
      exists l, e'. rewrite Z. auto.
  - assert (K : forall i, assoc_get (known_types src) i = None).
    { destruct src as [l t|x|d]; cbn in *; try discriminate; auto. destruct (im_trait x); [discriminate|auto]. }
    assert (PR : forall t, project (assoc_get (known_types src)) (trait_name src) t = t).
    { intros t. unfold project. destruct (projection _ t); auto. now rewrite K. }
    split.
    + intros (l & e & X & N). exists (TRef l mu e), l, e. rewrite PR. auto.
    + intros (t & l & e & X & Y & N). rewrite PR in Y. subst t. eauto.
Qed.

Lemma before_ident src s : sg_ident (before src s) = sg_ident s.
Proof. unfold before. destruct (substituting src); reflexivity. Qed.
Lemma before_generics src s : sg_generics (before src s) = sg_generics s.
Proof. unfold before. destruct (substituting src); reflexivity. Qed.
Lemma before_self src s : takes_self (before src s) = takes_self s.
Proof. unfold before. destruct (substituting src); [apply substitute_self|reflexivity]. Qed.

Lemma prepared_self src x f : prepared_from src x f -> has_self f = takes_self (snd x).
Proof.
  intros (_ & S & _). unfold has_self. rewrite S. fold (takes_self (mockable_method (mock_name src)
    (source_generics src) (before src (snd x)))). rewrite method_self. apply before_self.
Qed.
Lemma prepared_name src x f : prepared_from src x f -> fn_name f = sg_ident (snd x).
Proof. intros (_ & S & _). unfold fn_name. rewrite S. apply before_ident. Qed.

Lemma prepared_chosen src x f : prepared_from src x f -> (exists i, chosen f i) <-> chooses x.
Proof.
  intros (A & S & _). unfold chosen, chooses. rewrite A, S.
  setoid_rewrite method_type_names. setoid_rewrite method_closure. rewrite before_generics. split.
  - intros (i & X & Y & Z). eauto.
  - intros (Z & i & X & Y). eauto.
Qed.

Lemma prepared_usual src x f : prepared_from src x f -> usual_where x -> separated f -> exists i, chosen f i.
Proof.
  intros (A & S & _) W [X|(_ & _ & w & I & Q)]; auto. exfalso.
  rewrite S in I, Q. apply method_preds in I as [I N]. rewrite before_generics in I.
  destruct (W w I) as (fo & t & l & -> & [->|(i & -> & C & K)]); [now apply N|].
  apply (Q i); auto. apply method_closure. now rewrite before_generics.
Qed.

Lemma struct_generic src : struct_separated (mockable src) <-> generic_source src.
Proof. unfold struct_separated, generic_source. now rewrite mockable_generics. Qed.

Lemma prepared_told {V} hash src (te : types V) x f tr d :
  source_error src = false -> prepared_from src x f ->
  described hash (mockable src) te (tr, f) d -> told src (assoc_get (known_types src)) te x d.
Proof.
  intros E P D. assert (NM := mockable_name src E). assert (FN := prepared_name src x f P).
  assert (FS := prepared_self src x f P). destruct D as [D1 D2 D3 D4 D5 D6 D7 D8]. cbn [fst snd] in *.
  assert (L : forall mu, plain_output (snd x) ->
    ((exists t, sg_output (fi_sig f) = Some t /\ borrows mu t)
     <-> lent (assoc_get (known_types src)) (trait_name src) mu (snd x))).
  { intros mu PO. destruct P as (_ & S & SE). rewrite S. rewrite method_lends. now apply before_lends. }
  constructor.
  - now rewrite D1, NM, FN.
  - now rewrite D2, NM, FN.
  - eauto.
  - now rewrite D5, FS.
  - intros PO. rewrite D6. now apply L.
  - intros PO. rewrite D7. now apply L.
  - intros C. apply D8. left. left. now apply (prepared_chosen src x f P).
  - intros W. rewrite D8, FS, struct_generic. split.
    + intros [X|X]; auto. left. apply (prepared_chosen src x f P). now apply (prepared_usual src x f P).
    + intros [X|X]; auto. left. left. now apply (prepared_chosen src x f P).
Qed.

Lemma prepared_bracketed src x f : prepared_from src x f ->
  bracketed (sg_generics (snd x)) -> bracketed (sg_generics (fi_sig f)).
Proof. intros (_ & S & _) B. rewrite S. apply method_bracketed. now rewrite before_generics. Qed.

Lemma F2_in_r {A B} (R : A -> B -> Prop) l k b : Forall2 R l k -> In b k -> exists a, In a l /\ R a b.
Proof.
  intros F. induction F as [|x y l k H F IH]; cbn; [intros []|]. intros [<-|I]; eauto.
  destruct (IH I) as (a & J & Q). eauto.
Qed.

Lemma source_well_formed src : source_error src = false -> bracketed_source src -> well_formed (mockable src).
Proof.
  intros E [B F]. split; [|rewrite mockable_generics; exact B].
  assert (X : forall who f, In f (fns_at (mockable src) who) -> bracketed (sg_generics (fi_sig f))).
  { intros who f I. destruct (F2_in_r _ _ _ _ (written_prepared src who E) I) as (x & J & P).
    apply (prepared_bracketed src x f P). exact (F who x J). }
  split.
  - intros f I. exact (X None f I).
  - intros y f I J. apply In_nth_error in I as (i & I). apply (X (Some i) f). cbn. now rewrite I.
Qed.

Lemma source_same_fns src : agreeing src -> same_fns (mockable src).
Proof.
  destruct src as [l t|x|d]; cbn; intros A y z b b' p I J Ty Tz.
  - destruct I as [<-|[]], J as [<-|[]]. reflexivity.
  - unfold from_impl in *. destruct (im_trait x) as [[? ?]|]; cbn in I, J; [|contradiction].
    destruct I as [<-|[]], J as [<-|[]]. reflexivity.
  - apply in_map_iff in I as (y' & <- & I), J as (z' & <- & J). rewrite !item_impl_fns. f_equal.
    exact (A y' z' b b' p I J Ty Tz).
Qed.

Lemma source_named {V U} src (o : uop V U) : source_error src = false ->
  declared_op src o -> GenRunSpec.named (mockable src) o.
Proof.
  intros E. assert (W : forall who b f, writes src who b f -> declares (mockable src) who b f).
  { intros who b f (x & I & N & S). destruct (F2_in_l _ _ _ _ (written_prepared src who E) I) as (y & J & P).
    exists y. split; [exact J|]. rewrite (prepared_name src x y P), (prepared_self src x y P). auto. }
  destruct o; cbn; auto.
Qed.

Lemma impls_have_traits hash m g i y : mock_it hash m = Some g -> nth_error (ms_impls m) i = Some y ->
  exists b p, im_trait y = Some (b, p).
Proof.
  intros G N. destruct (mock_it_built hash m g G) as (s & _ & _ & _ & FT).
  destruct (F2_in_l _ _ _ _ FT (nth_error_In _ _ N)) as (t & _ & NT).
  destruct (tm_path _ _ _ (new_trait_made _ _ _ _ _ _ NT)) as (b & TP). eauto.
Qed.

Lemma one_trait hash g src who who' x x' : mock_it hash (mockable src) = Some g ->
  In x (written src who) -> In x' (written src who') ->
  trait_at (mockable src) who = trait_at (mockable src) who' -> one_block src who who'.
Proof.
  intros G. destruct src as [l t|y|d].
  - destruct who as [[|]|], who' as [[|]|]; cbn; intros I J; try contradiction; left; reflexivity.
  - destruct who as [[|]|], who' as [[|]|]; cbn; destruct (im_trait y); intros I J; try contradiction; left; reflexivity.
  - assert (T : forall i u, nth_error (md_impls d) i = Some u -> exists b p, im_trait u = Some (b, p)).
    { intros i u N. apply (impls_have_traits hash _ g i (mockable_item_impl u (gen_mock_ident (md_name d)) (md_generics d)) G).
      cbn [mockable from_mock ms_impls]. now rewrite nth_error_map, N. }
    cbn [written]. unfold trait_at. cbn [mockable from_mock ms_impls]. destruct who as [i|], who' as [j|]; intros I J.
    + rewrite !nth_error_map. destruct (nth_error (md_impls d) i) as [u|] eqn:NI; [|destruct I].
      destruct (nth_error (md_impls d) j) as [v|] eqn:NJ; [|destruct J]. cbn.
      destruct (T i u NI) as (b & p & TU), (T j v NJ) as (b' & q & TV). rewrite TU, TV. cbn. intros X.
      injection X as <-. right. exists d, i, j, u, v, b, b', p. auto 10.
    + rewrite nth_error_map. destruct (nth_error (md_impls d) i) as [u|] eqn:NI; [|destruct I]. cbn.
      destruct (T i u NI) as (b & p & TU). rewrite TU. discriminate.
    + rewrite nth_error_map. destruct (nth_error (md_impls d) j) as [u|] eqn:NI; [|destruct J]. cbn.
      destruct (T j u NI) as (b & p & TU). rewrite TU. discriminate.
    + left. reflexivity.
Qed.

Lemma position_lt tr n f l : In (tr, f) l -> unraw (fn_name f) = unraw n ->
  (position tr n l < List.length l)%nat.
Proof.
  intros I E. induction l as [|[t x] l IH]; [destruct I|]. cbn [position List.length].
  destruct (same_trait_path t tr && same_name (fn_name x) n)%bool eqn:X; [lia|].
  destruct I as [I|I]; [|specialize (IH I); lia]. injection I as -> ->. exfalso.
  rewrite (proj2 (same_name_eq _ _) E), (proj2 (same_trait_eq _ _) eq_refl) in X. discriminate.
Qed.

(** ** C84 *)

(** For every accepted macro call there are methods of Mock.v, one for each function that the
    user wrote ([told]), such that every test of the generated code is a test of Mock.v. *)
Theorem accepted_macros_make_working_mocks :
  forall (V U : Type) hash src g (te : types V),
  expand hash src = Some g -> bracketed_source src -> agreeing src -> distinct_names g ->
  exists ts sd st obj stat,
    associated src ts
    /\ (forall who x, In x (written src who) ->
          exists d, nth_error (if takes_self (snd x) then struct_fields sd else st)
                              ((if takes_self (snd x) then obj else stat) who (sg_ident (snd x))) = Some d
                    /\ told src ts te x d)
    /\ (forall who x who' x', In x (written src who) -> In x' (written src who') ->
          takes_self (snd x) = takes_self (snd x') ->
          (if takes_self (snd x) then obj else stat) who (sg_ident (snd x))
          = (if takes_self (snd x) then obj else stat) who' (sg_ident (snd x')) ->
          one_block src who who' /\ unraw_name (sg_ident (snd x)) = unraw_name (sg_ident (snd x')))
    /\ forall c sh u (l : list (uop V U)), Forall (declared_op src) l ->
         exists y0 y,
           ginit g u = Some y0
           /\ grun g te c sh y0 l = Some (y, snd (run c sh (init u st) (map (place_op sd obj stat) l)))
           /\ gy_world y = y_world (fst (run c sh (init u st) (map (place_op sd obj stat) l))).
Proof.
  intros V U hash src g te H B A DN. destruct (expand_inv hash src g H) as [E G].
  assert (WF := source_well_formed src E B). assert (SF := source_same_fns src A).
  destruct (generated_code_runs_like_the_model V U hash (mockable src) g te G WF SF DN)
    as (sd & st & DM & DC & R).
  set (m := mockable src) in *.
  exists (assoc_get (known_types src)), sd, st,
    (fun who f => position (trait_at m who) f (object_fns m)),
    (fun who f => position (trait_at m who) f (static_fns m)).
  assert (DD : forall who x, In x (written src who) ->
    exists f d, In f (fns_at m who) /\ prepared_from src x f
      /\ nth_error (if takes_self (snd x) then struct_fields sd else st)
           (position (trait_at m who) (sg_ident (snd x)) (if takes_self (snd x) then object_fns m else static_fns m))
         = Some d
      /\ described hash m te (trait_at m who, f) d).
  { intros who x I. destruct (F2_in_l _ _ _ _ (written_prepared src who E) I) as (f & J & P).
    assert (N := prepared_name src x f P).
    destruct (DC who f (sg_ident (snd x)) J) as (d & ND & D).
    { apply same_name_eq. now rewrite N. }
    rewrite (prepared_self src x f P) in ND. exists f, d. auto. }
  split; [apply types_associated|]. split; [|split].
  - intros who x I. destruct (DD who x I) as (f & d & J & P & ND & D). exists d. split.
    + rewrite <- ND. destruct (takes_self (snd x)); reflexivity.
    + exact (prepared_told hash src te x f (trait_at m who) d E P D).
  - intros who x who' x' I I' S Q.
    destruct (DD who x I) as (f & d & J & P & ND & D).
    assert (L : (position (trait_at m who) (sg_ident (snd x))
                  (if takes_self (snd x) then object_fns m else static_fns m)
                 < List.length (if takes_self (snd x) then object_fns m else static_fns m))%nat).
    { destruct (mock_it_built hash m g G) as (s & _ & _ & _ & FT).
      assert (IA := declared_is hash m s FT SF who f J).
      apply (position_lt _ _ f); [|now rewrite (prepared_name src x f P)].
      rewrite <- (prepared_self src x f P).
      destruct (has_self f) eqn:HS; apply filter_In; (split; [exact IA|]); cbn; now rewrite HS. }
    assert (X := position_inj (trait_at m who) (sg_ident (snd x)) (trait_at m who') (sg_ident (snd x')) _ L).
    rewrite (proj2 (Nat.eqb_eq _ _)) in X by (destruct (takes_self (snd x)); symmetry; exact Q).
    symmetry in X. apply andb_true_iff in X as [X Y]. apply same_trait_eq in X. apply same_name_eq in Y.
    rewrite !unraw_same in Y. split; [|exact Y]. exact (one_trait hash g src who who' x x' G I I' X).
  - intros c sh u l F. destruct (R c sh u l) as (y0 & y & R1 & R2 & R3).
    { eapply Forall_impl; [|exact F]. intros o. now apply source_named. }
    exists y0, y. auto.
Qed.
Print Assumptions accepted_macros_make_working_mocks.

(** [#[automock(type A = &'static str;)] pub trait Tr<T> { type A; fn f(&self, x: Self::A) -> &T;
      fn h(&self) -> Self::A; fn g<U: 'static>(&self, u: U) where Self: Sized; fn s() -> T; }] *)
Definition en_self : fnarg := FaReceiver (Some None) false false (TRef None false (ty_of "Self")).
Definition en_a : ty := TPath (Path false [seg_of "Self"; seg_of "A"]).
Definition en_arg (i : ident) (t : ty) : fnarg := FaTyped (PatIdent false false i false) t.
Definition en_f : signature :=
  Signature "f" no_generics [en_self; en_arg "x" en_a] (Some (TRef None false (ty_of "T"))) None.
Definition en_h : signature := Signature "h" no_generics [en_self] (Some en_a) None.
Definition en_g : signature :=
  Signature "g" (Generics true [GpType "U" [BLifetime "static"] None]
                   (Some [WpType None (ty_of "Self") [BTrait false [] (path_of "Sized")]]))
    [en_self; en_arg "u" (ty_of "U")] None None.
Definition en_s : signature := Signature "s" no_generics [] (Some (ty_of "T")) None.
Definition en_trait : item_trait :=
  ItemTrait [] VPublic false "Tr" (Generics true [GpType "T" [] None] None)
    [TiType "A" [] None; TiFn [] en_f; TiFn [] en_h; TiFn [] en_g; TiFn [] en_s].
Definition en_source : source := STrait [("A", Some (TRef (Some "static") false (ty_of "str")))] en_trait.

Example accepted_macros_make_working_mocks_applies :
  exists g, expand PropItems.ex_hash en_source = Some g /\ bracketed_source en_source /\ agreeing en_source
    /\ distinct_names g
    /\ written en_source (Some 0%nat) = [([], en_f); ([], en_h); ([], en_g); ([], en_s)]
    /\ mock_name en_source = "MockTr"
    /\ (forall ts, lent ts "Tr" false en_f) /\ plain_output en_h /\ usual_where ([], en_g) /\ chooses ([], en_g)
    /\ generic_source en_source.
Proof.
  eexists. split; [reflexivity|]. split; [|split; [exact Logic.I|split; [|split; [reflexivity|split; [reflexivity|]]]]].
  - split; [discriminate|]. intros [[|n]|] x; cbn; try contradiction.
    intros [<-|[<-|[<-|[<-|[]]]]]; intros L; first [reflexivity|discriminate L].
  - split; [|split; [|split]].
    1-3: vm_compute; repeat constructor; cbn; intuition discriminate.
    intros ss [<-|[]]. split; vm_compute; repeat constructor; cbn; intuition discriminate.
  - split; [|split; [reflexivity|split; [|split]]].
    + intros ts. exists (TRef None false (ty_of "T")), None, (ty_of "T"). repeat split; discriminate.
    + intros w [<-|[]]. eexists _, _, _. split; [reflexivity|]. now left.
    + split; [reflexivity|]. exists "U". split; [now left|].
      intros (l & b & [(d & [E|[]])|(f & [E|[]] & _)] & I & C).
      * injection E as <- <-. destruct I as [<-|[]]. destruct C as (m & fo & ld & pre & i & a & X & _). discriminate.
      * injection E. discriminate.
    + left. discriminate.
Qed.

(** For [#[automock]] the names are distinct: there is one block. *)
Theorem automocked_names_are_distinct :
  forall hash src g, expand hash src = Some g -> (forall d, src <> SMock d) -> clear_source src ->
  distinct_names g.
Proof.
  intros hash src g H D [C1 C2]. destruct (expand_inv hash src g H) as [E G].
  destruct (mock_it_built hash _ g G) as (s & M & -> & _).
  apply (distinct_if_clear hash (mockable src) s M).
  - intros who. assert (F := written_prepared src who E).
    rewrite <- (Forall2_map_eq (fun x : wfn => unraw_name (sg_ident (snd x))) (fun f => unraw (fn_name f))
      (written src who) (fns_at (mockable src) who)); [apply C1|].
    eapply Forall2_imp; [exact F|]. intros x f _ P. cbv beta. rewrite (prepared_name src x f P). symmetry. apply unraw_same.
  - intros who f n I S P. destruct (F2_in_r _ _ _ _ (written_prepared src who E) I) as (x & J & Q).
    rewrite (prepared_name src x f Q). rewrite (prepared_self src x f Q) in S.
    rewrite mockable_generics in P. exact (C2 who x n J S P).
  - intros t x u It Ix _. exfalso. assert (F := mo_traits _ _ _ M). destruct src as [l tr|y|d]; [destruct Ix| |now apply (D d)].
    cbn [mockable] in *. unfold from_impl in *. destruct (im_trait y) as [[? ?]|]; cbn in Ix, F; [destruct Ix|].
    destruct (Forall2_in_r _ _ _ _ F It) as (z & [] & _).
  - assert (L : (List.length (mi_traits s) <= 1)%nat).
    { assert (F := mo_traits _ _ _ M).
      assert (X : (List.length (ms_impls (mockable src)) <= 1)%nat).
      { destruct src as [l tr|y|d]; cbn; [lia| |now destruct (D d)].
        unfold from_impl. destruct (im_trait y) as [[? ?]|]; cbn; lia. }
      revert X. clear -F. induction F as [|? ? ? ? ? F IH]; cbn; [auto|]. destruct F; cbn; [auto|lia]. }
    intros t t' I I' _. destruct (mi_traits s) as [|a [|b r]]; cbn in *; [contradiction| |lia].
    destruct I as [<-|[]], I' as [<-|[]]. now apply ItemProofs.same_trait_eq.
Qed.
Print Assumptions automocked_names_are_distinct.

Example automocked_names_are_distinct_applies : clear_source en_source /\ forall d, en_source <> SMock d.
Proof.
  split; [|discriminate]. split.
  - intros [[|n]|]; cbn; repeat constructor; cbn; intuition discriminate.
  - intros [[|k]|] x n; cbn; try contradiction. intros I _ _. repeat destruct I as [<-|I]; try discriminate. destruct I.
Qed.

(** [mock! { pub Foo { fn a(&self); fn b() -> u32; } impl Tr for Foo { fn a(&mut self) -> &mut u32; } }] *)
Definition em_a : signature := Signature "a" no_generics [en_self] None None.
Definition em_b : signature := Signature "b" no_generics [] (Some (ty_of "u32")) None.
Definition em_c : signature :=
  Signature "a" no_generics [FaReceiver (Some None) true false (TRef None true (ty_of "Self"))]
    (Some (TRef None true (ty_of "u32"))) None.
Definition em_source : source :=
  SMock (MockDecl [] VPublic "Foo" no_generics []
    [FnItem [] VInherited em_a; FnItem [] VInherited em_b]
    [ItemImpl [] false no_generics (Some (false, path_of "Tr")) (ty_of "Foo") [IiFn (FnItem [] VInherited em_c)]]).

Example accepted_macros_make_working_mocks_applies_to_mock :
  exists g, expand PropItems.ex_hash em_source = Some g /\ bracketed_source em_source /\ agreeing em_source
    /\ distinct_names g /\ mock_name em_source = "MockFoo"
    /\ written em_source None = [([], em_a); ([], em_b)] /\ written em_source (Some 0%nat) = [([], em_c)]
    /\ lent (fun _ => None) "" true em_c.
Proof.
  eexists. split; [reflexivity|]. split; [|split; [|split; [|split; [reflexivity|split; [reflexivity|split; [reflexivity|]]]]]].
  - split; [now intros X; destruct X|]. intros [[|[|n]]|] x; cbn; try contradiction;
      [intros [<-|[]]|intros [<-|[<-|[]]]]; now intros X; destruct X.
  - intros x y b b' p [<-|[]] [<-|[]] _ _. reflexivity.
  - split; [|split; [|split]].
    1-3: vm_compute; repeat constructor; cbn; intuition discriminate.
    intros ss [<-|[]]. split; vm_compute; repeat constructor; cbn; intuition discriminate.
  - exists (TRef None true (ty_of "u32")), None, (ty_of "u32"). repeat split; discriminate.
Qed.
