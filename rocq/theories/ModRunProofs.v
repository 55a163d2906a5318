(** * ModRunProofs: tests of a mock module are tests of Mock.v *)

From Coq Require Import List Bool String Ascii NArith Arith.
From Verif Require Import Base Times Expect Mock.
From Verif Require Import Ast AstSpec TyEq Rewrite RewriteProofs Derive DeriveSpec Names CallSpec
  Sig SigSpec SigProofs MockFn MockFnSpec MockFnProofs PropOutput Item ItemProofs
  NameProofs PipeProofs PropItems MockItem ItemSpec PipeSpec ModSpec PropModules GenSpec GenProofs
  GenRun GenRunSpec GenRunLists GenRunDesc GenRunProofs ModRun ModRunSpec.
Import ListNotations.
Open Scope string_scope.
Open Scope list_scope.

Local Arguments inner_mod_ident : simpl never.
Local Arguments context_ident : simpl never.

(** ** What is generated *)

(** The function that is built for a function of the input. *)
Definition mocks (mi : ident) (x : fn_item) (f : mock_function) : Prop :=
  exists y, build (module_builder mi y) = Some f
    /\ fi_attrs y = fi_attrs x /\ sg_ident (fi_sig y) = sg_ident (fi_sig x)
    /\ sg_generics (fi_sig y) = sg_generics (fi_sig x)
    /\ (forall b, (exists t, sg_output (fi_sig y) = Some t /\ borrows b t)
                  <-> (exists t, sg_output (fi_sig x) = Some t /\ borrows b t))
    /\ takes_self (fi_sig y) = takes_self (fi_sig x).

Lemma build_mod_ident b f :
  build b = Some f -> mf_mod_ident f = match b_parent b with Some i => i | None => "FIXME" end.
Proof.
  unfold build. destruct (prepared b) as [[[[dg di] ce] sig]|]; [|discriminate].
  destruct (existsb _ _); [discriminate|]. destruct (output_of _ _) as [out bx].
  destruct (split_lifetimes _ _ _) as [[tg sa] sr]. destruct (split_lifetimes _ _ _) as [[cg ma] mr].
  intros E. injection E as <-. reflexivity.
Qed.

Definition content_fns (l : list content) : list mock_function :=
  flat_map (fun c => match c with CoFn f _ => [f] | CoTokens _ => [] end) l.

Lemma content_fns_app l k : content_fns (l ++ k) = content_fns l ++ content_fns k.
Proof. apply flat_map_app. Qed.

Lemma deimplified o b :
  (exists t, deimplify o = Some t /\ borrows b t) <-> (exists t, o = Some t /\ borrows b t).
Proof.
  destruct o as [t|]; [|reflexivity]. destruct t; try reflexivity. cbn [deimplify].
  split; intros (t & E & u & e & B & _); exfalso.
  - injection E as <-. unfold box_dyn in B. destruct (needs_pin _); discriminate.
  - injection E as <-. discriminate.
Qed.

Lemma demutify_self l : existsb (fun a => match a with FaReceiver _ _ _ _ => true | _ => false end) (demutify l)
  = existsb (fun a => match a with FaReceiver _ _ _ _ => true | _ => false end) l.
Proof.
  unfold demutify. induction l as [|a l IH]; auto. cbn. rewrite IH. f_equal.
  destruct a as [[|] [|] [|] t|p t]; reflexivity.
Qed.

Lemma content_mocks mi items cs :
  all_some (item_content mi) (map mockable_item items) = Some cs ->
  Forall2 (mocks mi) (module_fns items) (content_fns (List.concat cs)).
Proof.
  intros A. apply all_some_spec in A. revert cs A. induction items as [|i items IH]; intros cs A.
  - inversion A. constructor.
  - cbn [map] in A. inversion A as [|? c ? cs' HA A']. subst. cbn [List.concat]. rewrite content_fns_app.
    unfold module_fns. cbn [flat_map]. apply Forall2_app; [|exact (IH _ A')].
    destruct i as [x u|abi xs|s|s|s|s]; cbn [mockable_item item_content] in HA; try discriminate.
    + destruct (build _) as [f|] eqn:B; [|discriminate]. injection HA as <-. cbn. constructor; [|constructor].
      eexists. split; [exact B|]. cbn. repeat split; auto.
      * intros H. now apply deimplified.
      * intros H. now apply deimplified.
      * apply demutify_self.
    + apply all_some_spec in HA. clear A A' IH. induction HA as [|y d ys ds H _ IHy]; [constructor|].
      change (d :: ds) with ([d] ++ ds). rewrite content_fns_app. cbn [flat_map].
      apply Forall2_app; [|exact IHy].
      destruct y as [x u|t]; cbn [foreign_content] in H; [|discriminate].
      destruct (build _) as [f|] eqn:B; [|discriminate]. injection H as <-. cbn. constructor; [|constructor].
      eexists. split; [exact B|]. cbn. tauto.
    + injection HA as <-. constructor.
    + injection HA as <-. constructor.
Qed.

(** The generated module, in terms of its functions. *)
Record module_of_fns (n : ident) (items : list item) (g : gen_module) (fs : list mock_function) : Prop := ModuleOf {
  mo_fns : Forall2 (mocks ("mock_" ++ unraw_name n)%string) (module_fns items) fs;
  mo_mods : body_mods g = map priv_module fs;
  mo_calls : body_calls g = map (fun f => call_fn f None) fs;
  mo_contexts : body_contexts g = map (fun f => context_fn f None) fs;
  mo_checkpoint : gd_checkpoint g = map checkpoint_of fs
}.

Lemma a_module vis n items g :
  gen_mod (from_module vis n items) = Some g -> exists fs, module_of_fns n items g fs.
Proof.
  unfold gen_mod, module_content, from_module. cbn [mm_content mm_mock_ident mm_vis].
  destruct (all_some _ (map mockable_item items)) as [cs|] eqn:A; [|discriminate].
  cbn [option_map]. intros E. injection E as <-. exists (content_fns (List.concat cs)).
  constructor.
  - apply content_mocks. rewrite <- unraw_same. exact A.
  - unfold body_mods. cbn [gd_body]. induction (List.concat cs) as [|[f u|s] l IH]; auto.
    cbn in *. now rewrite IH.
  - unfold body_calls. cbn [gd_body]. induction (List.concat cs) as [|[f u|s] l IH]; auto.
    cbn in *. now rewrite IH.
  - unfold body_contexts. cbn [gd_body]. induction (List.concat cs) as [|[f u|s] l IH]; auto.
    cbn in *. now rewrite IH.
  - cbn [gd_checkpoint]. induction (List.concat cs) as [|[f u|s] l IH]; auto.
    cbn -[checkpoint_of] in *. now rewrite IH.
Qed.

Section Proofs.
Context {V U : Type}.
Context (n : ident) (items : list item) (g : gen_module) (fs : list mock_function).
Context (G : module_of_fns n items g fs).
Context (FF : free_functions items) (PF : parsed_fns items) (DF : distinct_fns items).
Context (te : types V).

Definition mpath (f : mock_function) : list ident := [inner_mod_ident (mf_name f)].
Definition mcells : list (list ident * mock_function) := map (fun f => (mpath f, f)) fs.
Definition mdm (c : list ident * mock_function) : mdecl V :=
  mod_decl te (fst c) (priv_module (snd c)) (is_expectation_generic (snd c)).

Lemma free_fn x : In x (module_fns items) -> takes_self (fi_sig x) = false.
Proof.
  unfold module_fns. intros I. apply in_flat_map in I as (i & Ii & I). assert (F := FF i Ii).
  destruct i as [y u|abi xs|s|s|s|s]; try (now destruct I).
  - destruct I as [<-|[]]. exact F.
  - apply in_flat_map in I as ([y u|s] & J & I); [|destruct I]. destruct I as [<-|[]]. now apply (F y u).
Qed.

Lemma mocks_fn x f : In x (module_fns items) -> mocks ("mock_" ++ unraw_name n)%string x f ->
  mf_name f = fn_name x /\ mf_is_static f = true
  /\ described_fn n te x (mdm (mpath f, f)).
Proof.
  intros I (y & B & EA & EN & EG & EO & ES).
  destruct (module_fn_made _ _ _ B) as [M MA].
  assert (N : mf_name f = fn_name x).
  { unfold mf_name. destruct (fm_kept _ _ _ _ M) as (K & _). unfold fn_name. congruence. }
  assert (S : mf_is_static f = true).
  { rewrite (fm_static _ _ _ _ M), ES, (free_fn x I). reflexivity. }
  split; [exact N|]. split; [exact S|].
  destruct (build_built _ _ B) as (dg & di & ce & sig & BT).
  assert (P : mpath f = ["__" ++ unraw_name (fn_name x)]%string).
  { unfold mpath, inner_mod_ident. rewrite N, unraw_same. reflexivity. }
  destruct (expectation_kinds _ _ B) as (K1 & K2 & _). cbn [module_builder b_sig] in K1, K2.
  constructor; unfold mdm; cbn [mod_decl md_me me_name me_desc me_default me_debug md_static md_kind md_generic
    priv_module gp_funcname gp_desc gp_context gp_kind fst snd].
  - unfold funcname. rewrite (bt_struct _ _ _ _ _ _ BT), N. cbn. reflexivity.
  - unfold desc_name. rewrite (bt_struct _ _ _ _ _ _ BT), (build_mod_ident _ _ B), N. cbn. reflexivity.
  - now rewrite P.
  - now rewrite P.
  - now rewrite S.
  - rewrite <- (EO false), <- K1. destruct (kind_of f); cbn; split; intros; auto; discriminate.
  - rewrite <- (EO true), <- K2. destruct (kind_of f); cbn; split; intros; auto; discriminate.
  - assert (BR := PF x I). rewrite <- EG in BR.
    rewrite (expectation_separated_in _ f y B eq_refl eq_refl BR no_generics eq_refl) by (intros _; reflexivity).
    cbn. unfold separated, chosen, other_where. rewrite EA, EG.
    split; [intros [H|[H|[_ H]]]; auto; now elim H|auto].
Qed.

Lemma mcells_link : Forall2 (fun x c => mf_name (snd c) = fn_name x /\ mf_is_static (snd c) = true
    /\ fst c = mpath (snd c) /\ described_fn n te x (mdm c)) (module_fns items) mcells.
Proof.
  unfold mcells. assert (H := mocks_fn). assert (F := mo_fns _ _ _ _ G). revert H F.
  generalize (module_fns items) fs. intros l k H F. induction F as [|x f l k X F IH]; cbn [map]; constructor.
  - destruct (H x f (or_introl eq_refl) X) as (A & B & C). auto.
  - apply IH. intros y h I. apply H. now right.
Qed.

Definition mst : list (mdecl V) := map mdm mcells.

Lemma is_described_fns : Forall2 (described_fn n te) (module_fns items) mst.
Proof.
  unfold mst. assert (F := mcells_link). induction F as [|x c l k H F IH]; cbn; constructor; auto. apply H.
Qed.

Lemma mcell_in p f : In (p, f) mcells -> In f fs /\ p = mpath f /\ mf_is_static f = true.
Proof.
  intros I. destruct (Forall2_in_r _ _ _ _ mcells_link I) as (x & _ & _ & S & P & _).
  unfold mcells in I. apply in_map_iff in I as (h & E & I). injection E as <- <-. auto.
Qed.

Lemma mcells_nodup : NoDup (map fst mcells).
Proof.
  assert (E : map fst mcells = map (fun x => ["__" ++ unraw_name (fn_name x)]%string) (module_fns items)).
  { assert (F := mcells_link). induction F as [|x c l k (N & S & P & _) F IH]; cbn; auto.
    rewrite IH, P. f_equal. unfold mpath, inner_mod_ident. now rewrite N, unraw_same. }
  rewrite E. eapply NoDup_map_factor; [|exact DF]. intros x y _ _ H. cbn in H. injection H as H. exact H.
Qed.

Lemma mcell_mod p f : In (p, f) mcells -> mfind_mod g p = Some (priv_module f).
Proof.
  intros I. destruct (mcell_in _ _ I) as (If & -> & _). cbn. rewrite (mo_mods _ _ _ _ G).
  change (inner_mod_ident (mf_name f)) with (gp_name (priv_module f)).
  apply find_by_unique; [|now apply in_map].
  assert (N := mcells_nodup). unfold mcells in N. rewrite map_map in N. rewrite map_map. cbn [fst] in N.
  eapply NoDup_map_factor; [|exact N]. intros x y _ _ E. cbn in E. cbn. unfold mpath. now rewrite E.
Qed.

Definition mmu0 (p : list ident) : smutex V U :=
  match mfind_mod g p with
  | Some q => SMutex false (if gp_generic_guard q then SGeneric [] else SPlain [])
  | None => SMutex false (SPlain [])
  end.

Lemma mnew_stats_named : mnew_stats g = Some (map (fun c => (fst c, mmu0 (fst c))) mcells).
Proof.
  unfold mnew_stats. rewrite (mo_mods _ _ _ _ G). assert (H := mcell_mod). assert (S := mcell_in).
  unfold mcells in *. revert H S. generalize fs at 1 2 4 5. intros l.
  induction l as [|f l IH]; intros H S; [reflexivity|].
  cbn [map flat_map fst]. assert (I : In (mpath f, f) (map (fun f => (mpath f, f)) (f :: l))) by (cbn; auto).
  assert (M := H _ _ I). destruct (S _ _ I) as (_ & _ & SF).
  unfold mmod_stat at 1. cbn [priv_module gp_context gp_generic_guard gp_generic gp_name].
  unfold generic_part. rewrite SF. rewrite orb_true_l, andb_true_r. unfold mmu0 at 1. rewrite M.
  cbn [priv_module gp_generic_guard].
  assert (X := IH (fun p h J => H p h (or_intror J)) (fun p h J => S p h (or_intror J))).
  destruct (is_expectation_generic f); cbn [app all_some]; rewrite X; reflexivity.
Qed.

Lemma mmu0_slot c : In c mcells -> mmu0 (fst c) = smutex_new (mdm c).
Proof.
  intros I. destruct c as [p f]. unfold mmu0. cbn [fst]. rewrite (mcell_mod p f I).
  destruct (mcell_in _ _ I) as (_ & _ & S). unfold smutex_new, slot_new, mdm. cbn. rewrite ?S, ?andb_true_r.
  reflexivity.
Qed.

(** ** Names *)

Lemma mcell_name c x : In c mcells -> mf_name (snd c) = fn_name x ->
  fst c = ["__" ++ unraw_name (fn_name x)]%string.
Proof.
  intros I N. destruct c as [p f]. destruct (mcell_in _ _ I) as (_ & -> & _). cbn [fst snd] in *.
  unfold mpath, inner_mod_ident. now rewrite N, unraw_same.
Qed.

Lemma mcell_eq f h : In f fs -> In h fs -> unraw (mf_name f) = unraw (mf_name h) -> f = h.
Proof.
  intros I J E. assert (N := mcells_nodup). unfold mcells in N. rewrite map_map in N. cbn [fst] in N.
  apply (NoDup_map_eq mpath fs f h); auto. unfold mpath, inner_mod_ident. now rewrite E.
Qed.

Record mresolves (a : ident) (f : mock_function) : Prop := MResolves {
  mr_in : In (mpath f, f) mcells;
  mr_call : find_by (fun x => unraw (sg_ident (gc_sig x))) (unraw a) (body_calls g) = Some (call_fn f None);
  mr_context : find_by gx_name (context_ident a) (body_contexts g) = Some (context_fn f None);
  mr_place : nth_error mcells (place a (module_fns items)) = Some (mpath f, f)
}.

Lemma place_cell a l k :
  Forall2 (fun x (c : list ident * mock_function) => mf_name (snd c) = fn_name x) l k ->
  (exists x, In x l /\ same_name (fn_name x) a = true) ->
  exists c, nth_error k (place a l) = Some c /\ unraw (mf_name (snd c)) = unraw a.
Proof.
  intros F. induction F as [|x c l k H F IH]; intros (y & I & N); [destruct I|]. cbn [place].
  destruct (same_name (fn_name x) a) eqn:E.
  - exists c. split; auto. rewrite H. now apply String.eqb_eq in E.
  - apply IH. exists y. destruct I as [<-|I]; auto. congruence.
Qed.

Lemma mresolve a : declares_fn items a -> exists f, mresolves a f.
Proof.
  intros D. destruct (place_cell a (module_fns items) mcells) as ([p f] & E & N); auto.
  { assert (F := mcells_link). induction F as [|x c l k H F IH]; constructor; auto. apply H. }
  assert (I := nth_error_In _ _ E). destruct (mcell_in _ _ I) as (If & -> & _). cbn [snd] in N.
  exists f. constructor; auto.
  - rewrite (mo_calls _ _ _ _ G).
    apply (find_map (fun x => unraw (sg_ident (gc_sig x))) (fun f => call_fn f None)); auto.
    intros h J H. apply mcell_eq; auto. rewrite N. exact H.
  - rewrite (mo_contexts _ _ _ _ G). apply (find_map gx_name (fun f => context_fn f None)); auto.
    + cbn. unfold context_ident. now rewrite N.
    + intros h J H. apply mcell_eq; auto. cbn in H. unfold context_ident in H. apply append_inj_r in H. congruence.
Qed.

Lemma mcall_is_there p f : In (p, f) mcells -> call_exists (call_fn f None) (priv_module f) = true.
Proof.
  intros I. destruct (mcell_in _ _ I) as (If & _).
  destruct (Forall2_in_r _ _ _ _ (mo_fns _ _ _ _ G) If) as (x & _ & y & B & _).
  destruct (build_built _ _ B) as (dg & di & ce & sig & BT).
  unfold call_exists. cbn [call_fn gc_mut priv_module gp_kind]. unfold kind_of.
  rewrite (bt_ref _ _ _ _ _ _ BT), (bt_refmut _ _ _ _ _ _ BT).
  unfold returns_ref, returns_refmut. destruct (mf_output f) as [| | | | | | | | | | |lt mt e| | | |]; try reflexivity.
  destruct mt, lt as [l|]; cbn; try reflexivity; destruct (l =? "static"); reflexivity.
Qed.

(** ** Simulation *)

Record msim (y : msys V U) (Y : sys V U) : Prop := MSim {
  mi_world : my_world y = y_world Y;
  mi_seqs : my_seqs y = y_seqs Y;
  mi_objs : y_objs Y = [];
  mi_stats : exists mu, my_stats y = map (fun c => (fst c, mu (fst c))) mcells
                        /\ y_stats Y = map (fun c => (mdm c, mu (fst c))) mcells
}.

Lemma mstat_set (mu : list ident -> smutex V U) p f i y :
  nth_error mcells i = Some (p, f) ->
  set_nth (map (fun x => (mdm x, mu (fst x))) mcells) i (mdm (p, f), y)
  = map (fun x => (mdm x, at_path mu p y (fst x))) mcells.
Proof.
  intros E.
  refine (eq_trans _ (set_nth_map mcells _ (fun c z => (mdm c, z (fst c))) i p f mu y _ mcells_nodup E)).
  - f_equal. cbn [fst]. now rewrite at_same.
  - intros [q h] a b EQ. cbn in *. now rewrite EQ.
Qed.

(** [checkpoint()], on the list of all cells [a ++ b] from [b] on. *)
Lemma mcheck c (sh : shuffle V U) p : forall b (mu : list ident -> smutex V U), NoDup (map fst b) -> (forall x, In x b -> In x mcells) ->
  exists (mu' : list ident -> smutex V U) r,
    statements (mstatement g te c sh p) (map (fun x => checkpoint_of (snd x)) b)
      (map (fun x => (fst x, mu (fst x))) mcells)
    = Some (map (fun x => (fst x, mu' (fst x))) mcells, r)
    /\ module_checkpoint c sh (map (fun x => (mdm x, mu (fst x))) b) p
       = (map (fun x => (mdm x, mu' (fst x))) b, r)
    /\ forall q, ~ In q (map fst b) -> mu' q = mu q.
Proof.
  induction b as [|[q f] b IH]; intros mu N SUB; cbn [map statements module_checkpoint].
  - exists mu, (Ret tt). auto.
  - inversion N as [|? ? N1 N2]; subst. assert (I := SUB _ (or_introl eq_refl)).
    destruct (mcell_in _ _ I) as (_ & PQ & S).
    unfold mstatement at 1. unfold checkpoint_of at 1. cbn [snd]. rewrite S.
    change [inner_mod_ident (mf_name f)] with (mpath f). rewrite <- PQ.
    rewrite (mcell_mod q f I), (get_stat_map mu _ _ _ I). cbn [fst snd].
    change (static_checkpoint c (mod_decl te q (priv_module f) (generic_slot (sm_slot (mu q)))))
      with (static_checkpoint (U := U) c (mdm (q, f))).
    destruct (static_checkpoint c (mdm (q, f)) sh (mu q) p) as [sm' r].
    rewrite put_stat_map by exact mcells_nodup.
    assert (OLD : forall x, map (fun y => (mdm y, at_path mu q x (fst y))) b = map (fun y => (mdm y, mu (fst y))) b).
    { intros x. apply map_ext_in. intros [q' h] J. cbn. f_equal. apply at_other. intros ->.
      apply N1. exact (in_map fst _ _ J). }
    destruct r as [[]|m|].
    + destruct (IH (at_path mu q sm') N2 (fun x J => SUB x (or_intror J))) as (mu' & r & E1 & E2 & E3).
      exists mu', r. rewrite E1. split; [reflexivity|]. rewrite <- (OLD sm'), E2. split.
      * do 2 f_equal. f_equal. symmetry. rewrite E3 by exact N1. apply at_same.
      * intros q' J. cbn in J. rewrite E3 by tauto. apply at_other. intros ->. tauto.
    + exists (at_path mu q sm'), (Panic m). split; [reflexivity|]. cbn [fst]. rewrite OLD, at_same.
      split; [reflexivity|]. intros q' J. apply at_other. intros ->. cbn in J. tauto.
    + exists (at_path mu q sm'), Abort. split; [reflexivity|]. cbn [fst]. rewrite OLD, at_same.
      split; [reflexivity|]. intros q' J. apply at_other. intros ->. cbn in J. tauto.
Qed.

Lemma minit_sim u : exists y, minit g u = Some y /\ msim y (init u mst).
Proof.
  unfold minit. rewrite mnew_stats_named. eexists. split; [reflexivity|]. constructor; cbn; auto.
  exists mmu0. split; auto. unfold mst. rewrite map_map. apply map_ext_in. intros c I. now rewrite mmu0_slot.
Qed.

Lemma mcontext_named y Y mu a f :
  msim y Y -> my_stats y = map (fun c => (fst c, mu (fst c))) mcells -> mresolves a f ->
  mcontext_at g te y a
  = Some (mpath f, mod_decl te (mpath f) (priv_module f) (generic_slot (sm_slot (mu (mpath f)))), mu (mpath f)).
Proof.
  intros SI ST R. unfold mcontext_at. rewrite (mr_context _ _ R).
  change (gx_mod (context_fn f None)) with (mpath f).
  rewrite (mcell_mod _ _ (mr_in _ _ R)), ST, (get_stat_map mu _ _ _ (mr_in _ _ R)). reflexivity.
Qed.

Lemma mstep_sim c sh y Y o :
  msim y Y -> named_fn items o ->
  exists y', mstep g te c sh y o = Some (y', snd (step c sh Y (to_mod_op items o)))
             /\ msim y' (fst (step c sh Y (to_mod_op items o))).
Proof.
  intros SI NM. assert (SI2 := SI). destruct SI as [W Q O (mu & ST1 & ST2)].
  destruct o as [a k l|a k args|a|a| |t|b|uf]; cbn [named_fn] in NM; cbn [mstep to_mod_op step].
  - destruct (mresolve _ NM) as (f & R). rewrite (mcontext_named y Y mu a f SI2 ST1 R), W, Q, ST2.
    rewrite (map_nth_error (fun x => (mdm x, mu (fst x))) _ _ (mr_place _ _ R)). cbn [fst].
    change (context_expect c (mod_decl te (mpath f) (priv_module f) (generic_slot (sm_slot (mu (mpath f))))))
      with (context_expect (U := U) c (mdm (mpath f, f))).
    destruct (context_expect c (mdm (mpath f, f)) (mu (mpath f)) k l (y_seqs Y) (y_world Y)) as [[s' t'] r].
    eexists. split; [reflexivity|]. constructor; cbn; eauto. exists (at_path mu (mpath f) s'). rewrite ST1.
    split; [apply put_stat_map; exact mcells_nodup|]. apply mstat_set. exact (mr_place _ _ R).
  - destruct (mresolve _ NM) as (f & R). rewrite (mr_call _ _ R).
    destruct (mcell_in _ _ (mr_in _ _ R)) as (_ & _ & S).
    assert (SO : gc_store (call_fn f None) = StaticIn (mpath f)). { cbn. rewrite S. reflexivity. }
    rewrite SO, (mcell_mod _ _ (mr_in _ _ R)), ST1, (get_stat_map mu _ _ _ (mr_in _ _ R)).
    rewrite (mcall_is_there _ _ (mr_in _ _ R)), W, ST2.
    rewrite (map_nth_error (fun x => (mdm x, mu (fst x))) _ _ (mr_place _ _ R)). cbn [fst].
    assert (SC : gstatic_call c (mod_decl te (mpath f) (priv_module f) (generic_slot (sm_slot (mu (mpath f)))))
              (no_match te (mpath f) (call_fn f None) args) (mu (mpath f)) k args (y_world Y)
      = static_call c (mdm (mpath f, f)) (mu (mpath f)) k args (y_world Y)) by reflexivity.
    rewrite SC. clear SC.
    destruct (static_call c (mdm (mpath f, f)) (mu (mpath f)) k args (y_world Y)) as [[s' w'] r].
    eexists. split; [reflexivity|]. constructor; cbn; eauto. exists (at_path mu (mpath f) s').
    split; [apply put_stat_map; exact mcells_nodup|]. apply mstat_set. exact (mr_place _ _ R).
  - destruct (mresolve _ NM) as (f & R). rewrite (mcontext_named y Y mu a f SI2 ST1 R), W, ST2.
    rewrite (map_nth_error (fun x => (mdm x, mu (fst x))) _ _ (mr_place _ _ R)). cbn [fst].
    change (static_checkpoint c (mod_decl te (mpath f) (priv_module f) (generic_slot (sm_slot (mu (mpath f))))))
      with (static_checkpoint (U := U) c (mdm (mpath f, f))).
    destruct (static_checkpoint c (mdm (mpath f, f)) sh (mu (mpath f)) (w_panicking (y_world Y))) as [s' r].
    eexists. split; [reflexivity|]. constructor; cbn; eauto. exists (at_path mu (mpath f) s'). rewrite ST1.
    split; [apply put_stat_map; exact mcells_nodup|]. apply mstat_set. exact (mr_place _ _ R).
  - destruct (mresolve _ NM) as (f & R). rewrite (mcontext_named y Y mu a f SI2 ST1 R), W, ST2.
    rewrite (map_nth_error (fun x => (mdm x, mu (fst x))) _ _ (mr_place _ _ R)). cbn [fst].
    change (context_drop c (mod_decl te (mpath f) (priv_module f) (generic_slot (sm_slot (mu (mpath f))))))
      with (context_drop (U := U) c (mdm (mpath f, f))).
    destruct (context_drop c (mdm (mpath f, f)) sh (mu (mpath f)) (w_panicking (y_world Y))) as [s' r].
    eexists. split; [reflexivity|]. constructor; cbn; eauto. exists (at_path mu (mpath f) s'). rewrite ST1.
    split; [apply put_stat_map; exact mcells_nodup|]. apply mstat_set. exact (mr_place _ _ R).
  - destruct (mcheck c sh (w_panicking (y_world Y)) mcells mu mcells_nodup (fun x I => I)) as (mu' & r & E1 & E2 & _).
    rewrite (mo_checkpoint _ _ _ _ G).
    assert (EQ : map checkpoint_of fs = map (fun x => checkpoint_of (snd x)) mcells).
    { unfold mcells. now rewrite map_map. }
    rewrite EQ, ST1, ST2, W, E1, E2. eexists. split; [reflexivity|]. constructor; cbn; eauto.
  - eexists. split; [reflexivity|]. constructor; cbn; eauto. now rewrite W.
  - eexists. split; [reflexivity|]. constructor; cbn; eauto. now rewrite W.
  - eexists. split; [reflexivity|]. constructor; cbn; eauto. now rewrite W.
Qed.

Lemma mrun_sim c sh l : forall y Y,
  msim y Y -> Forall (named_fn items) l ->
  exists y', mrun g te c sh y l = Some (y', snd (run c sh Y (map (to_mod_op items) l)))
             /\ msim y' (fst (run c sh Y (map (to_mod_op items) l))).
Proof.
  induction l as [|o l IH]; intros y Y S F; cbn [map run mrun].
  - exists y. auto.
  - inversion F as [|? ? F1 F2]; subst. destruct (mstep_sim c sh y Y o S F1) as (y1 & E1 & S1). rewrite E1.
    destruct (step c sh Y (to_mod_op items o)) as [Y1 r]. cbn [fst snd] in *.
    destruct (IH y1 Y1 S1 F2) as (y2 & E2 & S2). rewrite E2.
    destruct (run c sh Y1 (map (to_mod_op items) l)) as [Y2 rs]. cbn [fst snd] in *. exists y2. auto.
Qed.

(** The declaration at the place of a function is that of the function. *)
Lemma mdeclaration x a :
  In x (module_fns items) -> same_name (fn_name x) a = true ->
  exists d, nth_error mst (place a (module_fns items)) = Some d /\ described_fn n te x d.
Proof.
  intros I N. destruct (mresolve a) as (f & R); [exists x; auto|]. unfold mst.
  rewrite (map_nth_error mdm _ _ (mr_place _ _ R)). eexists. split; [reflexivity|].
  destruct (Forall2_in_l _ _ _ _ mcells_link I) as ([p h] & J & NH & _ & _ & D). cbn [snd] in NH.
  destruct (mcell_in _ _ J) as (Ih & -> & _). destruct (mcell_in _ _ (mr_in _ _ R)) as (If & _).
  assert (C := mr_call _ _ R). apply find_by_in in C as [_ C]. cbn [call_fn gc_sig] in C. fold (mf_name f) in C.
  assert (h = f) as ->; [|exact D]. apply mcell_eq; auto. rewrite NH, C. now apply String.eqb_eq in N.
Qed.

(** A name that was not declared does not compile. *)
Lemma mundeclared_step c sh (y : msys V U) (o : mop V U) : ~ named_fn items o -> mstep g te c sh y o = None.
Proof.
  assert (X : forall a f, In f fs -> unraw (mf_name f) = unraw a -> declares_fn items a).
  { intros a f I E. destruct (Forall2_in_r _ _ _ _ mcells_link (in_map (fun f => (mpath f, f)) _ _ I))
      as (x & Ix & N & _). exists x. split; auto. unfold same_name. cbn in N. rewrite <- N, E. apply String.eqb_refl. }
  assert (C : forall a, ~ declares_fn items a -> mcontext_at g te y a = None).
  { intros a D. unfold mcontext_at. replace (find_by _ _ _) with (@None gen_context); auto. symmetry.
    apply find_by_none. rewrite (mo_contexts _ _ _ _ G). intros k I E. apply in_map_iff in I as (f & <- & I).
    apply D, (X a f I). cbn in E. unfold context_ident in E. now apply append_inj_r in E. }
  intros N. destruct o as [a k l|a k args|a|a| |t|b|uf]; cbn [named_fn] in N; try (now elim N); cbn [mstep];
    try now rewrite C.
  replace (find_by _ _ _) with (@None gen_call); auto. symmetry.
  apply find_by_none. rewrite (mo_calls _ _ _ _ G). intros x I E. apply in_map_iff in I as (f & <- & I).
  apply N, (X a f I). exact E.
Qed.

End Proofs.
