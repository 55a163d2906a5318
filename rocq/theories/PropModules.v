(** * PropModules: mocks of modules

    Property C66. *)

From Coq Require Import List Bool String Ascii NArith Arith Lia.
From Verif Require Import Ast AstSpec TyEq Rewrite RewriteProofs Derive DeriveSpec Names CallSpec Subst
  Sig SigSpec SigProofs MockFn MockFnProofs Item ItemProofs PipeProofs PropItems MockItem ItemSpec
  PipeSpec ModSpec.
Import ListNotations.
Open Scope string_scope.
Open Scope list_scope.

(** ** Lemmas *)

Lemma module_fn_made m x f :
  build (module_builder m x) = Some f ->
  fn_made None (fi_vis x) x f /\ mf_attrs f = fi_attrs x.
Proof.
  intros H. split; [constructor|].
  - apply (build_kept _ _ H).
  - apply (build_static _ _ H).
  - apply build_built in H as (? & ? & ? & ? & B). apply (bt_call_vis _ _ _ _ _ _ B).
  - apply build_built in H as (? & ? & ? & ? & B). apply (bt_trait _ _ _ _ _ _ B).
  - apply build_built in H as (? & ? & ? & ? & B). apply (bt_attrs _ _ _ _ _ _ B).
Qed.

Lemma no_mangle_linked abi : no_mangle abi = true <-> linked abi.
Proof.
  unfold linked. destruct abi as [[n|]|]; cbn [no_mangle].
  - rewrite negb_true_iff, String.eqb_neq. split.
    + intros H. exists (Some n). split; congruence.
    + intros (o & E & N) ->. congruence.
  - split; auto. intros _. exists None. split; congruence.
  - split; [discriminate|]. intros (o & E & _). discriminate.
Qed.

Lemma made_parts abi ret x y u f :
  fn_made None (fi_vis y) y f -> mf_attrs f = fi_attrs y ->
  fi_vis y = fi_vis x -> fi_attrs y = fi_attrs x ->
  takes_self (fi_sig y) = false ->
  sg_ident (fi_sig y) = sg_ident (fi_sig x) ->
  sg_abi (fi_sig y) = abi ->
  (forall s, kept (fi_sig y) s -> same_fn abi ret (fi_sig x) s) ->
  fn_parts x u abi ret (gen_content (CoFn f u)).
Proof.
  intros [K S V T] A EV EA R N B P. rewrite R in S. cbn in S.
  assert (MN : mf_name f = sg_ident (fi_sig x)).
  { unfold mf_name. destruct K as (K & _). congruence. }
  unfold fn_parts, gen_content. do 4 eexists. split; [reflexivity|].
  unfold call_fn, context_fn, priv_module, outer_mod_path.
  cbn [gc_sig gc_vis gc_no_mangle gp_name gc_store gx_mod gx_name gx_vis gc_attrs gp_attrs gx_attrs app].
  rewrite T, S, MN. unfold plain_attrs.
  split; [now apply P|]. split; [congruence|].
  split. { rewrite no_mangle_linked. destruct K as (_ & _ & _ & K & _). rewrite K, B. reflexivity. }
  split; [reflexivity|]. repeat split; try reflexivity; try congruence.
  all: rewrite kept_cfgs; congruence.
Qed.

Lemma demutified_kept s s' :
  kept (mockable_fn s) s' -> same_fn (sg_abi s) returned s s'.
Proof.
  intros (K1 & K2 & K3 & K4 & K5). unfold mockable_fn in *.
  cbn [sg_ident sg_generics sg_output sg_abi sg_inputs with_inputs with_output] in *.
  repeat split; auto.
  - revert K5. unfold demutify. generalize (sg_inputs s'). induction (sg_inputs s) as [|a l IH];
      intros l' F; inversion F as [|? b ? r H F']; subst; constructor; auto.
    destruct a as [r' m c t|p t]; cbn in H.
    + destruct b; [auto|]. destruct r', c; discriminate.
    + destruct b as [|p' t']; [contradiction|]. destruct H as [-> H]. split; auto. rewrite H.
      destruct p; reflexivity.
  - rewrite K3. destruct (sg_output s) as [t|]; [|exact I].
    destruct (deimplify_returned t) as (t1 & -> & H). exact H.
Qed.

Lemma foreign_kept abi x s' :
  kept (fi_sig (foreign_fn abi x)) s' -> same_fn (unwinding abi) eq (fi_sig x) s'.
Proof.
  intros (K1 & K2 & K3 & K4 & K5). unfold foreign_fn in *. cbn in K1, K2, K3, K4, K5.
  repeat split; auto.
  - rewrite K4. unfold foreign_abi, unwinding. destruct abi as [n|]; auto.
    destruct (n =? "C") eqn:E.
    + apply String.eqb_eq in E. now subst.
    + apply String.eqb_neq in E. destruct n as [|a [|b n]]; auto.
      * destruct a as [[] [] [] [] [] [] [] []]; auto. congruence.
      * destruct a as [[] [] [] [] [] [] [] []]; auto.
  - clear - K5. induction K5 as [|a b l l' H F IH]; constructor; auto.
    destruct a, b; auto. discriminate.
  - rewrite K3. destruct (sg_output (fi_sig x)); auto.
Qed.

(** ** C66 *)

(** The mock of a module [m] is a module [mock_m] with the same visibility.  It
    has, in the order of the items: each constant, static, type and import as it
    is; nothing for extern crates and impl blocks; and for each function, also
    the foreign ones, a mock function, a set of expectations and a context.  Mocks
    of foreign functions are unsafe, can unwind, and are linked by name.
    [checkpoint()] covers each set of expectations, under the same conditions. *)
Theorem automock_of_a_module :
  forall (vis : visibility) (n : ident) (items : list item) (g : gen_module),
    free_functions items ->
    gen_mod (from_module vis n items) = Some g ->
    gd_vis g = vis /\ gd_name g = ("mock_" ++ unraw_name n)%string
    /\ (exists parts, Forall2 item_parts items parts /\ gd_body g = List.concat parts)
    /\ Forall2 (fun p e => snd e = StaticIn [gp_name p] /\ cfgs (fst e) = cfgs (gp_attrs p))
               (privmods (gd_body g)) (gd_checkpoint g).
Proof.
  intros vis n items g FF. unfold gen_mod, module_content, from_module.
  cbn [mm_content mm_mock_ident mm_vis]. set (mi := gen_mock_module_ident n).
  destruct (all_some (item_content mi) (map mockable_item items)) as [cs|] eqn:A; [|discriminate].
  cbn [option_map]. intros E. injection E as <-. cbn [gd_vis gd_name gd_body gd_checkpoint].
  split; [reflexivity|]. split; [reflexivity|].
  apply all_some_spec in A.
  assert (P : exists parts, Forall2 item_parts items parts
                            /\ flat_map gen_content (List.concat cs) = List.concat parts
                            /\ Forall (fun c => match c with CoFn f _ => mf_is_static f = true | _ => True end)
                                      (List.concat cs)).
  { revert FF cs A. induction items as [|i items IH]; intros FF cs A.
    - inversion A. exists []. repeat split; constructor.
    - cbn [map] in A. inversion A as [|? c ? cs' HA A']. subst.
      destruct (IH (fun j I => FF j (or_intror I)) _ A') as (parts & F & EB & S).
      cbn [List.concat]. rewrite flat_map_app, EB.
      assert (X : exists l, item_parts i l /\ flat_map gen_content c = l
                 /\ Forall (fun c => match c with CoFn f _ => mf_is_static f = true | _ => True end) c).
      { specialize (FF i (or_introl eq_refl)).
        destruct i as [x u|abi xs|s|s|s|s]; cbn [mockable_item item_content] in HA.
        - destruct (build _) as [f|] eqn:B; [|discriminate]. injection HA as <-.
          apply module_fn_made in B as [M MA]. cbn [flat_map]. rewrite app_nil_r.
          assert (TS : takes_self (mockable_fn (fi_sig x)) = false).
          { rewrite <- FF. unfold mockable_fn, takes_self, demutify. cbn.
            induction (sg_inputs (fi_sig x)) as [|a l IHl]; auto. cbn. rewrite IHl.
            f_equal. destruct a as [[|] [|] [|] t|p t]; reflexivity. }
          eexists. split; [|split; [reflexivity|]].
          + constructor. eapply made_parts; [exact M|exact MA|reflexivity|reflexivity|exact TS| | |].
            * reflexivity.
            * reflexivity.
            * intros s. apply demutified_kept.
          + constructor; [|constructor]. rewrite (fm_static _ _ _ _ M). cbn [fi_sig]. now rewrite TS.
        - apply all_some_spec in HA. exists (flat_map gen_content c).
          assert (Y : Forall2 (fun f l => exists x u, f = FiFn x u /\ fn_parts x true (unwinding abi) eq l)
                        xs (map gen_content c)
                      /\ Forall (fun c => match c with CoFn f _ => mf_is_static f = true | _ => True end) c).
          { clear - HA FF. induction HA as [|y d ys ds H HA IHy]; [split; constructor|].
            destruct IHy as [I1 I2]. { intros x u I. apply (FF x u). now right. }
            destruct y as [x u|t]; cbn [foreign_content] in H; [|discriminate].
            destruct (build _) as [f|] eqn:B; [|discriminate]. injection H as <-.
            apply module_fn_made in B as [M MA].
            assert (TS : takes_self (fi_sig (foreign_fn abi x)) = false) by (apply (FF x u); now left).
            split; constructor; auto.
            - exists x, u. split; auto.
              eapply made_parts; [exact M|exact MA|reflexivity|reflexivity|exact TS|reflexivity| |].
              + cbn [foreign_fn fi_sig sg_abi]. unfold foreign_abi, unwinding.
                destruct abi as [k|]; auto. destruct (k =? "C") eqn:EC.
                * apply String.eqb_eq in EC. now subst.
                * apply String.eqb_neq in EC. destruct k as [|a [|b k]]; auto;
                    destruct a as [[] [] [] [] [] [] [] []]; auto. congruence.
              + intros s. apply foreign_kept.
            - rewrite (fm_static _ _ _ _ M), TS. reflexivity. }
          destruct Y as [Y1 Y2]. split; [|split; [reflexivity|exact Y2]].
          rewrite flat_map_concat_map. now constructor.
        - injection HA as <-. exists [GiTokens s]. repeat split; try constructor; auto.
        - injection HA as <-. exists []. repeat split; constructor.
        - discriminate.
        - discriminate. }
      destruct X as (l & X1 & X2 & X3). exists (l :: parts). split; [now constructor|].
      split; [cbn [List.concat]; congruence|]. apply Forall_app. auto. }
  destruct P as (parts & F & EB & S). split; [exists parts; auto|].
  clear - S. induction (List.concat cs) as [|c l IH]; [constructor|].
  inversion S as [|? ? Sc Sl]. subst. specialize (IH Sl).
  cbn [flat_map]. unfold privmods in *. rewrite flat_map_app. apply Forall2_app; [|exact IH].
  destruct c as [f u|s]; cbn -[cfgs plain_attrs inner_mod_ident]; constructor; auto.
  cbn -[cfgs plain_attrs inner_mod_ident]. rewrite Sc. auto.
Qed.
Print Assumptions automock_of_a_module.

(** Modules, structures, enums, unions and traits inside of the module, foreign
    statics and types, and macros, are refused, not dropped. *)
Theorem unsupported_items_are_refused :
  forall (vis : visibility) (n : ident) (items : list item) (i : item),
    In i items ->
    (exists s, i = ItNested s \/ i = ItOther s)
    \/ (exists abi l s, i = ItForeign abi l /\ In (FiOther s) l) ->
    gen_mod (from_module vis n items) = None.
Proof.
  intros vis n items i I H. unfold gen_mod, module_content, from_module. cbn [mm_content mm_mock_ident].
  set (mi := gen_mock_module_ident n).
  assert (N : item_content mi (mockable_item i) = None).
  { destruct H as [(s & [-> | ->])|(abi & l & s & -> & J)]; auto. cbn [mockable_item item_content].
    clear I. induction l as [|y l IH]; [contradiction|]. destruct J as [->|J]; [reflexivity|].
    cbn [all_some]. rewrite (IH J). now destruct (foreign_content mi abi y). }
  assert (A : all_some (item_content mi) (map mockable_item items) = None).
  { clear H. induction items as [|y l IH]; [contradiction|]. cbn [map all_some]. destruct I as [->|I].
    - now rewrite N.
    - rewrite (IH I). now destruct (item_content mi (mockable_item y)). }
  now rewrite A.
Qed.
Print Assumptions unsupported_items_are_refused.

(** [pub mod m { use a::b; #[cfg(unix)] pub fn f(mut x: u32) -> impl Tr;
      extern "C" { fn g(x: u32); } }] *)
Definition ex_typed (m : bool) : fnarg := FaTyped (PatIdent false m "x" false) (ty_of "u32").
Definition ex_items : list item :=
  [ItCopied "use a::b;"; ItIgnored "impl S {}";
   ItFn (FnItem [ex_cfg "unix"] VPublic
           (Signature "f" no_generics [ex_typed true]
              (Some (TImplTrait [BTrait false [] (path_of "Tr")])) None)) false;
   ItForeign (Some "C") [FiFn (FnItem [] VInherited (Signature "g" no_generics [ex_typed false] None None)) false]].
Example automock_of_a_module_applies :
  free_functions ex_items
  /\ option_map (fun g => (gd_name g, gd_vis g, gd_checkpoint g,
       flat_map (fun i => match i with
                          | GiCall c u => [(sg_ident (gc_sig c), sg_output (gc_sig c), sg_abi (gc_sig c),
                                            gc_no_mangle c, u)]
                          | _ => []
                          end) (gd_body g)))
       (gen_mod (from_module VPublic "m" ex_items))
     = Some ("mock_m", VPublic,
             [([ex_cfg "unix"], StaticIn ["__f"]); ([], StaticIn ["__g"])],
             [("f", Some (boxed [BTrait false [] (path_of "Tr")]), None, false, false);
              ("g", None, Some (Some "C-unwind"), true, true)]).
Proof.
  split; [|reflexivity]. intros i [<-|[<-|[<-|[<-|[]]]]]; auto. intros x u [E|[]]. injection E as <- _. reflexivity.
Qed.
Example unsupported_items_are_refused_applies :
  gen_mod (from_module VPublic "m" (ex_items ++ [ItNested "struct S;"])) = None
  /\ gen_mod (from_module VPublic "m" ex_items) <> None.
Proof. split; [reflexivity|discriminate]. Qed.
