(** * MockFnProofs: what [build] makes of a signature *)

From Coq Require Import List Bool String NArith Arith Lia.
From Verif Require Import Ast AstSpec TyEq Rewrite Derive DeriveSpec Names Subst Sig MockFn MockFnSpec
  GenericsProofs AttrProofs ClosureProofs.
Import ListNotations.
Open Scope string_scope.
Open Scope list_scope.

Lemma static_lt l : is_static_lt l = true <-> l = Some "static".
Proof.
  destruct l as [s|]; cbn; [|split; discriminate].
  rewrite String.eqb_eq. split; congruence.
Qed.

(** ** The stored output *)

Lemma destr_path_other b l :
  (forall i, b = false -> l = [Seg i PaNone] -> find_name i owned_names = None) ->
  forall lt m, is_static_lt lt = false ->
  destrify (TRef lt m (TPath (Path b l))) = TRef lt m (TPath (Path b l)).
Proof.
  intros H lt m S. cbn [destrify]. rewrite S.
  destruct b; [destruct l as [|[i [| |]] [|]]; reflexivity|].
  destruct l as [|[i [| |]] [|]]; try reflexivity.
  specialize (H i eq_refl eq_refl). cbn [find_name owned_names] in H.
  rewrite (String.eqb_sym i "CStr"), (String.eqb_sym i "OsStr"), (String.eqb_sym i "Path"),
    (String.eqb_sym i "str").
  destruct ("str" =? i); [discriminate|]. destruct ("Path" =? i); [discriminate|].
  destruct ("OsStr" =? i); [discriminate|]. destruct ("CStr" =? i); [discriminate|].
  reflexivity.
Qed.

Lemma moved_single n b l i :
  supersuperfy_path n (Path b l) = Path false [Seg i PaNone] ->
  find_name i owned_names <> None -> b = false /\ l = [Seg i PaNone].
Proof.
  cbn [supersuperfy_path]. unfold add_supers. intros E F.
  assert (N : i <> "super") by (intros ->; apply F; reflexivity).
  destruct l as [|[j a] r].
  - cbn in E. discriminate.
  - destruct r as [|s r].
    + cbn [on_last supersuperfy_seg starts_with_super] in E.
      destruct (j =? "super") eqn:J.
      * injection E as _ E. destruct n as [|n]; cbn in E.
        -- injection E as -> _. apply String.eqb_eq in J. congruence.
        -- injection E as <- _. congruence.
      * injection E as -> -> E. split; auto. destruct a; cbn in E; congruence.
    + set (f := supersuperfy_seg n) in *.
      assert (L : List.length (on_last f (Seg j a :: s :: r)) = S (S (List.length r))).
      { clear. cbn. f_equal. fold (on_last f).
        assert (G : forall x r, List.length (on_last f (x :: r)) = S (List.length r)).
        { clear. intros x r. revert x. induction r as [|y r IH]; intros x; auto.
          cbn [List.length]. rewrite <- (IH y). reflexivity. }
        apply G. }
      exfalso. apply (f_equal segs) in E. cbn [segs] in E.
      assert (K : 2 <= List.length
                  (if starts_with_super (on_last f (Seg j a :: s :: r))
                   then repeat (seg_of "super") n ++ on_last f (Seg j a :: s :: r)
                   else on_last f (Seg j a :: s :: r))).
      { destruct (starts_with_super _); rewrite ?app_length, L; lia. }
      rewrite E in K. cbn in K. lia.
Qed.

Lemma moved_std n m i a :
  supersuperfy n (in_std m i a) = in_std m i (supersuperfy_pargs n a).
Proof. reflexivity. Qed.

Lemma find_none_super i : i = "super" -> find_name i owned_names = None.
Proof. intros ->. reflexivity. Qed.

Lemma stored_ref n l m e :
  is_static_lt l = false ->
  let t := destrify (supersuperfy n (TRef l m e)) in
  ownify (fst (dedynify t)) = supersuperfy n (owned e)
  /\ (exists e', fst (dedynify t) = TRef l m e')
  /\ snd (dedynify t) = match e with TDyn _ _ => true | _ => false end.
Proof.
  intros S. cbv zeta. cbn [supersuperfy].
  destruct e as [e k|q b i o|e|bs| |s| |e|p|q k p|mu e|r mu e|e|d bs|es|s];
    cbn [supersuperfy];
    try (cbn [destrify]; rewrite S; cbn [dedynify fst snd ownify owned supersuperfy]; rewrite S;
         split; [reflexivity|split; [eexists; reflexivity|reflexivity]]; fail).
  - (* path *)
    destruct p as [b l'].
    destruct (supersuperfy_path n (Path b l')) as [b1 l1] eqn:E.
    destruct (match l1 with [Seg i PaNone] => if b1 then None else find_name i owned_names | _ => None end)
      as [u|] eqn:F.
    + destruct l1 as [|[i [| |]] [|]]; try discriminate. destruct b1; [discriminate|].
      assert (F' : find_name i owned_names <> None) by congruence.
      destruct (moved_single n b l' i E F') as [-> ->]. clear E F'.
      assert (D : destrify (TRef l m (TPath (Path false [Seg i PaNone]))) = TRef l m u
                  /\ supersuperfy n u = u /\ (forall d b, u <> TDyn d b)).
      { cbn [destrify]. rewrite S. cbn [find_name owned_names] in F.
        rewrite (String.eqb_sym i "CStr"), (String.eqb_sym i "OsStr"), (String.eqb_sym i "Path"),
          (String.eqb_sym i "str").
        destruct ("str" =? i) eqn:E1.
        { apply String.eqb_eq in E1. subst i. injection F as <-. split; [|split]; try reflexivity. discriminate. }
        destruct ("Path" =? i) eqn:E2.
        { apply String.eqb_eq in E2. subst i. injection F as <-. split; [|split]; try reflexivity. discriminate. }
        destruct ("OsStr" =? i) eqn:E3.
        { apply String.eqb_eq in E3. subst i. injection F as <-. split; [|split]; try reflexivity. discriminate. }
        destruct ("CStr" =? i) eqn:E4; [|discriminate].
        apply String.eqb_eq in E4. subst i. injection F as <-. split; [|split]; try reflexivity. discriminate. }
      destruct D as (D & M & ND). rewrite D. cbn [owned]. rewrite F, M.
      assert (X : dedynify (TRef l m u) = (TRef l m u, false)).
      { destruct u; try reflexivity. elim (ND dyn_token bounds eq_refl) || elim (ND _ _ eq_refl). }
      rewrite X. cbn [fst snd ownify]. rewrite S.
      split; [reflexivity|split; [eexists; reflexivity|reflexivity]].
    + rewrite destr_path_other; [|intros i -> ->; exact F|exact S].
      cbn [dedynify fst snd ownify]. rewrite S.
      split; [|split; [eexists; reflexivity|reflexivity]].
      cbn [owned].
      assert (O : match b, l' with
                  | false, [Seg i PaNone] =>
                      match find_name i owned_names with
                      | Some u => u
                      | None => TPath (Path b l')
                      end
                  | _, _ => TPath (Path b l')
                  end = TPath (Path b l')).
      { destruct b; auto. destruct l' as [|[i [| |]] [|]]; auto.
        destruct (find_name i owned_names) as [u|] eqn:G; auto. exfalso.
        assert (NS : (i =? "super") = false).
        { apply String.eqb_neq. intros ->. discriminate. }
        cbn in E. unfold add_supers in E. cbn [starts_with_super] in E. rewrite NS in E.
        injection E as <- <-. congruence. }
      transitivity (supersuperfy n (TPath (Path b l'))).
      * cbn [supersuperfy]. rewrite E. reflexivity.
      * f_equal. symmetry. destruct b; [destruct l' as [|[i [| |]] [|]]; reflexivity|].
        destruct l' as [|[i [| |]] [|]]; auto.
  - (* slice *) cbn [destrify]. rewrite S. unfold std_path. cbn [dedynify fst snd ownify owned].
    rewrite S.
    split; [reflexivity|split; [eexists; reflexivity|reflexivity]].
  - (* dyn *) cbn [destrify]. rewrite S. cbn [dedynify]. rewrite S. cbn [fst snd ownify]. rewrite S.
    split; [reflexivity|split; [eexists; reflexivity|reflexivity]].
Qed.

(** ** The fields of the result *)

Record built (b : builder) (f : mock_function) (dg : generics) (di : list fnarg)
  (ce : list callexpr) (sig : signature) : Prop := Built {
  bt_prepared : prepared b = Some (dg, di, ce, sig);
  bt_no_self : existsb (fun x => pat_is_self (fst x)) (moved_args (b_levels b) di) = false;
  bt_argnames : mf_argnames f = map fst (moved_args (b_levels b) di);
  bt_argty : mf_argty f = map snd (moved_args (b_levels b) di);
  bt_calls : mf_call_exprs f = ce;
  bt_sig : mf_sig f = sig;
  bt_static : mf_is_static f = forallb (fun a => match a with
                                                | FaTyped _ _ => true
                                                | FaReceiver _ _ _ _ => false
                                                end) di;
  bt_output : (mf_output f, mf_boxed f) = output_of (b_levels b) (sg_output (b_sig b));
  bt_owned : mf_owned_output f = ownify (mf_output f);
  bt_ref : mf_return_ref f = returns_ref (mf_output f);
  bt_refmut : mf_return_refmut f = returns_refmut (mf_output f);
  bt_predexprs : mf_predexprs f
    = map (fun x => fst (fst (pred_of (fst x) (snd x)))) (moved_args (b_levels b) di);
  bt_predty : mf_predty f
    = map (fun x => snd (fst (pred_of (fst x) (snd x)))) (moved_args (b_levels b) di);
  bt_refpredty : mf_refpredty f
    = map (fun x => snd (pred_of (fst x) (snd x))) (moved_args (b_levels b) di);
  bt_sgenerics : mf_struct_generics f
    = match b_struct_generics b with Some g => g | None => no_generics end;
  bt_generics : exists salts srlts malts mrlts,
    split_lifetimes (mf_struct_generics f) di (Some (mf_owned_output f))
      = (mf_type_generics f, salts, srlts)
    /\ split_lifetimes (supersuperfy_generics (b_levels b) dg) di (Some (mf_owned_output f))
       = (mf_call_generics f, malts, mrlts)
    /\ mf_cgenerics f = merge_generics (mf_type_generics f) (mf_call_generics f)
    /\ mf_egenerics f = merge_generics (merge_generics (mf_cgenerics f) (lifetimes_to_generics srlts))
                                       (lifetimes_to_generics mrlts)
    /\ mf_alifetimes f = lt_union salts malts;
  bt_fn_params : mf_fn_params f = type_idents (mf_egenerics f);
  bt_vis : mf_privmod_vis f = expectation_visibility (b_vis b) (b_levels b);
  bt_call_vis : mf_call_vis f
    = expectation_visibility (b_vis b) match b_call_levels b with Some n => n | None => b_levels b end;
  bt_struct : mf_struct f = b_struct b;
  bt_trait : mf_trait f = b_trait b;
  bt_attrs : mf_attrs f = b_attrs b
}.

Lemma build_built b f : build b = Some f -> exists dg di ce sig, built b f dg di ce sig.
Proof.
  unfold build. destruct (prepared b) as [[[[dg di] ce] sig]|] eqn:P; [|discriminate].
  destruct (existsb (fun x => pat_is_self (fst x)) (moved_args (b_levels b) di)) eqn:S; [discriminate|].
  destruct (output_of (b_levels b) (sg_output (b_sig b))) as [out bx] eqn:O.
  set (g := match b_struct_generics b with Some g => g | None => no_generics end).
  destruct (split_lifetimes g di (Some (ownify out))) as [[tg sa] sr] eqn:S1.
  destruct (split_lifetimes (supersuperfy_generics (b_levels b) dg) di (Some (ownify out)))
    as [[cg ma] mr] eqn:S2.
  intros E. injection E as <-. exists dg, di, ce, sig.
  constructor; try reflexivity; auto;
    try (cbn [mf_predexprs mf_predty mf_refpredty]; rewrite map_map; reflexivity).
  exists sa, sr, ma, mr. repeat split; auto.
Qed.

Lemma is_static_dec l : l = Some "static" \/ is_static_lt l = false.
Proof. destruct (is_static_lt l) eqn:E; auto. left. apply static_lt. exact E. Qed.

Lemma not_static l : is_static_lt l = false <-> l <> Some "static".
Proof. rewrite <- static_lt. destruct (is_static_lt l); split; congruence. Qed.

Lemma stored_other l m e : is_static_lt l = false -> stored (Some (TRef l m e)) = owned e.
Proof.
  unfold is_static_lt. destruct l as [s|]; cbn [stored]; auto. intros H.
  repeat (match goal with
          | |- context [match ?x with _ => _ end] => is_var x; destruct x
          end; try reflexivity; try discriminate).
Qed.

Lemma stored_static m e :
  stored (Some (TRef (Some "static") m e))
  = TRef (Some "static") m match e with TDyn _ _ => TParen e | _ => e end.
Proof. destruct e; reflexivity. Qed.

Lemma super_ref n t l m e :
  supersuperfy n t = TRef l m e -> exists e', t = TRef l m e' /\ e = supersuperfy n e'.
Proof.
  destruct t as [e1 k|q b i o|e1|bs| |s| |e1|p|q k p|mu e1|r mu e1|e1|d bs|es|s];
    cbn [supersuperfy]; try discriminate.
  intros E. injection E as -> -> <-. eexists. split; reflexivity.
Qed.

Lemma super_not_ref n t :
  is_ref t = false -> is_ref (supersuperfy n t) = false.
Proof.
  intros H. destruct (supersuperfy n t) as [| | | | | | | | | | |r mu e| | | |] eqn:E; auto.
  apply super_ref in E as (e' & -> & _). discriminate.
Qed.

Lemma not_ref_same t : is_ref t = false ->
  destrify t = t /\ dedynify t = (t, false) /\ ownify t = t
  /\ returns_ref t = false /\ returns_refmut t = false.
Proof. destruct t; try discriminate; repeat split; reflexivity. Qed.

Lemma super_dyn n e : match supersuperfy n e with TDyn _ _ => True | _ => False end
                      <-> match e with TDyn _ _ => True | _ => False end.
Proof.
  destruct e as [e1 k|q b i o|e1|bs| |s| |e1|p|q k p|mu e1|r mu e1|e1|d bs|es|s];
    cbn [supersuperfy]; tauto.
Qed.

(** The stored type, before it is moved. *)
Lemma output_stored n o :
  ownify (fst (output_of n o)) = supersuperfy n (stored o).
Proof.
  destruct o as [t|]; [|reflexivity]. unfold output_of.
  destruct (is_ref t) eqn:R.
  - destruct t; try discriminate. destruct (is_static_dec lt) as [->|S].
    + rewrite stored_static. cbn [supersuperfy destrify].
      change (is_static_lt (Some "static")) with true. cbv iota.
      pose proof (super_dyn n t) as D.
      assert (X : fst (dedynify (TRef (Some "static") mut (supersuperfy n t)))
        = TRef (Some "static") mut (supersuperfy n match t with TDyn _ _ => TParen t | _ => t end)).
      { destruct t; try reflexivity;
          destruct (supersuperfy n _) eqn:E in D |- *; try tauto; rewrite E; reflexivity. }
      rewrite X. reflexivity.
    + rewrite (stored_other _ _ _ S). exact (proj1 (stored_ref n lt mut t S)).
  - pose proof (not_ref_same _ (super_not_ref n t R)) as (A & B & C & _).
    rewrite A, B. cbn [fst]. rewrite C. destruct t; try discriminate; reflexivity.
Qed.

Lemma output_ref n o :
  (returns_ref (fst (output_of n o)) = true <-> exists t, o = Some t /\ borrows false t)
  /\ (returns_refmut (fst (output_of n o)) = true <-> exists t, o = Some t /\ borrows true t)
  /\ (snd (output_of n o) = true <->
      exists l m d b, o = Some (TRef l m (TDyn d b)) /\ l <> Some "static").
Proof.
  destruct o as [t|]; cbn [output_of fst snd].
  2: { repeat split; try discriminate; intros H; decompose [ex and] H; discriminate. }
  destruct (is_ref t) eqn:R.
  - destruct t; try discriminate. destruct (is_static_dec lt) as [->|S].
    + cbn [supersuperfy destrify]. change (is_static_lt (Some "static")) with true. cbv iota.
      assert (X : exists e, dedynify (TRef (Some "static") mut (supersuperfy n t))
                            = (TRef (Some "static") mut e, false)).
      { destruct (supersuperfy n t); eexists; reflexivity. }
      destruct X as (e & ->). cbn.
      repeat split; try discriminate; intros H; unfold borrows in H; decompose [ex and] H; congruence.
    + destruct (stored_ref n lt mut t S) as (_ & (e' & E) & B). cbv zeta in *.
      cbn [fst snd]. rewrite E, B. cbn [returns_ref returns_refmut]. rewrite S. cbn [negb andb].
      apply not_static in S. unfold borrows. split; [|split].
      * split; intros H.
        -- apply negb_true_iff in H. subst mut. exists (TRef lt false t).
           split; auto. exists lt, t. auto.
        -- destruct H as (u & E1 & l & e & -> & _). injection E1 as _ -> _. reflexivity.
      * split; intros H.
        -- subst mut. exists (TRef lt true t). split; auto. exists lt, t. auto.
        -- destruct H as (u & E1 & l & e & -> & _). injection E1 as _ -> _. reflexivity.
      * split; intros H.
        -- destruct t; try discriminate. repeat eexists. exact S.
        -- destruct H as (l & m & d & b & E1 & _). injection E1 as _ _ ->. reflexivity.
  - pose proof (not_ref_same _ (super_not_ref n t R)) as (A & B & C & D & E).
    rewrite A, B. cbn [fst snd]. rewrite D, E. unfold borrows.
    repeat split; try discriminate; intros H; decompose [ex and] H; subst; try discriminate.
    all: match goal with H : Some _ = Some _ |- _ => injection H as -> end; discriminate.
Qed.

(** Receivers stay. *)
Lemma prepared_receivers b dg di ce sig :
  prepared b = Some (dg, di, ce, sig) ->
  forall r m c t, In (FaReceiver r m c t) di <-> In (FaReceiver r m c t) (sg_inputs (b_sig b)).
Proof.
  assert (G : forall (h : fnarg -> fnarg) l r m c t,
    (forall r m c t, h (FaReceiver r m c t) = FaReceiver r m c t) ->
    (forall p t, exists p' t', h (FaTyped p t) = FaTyped p' t') ->
    In (FaReceiver r m c t) (map h l) <-> In (FaReceiver r m c t) l).
  { intros h l r m c t H1 H2. rewrite in_map_iff. split.
    - intros ([r' m' c' t'|p t'] & E & I).
      + rewrite H1 in E. rewrite <- E. exact I.
      + destruct (H2 p t') as (p' & u & E'). congruence.
    - intros I. exists (FaReceiver r m c t). auto. }
  unfold prepared. destruct (b_concretize b).
  - cbn [concretize_args]. intros E. injection E as _ <- _ _. intros r m c t. apply G; auto.
    intros p u. cbn [concretized_arg]. eauto.
  - unfold declosurefy. destruct (distinct_keys _); [|discriminate].
    intros E. injection E as _ <- _ _. intros r m c t. apply G; auto.
    intros p u. cbn [declosured_arg]. eauto.
Qed.
