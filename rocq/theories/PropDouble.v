(** * PropDouble: C46 and C47 *)

From Coq Require Import List Bool String Ascii NArith Arith Lia.
From Verif Require Import Ast AstSpec Names DeriveSpec.
Import ListNotations.
Open Scope string_scope.
Open Scope list_scope.

(** Induction over use trees with an induction hypothesis for every item of a
    group. *)
Section UseInd.
  Context (P : usetree -> Prop).
  Context (HP : forall i t, P t -> P (UPath i t)).
  Context (HN : forall i, P (UName i)).
  Context (HR : forall i r, P (URename i r)).
  Context (HG : P UGlob).
  Context (HU : forall l, Forall P l -> P (UGroup l)).
  Fixpoint usetree_induction (t : usetree) : P t :=
    match t with
    | UPath i t => HP i t (usetree_induction t)
    | UName i => HN i
    | URename i r => HR i r
    | UGlob => HG
    | UGroup l =>
        HU l ((fix go l := match l return Forall P l with
                           | [] => Forall_nil P
                           | t :: r => Forall_cons t (usetree_induction t) (go r)
                           end) l)
    end.
End UseInd.

(** The import of the mock in the place of the original. *)
Definition mocked_import (wide : string -> bool) (i : import) : import :=
  Import (im_path i) (mock_ident wide (im_item i)) (im_as i).

Lemma mock_ident_not_self wide i : mock_ident wide i =? "self" = false.
Proof. unfold mock_ident. destruct (starts_uppercase wide i); reflexivity. Qed.

Lemma imports_mocked wide : forall t prefix,
  mentions_self t = false ->
  imports prefix (mock_usetree wide t) = map (mocked_import wide) (imports prefix t).
Proof.
  induction t as [i t IH|i|i r| |l IH] using usetree_induction; intros prefix H;
    cbn [mock_usetree imports mentions_self] in *; auto.
  - rewrite mock_ident_not_self, H. reflexivity.
  - rewrite mock_ident_not_self, H. reflexivity.
  - induction IH as [|t l Ht Hl IHl]; auto.
    cbn [map flat_map existsb] in *. apply orb_false_iff in H as [H1 H2].
    rewrite map_app, Ht, IHl by assumption. reflexivity.
Qed.

Lemma mock_error_glob t : mock_usetree_error t = mentions_glob t.
Proof.
  induction t as [i t IH|i|i r| |l IH] using usetree_induction; cbn; auto.
Qed.

(** ** C46 *)

(** Outside of tests [#[double]] leaves the item alone.  In tests a [use]
    declaration without [self] imports from the same modules, under the same
    local names and in the same order, the items with the mock names. *)
Theorem double_binds_the_same_names : forall wide t,
  mock_item_error (DUse t) = false -> mentions_self t = false ->
  exists t', do_double wide (DUse t) = (DUse t, DUse t')
    /\ imports [] t'
       = map (fun i => Import (im_path i) (mock_ident wide (im_item i)) (im_as i)) (imports [] t)
    /\ map im_as (imports [] t') = map im_as (imports [] t)
    /\ mentions_glob t' = false.
Proof.
  intros wide t He Hs. exists (mock_usetree wide t).
  assert (Hm : imports [] (mock_usetree wide t)
               = map (fun i => Import (im_path i) (mock_ident wide (im_item i)) (im_as i))
                     (imports [] t)) by (apply imports_mocked; assumption).
  assert (Hg : mentions_glob t = false).
  { rewrite <- mock_error_glob. destruct t; cbn in He; auto; discriminate. }
  split; [|split; [exact Hm|split]].
  - unfold do_double. destruct t; try reflexivity. discriminate.
  - rewrite Hm, map_map. reflexivity.
  - clear - Hg. induction t as [i t IH|i|i r| |l IH] using usetree_induction; cbn in *; auto.
    induction IH as [|t l Ht Hl IHl]; auto. cbn in *.
    apply orb_false_iff in Hg as [H1 H2]. rewrite Ht, IHl by assumption. reflexivity.
Qed.
Print Assumptions double_binds_the_same_names.

(** [use a::b::{Foo, Bar as Baz, c::m}]. *)
Definition sample_use : usetree :=
  UPath "a" (UPath "b" (UGroup [UName "Foo"; URename "Bar" "Baz"; UPath "c" (UName "m")])).

Example double_binds_the_same_names_applies :
  mock_item_error (DUse sample_use) = false /\ mentions_self sample_use = false
  /\ imports [] (mock_usetree (fun _ => false) sample_use)
     = [Import ["a"; "b"] "MockFoo" "Foo"; Import ["a"; "b"] "MockBar" "Baz";
        Import ["a"; "b"; "c"] "mock_m" "m"].
Proof. repeat split. Qed.

(** Everything else is refused: globs anywhere, and a single name. *)
Theorem double_refuses : forall t,
  mock_item_error (DUse t) = true <-> mentions_glob t = true \/ exists i, t = UName i.
Proof.
  intros t. split.
  - destruct t; cbn [mock_item_error]; intros H; try (left; rewrite <- mock_error_glob; exact H).
    right. eauto.
  - intros [H|[i ->]]; [|reflexivity].
    rewrite <- mock_error_glob in H. destruct t; cbn in *; auto.
Qed.
Print Assumptions double_refuses.

(** With [self] the claim is false: [use foo::{self}] binds [foo] to the module
    [foo], its double binds [self] to an item [mock_self] in [foo]. *)
Theorem double_of_self_refuted :
  exists t, forall wide,
    mock_item_error (DUse t) = false
    /\ imports [] t = [Import [] "foo" "foo"]
    /\ exists t', snd (do_double wide (DUse t)) = DUse t'
       /\ imports [] t' = [Import ["foo"] "mock_self" "self"].
Proof.
  exists (UPath "foo" (UGroup [UName "self"])). intros wide.
  split; [reflexivity|split; [reflexivity|]]. eexists. split; reflexivity.
Qed.
Print Assumptions double_of_self_refuted.

(** A type alias keeps its name, generics and the arguments; the aliased path
    differs in its last name, which is the mock's. *)
Theorem double_of_alias : forall wide i g b pre s a,
  do_double wide (DType i g (TPath (Path b (pre ++ [Seg s a]))))
  = (DType i g (TPath (Path b (pre ++ [Seg s a]))),
     DType i g (TPath (Path b (pre ++ [Seg (mock_ident wide s) a])))).
Proof.
  intros. unfold do_double, mock_item, mock_last. do 4 f_equal.
  set (f := fun s => _).
  change [Seg (mock_ident wide s) a] with [f (Seg s a)].
  clearbody f. induction pre as [|x pre IH]; [reflexivity|].
  cbn [on_last_seg app]. rewrite IH.
  destruct (pre ++ [Seg s a]) eqn:E; [destruct pre; discriminate|reflexivity].
Qed.
Print Assumptions double_of_alias.

(** ** C47 *)

(** A raw identifier is written with [r#]. *)
Definition raw (i : ident) : Prop := String.prefix "r#" i = true.

Definition ascii_upper (i : ident) : Prop :=
  exists c r, i = String c r /\ (65 <= nat_of_ascii c <= 90)%nat.
Definition ascii_lower (i : ident) : Prop :=
  exists c r, i = String c r /\ (nat_of_ascii c < 128)%nat /\ ~ (65 <= nat_of_ascii c <= 90)%nat.

(** For a type whose name starts with a capital letter, the imported name is
    the one that [#[automock]] generates. *)
Theorem double_agrees_on_types : forall wide i,
  ascii_upper i -> mock_ident wide i = gen_mock_ident i.
Proof.
  intros wide i (c & r & -> & H1 & H2). unfold mock_ident, starts_uppercase, gen_mock_ident.
  destruct (Nat.leb_spec 128 (nat_of_ascii c)); [lia|].
  apply Nat.leb_le in H1, H2. rewrite H1, H2. reflexivity.
Qed.
Print Assumptions double_agrees_on_types.

(** For a module whose name starts otherwise, the imported name is the one that
    [#[automock]] generates for a module. *)
Theorem double_agrees_on_modules : forall wide i,
  ascii_lower i -> mock_ident wide i = gen_mock_module_ident i.
Proof.
  intros wide i (c & r & -> & H1 & H2). unfold mock_ident, starts_uppercase, gen_mock_module_ident.
  destruct (Nat.leb_spec 128 (nat_of_ascii c)); [lia|].
  destruct (Nat.leb_spec 65 (nat_of_ascii c)), (Nat.leb_spec (nat_of_ascii c) 90); cbn; auto; lia.
Qed.
Print Assumptions double_agrees_on_modules.

Example double_agrees_applies :
  ascii_upper "Foo" /\ mock_ident (fun _ => true) "Foo" = "MockFoo"
  /\ ascii_lower "inner" /\ mock_ident (fun _ => true) "inner" = "mock_inner"
  /\ ascii_lower "r#type" /\ mock_ident (fun _ => true) "r#type" = "mock_type".
Proof.
  unfold ascii_upper, ascii_lower.
  repeat split; try (eexists; eexists; split; [reflexivity|]); cbn; lia.
Qed.

(** Distinct names have distinct mocks, unless they differ in [r#] only. *)
Lemma app_inj_l (p a b : string) : (p ++ a = p ++ b)%string -> a = b.
Proof. induction p; cbn; intros E; [assumption|injection E; assumption]. Qed.

Theorem mock_names_are_distinct : forall i j,
  gen_mock_ident i = gen_mock_ident j -> unraw i = unraw j.
Proof. intros i j. apply app_inj_l. Qed.
Print Assumptions mock_names_are_distinct.

Theorem mock_module_names_are_distinct : forall i j,
  gen_mock_module_ident i = gen_mock_module_ident j -> unraw i = unraw j.
Proof. intros i j. apply app_inj_l. Qed.
Print Assumptions mock_module_names_are_distinct.

Theorem imported_mock_names_are_distinct : forall wide i j,
  mock_ident wide i = mock_ident wide j -> unraw i = unraw j.
Proof.
  intros wide i j. unfold mock_ident.
  destruct (starts_uppercase wide i), (starts_uppercase wide j); cbn; intros E; try discriminate;
    injection E; auto.
Qed.
Print Assumptions imported_mock_names_are_distinct.

Example mock_names_are_distinct_applies :
  gen_mock_ident "r#Type" = gen_mock_ident "Type" /\ gen_mock_ident "A" <> gen_mock_ident "B".
Proof. split; [reflexivity|discriminate]. Qed.

(** The names disagree for every type whose name starts with an ASCII character
    other than a capital letter, among them all raw identifiers, and for every
    module whose name starts with a capital letter. *)
Theorem double_disagrees_on_other_types_refuted : forall wide i,
  ascii_lower i -> mock_ident wide i <> gen_mock_ident i.
Proof. intros wide i H. rewrite double_agrees_on_modules by assumption. discriminate. Qed.
Print Assumptions double_disagrees_on_other_types_refuted.

Theorem double_disagrees_on_other_modules_refuted : forall wide i,
  ascii_upper i -> mock_ident wide i <> gen_mock_module_ident i.
Proof. intros wide i H. rewrite double_agrees_on_types by assumption. discriminate. Qed.
Print Assumptions double_disagrees_on_other_modules_refuted.

Example double_disagrees_applies :
  ascii_lower "r#Type" /\ mock_ident (fun _ => true) "r#Type" = "mock_Type"
  /\ gen_mock_ident "r#Type" = "MockType" /\ ascii_upper "Inner".
Proof.
  unfold ascii_upper, ascii_lower.
  repeat split; try (eexists; eexists; split; [reflexivity|]); cbn; lia.
Qed.
