(** * RepoChecks: tests for the hypotheses of the theorems

    Declarations of mocks, and computable tests for the hypotheses that the
    theorems make about them.  RepoTests.v applies them to the declarations in
    mockall's own tests. *)

From Coq Require Import List Bool String NArith Arith.
From Verif Require Import Ast AstSpec TyEq Rewrite Derive DeriveSpec Names Subst Sig MockFn MockFnSpec Item
  MockItem Errors ItemSpec GenSpec GenRun GenRunSpec ModRun ModSpec PipeSpec ModRunSpec Scopes ScopeSpec.
Import ListNotations.
Open Scope string_scope.
Open Scope list_scope.

(** A use of one of the macros: [mock!], and [#[automock]] of a trait with the
    types in its brackets, of an impl block, or of a module. *)
Inductive decl : Type :=
| DMock (d : mock_decl)
| DTrait (l : list (ident * option ty)) (t : item_trait)
| DImpl (x : item_impl)
| DMod (vis : visibility) (n : ident) (content : option (list item)).

(** Declarations of one file or example, and names used with them. *)
Record entry : Type := Entry {
  en_file : string;
  en_line : nat;
  en_decls : list decl;
  en_used : list ident
}.

(** ** What is generated *)

Definition structure (d : decl) : option mockable_struct :=
  match d with
  | DMock d => Some (from_mock d)
  | DTrait l t => Some (from_trait (parse_attrs l) t)
  | DImpl x => Some (from_impl x)
  | DMod _ _ _ => None
  end.
Definition generated (hash : list pargs -> N) (d : decl) : option (gen_mock + gen_module) :=
  match d with
  | DMock d => option_map inl (mock_macro hash d)
  | DTrait l t => option_map inl (automock_trait hash l t)
  | DImpl x => option_map inl (automock_impl hash x)
  | DMod v n c => option_map inr (automock_module v n c)
  end.

(** The names that a test can use: of the mock or of its module, of the functions
    that make expectations and contexts, and of the functions and constants themselves. *)
Definition call_names (l : list gen_call) : list ident := map (fun c => sg_ident (gc_sig c)) l.
Definition provided (g : gen_mock + gen_module) : list ident :=
  match g with
  | inl g =>
      gm_name g :: map ge_name (gm_expects g) ++ map gx_name (gm_contexts g)
      ++ flat_map (fun t => map ge_name (gt_expects t) ++ map gx_name (gt_contexts t)) (gm_trait_impls g)
  | inr g => gd_name g :: map gx_name (body_contexts g)
  end.

(** ** Membership *)

Definition token_dec : forall x y : token, {x = y} + {x <> y}.
Proof. decide equality; apply string_dec. Defined.
Definition pkey_dec : forall x y : pkey, {x = y} + {x <> y}.
Proof. decide equality; apply string_dec. Defined.

Definition memb {A} (dec : forall x y : A, {x = y} + {x <> y}) (x : A) (l : list A) : bool :=
  if in_dec dec x l then true else false.
Lemma memb_in {A} dec (x : A) l : memb dec x l = true <-> In x l.
Proof. unfold memb. destruct (in_dec dec x l); split; auto; discriminate. Qed.
Lemma memb_not {A} dec (x : A) l : memb dec x l = false <-> ~ In x l.
Proof. unfold memb. destruct (in_dec dec x l); split; auto; try discriminate. contradiction. Qed.

Fixpoint nodupb {A} (dec : forall x y : A, {x = y} + {x <> y}) (l : list A) : bool :=
  match l with [] => true | x :: r => negb (memb dec x r) && nodupb dec r end.
Lemma nodupb_ok {A} dec (l : list A) : nodupb dec l = true <-> NoDup l.
Proof.
  induction l as [|x l IH]; cbn; [split; auto; constructor|].
  rewrite andb_true_iff, negb_true_iff, memb_not, IH, NoDup_cons_iff. tauto.
Qed.

Notation in_strings := (memb string_dec).

(** ** Parameters in scope *)

Definition params_tokens (l : list gparam) : list token :=
  flat_map (fun p => match p with
                     | GpLifetime _ b => map TkLt b
                     | GpType _ b _ => flat_map bound_tokens b
                     | GpConst _ t _ => tokens t
                     end) l.
Definition preds_tokens (l : list wpred) : list token :=
  flat_map (fun w => match w with
                     | WpLifetime l b => map TkLt (l :: b)
                     | WpType _ t b => tokens t ++ flat_map bound_tokens b
                     end) l.
Definition in_tyb (k : pkey) (t : ty) : bool := memb token_dec (tok k) (tokens t).
Definition in_genericsb (k : pkey) (g : generics) : bool :=
  memb token_dec (tok k) (params_tokens (params g) ++ preds_tokens (preds g)).

Lemma in_tyb_ok k t : in_tyb k t = true <-> in_ty k t.
Proof. apply memb_in. Qed.

Lemma in_bounds k l : In (tok k) (flat_map bound_tokens l) <-> Exists (in_bound k) l.
Proof. rewrite in_flat_map, Exists_exists. reflexivity. Qed.

Lemma in_lts k b : In (tok k) (map TkLt b) <-> exists l, k = KLifetime l /\ In l b.
Proof.
  rewrite in_map_iff. split.
  - intros (l & E & H). destruct k; cbn in E; try discriminate. injection E as ->. eauto.
  - intros (l & -> & H). exists l. auto.
Qed.

Lemma in_params_ok k l : In (tok k) (params_tokens l) <-> Exists (in_param k) l.
Proof.
  unfold params_tokens. rewrite in_flat_map, Exists_exists.
  split; intros (p & H & T); exists p; split; auto; destruct p; cbn in *;
    rewrite ?in_lts, ?in_bounds in *; auto.
Qed.

Lemma in_preds_ok k l : In (tok k) (preds_tokens l) <-> Exists (in_pred k) l.
Proof.
  unfold preds_tokens. rewrite in_flat_map, Exists_exists.
  split; intros (w & H & T); exists w; split; auto; destruct w.
  - apply (in_lts k (lt :: bounds)) in T. exact T.
  - rewrite in_app_iff, in_bounds in T. exact T.
  - apply (in_lts k (lt :: bounds)). exact T.
  - rewrite in_app_iff, in_bounds. exact T.
Qed.

Lemma in_genericsb_ok k g : in_genericsb k g = true <-> in_generics k g.
Proof.
  unfold in_genericsb, in_generics. now rewrite memb_in, in_app_iff, in_params_ok, in_preds_ok.
Qed.
Lemma in_genericsb_not k g : in_genericsb k g = false -> ~ in_generics k g.
Proof. intros H I. apply in_genericsb_ok in I. congruence. Qed.

(** [closed], decided. *)
Fixpoint closedb (k : pkey) (outer : list pkey) (l : list generics) (ts : list ty) : bool :=
  match l with
  | [] => negb (existsb (in_tyb k) ts) || memb pkey_dec k outer
  | g :: r =>
      (negb (in_genericsb k g) || memb pkey_dec k (outer ++ keys g))
      && closedb k (outer ++ keys g) r ts
  end.
Lemma imp_ok (a b : bool) (P Q : Prop) : (a = true <-> P) -> (b = true <-> Q) ->
  (negb a || b = true <-> (P -> Q)).
Proof. intros HP HQ. destruct a, b; cbn; intuition congruence. Qed.
Lemma exists_ok k ts : existsb (in_tyb k) ts = true <-> Exists (in_ty k) ts.
Proof.
  rewrite existsb_exists, Exists_exists.
  split; intros (t & H & T); exists t; split; auto; now apply in_tyb_ok.
Qed.
Lemma closedb_ok k l ts : forall outer, closedb k outer l ts = true <-> closed k outer l ts.
Proof.
  induction l as [|g l IH]; intros outer; cbn [closedb closed].
  - apply imp_ok; [apply exists_ok|apply memb_in].
  - rewrite andb_true_iff, IH, imp_ok by first [apply in_genericsb_ok|apply memb_in]. reflexivity.
Qed.

Definition well_scopedb (names : list pkey) (u : use) : bool :=
  forallb (fun k => closedb k [] (us_scopes u) (us_types u)) names
  && nodupb pkey_dec (flat_map keys (us_scopes u)).
Lemma well_scopedb_ok names u : well_scopedb names u = true <-> well_scoped names u.
Proof.
  unfold well_scopedb, well_scoped. rewrite andb_true_iff, forallb_forall, nodupb_ok.
  split; intros [H D]; split; auto; intros k I; apply closedb_ok; auto.
Qed.

(** ** Closures *)

Definition closure_boundb (b : bound) : bool :=
  match b with
  | BTrait _ _ (Path _ l) =>
      match rev l with
      | Seg i _ :: _ => in_strings i ["Fn"; "FnMut"; "FnOnce"]
      | [] => false
      end
  | _ => false
  end.
Lemma closure_boundb_ok b : closure_boundb b = true <-> closure_bound b.
Proof.
  unfold closure_bound, closure_trait. split.
  - destruct b as [m f [lead l]| |]; try discriminate. cbn. destruct (rev l) as [|[i a] r] eqn:E; try discriminate.
    intros H. apply memb_in in H. exists m, f, lead, (rev r), i, a. split.
    + rewrite <- (rev_involutive l), E. reflexivity.
    + cbn in H. intuition auto.
  - intros (m & f & lead & pre & i & a & -> & H). cbn. rewrite rev_app_distr. cbn.
    apply memb_in. cbn. intuition auto.
Qed.

Definition declarations (g : generics) (i : ident) : list (list bound) :=
  flat_map (fun p => match p with GpType j l _ => if String.eqb i j then [l] else [] | _ => [] end) (params g)
  ++ (if keyword i then []
      else flat_map (fun w => match w with
                              | WpType _ t l => if ty_eqb t (ty_of i) then [l] else []
                              | _ => []
                              end) (preds g)).
Lemma declarations_ok g i l : In l (declarations g i) <-> DeriveSpec.declared g i l.
Proof.
  unfold declarations, DeriveSpec.declared. rewrite in_app_iff. split; (intros [H|H]; [left|right]).
  - apply in_flat_map in H as (p & I & H). destruct p; try contradiction.
    destruct (String.eqb_spec i id) as [->|]; [|contradiction]. destruct H as [->|[]]. eauto.
  - destruct (keyword i); [contradiction|]. apply in_flat_map in H as (w & I & H). destruct w as [|f t b]; try contradiction.
    destruct (ty_eqb t (ty_of i)) eqn:E; [|contradiction]. apply ty_eqb_eq in E as ->. destruct H as [->|[]]. eauto.
  - destruct H as [d H]. apply in_flat_map. exists (GpType i l d). split; auto. rewrite String.eqb_refl. left; auto.
  - destruct H as (f & H & ->). apply in_flat_map. exists (WpType f (ty_of i) l). split; auto.
    rewrite (proj2 (ty_eqb_eq _ _) eq_refl). left; auto.
Qed.

Definition closure_paramb (g : generics) (i : ident) : bool :=
  existsb (existsb closure_boundb) (declarations g i).
Lemma closure_paramb_ok g i : closure_paramb g i = true <-> closure_param g i.
Proof.
  unfold closure_paramb, closure_param. rewrite existsb_exists. split.
  - intros (l & D & H). apply existsb_exists in H as (b & I & C). exists l, b.
    rewrite <- declarations_ok, <- closure_boundb_ok. auto.
  - intros (l & b & D & I & C). exists l. rewrite declarations_ok. split; auto.
    apply existsb_exists. exists b. rewrite closure_boundb_ok. auto.
Qed.

(** ** [scopable] *)

Definition chosenb (x : fn_item) (i : ident) : bool :=
  in_strings i (type_names (sg_generics (fi_sig x)))
  && negb (closure_paramb (sg_generics (fi_sig x)) i)
  && negb (existsb is_concretize (fi_attrs x)).
Lemma chosenb_ok x i : chosenb x i = true <-> chosen x i.
Proof.
  unfold chosenb, chosen. rewrite !andb_true_iff, !negb_true_iff, memb_in, <- not_true_iff_false, closure_paramb_ok. tauto.
Qed.

Definition other_whereb (x : fn_item) (w : wpred) : bool :=
  match w with
  | WpType _ t _ =>
      negb (existsb (fun i => closure_paramb (sg_generics (fi_sig x)) i && negb (keyword i)
                              && ty_eqb t (ty_of i))
                    (match t with TPath (Path false [Seg i PaNone]) => [i] | _ => [] end))
  | WpLifetime _ _ => true
  end.
Lemma other_whereb_ok x w : other_where x w -> other_whereb x w = true.
Proof.
  intros [_ H]. destruct w as [|f t b]; auto. cbn in *. apply negb_true_iff, not_true_iff_false. intros E.
  apply existsb_exists in E as (i & _ & E). apply andb_true_iff in E as [E T]. apply andb_true_iff in E as [C K].
  apply closure_paramb_ok in C. apply negb_true_iff in K. apply ty_eqb_eq in T. exact (H i C K T).
Qed.

(** At least as often [true] as [separated] holds. *)
Definition separatedb (x : fn_item) : bool :=
  existsb (chosenb x) (type_names (sg_generics (fi_sig x)))
  || (negb (existsb is_concretize (fi_attrs x))
      && forallb (fun p => match p with
                           | GpType i _ _ => closure_paramb (sg_generics (fi_sig x)) i
                           | _ => false
                           end) (params (sg_generics (fi_sig x)))
      && existsb (other_whereb x) (preds (sg_generics (fi_sig x)))).
Lemma separatedb_ok x : separated x -> separatedb x = true.
Proof.
  unfold separatedb. intros [[i C]|(N & P & w & W)]; apply orb_true_iff; [left|right].
  - apply existsb_exists. exists i. split; [apply C|now apply chosenb_ok].
  - rewrite N. cbn. apply andb_true_iff. split.
    + apply forallb_forall. intros p I. destruct (P p I) as (i & b & d & -> & C). now apply closure_paramb_ok.
    + apply existsb_exists. exists w. split; [apply W|now apply other_whereb_ok].
Qed.

Definition kept_apartb (sg : generics) (x : fn_item) : bool :=
  separatedb x
  || negb (has_self x)
     && (match type_names sg with [] => false | _ => true end
         || negb (lt_token sg) && match where_clause sg with None => false | Some _ => true end).
Lemma kept_apartb_ok sg x : kept_apart sg x -> kept_apartb sg x = true.
Proof.
  unfold kept_apartb. intros [S|(H & T)]; [now rewrite separatedb_ok|]. rewrite H. cbn. apply orb_true_iff. right.
  destruct T as [T|[L W]]; [destruct (type_names sg); [contradiction|reflexivity]|].
  rewrite L. destruct (where_clause sg); [|contradiction]. cbn. apply orb_true_r.
Qed.

Definition borrowsb (mut : bool) (t : ty) : bool :=
  match t with
  | TRef l m _ => Bool.eqb m mut && negb (match l with Some l => String.eqb l "static" | None => false end)
  | _ => false
  end.
Lemma borrowsb_ok mut t : borrows mut t -> borrowsb mut t = true.
Proof.
  intros (l & e & -> & N). cbn. rewrite eqb_reflx. destruct l as [l|]; auto.
  destruct (String.eqb_spec l "static"); auto. congruence.
Qed.

Definition arg_types (x : fn_item) : list ty :=
  flat_map (fun a => match a with FaTyped _ t => [t] | _ => [] end) (sg_inputs (fi_sig x)).
Lemma in_arg_types x p t : In (FaTyped p t) (sg_inputs (fi_sig x)) -> In t (arg_types x).
Proof. intros I. apply in_flat_map. exists (FaTyped p t). cbn. auto. Qed.

Definition in_outputb (k : pkey) (x : fn_item) : bool :=
  match sg_output (fi_sig x) with Some t => in_tyb k t | None => false end.
Lemma in_outputb_ok k x : in_outputb k x = true <-> in_output k x.
Proof.
  unfold in_outputb, in_output. destruct (sg_output (fi_sig x)) as [t|].
  - rewrite in_tyb_ok. split; [eauto|]. intros (? & E & H). congruence.
  - split; [discriminate|]. intros (? & E & _). discriminate.
Qed.

Definition lifetime_fitsb (sg : generics) (x : fn_item) (l : lifetime) : bool :=
  let k := KLifetime l in
  let h := in_tyb k (held x) in
  negb (in_genericsb k sg) && negb (in_genericsb k (sg_generics (fi_sig x)))
  && forallb (fun t => negb (in_tyb k t)
                       || no_fn_types t
                          && (negb h || negb (in_tyb k (referent t)))
                          && (h || negb (kept_apartb sg x)
                                   && match sg_output (fi_sig x) with
                                      | Some o => negb (borrowsb true o)
                                      | None => true
                                      end)) (arg_types x)
  && (negb h || has_self x && no_fn_types (held x))
  && (negb (in_outputb k x)
      || (h || negb (kept_apartb sg x) && has_self x && existsb (arg_mentionsb l) (sg_inputs (fi_sig x))))
  && (negb (concretized x)
      || (in_strings l (lifetime_names sg)
          || negb (existsb (in_tyb k) (arg_types x)) && negb (in_outputb k x))).

Lemma lifetime_fitsb_ok sg x l : lifetime_fitsb sg x l = true -> lifetime_fits sg x l.
Proof.
  unfold lifetime_fitsb. rewrite !andb_true_iff. intros (((((B1 & B2) & A) & H) & O) & C).
  apply negb_true_iff in B1, B2. rewrite forallb_forall in A. constructor.
  - split; now apply in_genericsb_not.
  - intros p t I J. assert (X := A t (in_arg_types _ _ _ I)). apply in_tyb_ok in J. rewrite J in X. cbn in X.
    rewrite !andb_true_iff in X. destruct X as ((N & R) & K). split; auto. split.
    + intros E. apply in_tyb_ok in E. rewrite E in R. cbn in R. apply negb_true_iff in R.
      intros F. apply in_tyb_ok in F. congruence.
    + apply orb_true_iff in K as [K|K]; [left; now apply in_tyb_ok|right].
      apply andb_true_iff in K as [K1 K2]. apply negb_true_iff in K1. split.
      * intros F. apply kept_apartb_ok in F. congruence.
      * intros o E F. rewrite E in K2. apply borrowsb_ok in F. rewrite F in K2. discriminate.
  - intros E. apply in_tyb_ok in E. rewrite E in H. cbn in H. now apply andb_true_iff in H.
  - intros E. apply in_outputb_ok in E. rewrite E in O. cbn in O. apply orb_true_iff in O as [O|O].
    + left. now apply in_tyb_ok.
    + right. rewrite !andb_true_iff in O. destruct O as ((O1 & O2) & O3). apply negb_true_iff in O1. split; [|split; auto].
      * intros F. apply kept_apartb_ok in F. congruence.
      * apply existsb_exists in O3 as (a & I & M). eauto.
  - intros E NI. rewrite E in C. cbn in C. apply orb_true_iff in C as [C|C].
    + apply memb_in in C. contradiction.
    + apply andb_true_iff in C as [C1 C2]. apply negb_true_iff in C1, C2. split.
      * intros (p & t & I & J). apply not_true_iff_false in C1. apply C1, existsb_exists.
        exists t. split; [exact (in_arg_types _ _ _ I)|now apply in_tyb_ok].
      * intros F. apply in_outputb_ok in F. congruence.
Qed.

Definition replacedb (x : fn_item) (i : ident) (t : ty) : bool :=
  if concretized x
  then existsb (ty_eqb t) [ty_of i; TRef None false (ty_of i); TRef None true (ty_of i);
                           TRef None false (TSlice (ty_of i))]
       && existsb (fun l => match l with [] => false | _ => true end)
                  (declarations (sg_generics (fi_sig x)) i)
  else ty_eqb t (ty_of i).
Lemma replacedb_ok x i t : replacedb x i t = true -> replaced x i t.
Proof.
  unfold replacedb, replaced. destruct (concretized x).
  - rewrite andb_true_iff. intros [A B]. apply existsb_exists in A as (u & I & E). apply ty_eqb_eq in E as ->.
    split; auto. apply existsb_exists in B as (l & D & N). exists l. split; [now apply declarations_ok|].
    intros ->. discriminate.
  - apply ty_eqb_eq.
Qed.

Definition type_fitsb (x : fn_item) (i : ident) : bool :=
  let k := KType i in
  let g := sg_generics (fi_sig x) in
  negb (memb token_dec (tok k) (params_tokens (params g)))
  && forallb (fun w => match w with
                       | WpType _ t b => negb (memb token_dec (tok k) (flat_map bound_tokens b))
                                         && (negb (in_tyb k t) || ty_eqb t (ty_of i))
                       | WpLifetime _ _ => true
                       end) (preds g)
  && forallb (fun t => negb (in_tyb k t) || replacedb x i t) (arg_types x)
  && negb (in_outputb k x).
Lemma type_fitsb_ok x i : type_fitsb x i = true -> type_fits x i.
Proof.
  unfold type_fitsb. rewrite !andb_true_iff, !forallb_forall. intros (((P & W) & A) & O).
  apply negb_true_iff in P, O. constructor.
  - apply Forall_forall. intros p I F. apply memb_not in P. apply P, in_params_ok, Exists_exists. eauto.
  - intros f t b I. assert (H := W _ I). cbn beta iota in H. apply andb_true_iff in H as [H1 H2].
    apply negb_true_iff, memb_not in H1. split.
    + intros F. apply H1, in_bounds, F.
    + intros F. apply in_tyb_ok in F. rewrite F in H2. now apply ty_eqb_eq.
  - intros p t I F. assert (H := A _ (in_arg_types _ _ _ I)). cbn beta in H. apply in_tyb_ok in F.
    rewrite F in H. now apply replacedb_ok.
  - intros F. apply in_outputb_ok in F. congruence.
Qed.

Definition scopableb (sg : generics) (x : fn_item) : bool :=
  let g := sg_generics (fi_sig x) in
  let ks := keys sg ++ keys g in
  nodupb pkey_dec ks
  && forallb (fun k => match k with
                       | KConst _ => false
                       | KLifetime l => negb (String.eqb l "__mockall_lt")
                       | KType i => negb (in_strings i written)
                       end) ks
  && forallb (lifetime_fitsb sg x) (lifetime_names sg ++ lifetime_names g)
  && forallb (fun i => negb (in_genericsb (KType i) sg)) (type_names g)
  && forallb (fun i => chosenb x i || type_fitsb x i) (type_names g).
Lemma scopableb_ok sg x : scopableb sg x = true -> scopable sg x.
Proof.
  unfold scopableb. rewrite !andb_true_iff, !forallb_forall. intros ((((D & K) & L) & O) & T).
  apply nodupb_ok in D. constructor; auto.
  - intros i I. specialize (K _ I). discriminate.
  - intros k I. specialize (K _ I). split.
    + intros ->. discriminate.
    + intros i ->. apply negb_true_iff, memb_not in K. exact K.
  - intros l I. now apply lifetime_fitsb_ok, L.
  - intros i I. apply in_genericsb_not. specialize (O _ I). now apply negb_true_iff in O.
  - intros i I N. specialize (T _ I). apply orb_true_iff in T as [T|T]; [|now apply type_fitsb_ok].
    apply chosenb_ok in T. contradiction.
Qed.

(** ** Structures and modules *)

Definition bracketedb (g : generics) : bool :=
  lt_token g || match params g with [] => true | _ => false end.
Lemma bracketedb_ok g : bracketedb g = true -> lt_token g = false -> params g = [].
Proof. unfold bracketedb. destruct (params g); auto. intros H L. rewrite L in H. discriminate. Qed.

Definition well_formedb (m : mockable_struct) : bool :=
  bracketedb (ms_generics m)
  && forallb (fun f => bracketedb (sg_generics (fi_sig f)))
             (ms_methods m ++ flat_map impl_fns (ms_impls m)).
Lemma well_formedb_ok m : well_formedb m = true -> well_formed m.
Proof.
  unfold well_formedb. rewrite andb_true_iff, forallb_forall. intros [G F]. split; [split|].
  - intros f I. apply bracketedb_ok, F, in_app_iff. auto.
  - intros x f I J. apply bracketedb_ok, F, in_app_iff. right. apply in_flat_map. eauto.
  - now apply bracketedb_ok.
Qed.

Definition distinct_namesb (g : gen_mock) : bool :=
  nodupb string_dec (map gf_name (gm_fields g))
  && nodupb string_dec (gm_modname g :: map gs_modname (gm_substructs g))
  && nodupb string_dec (map gp_name (gm_privmods g))
  && forallb (fun ss => nodupb string_dec (map gf_name (gs_fields ss))
                        && nodupb string_dec (map gp_name (gs_privmods ss))) (gm_substructs g).
Lemma distinct_namesb_ok g : distinct_namesb g = true -> distinct_names g.
Proof.
  unfold distinct_namesb. rewrite !andb_true_iff, forallb_forall. intros (((A & B) & C) & D).
  apply nodupb_ok in A, B, C. split; [|split; [|split]]; auto.
  intros ss I. specialize (D _ I). apply andb_true_iff in D as [D1 D2]. apply nodupb_ok in D1, D2. auto.
Qed.

(** The impl blocks of a structure only declare parameters of the structure. *)
Definition impl_keysb (m : mockable_struct) : bool :=
  forallb (fun x => forallb (fun k => memb pkey_dec k (keys (ms_generics m))) (keys (im_generics x)))
          (ms_impls m).
Lemma impl_keysb_ok m x k :
  impl_keysb m = true -> In x (ms_impls m) -> In k (keys (im_generics x)) -> In k (keys (ms_generics m)).
Proof.
  unfold impl_keysb. rewrite forallb_forall. intros H I J. specialize (H _ I).
  rewrite forallb_forall in H. exact (proj1 (memb_in _ _ _) (H _ J)).
Qed.

(** Equality of functions. *)
Definition by_eqb {A} (eqb : A -> A -> bool) (H : forall a b, eqb a b = true <-> a = b) (a b : A)
  : {a = b} + {a <> b}.
Proof.
  destruct (eqb a b) eqn:E; [left|right]; [now apply H|]. intros F. apply H in F. congruence.
Defined.
Definition ty_dec := by_eqb ty_eqb ty_eqb_eq.
Definition path_dec := by_eqb path_eqb path_eqb_eq.
Definition bound_dec := by_eqb bound_eqb bound_eqb_eq.
Definition option_dec {A} (dec : forall a b : A, {a = b} + {a <> b}) (a b : option A) : {a = b} + {a <> b}.
Proof. decide equality. Defined.
Definition gparam_dec (a b : gparam) : {a = b} + {a <> b}.
Proof.
  decide equality; first [apply string_dec|apply ty_dec|apply (list_eq_dec string_dec)
    |apply (list_eq_dec bound_dec)|apply (option_dec ty_dec)|apply (option_dec string_dec)].
Defined.
Definition wpred_dec (a b : wpred) : {a = b} + {a <> b}.
Proof.
  decide equality; first [apply string_dec|apply ty_dec|apply (list_eq_dec string_dec)
    |apply (list_eq_dec bound_dec)|apply (option_dec (list_eq_dec string_dec))].
Defined.
Definition generics_dec (a b : generics) : {a = b} + {a <> b}.
Proof.
  decide equality; first [apply bool_dec|apply (list_eq_dec gparam_dec)
    |apply (option_dec (list_eq_dec wpred_dec))].
Defined.
Definition pat_dec (a b : pat) : {a = b} + {a <> b}.
Proof. decide equality; first [apply bool_dec|apply string_dec]. Defined.
Definition fnarg_dec (a b : fnarg) : {a = b} + {a <> b}.
Proof.
  decide equality; first [apply bool_dec|apply ty_dec|apply pat_dec
    |apply (option_dec (option_dec string_dec))].
Defined.
Definition visibility_dec (a b : visibility) : {a = b} + {a <> b}.
Proof. decide equality; first [apply bool_dec|apply path_dec]. Defined.
Definition attribute_dec (a b : attribute) : {a = b} + {a <> b}.
Proof. decide equality; first [apply string_dec|apply path_dec|apply (option_dec string_dec)]. Defined.
Definition signature_dec (a b : signature) : {a = b} + {a <> b}.
Proof.
  decide equality; first [apply string_dec|apply generics_dec|apply (list_eq_dec fnarg_dec)
    |apply (option_dec ty_dec)|apply (option_dec (option_dec string_dec))].
Defined.
Definition fn_item_dec (a b : fn_item) : {a = b} + {a <> b}.
Proof.
  decide equality; first [apply signature_dec|apply visibility_dec|apply (list_eq_dec attribute_dec)].
Defined.

Definition same_fnsb (m : mockable_struct) : bool :=
  forallb (fun x => forallb (fun y =>
    match im_trait x, im_trait y with
    | Some (_, p), Some (_, q) =>
        negb (path_eqb p q)
        || (if list_eq_dec fn_item_dec (impl_fns x) (impl_fns y) then true else false)
    | _, _ => true
    end) (ms_impls m)) (ms_impls m).
Lemma same_fnsb_ok m : same_fnsb m = true -> same_fns m.
Proof.
  unfold same_fnsb. rewrite forallb_forall. intros H x y b b' p I J X Y. specialize (H _ I).
  rewrite forallb_forall in H. specialize (H _ J). rewrite X, Y, (proj2 (path_eqb_eq p p) eq_refl) in H.
  cbn in H. destruct (list_eq_dec fn_item_dec (impl_fns x) (impl_fns y)); [auto|discriminate].
Qed.

Definition free_functionsb (l : list item) : bool :=
  forallb (fun i => match i with
                    | ItFn x _ => negb (takes_self (fi_sig x))
                    | ItForeign _ xs =>
                        forallb (fun y => match y with FiFn x _ => negb (takes_self (fi_sig x)) | _ => true end) xs
                    | _ => true
                    end) l.
Lemma free_functionsb_ok l : free_functionsb l = true -> free_functions l.
Proof.
  unfold free_functionsb. rewrite forallb_forall. intros H i I. specialize (H _ I). destruct i; auto.
  - now apply negb_true_iff in H.
  - rewrite forallb_forall in H. intros x u J. specialize (H _ J). now apply negb_true_iff in H.
Qed.

Definition parsed_fnsb (l : list item) : bool :=
  forallb (fun x => bracketedb (sg_generics (fi_sig x))) (module_fns l).
Lemma parsed_fnsb_ok l : parsed_fnsb l = true -> parsed_fns l.
Proof. unfold parsed_fnsb. rewrite forallb_forall. intros H x I. exact (bracketedb_ok _ (H _ I)). Qed.

Definition distinct_fnsb (l : list item) : bool :=
  nodupb string_dec (map (fun x => unraw_name (fn_name x)) (module_fns l)).
Lemma distinct_fnsb_ok l : distinct_fnsb l = true -> distinct_fns l.
Proof. intros H. apply nodupb_ok in H. exact H. Qed.

Definition distinct_itemsb (g : gen_module) : bool :=
  nodupb string_dec (map (fun c => unraw_name (sg_ident (gc_sig c))) (body_calls g)
                     ++ map gx_name (body_contexts g) ++ ["checkpoint"]).
Lemma distinct_itemsb_ok g : distinct_itemsb g = true -> distinct_items g.
Proof. intros H. apply nodupb_ok in H. exact H. Qed.

(** ** Functions of one name *)

Definition apartb (s : pargs) (gs : generics) (t : pargs) (gt : generics) : bool :=
  match s, t with
  | PaAngle l, PaAngle k =>
      existsb (fun xy =>
        match xy with
        | (GaType (TPath (Path false [Seg i PaNone])), GaType (TPath (Path false [Seg j PaNone]))) =>
            negb (String.eqb i j) && negb (in_strings i (type_names gs)) && negb (in_strings j (type_names gt))
        | _ => false
        end) (combine l k)
  | _, _ => false
  end.
Lemma in_combine_nth {A B} (l : list A) : forall (k : list B) a b, In (a, b) (combine l k) ->
  exists n, nth_error l n = Some a /\ nth_error k n = Some b.
Proof.
  induction l as [|x l IH]; intros [|y k] a b H; try contradiction. destruct H as [H|H].
  - injection H as -> ->. exists 0. auto.
  - destruct (IH _ _ _ H) as (n & H1 & H2). exists (S n). auto.
Qed.
Lemma apartb_ok s gs t gt : apartb s gs t gt = true -> apart s gs t gt.
Proof.
  unfold apartb. destruct s as [|l|], t as [|k|]; try discriminate. intros H.
  apply existsb_exists in H as ((a & b) & I & H). apply in_combine_nth in I as (n & H1 & H2).
  destruct a as [|[]| | | |]; try discriminate. destruct p as [[] [|[i []] []]]; try discriminate.
  destruct b as [|[]| | | |]; try discriminate. destruct p as [[] [|[j []] []]]; try discriminate.
  rewrite !andb_true_iff, !negb_true_iff, !memb_not, String.eqb_neq in H. destruct H as ((H3 & H4) & H5).
  exists l, k, n, i, j. do 6 (split; [first [reflexivity|assumption]|]). assumption.
Qed.

Definition distinct_functionsb (g : gen_mock) : bool :=
  nodupb string_dec (own_functions g)
  && forallb (fun t => nodupb string_dec (block_functions t)
                       && forallb (fun n => negb (in_strings n (own_functions g))) (block_functions t))
             (gm_trait_impls g)
  && forallb (fun i => forallb (fun j =>
       match nth_error (gm_trait_impls g) i, nth_error (gm_trait_impls g) j with
       | Some t, Some u =>
           Nat.eqb i j
           || negb (existsb (fun n => in_strings n (block_functions u)) (block_functions t))
           || apartb (seg_args (gt_self t)) (gt_generics t) (seg_args (gt_self u)) (gt_generics u)
       | _, _ => true
       end) (seq 0 (List.length (gm_trait_impls g)))) (seq 0 (List.length (gm_trait_impls g))).
Lemma distinct_functionsb_ok g : distinct_functionsb g = true -> distinct_functions g.
Proof.
  unfold distinct_functionsb. rewrite !andb_true_iff, !forallb_forall. intros ((A & B) & C).
  apply nodupb_ok in A. split; [exact A|split].
  - intros t I. specialize (B _ I). apply andb_true_iff in B as [B1 B2]. apply nodupb_ok in B1. split; [exact B1|].
    rewrite forallb_forall in B2. intros n J. specialize (B2 _ J). now apply negb_true_iff, memb_not in B2.
  - intros i j t u n D T U I J.
    assert (Li : In i (seq 0 (List.length (gm_trait_impls g)))).
    { apply in_seq. cbn. split; [apply Nat.le_0_l|]. apply nth_error_Some. congruence. }
    assert (Lj : In j (seq 0 (List.length (gm_trait_impls g)))).
    { apply in_seq. cbn. split; [apply Nat.le_0_l|]. apply nth_error_Some. congruence. }
    specialize (C _ Li). rewrite forallb_forall in C. specialize (C _ Lj). rewrite T, U in C.
    apply orb_true_iff in C as [C|C]; [|now apply apartb_ok].
    apply orb_true_iff in C as [C|C]; [now apply Nat.eqb_eq in C|].
    apply negb_true_iff, not_true_iff_false in C. destruct C. apply existsb_exists. exists n. split; auto.
    now apply memb_in.
Qed.

(** ** Everything *)

(** A hash of the arguments of a path. *)
Fixpoint string_hash (s : string) (n : N) : N :=
  match s with
  | EmptyString => n
  | String c r => string_hash r ((n * 257 + Ascii.N_of_ascii c) mod 4294967291)
  end.
Definition sample_hash (l : list pargs) : N :=
  fold_left (fun n t => string_hash (match t with TkId i => i | TkLt i => "'" ++ i | TkSym s => s end ++ " ") n)
            (flat_map pargs_tokens l) 5381%N.
