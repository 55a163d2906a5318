(** * GenRunSpec: what the user of a mock wrote, and what a test of it means

    Vocabulary for the theorem that the generated code behaves like Mock.v: which
    methods an input declares, and which of Mock.v's operations those of a test
    are.  Nothing here looks at the generated code but [distinct_names]. *)

From Coq Require Import List Bool String NArith Arith.
From Verif Require Import Base Times Expect Mock.
From Verif Require Import Ast AstSpec TyEq Rewrite Derive DeriveSpec Names Sig MockFn MockFnSpec Item MockItem
  ItemSpec GenSpec GenRun.
Import ListNotations.
Open Scope string_scope.
Open Scope list_scope.

(** ** Declared functions *)

(** Names are the same up to [r#]. *)
Definition same_name (a b : ident) : bool := unraw a =? unraw b.

(** The functions of a block: the struct's own, or those of an [impl] block. *)
Definition fns_at (m : mockable_struct) (who : option nat) : list fn_item :=
  match who with
  | None => ms_methods m
  | Some i => match nth_error (ms_impls m) i with Some x => impl_fns x | None => [] end
  end.
Definition trait_at (m : mockable_struct) (who : option nat) : option path :=
  match who with
  | None => None
  | Some i => match nth_error (ms_impls m) i with
              | Some x => option_map snd (im_trait x)
              | None => None
              end
  end.

(** The traits, each with the functions of its first implementation. *)
Fixpoint first_impls (seen : list path) (l : list item_impl) : list (path * list fn_item) :=
  match l with
  | [] => []
  | x :: r =>
      match im_trait x with
      | Some (_, p) =>
          if existsb (path_eqb p) seen then first_impls seen r
          else (p, impl_fns x) :: first_impls (p :: seen) r
      | None => first_impls seen r
      end
  end.
Definition traits_of (m : mockable_struct) : list (path * list fn_item) :=
  first_impls [] (ms_impls m).

(** All functions of the mock, with their traits: those of the traits first. *)
Definition all_fns (m : mockable_struct) : list (option path * fn_item) :=
  flat_map (fun t => map (pair (Some (fst t))) (snd t)) (traits_of m)
  ++ map (pair None) (ms_methods m).
Definition object_fns (m : mockable_struct) : list (option path * fn_item) :=
  filter (fun x => has_self (snd x)) (all_fns m).
Definition static_fns (m : mockable_struct) : list (option path * fn_item) :=
  filter (fun x => negb (has_self (snd x))) (all_fns m).

Definition same_trait_path (a b : option path) : bool :=
  match a, b with
  | None, None => true
  | Some p, Some q => path_eqb p q
  | _, _ => false
  end.

(** The position of a function in a list. *)
Fixpoint position (tr : option path) (f : ident) (l : list (option path * fn_item)) : nat :=
  match l with
  | [] => 0
  | (t, x) :: r =>
      if same_trait_path t tr && same_name (fn_name x) f then 0 else S (position tr f r)
  end.

(** ** What a function is *)

(** A where clause that is not about a closure.  (No type parameter is called
    like a keyword; the code asks anyway.) *)
Definition other_where (x : fn_item) (w : wpred) : Prop :=
  In w (preds (sg_generics (fi_sig x)))
  /\ match w with
     | WpType _ t _ =>
         forall i, closure_param (sg_generics (fi_sig x)) i -> keyword i = false -> t <> ty_of i
     | WpLifetime _ _ => True
     end.

(** Expectations are kept apart by types: the function has a type parameter that
    its caller chooses, or none at all but a where clause, or it has no [self]
    and the same holds for the struct. *)
Definition separated (x : fn_item) : Prop :=
  (exists i, chosen x i)
  \/ (existsb is_concretize (fi_attrs x) = false
      /\ (forall p, In p (params (sg_generics (fi_sig x))) ->
            exists i b d, p = GpType i b d /\ closure_param (sg_generics (fi_sig x)) i)
      /\ exists w, other_where x w).
Definition struct_separated (m : mockable_struct) : Prop :=
  type_names (ms_generics m) <> []
  \/ (lt_token (ms_generics m) = false /\ where_clause (ms_generics m) <> None).

(** The private module of a function; only used for the types in it. *)
Definition module_of (hash : list pargs -> N) (m : mockable_struct) (tr : option path) (f : ident)
  : list ident :=
  [match tr with
   | None => gen_mod_ident (ms_name m) None
   | Some p => gen_mod_ident (ms_name m) (Some (ss_name hash p))
   end; ("__" ++ unraw f)%string].

Record described {V} (hash : list pargs -> N) (m : mockable_struct) (te : types V)
  (x : option path * fn_item) (d : mdecl V) : Prop := Described {
  ds_name : me_name (md_me d) = (ms_name m ++ "::" ++ fn_name (snd x))%string;
  ds_desc : me_desc (md_me d) = (ms_name m ++ "::" ++ fn_name (snd x))%string;
  ds_default : me_default (md_me d) = fst (te (module_of hash m (fst x) (fn_name (snd x))));
  ds_debug : me_debug (md_me d) = snd (te (module_of hash m (fst x) (fn_name (snd x))));
  ds_static : md_static d = negb (has_self (snd x));
  ds_ref : md_kind d = Expect.KRef
    <-> exists t, sg_output (fi_sig (snd x)) = Some t /\ borrows false t;
  ds_mut : md_kind d = Expect.KMut
    <-> exists t, sg_output (fi_sig (snd x)) = Some t /\ borrows true t;
  ds_generic : md_generic d = true
    <-> separated (snd x) \/ has_self (snd x) = false /\ struct_separated m
}.

(** The mock and its static methods, for Mock.v. *)
Definition described_mock {V} hash m te (sd : sdecl V) (st : list (mdecl V)) : Prop :=
  Forall2 (fun t ds => Forall2 (fun x d => described hash m te (Some (fst t), x) d) (snd t) ds)
          (traits_of m) (sd_traits sd)
  /\ Forall2 (fun x d => described hash m te (None, x) d) (ms_methods m) (sd_methods sd)
  /\ Forall2 (described hash m te) (static_fns m) st.

(** ** Tests *)

(** The block declares a function of the name, with or without [self]. *)
Definition declares (m : mockable_struct) (who : option nat) (self : bool) (f : ident) : Prop :=
  exists x, In x (fns_at m who) /\ same_name (fn_name x) f = true /\ has_self x = self.

Definition named {V U} (m : mockable_struct) (o : uop V U) : Prop :=
  match o with
  | UExpect _ who f _ _ | UCall _ who f _ _ _ => declares m who true f
  | UCtxExpect who f _ _ | UStaticCall who f _ _ | UCtxCheckpoint who f | UCtxDrop who f =>
      declares m who false f
  | _ => True
  end.

Definition to_op {V U} (m : mockable_struct) (sd : sdecl V) (o : uop V U) : op V U :=
  let obj who f := position (trait_at m who) f (object_fns m) in
  let stat who f := position (trait_at m who) f (static_fns m) in
  match o with
  | UNew => ONew sd
  | UExpect i who f k l => OExpect i (obj who f) k l
  | UCall i who f k args wr => OCall i (obj who f) k args wr
  | UCheckpoint i => OCheckpoint i
  | UDrop i => ODrop i
  | UCtxExpect who f k l => OCtxExpect (stat who f) k l
  | UStaticCall who f k args => OStaticCall (stat who f) k args
  | UCtxCheckpoint who f => OCtxCheckpoint (stat who f)
  | UCtxDrop who f => OCtxDrop (stat who f)
  | UThread t => OThread t
  | UUnwinding b => OUnwinding b
  | UUser f => OUser f
  end.

(** ** What rustc checks *)

(** No two fields of a structure and no two modules in a module have one name. *)
Definition distinct_names (g : gen_mock) : Prop :=
  NoDup (map gf_name (gm_fields g))
  /\ NoDup (gm_modname g :: map gs_modname (gm_substructs g))
  /\ NoDup (map gp_name (gm_privmods g))
  /\ forall ss, In ss (gm_substructs g) ->
       NoDup (map gf_name (gs_fields ss)) /\ NoDup (map gp_name (gs_privmods ss)).

(** Inputs for which they are distinct: the functions of a block have different
    names, traits can be told apart by their names and arguments (C60) and occur
    under the same attributes, and no method is called like a generated
    field. *)
Record clear_names (hash : list pargs -> N) (m : mockable_struct) : Prop := ClearNames {
  cn_fns : forall who, NoDup (map (fun x => unraw (fn_name x)) (fns_at m who));
  cn_paths : forall x b p, In x (ms_impls m) -> im_trait x = Some (b, p) -> simple_path p;
  cn_hash : forall x y b b' p q, In x (ms_impls m) -> In y (ms_impls m) ->
    im_trait x = Some (b, p) -> im_trait y = Some (b', q) ->
    hash (snd (trait_key p)) = hash (snd (trait_key q)) -> snd (trait_key p) = snd (trait_key q);
  cn_traits : forall x y b b' p q, In x (ms_impls m) -> In y (ms_impls m) ->
    im_trait x = Some (b, p) -> im_trait y = Some (b', q) ->
    trait_key p = trait_key q -> p = q /\ im_attrs x = im_attrs y;
  cn_phantom : forall who x n, In x (fns_at m who) -> has_self x = true ->
    params (ms_generics m) <> [] -> fn_name x <> ("_t" ++ show_N n)%string;
  cn_fields : forall x u, In x (ms_methods m) -> has_self x = true ->
    fn_name x <> (u ++ "_expectations")%string
}.

(** ** Functions of one name *)

(** The items of the mock's own block (mock_item_struct.rs 349-361), and those of the
    block with the functions for the expectations of a trait (mock_trait.rs
    169-173); both are inherent, so all are named [MockFoo::...]. *)
Definition own_functions (g : gen_mock) : list ident :=
  map fst (gm_consts g)
  ++ map (fun c => unraw (sg_ident (gc_sig c))) (gm_calls g)
  ++ map gx_name (gm_contexts g) ++ map ge_name (gm_expects g)
  ++ "checkpoint" :: (if gm_new g then ["new"] else []).
Definition block_functions (t : gen_trait_impl) : list ident :=
  map ge_name (gt_expects t) ++ map gx_name (gt_contexts t).

(** Two blocks are for different types: in one position both have a named type that
    is not one of the block's parameters, and the names are different. *)
Definition apart (s : pargs) (gs : generics) (t : pargs) (gt : generics) : Prop :=
  exists l k n i j, s = PaAngle l /\ t = PaAngle k
    /\ nth_error l n = Some (GaType (ty_of i)) /\ nth_error k n = Some (GaType (ty_of j))
    /\ i <> j /\ ~ In i (type_names gs) /\ ~ In j (type_names gt).

(** No two items of one name (E0592) for one type. *)
Definition distinct_functions (g : gen_mock) : Prop :=
  NoDup (own_functions g)
  /\ (forall t, In t (gm_trait_impls g) ->
        NoDup (block_functions t)
        /\ forall n, In n (block_functions t) -> ~ In n (own_functions g))
  /\ (forall i j t u n, i <> j ->
        nth_error (gm_trait_impls g) i = Some t -> nth_error (gm_trait_impls g) j = Some u ->
        In n (block_functions t) -> In n (block_functions u) ->
        apart (seg_args (gt_self t)) (gt_generics t) (seg_args (gt_self u)) (gt_generics u)).

(** Inputs for which that is so. *)
Definition expecting (n : ident) : Prop := n = "expect" \/ exists u, n = ("expect_" ++ u)%string.
Definition reserved (n : ident) : Prop :=
  n = "checkpoint" \/ expecting n \/ exists u, n = (u ++ "_context")%string.

Record clear_functions (m : mockable_struct) : Prop := ClearFunctions {
  cf_fns : forall who, NoDup (map (fun x => unraw (fn_name x)) (fns_at m who));
  cf_consts : NoDup (map fst (ms_consts m));
  cf_const : forall c, In c (ms_consts m) ->
    ~ reserved (fst c) /\ fst c <> "new"
    /\ forall x, In x (ms_methods m) -> unraw (fn_name x) <> fst c;
  cf_own : forall x, In x (ms_methods m) -> ~ reserved (unraw (fn_name x)) /\ fn_name x <> "r#new";
  cf_trait : forall y x, In y (ms_impls m) -> In x (impl_fns y) -> ~ expecting (unraw (fn_name x));
  cf_apart : forall y x z, In y (ms_impls m) -> In x (impl_fns y) -> In z (ms_methods m) ->
    unraw (fn_name x) <> unraw (fn_name z);
  cf_traits : forall i j y z x x' b c, i <> j ->
    nth_error (ms_impls m) i = Some y -> nth_error (ms_impls m) j = Some z ->
    In x (impl_fns y) -> In x' (impl_fns z) -> unraw (fn_name x) = unraw (fn_name x') ->
    self_path (im_self y) = Some b -> self_path (im_self z) = Some c ->
    apart (seg_args b) (im_generics y) (seg_args c) (im_generics z)
}.
