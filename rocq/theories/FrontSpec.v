(** * FrontSpec: the grammar of the macros, in terms of what the user writes *)

From Coq Require Import List Bool String NArith.
From Verif Require Import Ast AstSpec DeriveSpec Sig Item BodySpec PipeSpec EndSpec Front.
Import ListNotations.
Open Scope string_scope.
Open Scope list_scope.

(** ** [mock!] *)

(** In the braces there are functions without a body, and constants. *)
Definition brace_item (i : raw_impl_item) : Prop :=
  match i with
  | RaBare _ | RaConst _ _ => True
  | _ => False
  end.

(** In an impl block a function has a body, which does not count, or has neither a body nor a
    visibility. *)
Inductive item_reads : raw_impl_item -> impl_item -> Prop :=
| reads_fn f : item_reads (RaFn f) (IiFn f)
| reads_bare at_ s : item_reads (RaBare (FnItem at_ VInherited s)) (IiFn (FnItem at_ VInherited s))
| reads_const n e : item_reads (RaConst n e) (IiConst n e)
| reads_type n t : item_reads (RaType n t) (IiType n t)
| reads_other s : item_reads (RaOther s) (IiOther s).

Record block_reads (x : raw_impl) (y : item_impl) : Prop := BlockReads {
  br_attrs : im_attrs y = ri_attrs x;
  br_unsafe : im_unsafe y = ri_unsafe x;
  br_generics : im_generics y = ri_generics x;
  br_trait : im_trait y = ri_trait x;
  br_self : im_self y = ri_self x;
  br_items : Forall2 item_reads (ri_items x) (im_items y)
}.

(** The declaration [d] is what is written in [r]. *)
Record mock_reads (r : raw_mock) (d : mock_decl) : Prop := MockReads {
  mr_attrs : md_attrs d = rm_attrs r;
  mr_vis : md_vis d = rm_vis r;
  mr_name : md_name d = rm_name r;
  mr_params : params (md_generics d) = params (rm_params r);
  mr_token : lt_token (md_generics d) = lt_token (rm_params r);
  mr_where : where_clause (md_generics d) = rm_where r;
  mr_braces : Forall brace_item (rm_braces r);
  mr_consts : md_consts d = flat_map (fun i => match i with RaConst n e => [(n, e)] | _ => [] end) (rm_braces r);
  mr_methods : md_methods d = flat_map (fun i => match i with RaBare f => [f] | _ => [] end) (rm_braces r);
  mr_impls : Forall2 (fun i y => exists x, i = RmImpl x /\ block_reads x y) (rm_items r) (md_impls d)
}.

(** The functions in a list of items, with and without bodies. *)
Definition raw_fns (l : list raw_impl_item) : list wfn :=
  flat_map (fun i => match i with RaFn f | RaBare f => [(fi_attrs f, fi_sig f)] | _ => [] end) l.

(** The same items, but for bodies. *)
Inductive alike : raw_impl_item -> raw_impl_item -> Prop :=
| alike_same i : alike i i
| alike_body at_ s : alike (RaFn (FnItem at_ VInherited s)) (RaBare (FnItem at_ VInherited s))
| alike_bare at_ s : alike (RaBare (FnItem at_ VInherited s)) (RaFn (FnItem at_ VInherited s)).

Inductive alike_items : raw_item -> raw_item -> Prop :=
| alike_item i : alike_items i i
| alike_impl x l : Forall2 alike (ri_items x) l ->
    alike_items (RmImpl x)
      (RmImpl (RawImpl (ri_attrs x) (ri_unsafe x) (ri_generics x) (ri_trait x) (ri_self x) l)).

Definition with_raw_items (r : raw_mock) (l : list raw_item) : raw_mock :=
  RawMock (rm_attrs r) (rm_vis r) (rm_name r) (rm_params r) (rm_where r) (rm_braces r) l.

(** ** Calls *)

Inductive macro_call : Type :=
| CMock (r : raw_mock)
| CAutomock (attrs : list raw_attr) (i : raw_item).

Definition expansion_of (hash : list pargs -> N) (c : macro_call) : expansion :=
  match c with
  | CMock r => do_mock hash r
  | CAutomock a i => do_automock hash a i
  end.

(** [type A = T;] *)
Definition type_attr (x : ident * ty) : raw_attr := RtType (fst x) (Some (snd x)).

(** The call, as the declaration of EndSpec.v. *)
Definition call_reads (c : macro_call) (src : source) : Prop :=
  match c, src with
  | CMock r, SMock d => mock_reads r d
  | CAutomock a (RmTrait t), STrait l t' =>
      t' = t /\ exists k, a = map type_attr k /\ l = map (fun x => (fst x, Some (snd x))) k
  | CAutomock a (RmImpl x), SImpl y =>
      (exists k, a = map type_attr k)
      /\ (forall f, ~ In (RaBare f) (ri_items x))
      /\ (forall s, ~ In (RaVerbatim s) (ri_items x))
      /\ block_reads x y
  | _, _ => False
  end.

(** The functions that the user wrote in a block: [None] is the mock's own one. *)
Definition call_fns (c : macro_call) (who : option nat) : list wfn :=
  match c, who with
  | CMock r, None => raw_fns (rm_braces r)
  | CMock r, Some i => match nth_error (rm_items r) i with Some (RmImpl x) => raw_fns (ri_items x) | _ => [] end
  | CAutomock _ (RmTrait t), Some O => trait_wfns t
  | CAutomock _ (RmImpl x), None => match ri_trait x with None => raw_fns (ri_items x) | Some _ => [] end
  | CAutomock _ (RmImpl x), Some O => match ri_trait x with None => [] | Some _ => raw_fns (ri_items x) end
  | _, _ => []
  end.

(** ** [#[automock]] written out with [mock!] *)

(** The arguments that name the parameters, lifetimes first. *)
Definition named_param (p : gparam) : garg :=
  match p with
  | GpLifetime l _ => GaLifetime l
  | GpType i _ _ => GaType (ty_of i)
  | GpConst i _ _ => GaConst i
  end.
Definition lifetimes_first (l : list gparam) : list gparam :=
  filter (fun p => match p with GpLifetime _ _ => true | _ => false end) l
  ++ filter (fun p => match p with GpLifetime _ _ => false | _ => true end) l.
Definition param_args (g : generics) : pargs :=
  match params g with
  | [] => PaNone
  | ps => PaAngle (map named_param (lifetimes_first ps))
  end.

(** The signature with the declared types in place of the associated ones. *)
Definition sig_out (types : ident -> option ty) (tr : ident) (s : signature) : signature :=
  let put := everywhere (project types tr) in
  Signature (sg_ident s) (sg_generics s)
    (map (fun x => match x with FaTyped p u => FaTyped p (put u) | x => x end) (sg_inputs s))
    (option_map put (sg_output s)) (sg_abi s).
Definition plain_sig (s : signature) : Prop :=
  (forall p u, In (FaTyped p u) (sg_inputs s) -> plain u = true)
  /\ forall u, sg_output s = Some u -> plain u = true.

Inductive trait_item_out (types : ident -> option ty) (tr : ident) : trait_item -> raw_impl_item -> Prop :=
| out_fn at_ s : trait_item_out types tr (TiFn at_ s) (RaBare (FnItem at_ VInherited (sig_out types tr s)))
| out_const n t e : trait_item_out types tr (TiConst n t (Some e)) (RaConst n (t ++ " = " ++ e))
| out_type n b d u : types n = Some u -> trait_item_out types tr (TiType n b d) (RaType n u).

(** [#[derive(Debug)]] *)
Definition derives (a : attribute) : Prop :=
  apath a = path_of "derive" /\ alist a = Some "Debug".

(** [#[automock] trait T<P> { ... }] is
    [mock! { #[derive(Debug)] pub T<P> {} impl T<P> for T<P> { ... } }]. *)
Definition trait_out (types : ident -> option ty) (t : item_trait) (r : raw_mock) : Prop :=
  (exists l a, rm_attrs r = l ++ [a] /\ derives a /\ attributes_without ["must_use"] (it_attrs t) l)
  /\ rm_vis r = it_vis t /\ rm_name r = it_ident t
  /\ params (rm_params r) = params (it_generics t) /\ lt_token (rm_params r) = lt_token (it_generics t)
  /\ rm_where r = where_clause (it_generics t)
  /\ rm_braces r = []
  /\ exists x, rm_items r = [RmImpl x]
     /\ ri_attrs x = it_attrs t /\ ri_unsafe x = it_unsafe t /\ ri_generics x = it_generics t
     /\ ri_trait x = Some (false, Path false [Seg (it_ident t) (param_args (it_generics t))])
     /\ ri_self x = TPath (Path false [Seg (it_ident t) (param_args (it_generics t))])
     /\ Forall2 (trait_item_out types (it_ident t)) (it_items t) (ri_items x).

Inductive impl_item_out (types : ident -> option ty) (tr : ident) : raw_impl_item -> raw_impl_item -> Prop :=
| iout_fn at_ v s : impl_item_out types tr (RaFn (FnItem at_ v s)) (RaFn (FnItem at_ v (sig_out types tr s)))
| iout_const n e : impl_item_out types tr (RaConst n e) (RaConst n e)
| iout_type n t : impl_item_out types tr (RaType n t) (RaType n t).

Inductive inherent_item_out : raw_impl_item -> raw_impl_item -> Prop :=
| inh_fn f : inherent_item_out (RaFn f) (RaBare f)
| inh_const n e : inherent_item_out (RaConst n e) (RaConst n e).

Definition raw_types (x : raw_impl) : list (ident * ty) :=
  flat_map (fun i => match i with RaType n t => [(n, t)] | _ => [] end) (ri_items x).
Definition path_name (p : path) : ident := match p with Path _ [Seg i _] => i | _ => "" end.

(** [#[automock] impl<P> S<P> { ... }] is [mock! { #[derive(Debug)] pub S<P> { ... } }], and
    [#[automock] impl<P> T for S<P> { ... }] is
    [mock! { #[derive(Debug)] pub S<P> {} impl<P> T for S<P> { ... } }]. *)
Definition impl_out (x : raw_impl) (r : raw_mock) : Prop :=
  (exists a, rm_attrs r = ri_attrs x ++ [a] /\ derives a)
  /\ rm_vis r = VPublic /\ rm_name r = self_name (ri_self x)
  /\ params (rm_params r) = params (ri_generics x) /\ lt_token (rm_params r) = lt_token (ri_generics x)
  /\ rm_where r = where_clause (ri_generics x)
  /\ match ri_trait x with
     | None => rm_items r = [] /\ Forall2 inherent_item_out (ri_items x) (rm_braces r)
     | Some (b, p) =>
         rm_braces r = []
         /\ exists y types, rm_items r = [RmImpl y] /\ defined (raw_types x) types
            /\ ri_attrs y = ri_attrs x /\ ri_unsafe y = ri_unsafe x /\ ri_generics y = ri_generics x
            /\ ri_trait y = Some (b, p) /\ ri_self y = ri_self x
            /\ Forall2 (impl_item_out types (path_name p)) (ri_items x) (ri_items y)
     end.
