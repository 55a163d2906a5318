(** * PipeSpec: what is mocked, and by what *)

From Coq Require Import List Bool String Ascii NArith Arith.
From Verif Require Import Ast AstSpec Derive DeriveSpec CallSpec Sig SigSpec Item MockItem.
Import ListNotations.
Open Scope string_scope.
Open Scope list_scope.

(** The same signature, up to [mut] in front of arguments. *)
Definition kept (s s' : signature) : Prop :=
  sg_ident s' = sg_ident s /\ sg_generics s' = sg_generics s /\ sg_output s' = sg_output s
  /\ sg_abi s' = sg_abi s
  /\ Forall2 (fun a a' =>
       match a, a' with
       | FaTyped p t, FaTyped p' t' => t' = t /\ without_mut p' = without_mut p
       | FaReceiver _ _ _ _, _ => a' = a
       | _, _ => False
       end) (sg_inputs s) (sg_inputs s').

(** The signature with the associated types replaced.  (Stated for the types for
    which [plain] holds, see PropSubst.v.) *)
Definition projected (types : ident -> option ty) (tr : ident) (s s1 : signature) : Prop :=
  sg_ident s1 = sg_ident s /\ sg_generics s1 = sg_generics s /\ sg_abi s1 = sg_abi s
  /\ Forall2 (fun a a' =>
       match a, a' with
       | FaTyped p t, FaTyped p' t' =>
           p' = p /\ (plain t = true -> t' = everywhere (project types tr) t)
       | FaReceiver _ _ _ _, _ => a' = a
       | _, _ => False
       end) (sg_inputs s) (sg_inputs s1)
  /\ match sg_output s, sg_output s1 with
     | Some t, Some t' => plain t = true -> t' = everywhere (project types tr) t
     | None, None => True
     | _, _ => False
     end.

(** The mock function [c] of the mock [name] mocks a function of the signature
    [s]. *)
Definition mocks (name : ident) (g : generics) (s : signature) (c : gen_call) : Prop :=
  exists s', adapted_sig name g s s' /\ kept s' (gc_sig c).

(** ... after its associated types were replaced. *)
Definition mocks_method (types : ident -> option ty) (tr name : ident) (g : generics)
  (s : signature) (c : gen_call) : Prop :=
  exists s1, projected types tr s s1 /\ mocks name g s1 c.

(** Generic arguments that are the parameters themselves; in Rust the lifetimes
    come first. *)
Definition param_name (p : gparam) : garg :=
  match p with
  | GpLifetime l _ => GaLifetime l
  | GpType i _ _ => GaType (ty_of i)
  | GpConst i _ _ => GaConst i
  end.
Definition lifetimes_first (l : list gparam) : Prop :=
  exists a b, l = a ++ b
    /\ Forall (fun p => exists x y, p = GpLifetime x y) a
    /\ Forall (fun p => forall x y, p <> GpLifetime x y) b.
Definition applied_to (i : ident) (g : generics) (s : seg) : Prop :=
  match params g with
  | [] => s = Seg i PaNone
  | ps => lifetimes_first ps -> s = Seg i (PaAngle (map param_name ps))
  end.

(** [expect_] functions and contexts: the names for functions with and without a
    [self] argument. *)
Definition takes_self (s : signature) : bool :=
  existsb (fun a => match a with FaReceiver _ _ _ _ => true | FaTyped _ _ => false end)
          (sg_inputs s).
Definition unraw_name (i : ident) : string :=
  match i with String "r"%char (String "#"%char r) => r | i => i end.
Definition expect_names (l : list signature) : list ident :=
  map (fun s => "expect_" ++ unraw_name (sg_ident s))%string (filter takes_self l).
Definition context_names (l : list signature) : list ident :=
  map (fun s => unraw_name (sg_ident s) ++ "_context")%string
      (filter (fun s => negb (takes_self s)) l).

Definition trait_sigs (t : item_trait) : list signature :=
  flat_map (fun i => match i with TiFn _ s => [s] | _ => [] end) (it_items t).
Definition impl_sigs (x : item_impl) : list signature :=
  flat_map (fun i => match i with IiFn f => [fi_sig f] | _ => [] end) (im_items x).

(** The same with the visibilities. *)
Definition expect_fns (l : list fn_item) : list (ident * visibility) :=
  map (fun f => ("expect_" ++ unraw_name (sg_ident (fi_sig f)), fi_vis f)%string)
      (filter (fun f => takes_self (fi_sig f)) l).
Definition context_fns (l : list fn_item) : list (ident * visibility) :=
  map (fun f => (unraw_name (sg_ident (fi_sig f)) ++ "_context", fi_vis f)%string)
      (filter (fun f => negb (takes_self (fi_sig f))) l).

(** The contents of an impl block. *)
Definition methods_of (x : item_impl) : list fn_item :=
  flat_map (fun i => match i with IiFn f => [f] | _ => [] end) (im_items x).
Definition consts_of (x : item_impl) : list (ident * string) :=
  flat_map (fun i => match i with IiConst n e => [(n, e)] | _ => [] end) (im_items x).
Definition types_of (x : item_impl) : list (ident * ty) :=
  flat_map (fun i => match i with IiType n t => [(n, t)] | _ => [] end) (im_items x).

(** The lookup in a list of definitions; the last one counts. *)
Definition defined (l : list (ident * ty)) (types : ident -> option ty) : Prop :=
  forall n t, types n = Some t <-> exists l1 l2, l = l1 ++ (n, t) :: l2 /\ forall u, ~ In (n, u) l2.

(** An impl block [x] of a mock [name], as the mock [i] of the trait implements
    it.  [vis] is the visibility of what is not part of the trait. *)
Definition implements (vis : visibility) (name : ident) (g : generics)
  (R : ident -> generics -> signature -> gen_call -> Prop) (x : item_impl) (i : gen_trait_impl) : Prop :=
  (exists bang, im_trait x = Some (bang, gt_path i))
  /\ gt_unsafe i = im_unsafe x /\ gt_generics i = im_generics x
  /\ gt_consts i = consts_of x /\ gt_types i = types_of x
  /\ Forall2 (R name g) (map fi_sig (methods_of x)) (gt_calls i)
  /\ Forall (fun c => gc_vis c = VInherited) (gt_calls i)
  /\ map ge_name (gt_expects i) = expect_names (map fi_sig (methods_of x))
  /\ map gx_name (gt_contexts i) = context_names (map fi_sig (methods_of x))
  /\ Forall (fun e => ge_vis e = vis) (gt_expects i)
  /\ Forall (fun e => gx_vis e = vis) (gt_contexts i).

(** ** Derived traits *)

(** A text without its blanks. *)
Definition squeezed (s : string) : string :=
  string_of_list_ascii (filter (fun c => negb (Ascii.eqb c " ")) (list_ascii_of_string s)).
(** [x] is one of the entries of a text that has commas between them. *)
Definition listed (x t : string) : Prop :=
  exists l r, t = (l ++ x ++ r)%string
    /\ (l = "" \/ exists l', l = (l' ++ ",")%string) /\ (r = "" \/ exists r', r = ("," ++ r')%string).
(** One of the attributes is [derive], and [x] is in its list. *)
Definition derives (x : ident) (attrs : list attribute) : Prop :=
  exists a s, In a attrs /\ apath a = path_of "derive" /\ alist a = Some s /\ listed x (squeezed s).
