(** * ModSpec: what mocks a module *)

From Coq Require Import List Bool String Ascii NArith Arith.
From Verif Require Import Ast AstSpec Derive DeriveSpec CallSpec Sig SigSpec Item MockItem ItemSpec PipeSpec.
Import ListNotations.
Open Scope string_scope.
Open Scope list_scope.

(** The same function with another ABI, and up to [mut] in front of arguments
    and a return type. *)
Definition same_fn (abi : option (option string)) (ret : ty -> ty -> Prop) (s s' : signature) : Prop :=
  sg_ident s' = sg_ident s /\ sg_generics s' = sg_generics s /\ sg_abi s' = abi
  /\ Forall2 (fun a a' =>
       match a, a' with
       | FaTyped p t, FaTyped p' t' => t' = t /\ without_mut p' = without_mut p
       | FaReceiver _ _ _ _, FaReceiver _ _ _ _ => True
       | _, _ => False
       end) (sg_inputs s) (sg_inputs s')
  /\ match sg_output s, sg_output s' with
     | Some t, Some t' => ret t t'
     | None, None => True
     | _, _ => False
     end.

(** The ABI of a mock function for the ABI of an [extern] block: a mock panics,
    so it must be able to unwind. *)
Definition unwinding (abi : option string) : option (option string) :=
  match abi with
  | Some "C" => Some (Some "C-unwind")
  | abi => Some abi
  end.

(** Functions with another ABI than Rust's are linked by their names. *)
Definition linked (abi : option (option string)) : Prop :=
  exists o, abi = Some o /\ o <> Some "Rust".

(** The three parts of the mock of a function. *)
Definition fn_parts (x : fn_item) (unsafe : bool) (abi : option (option string)) (ret : ty -> ty -> Prop)
  (l : list gen_item) : Prop :=
  exists p c k m,
    l = [GiPrivmod p; GiCall c unsafe; GiContext k]
    /\ same_fn abi ret (fi_sig x) (gc_sig c)
    /\ gc_vis c = fi_vis x
    /\ (gc_no_mangle c = true <-> linked abi)
    /\ m = ("__" ++ unraw_name (sg_ident (fi_sig x)))%string
    /\ gp_name p = m /\ gc_store c = StaticIn [m] /\ gx_mod k = [m]
    /\ gx_name k = (unraw_name (sg_ident (fi_sig x)) ++ "_context")%string
    /\ gx_vis k = fi_vis x
    /\ cfgs (gc_attrs c) = cfgs (fi_attrs x) /\ cfgs (gp_attrs p) = cfgs (fi_attrs x)
    /\ cfgs (gx_attrs k) = cfgs (fi_attrs x).

(** What stands in the mock module for an item of the module. *)
Inductive item_parts : item -> list gen_item -> Prop :=
| IpFn x u l : fn_parts x u (sg_abi (fi_sig x)) returned l -> item_parts (ItFn x u) l
| IpForeign abi xs ls :
    Forall2 (fun f l => exists x u, f = FiFn x u /\ fn_parts x true (unwinding abi) eq l) xs ls ->
    item_parts (ItForeign abi xs) (List.concat ls)
| IpCopied s : item_parts (ItCopied s) [GiTokens s]
| IpIgnored s : item_parts (ItIgnored s) [].

(** Functions outside of traits and impl blocks have no [self]. *)
Definition free_functions (l : list item) : Prop :=
  forall i, In i l ->
    match i with
    | ItFn x _ => takes_self (fi_sig x) = false
    | ItForeign _ xs => forall x u, In (FiFn x u) xs -> takes_self (fi_sig x) = false
    | _ => True
    end.

(** The sets of expectations of a mock module, with their conditions. *)
Definition privmods (l : list gen_item) : list gen_privmod :=
  flat_map (fun i => match i with GiPrivmod p => [p] | _ => [] end) l.
