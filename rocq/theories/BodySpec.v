(** * BodySpec: the bodies of mock functions *)

From Coq Require Import List Bool String Ascii NArith Arith.
From Verif Require Import Ast AstSpec Derive DeriveSpec Sig MockFn MockFnSpec Item MockItem.
Import ListNotations.
Open Scope string_scope.
Open Scope list_scope.

(** Does the function return [&T] (or [&mut T]), or [&dyn T] (or [&mut dyn T]),
    with another lifetime than ['static]? *)
Definition returns_borrow (m : bool) (s : signature) : Prop :=
  exists t, sg_output s = Some t /\ borrows m t.
Definition returns_object (m : bool) (s : signature) : Prop :=
  exists l d b, sg_output s = Some (TRef l m (TDyn d b)) /\ l <> Some "static".

(** The attributes of the mocked function are repeated on the mock function,
    except those that are never copied. *)
Definition attributes_kept (l l' : list attribute) : Prop :=
  subseq l' l
  /\ forall a, segs (apath a) <> [] -> (In a l' <-> In a l /\ ~ never_copied a).

(** ... and except those with these names. *)
Definition attributes_without (names : list ident) (l l' : list attribute) : Prop :=
  subseq l' l
  /\ forall a, segs (apath a) <> [] ->
       (In a l' <-> In a l /\ ~ never_copied a /\ forall i, In i names -> ~ named a i).

(** A mock function.  Messages name it with its owner, and show its arguments.  A
    function that returns [&mut T] uses [call_mut] of the expectations; trait
    objects, which are boxed by the expectations, are unboxed.  Private functions
    are not reported when unused (those of traits never are), and functions with another ABI
    than Rust's are linked by name. *)
Definition call_body (in_trait : bool) (owner : string) (attrs : list attribute) (c : gen_call) : Prop :=
  gc_desc c = (owner ++ "::" ++ sg_ident (gc_sig c))%string
  /\ Forall2 (fun a p => without_mut p = without_mut (fst a)) (typed_args (sg_inputs (gc_sig c))) (gc_shown c)
  /\ attributes_kept attrs (gc_attrs c)
  /\ (gc_mut c = true <-> returns_borrow true (gc_sig c))
  /\ (gc_deref c = DerefRef <-> returns_object false (gc_sig c))
  /\ (gc_deref c = DerefMut <-> returns_object true (gc_sig c))
  /\ (gc_no_mangle c = true <-> exists o, sg_abi (gc_sig c) = Some o /\ o <> Some "Rust")
  /\ (gc_dead_code c = true <-> in_trait = false /\ gc_vis c = VInherited).

(** The module of the expectations: which methods they have, what is passed to
    [call], and the names in their messages. *)
Definition module_body (owner : option string) (c : gen_call) (p : gen_privmod) : Prop :=
  gp_desc p = gc_desc c
  /\ gp_funcname p = match owner with
                     | Some o => (o ++ "::" ++ sg_ident (gc_sig c))%string
                     | None => sg_ident (gc_sig c)
                     end
  /\ (gp_kind p = KRef <-> returns_borrow false (gc_sig c))
  /\ (gp_kind p = KRefMut <-> returns_borrow true (gc_sig c))
  /\ map fst (gp_args p) = gc_shown c
  /\ List.length (gp_args p) = List.length (gc_args c)
  /\ List.length (gp_predty p) = List.length (gp_args p).

(** The attributes of the functions of a module, and the mock functions. *)
Definition fn_attrs (l : list item) : list (list attribute) :=
  flat_map (fun i => match i with
                     | ItFn x _ => [fi_attrs x]
                     | ItForeign _ xs =>
                         flat_map (fun f => match f with FiFn x _ => [fi_attrs x] | FiOther _ => [] end) xs
                     | _ => []
                     end) l.
Definition module_calls (l : list gen_item) : list gen_call :=
  flat_map (fun i => match i with GiCall c _ => [c] | _ => [] end) l.
Definition module_privmods (l : list gen_item) : list gen_privmod :=
  flat_map (fun i => match i with GiPrivmod p => [p] | _ => [] end) l.
