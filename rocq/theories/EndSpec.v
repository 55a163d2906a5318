(** * EndSpec: what the user of a macro wrote, and what a test of the mock means

    For the theorem about whole macro calls: [#[automock]] of a trait or an impl block,
    and [mock!].  In the terms of the user's text. *)

From Coq Require Import List Bool String NArith Arith.
From Verif Require Import Base Times Expect Mock.
From Verif Require Import Ast AstSpec Derive DeriveSpec Names Sig SigSpec MockFn MockFnSpec Item MockItem PipeSpec
  Errors ItemSpec GenSpec GenRun GenRunSpec.
Import ListNotations.
Open Scope string_scope.
Open Scope list_scope.

(** The macro calls: a trait with the types in the attribute, an impl block, and [mock!]. *)
Inductive source : Type :=
| STrait (l : list (ident * option ty)) (t : item_trait)
| SImpl (x : item_impl)
| SMock (d : mock_decl).

Definition expand (hash : list pargs -> N) (src : source) : option gen_mock :=
  match src with
  | STrait l t => automock_trait hash l t
  | SImpl x => automock_impl hash x
  | SMock d => mock_macro hash d
  end.

(** A function: its attributes and its signature. *)
Definition wfn : Type := (list attribute * signature)%type.

Definition trait_wfns (t : item_trait) : list wfn :=
  flat_map (fun i => match i with TiFn at_ s => [(at_, s)] | _ => [] end) (it_items t).
Definition impl_wfns (l : list fn_item) : list wfn := map (fun f => (fi_attrs f, fi_sig f)) l.

(** The functions in a block: [None] is the mock's own block, [Some i] the [i]th one for a
    trait. *)
Definition written (src : source) (who : option nat) : list wfn :=
  match src, who with
  | STrait _ t, Some O => trait_wfns t
  | SImpl x, None => match im_trait x with None => impl_wfns (methods_of x) | Some _ => [] end
  | SImpl x, Some O => match im_trait x with None => [] | Some _ => impl_wfns (methods_of x) end
  | SMock d, None => impl_wfns (md_methods d)
  | SMock d, Some i => match nth_error (md_impls d) i with Some x => impl_wfns (methods_of x) | None => [] end
  | _, _ => []
  end.

(** Blocks for one trait: the traits of different blocks are the same only in [mock!]. *)
Definition one_block (src : source) (who who' : option nat) : Prop :=
  who = who'
  \/ exists d i j x y b b' p, src = SMock d /\ who = Some i /\ who' = Some j
       /\ nth_error (md_impls d) i = Some x /\ nth_error (md_impls d) j = Some y
       /\ im_trait x = Some (b, p) /\ im_trait y = Some (b', p).

Definition source_generics (src : source) : generics :=
  match src with STrait _ t => it_generics t | SImpl x => im_generics x | SMock d => md_generics d end.

(** The name of the mock. *)
Definition self_name (t : ty) : ident :=
  match t with TPath (Path _ [Seg i _]) | TQPath _ _ (Path _ [Seg i _]) => i | _ => "" end.
Definition mock_name (src : source) : ident :=
  ("Mock" ++ unraw_name match src with
                        | STrait _ t => it_ident t
                        | SImpl x => self_name (im_self x)
                        | SMock d => md_name d
                        end)%string.

(** The associated types and the name of the trait they belong to. *)
Definition associated (src : source) (types : ident -> option ty) : Prop :=
  match src with
  | STrait l _ => defined (flat_map (fun x => match snd x with Some t => [(fst x, t)] | None => [] end) l) types
  | SImpl x => match im_trait x with
               | Some _ => defined (types_of x) types
               | None => forall n, types n = None
               end
  | SMock _ => forall n, types n = None
  end.
Definition trait_name (src : source) : ident :=
  match src with
  | STrait _ t => it_ident t
  | SImpl x => match im_trait x with Some (_, Path _ [Seg i _]) => i | _ => "" end
  | SMock _ => ""
  end.

(** ** What a function is *)

(** It returns a reference, or an associated type that is one; and not a ['static] one, which
    is what ['_] becomes. *)
Definition lent (types : ident -> option ty) (tr : ident) (mu : bool) (s : signature) : Prop :=
  exists t l e, sg_output s = Some t /\ project types tr t = TRef l mu e
    /\ l <> Some "static" /\ l <> Some "_".
Definition plain_output (s : signature) : Prop :=
  match sg_output s with Some t => plain t = true | None => True end.

(** The caller chooses a type parameter. *)
Definition chooses (x : wfn) : Prop :=
  existsb is_concretize (fst x) = false
  /\ exists i, In i (type_names (sg_generics (snd x))) /\ ~ closure_param (sg_generics (snd x)) i.

(** Its where clause is about [Self] and closures only. *)
Definition usual_where (x : wfn) : Prop :=
  forall w, In w (preds (sg_generics (snd x))) ->
    exists f t l, w = WpType f t l
      /\ (t = ty_of "Self"
          \/ exists i, t = ty_of i /\ closure_param (sg_generics (snd x)) i /\ keyword i = false).

Definition generic_source (src : source) : Prop :=
  type_names (source_generics src) <> []
  \/ (lt_token (source_generics src) = false /\ where_clause (source_generics src) <> None).

(** The function [x], as a method [d] of Mock.v. *)
Record told {V} (src : source) (types : ident -> option ty) (te : GenRun.types V) (x : wfn) (d : mdecl V)
  : Prop := Told {
  to_name : me_name (md_me d) = (mock_name src ++ "::" ++ sg_ident (snd x))%string;
  to_desc : me_desc (md_me d) = (mock_name src ++ "::" ++ sg_ident (snd x))%string;
  to_types : exists ns, me_default (md_me d) = fst (te ns) /\ me_debug (md_me d) = snd (te ns);
  to_static : md_static d = negb (takes_self (snd x));
  to_ref : plain_output (snd x) ->
    (md_kind d = Expect.KRef <-> lent types (trait_name src) false (snd x));
  to_mut : plain_output (snd x) ->
    (md_kind d = Expect.KMut <-> lent types (trait_name src) true (snd x));
  to_generic : chooses x -> md_generic d = true;
  to_plain : usual_where x ->
    (md_generic d = true <-> chooses x \/ takes_self (snd x) = false /\ generic_source src)
}.

(** ** Tests *)

Definition writes (src : source) (who : option nat) (self : bool) (f : ident) : Prop :=
  exists x, In x (written src who) /\ same_name (sg_ident (snd x)) f = true /\ takes_self (snd x) = self.

Definition declared_op {V U} (src : source) (o : uop V U) : Prop :=
  match o with
  | UExpect _ who f _ _ | UCall _ who f _ _ _ => writes src who true f
  | UCtxExpect who f _ _ | UStaticCall who f _ _ | UCtxCheckpoint who f | UCtxDrop who f =>
      writes src who false f
  | _ => True
  end.

(** The operation in Mock.v, where the functions are at these places. *)
Definition place_op {V U} (sd : sdecl V) (obj stat : option nat -> ident -> nat) (o : uop V U) : op V U :=
  match o with
  | UNew => ONew sd
  | UExpect i who f k l => OExpect i (obj who f) k l
  | UCall i who f k args wr => OCall i (obj who f) k args wr
  | UCheckpoint i => OCheckpoint i
  | UDrop i => ODrop i
  | UCtxExpect who f k l => OCtxExpect (stat who f) k l
  | UStaticCall who f k args => OStaticCall (stat who f) k args
  | UCtxCheckpoint who f => OCtxCheckpoint (stat who f)
  | UCtxDrop who f => OCtxDrop (stat who f)
  | UThread t => OThread t
  | UUnwinding b => OUnwinding b
  | UUser f => OUser f
  end.

(** ** What the parser and rustc guarantee *)

(** Parameters are in brackets. *)
Definition bracketed_source (src : source) : Prop :=
  bracketed (source_generics src)
  /\ forall who x, In x (written src who) -> bracketed (sg_generics (snd x)).

(** Implementations of one trait have the same functions. *)
Definition agreeing (src : source) : Prop :=
  match src with
  | SMock d => forall x y b b' p, In x (md_impls d) -> In y (md_impls d) ->
      im_trait x = Some (b, p) -> im_trait y = Some (b', p) -> methods_of x = methods_of y
  | _ => True
  end.

(** The functions of a block have different names, as rustc requires, and no method is called
    like the marker of a parameter, [_t0], [_t1] and so on. *)
Definition clear_source (src : source) : Prop :=
  (forall who, NoDup (map (fun x => unraw_name (sg_ident (snd x))) (written src who)))
  /\ forall who x n, In x (written src who) -> takes_self (snd x) = true ->
       params (source_generics src) <> [] -> sg_ident (snd x) <> ("_t" ++ show_N n)%string.
