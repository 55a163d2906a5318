(** * ModRunSpec: what the user of a mocked module wrote, and what a test of it means *)

From Coq Require Import List Bool String NArith Arith.
From Verif Require Import Base Times Expect Mock.
From Verif Require Import Ast AstSpec TyEq Rewrite Derive DeriveSpec Names CallSpec Sig SigSpec MockFn MockFnSpec
  Item MockItem ItemSpec GenSpec GenRun GenRunSpec ModRun PipeSpec ModSpec.
Import ListNotations.
Open Scope string_scope.
Open Scope list_scope.

(** The functions of a module, also the foreign ones. *)
Definition module_fns (items : list item) : list fn_item :=
  flat_map (fun i => match i with
                     | ItFn x _ => [x]
                     | ItForeign _ l => flat_map (fun y => match y with FiFn x _ => [x] | FiOther _ => [] end) l
                     | _ => []
                     end) items.

(** Generic parameters are in angle brackets. *)
Definition parsed_fns (items : list item) : Prop :=
  forall x, In x (module_fns items) -> bracketed (sg_generics (fi_sig x)).

(** No two functions have the same name. *)
Definition distinct_fns (items : list item) : Prop :=
  NoDup (map (fun x => unraw_name (fn_name x)) (module_fns items)).

(** Messages about the number of calls name the function only, those about calls
    that match no expectation also the module. *)
Record described_fn {V} (n : ident) (te : types V) (x : fn_item) (d : mdecl V) : Prop := DescribedFn {
  df_name : me_name (md_me d) = fn_name x;
  df_desc : me_desc (md_me d) = ("mock_" ++ unraw_name n ++ "::" ++ fn_name x)%string;
  df_default : me_default (md_me d) = fst (te ["__" ++ unraw_name (fn_name x)]%string);
  df_debug : me_debug (md_me d) = snd (te ["__" ++ unraw_name (fn_name x)]%string);
  df_static : md_static d = true;
  df_ref : md_kind d = Expect.KRef <-> exists t, sg_output (fi_sig x) = Some t /\ borrows false t;
  df_mut : md_kind d = Expect.KMut <-> exists t, sg_output (fi_sig x) = Some t /\ borrows true t;
  df_generic : md_generic d = true <-> separated x
}.

(** ** Tests *)

Definition declares_fn (items : list item) (f : ident) : Prop :=
  exists x, In x (module_fns items) /\ same_name (fn_name x) f = true.

Definition named_fn {V U} (items : list item) (o : mop V U) : Prop :=
  match o with
  | MExpect f _ _ | MCall f _ _ | MCtxCheckpoint f | MCtxDrop f => declares_fn items f
  | _ => True
  end.

(** The position of a function. *)
Fixpoint place (f : ident) (l : list fn_item) : nat :=
  match l with
  | [] => 0
  | x :: r => if same_name (fn_name x) f then 0 else S (place f r)
  end.

Definition to_mod_op {V U} (items : list item) (o : mop V U) : op V U :=
  match o with
  | MExpect f k l => OCtxExpect (place f (module_fns items)) k l
  | MCall f k args => OStaticCall (place f (module_fns items)) k args
  | MCtxCheckpoint f => OCtxCheckpoint (place f (module_fns items))
  | MCtxDrop f => OCtxDrop (place f (module_fns items))
  | MCheckpoint => OModCheckpoint
  | MThread t => OThread t
  | MUnwinding b => OUnwinding b
  | MUser f => OUser f
  end.

(** ** What rustc checks *)

(** The functions of the mock module have different names. *)
Definition distinct_items (g : gen_module) : Prop :=
  NoDup (map (fun c => unraw_name (sg_ident (gc_sig c))) (body_calls g)
         ++ map gx_name (body_contexts g) ++ ["checkpoint"]).

(** No function is called like a generated one. *)
Definition clear_fns (items : list item) : Prop :=
  forall x, In x (module_fns items) ->
    unraw_name (fn_name x) <> "checkpoint"
    /\ forall y, In y (module_fns items) ->
         unraw_name (fn_name x) <> (unraw_name (fn_name y) ++ "_context")%string.
