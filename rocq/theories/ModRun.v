(** * ModRun: running the mock of a module

    The interpreter of GenRun.v for the items of a mock module (mock_item.rs 165-213): functions, contexts, private modules and static expectations are
    found by their names.  [None] means that it does not compile.  Left out are
    attributes (a [cfg] is taken to be true) and the copied items. *)

From Coq Require Import List Bool String NArith Arith.
From Verif Require Import Base Times Expect Mock.
From Verif Require Import Ast Rewrite Derive Names Sig MockFn Item MockItem GenRun.
Import ListNotations.
Open Scope string_scope.
Open Scope list_scope.

(** ** Names *)

(** The items of a mock module, by what they are (mock_item.rs 173-188). *)
Definition body_mods (g : gen_module) : list gen_privmod :=
  flat_map (fun i => match i with GiPrivmod p => [p] | _ => [] end) (gd_body g).
(** [#call]: mock_item.rs 177, 182. *)
Definition body_calls (g : gen_module) : list gen_call :=
  flat_map (fun i => match i with GiCall c _ => [c] | _ => [] end) (gd_body g).
(** [#ctx_fn]: mock_item.rs 178, 183. *)
Definition body_contexts (g : gen_module) : list gen_context :=
  flat_map (fun i => match i with GiContext c => [c] | _ => [] end) (gd_body g).

(** A private module, seen from the mock module (mock_function.rs 801-813). *)
Definition mfind_mod (g : gen_module) (p : list ident) : option gen_privmod :=
  match p with
  | [a] => find_by gp_name a (body_mods g)
  | _ => None
  end.

Section ModRun.
Context {V U : Type}.

(** The static expectations of a private module (mock_function.rs 1414-1439,
    1503-1508). *)
Definition mmod_stat (p : gen_privmod) : list (option (list ident * smutex V U)) :=
  match gp_context p with
  | None => []
  | Some _ =>
      [if gp_generic_guard p
       then match gp_generic p with
            | Some _ => Some ([gp_name p], SMutex false (SGeneric []))
            | None => None
            end
       else Some ([gp_name p], SMutex false (SPlain []))]
  end.
(** The statics before the test: mock_function.rs 1434-1439, 1505-1508. *)
Definition mnew_stats (g : gen_module) : option (gstats V U) :=
  all_some (fun x => x) (flat_map mmod_stat (body_mods g)).

(** As [sys] in Mock.v; the statics of mock_function.rs 1434-1439, 1505-1508. *)
Record msys : Type := MSys {
  my_world : world U;
  my_seqs : seqtab;
  my_stats : gstats V U
}.

(** A test of a mock module; functions have the names that the user gave them, and
    [k] are the types of a generic function's type parameters.  mock_function.rs
    474-630, 1604-1648; mock_item.rs 190-194. *)
Inductive mop : Type :=
| MExpect (f : ident) (k : key) (l : list (setter V U))       (* f_context().expect()... *)
| MCall (f : ident) (k : key) (args : list V)                 (* mock_m::f(args) *)
| MCtxCheckpoint (f : ident)                                  (* ctx.checkpoint() *)
| MCtxDrop (f : ident)                                        (* drop(ctx) *)
| MCheckpoint                                                 (* mock_m::checkpoint() *)
| MThread (t : nat)
| MUnwinding (b : bool)
| MUser (f : U -> U).

(** The context of a function: the function that makes it, then its module.
    mock_function.rs 609-630, 1549-1652. *)
Definition mcontext_at (g : gen_module) (te : types V) (y : msys) (f : ident)
  : option (list ident * mdecl V * smutex V U) :=
  match find_by gx_name (context_ident f) (body_contexts g) with
  | Some x =>
      match mfind_mod g (gx_mod x), get_stat (gx_mod x) (my_stats y) with
      | Some p, Some sm => Some (gx_mod x, mod_decl te (gx_mod x) p (generic_slot (sm_slot sm)), sm)
      | _, _ => None
      end
  | None => None
  end.

(** A statement of [checkpoint()]: mock_item.rs 185, 190-194, mock_function.rs 586-595. *)
Definition mstatement (g : gen_module) (te : types V) (c : cfg) (sh : shuffle V U) (b : bool)
  (a : list attribute * store) (st : gstats V U) : option (gstats V U * res unit) :=
  match snd a with
  | StaticIn m =>
      match mfind_mod g m, get_stat m st with
      | Some p, Some sm =>
          let (sm', r) := static_checkpoint c (mod_decl te m p (generic_slot (sm_slot sm))) sh sm b in
          Some (put_stat m sm' st, r)
      | _, _ => None
      end
  | _ => None
  end.

(** One operation: the generated functions of mock_function.rs 474-630, 1604-1648
    and mock_item.rs 190-194. *)
Definition mstep (g : gen_module) (te : types V) (c : cfg) (sh : shuffle V U) (y : msys) (o : mop)
  : option (msys * res (option V)) :=
  let w := my_world y in
  match o with
  | MExpect f k l =>
      match mcontext_at g te y f with
      | Some (m, md, sm) =>
          let '(sm', t', r) := context_expect c md sm k l (my_seqs y) w in
          Some (MSys w t' (put_stat m sm' (my_stats y)), unit_res r)
      | None => None
      end
  | MCall f k args =>
      (* mock_function.rs 549-560 *)
      match find_by (fun x => unraw (sg_ident (gc_sig x))) (unraw f) (body_calls g) with
      | None => None
      | Some x =>
          match gc_store x with
          | StaticIn m =>
              match mfind_mod g m, get_stat m (my_stats y) with
              | Some p, Some sm =>
                  if call_exists x p
                  then
                    let '(sm', w', r) :=
                      gstatic_call c (mod_decl te m p (generic_slot (sm_slot sm)))
                        (no_match te m x args) sm k args w in
                    Some (MSys w' (my_seqs y) (put_stat m sm' (my_stats y)),
                          let? v := r in Ret (Some v))
                  else None
              | _, _ => None
              end
          | _ => None
          end
      end
  | MCtxCheckpoint f =>
      match mcontext_at g te y f with
      | Some (m, md, sm) =>
          let (sm', r) := static_checkpoint c md sh sm (w_panicking w) in
          Some (MSys w (my_seqs y) (put_stat m sm' (my_stats y)), unit_res r)
      | None => None
      end
  | MCtxDrop f =>
      match mcontext_at g te y f with
      | Some (m, md, sm) =>
          let (sm', r) := context_drop c md sh sm (w_panicking w) in
          Some (MSys w (my_seqs y) (put_stat m sm' (my_stats y)), unit_res r)
      | None => None
      end
  | MCheckpoint =>
      match statements (mstatement g te c sh (w_panicking w)) (gd_checkpoint g) (my_stats y) with
      | Some (st, r) => Some (MSys w (my_seqs y) st, unit_res r)
      | None => None
      end
  | MThread t => Some (MSys (World (w_user w) (w_levels w) t (w_panicking w)) (my_seqs y) (my_stats y), Ret None)
  | MUnwinding b =>
      Some (MSys (World (w_user w) (w_levels w) (w_thread w) b) (my_seqs y) (my_stats y), Ret None)
  | MUser f => Some (MSys (set_user w (f (w_user w))) (my_seqs y) (my_stats y), Ret None)
  end.

(** A test that catches every panic.  Consecutive operations; see [mstep]
    (mock_function.rs 474-630, 1604-1648). *)
Fixpoint mrun (g : gen_module) (te : types V) (c : cfg) (sh : shuffle V U) (y : msys) (l : list mop)
  : option (msys * list (res (option V))) :=
  match l with
  | [] => Some (y, [])
  | o :: l' =>
      match mstep g te c sh y o with
      | Some (y1, r) =>
          match mrun g te c sh y1 l' with
          | Some (y2, rs) => Some (y2, r :: rs)
          | None => None
          end
      | None => None
      end
  end.

(** The state before the test: the statics of mock_function.rs 1434-1439, 1505-1508.
    *)
Definition minit (g : gen_module) (u : U) : option msys :=
  match mnew_stats g with
  | Some l => Some (MSys (World u (fun _ => 0%N) 0 false) sequence_new l)
  | None => None
  end.

End ModRun.

Arguments msys : clear implicits.
Arguments mop : clear implicits.
