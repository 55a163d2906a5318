(** * GenRun: running the generated code

    An interpreter of the records of MockItem.v: which fields an object has,
    which of them a function reads or writes, and which private module's code
    runs are all found by the names in the generated code, as rustc does.  What
    the code of a private module does is that of Expect.v and Mock.v.  [None]
    means that the generated code does not compile: a name is not there, or has
    another type.

    Left out: attributes (a [cfg] is taken to be true), borrow checking, and the
    choice between several implementations of one trait and between methods of
    one name, which the types decide; operations say which block they mean. *)

From Coq Require Import List Bool String NArith Arith.
From Verif Require Import Base Times Expect Mock.
From Verif Require Import Ast Rewrite Derive Names Sig MockFn Item MockItem.
Import ListNotations.
Open Scope string_scope.
Open Scope list_scope.

(** ** Names *)

(** rustc's lookup of a name; the definitions are those of mock_item_struct.rs
    325-363. *)
Fixpoint find_by {A} (name : A -> ident) (i : ident) (l : list A) : option A :=
  match l with
  | [] => None
  | x :: r => if name x =? i then Some x else find_by name i r
  end.

(** rustc's lookup of a field; the fields are those of mock_item_struct.rs 335-338.
    *)
Fixpoint look {A} (i : ident) (l : list (ident * A)) : option A :=
  match l with
  | [] => None
  | (j, a) :: r => if j =? i then Some a else look i r
  end.
(** Assignment to a field of mock_item_struct.rs 335-338. *)
Fixpoint put {A} (i : ident) (a : A) (l : list (ident * A)) : list (ident * A) :=
  match l with
  | [] => []
  | (j, b) :: r => if j =? i then (j, a) :: r else (j, b) :: put i a r
  end.

(** Comparison of paths, such as those of mock_function.rs 801-813. *)
Definition path_eq (x y : list ident) : bool := if list_eq_dec string_dec x y then true else false.

(** A private module, seen from the module with the mock: those of the methods in
    [mod __mock_Foo] (mock_item_struct.rs 325-330), those of a trait's methods in
    [mod __mock_Foo_Trait] (mock_item_struct.rs 420-425). *)
Definition find_mod (g : gen_mock) (p : list ident) : option gen_privmod :=
  match p with
  | [a; b] =>
      if gm_modname g =? a then find_by gp_name b (gm_privmods g)
      else match find_by gs_modname a (gm_substructs g) with
           | Some ss => find_by gp_name b (gs_privmods ss)
           | None => None
           end
  | _ => None
  end.

Section GenRun.
Context {V U : Type}.

(** What the types of a private module are to its code: the value of
    [Default::default()] of the output, if there is one, and the text that [Debug]
    makes of an argument.  [DefaultReturner] (lib.rs 1443-1475) and [ArgPrinter]
    (1477-1510). *)
Definition types : Type := list ident -> option V * (V -> string).

(** The kind of expectations: mock_function.rs 848-870. *)
Definition gkind (k : expectation_kind) : Expect.kind :=
  match k with
  | MockFn.KStatic => Expect.KStatic
  | MockFn.KRef => Expect.KRef
  | MockFn.KRefMut => Expect.KMut
  end.

(** The code of a private module: mock_function.rs 824-890. *)
Definition mod_decl (te : types) (m : list ident) (p : gen_privmod) (generic : bool) : mdecl V :=
  MDecl (Method (gp_funcname p) (gp_desc p) (fst (te m)) (snd (te m)))
        (gkind (gp_kind p)) generic
        match gp_context p with Some _ => true | None => false end.

(** ** Objects *)

(** The value of a field: the expectations of the module [m], or [PhantomData].
    mock_function.rs 746-763, mock_item_struct.rs 30-61. *)
Inductive gval : Type :=
| GvStore (m : list ident) (s : slot V U)
| GvPhantom.

(** A field of the mock: a value, or a structure of the name with fields.
    mock_item_struct.rs 335-338, 430-433. *)
Inductive oval : Type :=
| OvField (v : gval)
| OvSub (name : ident) (l : list (ident * gval)).

(** mock_item_struct.rs 335-338. *)
Definition gobj : Type := list (ident * oval).

(** The default value of a type (mock_function.rs 1223-1225, 2478-2480).
    [GenericExpectations] is only there if the module has the generic part. *)
Definition new_val (g : gen_mock) (t : field_ty) : option gval :=
  match t with
  | FtExpectations m generic _ =>
      match find_mod g m with
      | Some p =>
          if generic
          then match gp_generic p with
               | Some _ => Some (GvStore m (SGeneric []))
               | None => None
               end
          else Some (GvStore m (SPlain []))
      | None => None
      end
  | FtSub _ _ => None
  | FtPhantomLifetime _ | FtPhantomType _ => Some GvPhantom
  end.

(** A structure expression: every field has an initialiser and every initialiser a
    field.  mock_item_struct.rs 340-347, 434-441. *)
Definition initialised (inits : list (list attribute * ident)) (f : gen_field) : bool :=
  existsb (fun i => snd i =? gf_name f) inits.
(** The converse: mock_item_struct.rs 340-347, 434-441. *)
Definition known (fields : list gen_field) (i : list attribute * ident) : bool :=
  existsb (fun f => gf_name f =? snd i) fields.

(** [Self { #(#default_inits),* }]: mock_item_struct.rs 343-345, 437-439. *)
Definition new_fields {A} (val : field_ty -> option A) (fields : list gen_field)
  (inits : list (list attribute * ident)) : option (list (ident * A)) :=
  if forallb (initialised inits) fields && forallb (known fields) inits
  then all_some (fun f => option_map (pair (gf_name f)) (val (gf_ty f))) fields
  else None.

(** [Default for] a trait's structure: mock_item_struct.rs 434-441. *)
Definition new_sub (g : gen_mock) (ss : gen_substruct) : option (list (ident * gval)) :=
  new_fields (new_val g) (gs_fields ss) (gs_inits ss).

(** [Default for] the mock: mock_item_struct.rs 340-347; [new] is the same
    (167-184). *)
Definition new_oval (g : gen_mock) (t : field_ty) : option oval :=
  match t with
  | FtSub n _ =>
      match find_by gs_name n (gm_substructs g) with
      | Some ss => option_map (OvSub n) (new_sub g ss)
      | None => None
      end
  | t => option_map OvField (new_val g t)
  end.
(** [Default for] the mock: mock_item_struct.rs 340-347. *)
Definition new_obj (g : gen_mock) : option gobj :=
  new_fields (new_oval g) (gm_fields g) (gm_inits g).

(** [self.name] and [self.field.name] (mock_function.rs 520-525). *)
Definition get_store (o : gobj) (s : store) : option (list ident * slot V U) :=
  match s with
  | OwnField n =>
      match look n o with
      | Some (OvField (GvStore m x)) => Some (m, x)
      | _ => None
      end
  | SubField f n =>
      match look f o with
      | Some (OvSub _ l) =>
          match look n l with
          | Some (GvStore m x) => Some (m, x)
          | _ => None
          end
      | _ => None
      end
  | StaticIn _ => None
  end.

(** Writing [self.name] or [self.field.name]: mock_function.rs 520-525, 690-695. *)
Definition put_store (o : gobj) (s : store) (m : list ident) (x : slot V U) : gobj :=
  match s with
  | OwnField n => put n (OvField (GvStore m x)) o
  | SubField f n =>
      match look f o with
      | Some (OvSub name l) => put f (OvSub name (put n (GvStore m x) l)) o
      | _ => o
      end
  | StaticIn _ => o
  end.

(** ** Checkpoints *)

(** Statements one after the other, up to the first that panics.  The statements of
    mock_item_struct.rs 356-359, 446-448. *)
Fixpoint statements {A B} (f : A -> B -> option (B * res unit)) (l : list A) (b : B)
  : option (B * res unit) :=
  match l with
  | [] => Some (b, Ret tt)
  | a :: r =>
      match f a b with
      | Some (b', Ret _) => statements f r b'
      | x => x
      end
  end.

(** [checkpoint] of the expectations of one method: mock_function.rs 596-599. *)
Definition gval_checkpoint (g : gen_mock) (te : types) (c : cfg) (sh : shuffle V U) (p : bool)
  (v : gval) : option (gval * res unit) :=
  match v with
  | GvStore m s =>
      match find_mod g m with
      | Some q =>
          let (s', r) := slot_checkpoint c (mod_decl te m q false) sh s p in
          Some (GvStore m s', r)
      | None => None
      end
  | GvPhantom => None
  end.

(** [checkpoint] of a trait's structure: mock_item_struct.rs 442-449. *)
Definition sub_statement (g : gen_mock) (te : types) (c : cfg) (sh : shuffle V U) (p : bool)
  (a : list attribute * store) (l : list (ident * gval)) : option (list (ident * gval) * res unit) :=
  match snd a with
  | OwnField n =>
      match look n l with
      | Some v =>
          match gval_checkpoint g te c sh p v with
          | Some (v', r) => Some (put n v' l, r)
          | None => None
          end
      | None => None
      end
  | _ => None
  end.

(** [checkpoint] of the mock: mock_item_struct.rs 356-359. *)
Definition statement (g : gen_mock) (te : types) (c : cfg) (sh : shuffle V U) (p : bool)
  (a : check) (o : gobj) : option (gobj * res unit) :=
  match a with
  | CheckStore _ (OwnField n) =>
      match look n o with
      | Some (OvField v) =>
          match gval_checkpoint g te c sh p v with
          | Some (v', r) => Some (put n (OvField v') o, r)
          | None => None
          end
      | _ => None
      end
  | CheckStore _ _ => None
  | CheckSub _ f =>
      match look f o with
      | Some (OvSub n l) =>
          match find_by gs_name n (gm_substructs g) with
          | Some ss =>
              match statements (sub_statement g te c sh p) (gs_checkpoint ss) l with
              | Some (l', r) => Some (put f (OvSub n l') o, r)
              | None => None
              end
          | None => None
          end
      | _ => None
      end
  end.

(** [checkpoint] of the mock: mock_item_struct.rs 356-359. *)
Definition obj_checkpoint (g : gen_mock) (te : types) (c : cfg) (sh : shuffle V U) (p : bool)
  (o : gobj) : option (gobj * res unit) :=
  statements (statement g te c sh p) (gm_checkpoint g) o.

(** ** Drop *)

(** Drop glue: all fields in the order of their declaration; after a panic the rest
    is dropped while unwinding, where a second panic aborts.  The structures are
    those of mock_item_struct.rs 335-338, 430-433. *)
Fixpoint glue {A} (f : A -> bool -> option (res unit)) (l : list A) (p : bool) : option (res unit) :=
  match l with
  | [] => Some (Ret tt)
  | a :: r =>
      match f a p with
      | Some (Ret _) => glue f r p
      | Some Abort => Some Abort
      | Some (Panic m) =>
          match glue f r true with
          | Some (Ret _) => Some (Panic m)
          | Some _ => Some Abort
          | None => None
          end
      | None => None
      end
  end.

(** A field of mock_item_struct.rs 335-338, 430-433 dies. *)
Definition gval_drop (g : gen_mock) (te : types) (c : cfg) (sh : shuffle V U) (x : ident * gval)
  (p : bool) : option (res unit) :=
  match snd x with
  | GvStore m s =>
      match find_mod g m with
      | Some q => Some (slot_drop c (mod_decl te m q false) sh s p)
      | None => None
      end
  | GvPhantom => Some (Ret tt)
  end.

(** A field of mock_item_struct.rs 335-338 dies. *)
Definition oval_drop (g : gen_mock) (te : types) (c : cfg) (sh : shuffle V U) (x : ident * oval)
  (p : bool) : option (res unit) :=
  match snd x with
  | OvField v => gval_drop g te c sh (fst x, v) p
  | OvSub _ l => glue (gval_drop g te c sh) l p
  end.

(** The mock of mock_item_struct.rs 335-338 dies. *)
Definition obj_drop (g : gen_mock) (te : types) (c : cfg) (sh : shuffle V U) (o : gobj) (p : bool)
  : option (res unit) :=
  glue (oval_drop g te c sh) o p.

(** ** Functions *)

(** The blocks with functions: the one of the mock itself, and those of the
    implementations of traits, by their number.  mock_item_struct.rs 349-362,
    mock_trait.rs 157-173. *)
Definition calls_in (g : gen_mock) (who : option nat) : list gen_call :=
  match who with
  | None => gm_calls g
  | Some i => match nth_error (gm_trait_impls g) i with Some t => gt_calls t | None => [] end
  end.
(** [#(#expects)*]: mock_item_struct.rs 353, mock_trait.rs 170-173. *)
Definition expects_in (g : gen_mock) (who : option nat) : list gen_expect :=
  match who with
  | None => gm_expects g
  | Some i => match nth_error (gm_trait_impls g) i with Some t => gt_expects t | None => [] end
  end.
(** [#(#contexts)*]: mock_item_struct.rs 352, mock_trait.rs 170-173. *)
Definition contexts_in (g : gen_mock) (who : option nat) : list gen_context :=
  match who with
  | None => gm_contexts g
  | Some i => match nth_error (gm_trait_impls g) i with Some t => gt_contexts t | None => [] end
  end.

(** [call] or [call_mut], whichever the module has (mock_function.rs 2349, 2387, 2426). *)
Definition call_exists (c : gen_call) (p : gen_privmod) : bool :=
  Bool.eqb (gc_mut c) match gp_kind p with KRefMut => true | _ => false end.

(** The message of a call without a matching expectation: mock_function.rs
    487-488, 560, 571-573. *)
Definition no_match (te : types) (m : list ident) (c : gen_call) (args : list V) : pmsg :=
  MNoMatch (call_desc (Method "" (gc_desc c) None (snd (te m))) args).

(** mock_function.rs 549-560: see [static_call] of Mock.v. *)
Definition gstatic_call (c : cfg) (md : mdecl V) (none : pmsg) (sm : smutex V U) (k : key)
  (args : list V) (w : world U) : smutex V U * world U * res V :=
  if sm_poison sm then (sm, w, Panic MPoison)
  else
    let '(s', w', r) := slot_call c md (sm_slot sm) k args (fun v => v) w in
    match r with
    | Panic m => (SMutex (negb (w_panicking w)) s', w', Panic m)
    | Abort => (SMutex false s', w', Abort)
    | Ret (Some v) => (SMutex false s', w', Ret v)
    | Ret None => (SMutex false s', w', Panic none)
    end.

(** ** Tests *)

(** The static expectations of each module with a [Context] (mock_function.rs
    1414-1439, 1503-1508). *)
Definition gstats : Type := list (list ident * smutex V U).

(** rustc's lookup of the static of mock_function.rs 1434-1439, 1505-1508. *)
Fixpoint get_stat (p : list ident) (l : gstats) : option (smutex V U) :=
  match l with
  | [] => None
  | (q, x) :: r => if path_eq q p then Some x else get_stat p r
  end.
(** A change of that static: mock_function.rs 1434-1439, 1505-1508. *)
Fixpoint put_stat (p : list ident) (x : smutex V U) (l : gstats) : gstats :=
  match l with
  | [] => []
  | (q, y) :: r => if path_eq q p then (q, x) :: r else (q, y) :: put_stat p x r
  end.

(** The static of a private module, if it has a [Context]: mock_function.rs
    1414-1439, 1503-1508. *)
Definition mod_stat (m : ident) (p : gen_privmod) : list (option (list ident * smutex V U)) :=
  match gp_context p with
  | None => []
  | Some _ =>
      [if gp_generic_guard p
       then match gp_generic p with
            | Some _ => Some ([m; gp_name p], SMutex false (SGeneric []))
            | None => None
            end
       else Some ([m; gp_name p], SMutex false (SPlain []))]
  end.

(** The statics before the test: mock_function.rs 1434-1439, 1505-1508. *)
Definition new_stats (g : gen_mock) : option gstats :=
  all_some (fun x => x)
    (flat_map (fun ss => flat_map (mod_stat (gs_modname ss)) (gs_privmods ss)) (gm_substructs g)
     ++ flat_map (mod_stat (gm_modname g)) (gm_privmods g)).

(** As [sys] in Mock.v; the objects are those of mock_item_struct.rs 335-338. *)
Record gsys : Type := GSys {
  gy_world : world U;
  gy_seqs : seqtab;
  gy_objs : list (option gobj);   (* [None]: dropped *)
  gy_stats : gstats
}.

(** A test of one mock. Methods are called by the names that the user gave them; the
    number of an operation is that of the object, and [who] says for which block of
    the input the function was declared. [k] are the types of a generic function's
    type parameters.  As [op] in Mock.v: mock_function.rs 474-706, 1604-1648,
    mock_item_struct.rs 340-361. *)
Inductive uop : Type :=
| UNew                                                                    (* MockX::new() *)
| UExpect (o : nat) (who : option nat) (f : ident) (k : key) (l : list (setter V U))
                                                                          (* mock.expect_f()... *)
| UCall (o : nat) (who : option nat) (f : ident) (k : key) (args : list V) (wr : V -> V)
                                                                          (* mock.f(args) *)
| UCheckpoint (o : nat)                                                   (* mock.checkpoint() *)
| UDrop (o : nat)                                                         (* drop(mock) *)
| UCtxExpect (who : option nat) (f : ident) (k : key) (l : list (setter V U))
                                                                          (* f_context().expect()... *)
| UStaticCall (who : option nat) (f : ident) (k : key) (args : list V)    (* MockX::f(args) *)
| UCtxCheckpoint (who : option nat) (f : ident)                           (* ctx.checkpoint() *)
| UCtxDrop (who : option nat) (f : ident)                                 (* drop(ctx) *)
| UThread (t : nat)
| UUnwinding (b : bool)
| UUser (f : U -> U).

(** Update of a component; see [set_world] of Mock.v (mock_function.rs 474-578). *)
Definition gset_world (y : gsys) (w : world U) : gsys :=
  GSys w (gy_seqs y) (gy_objs y) (gy_stats y).
(** Update of a component; the objects of mock_item_struct.rs 335-338. *)
Definition gset_objs (y : gsys) (l : list (option gobj)) : gsys :=
  GSys (gy_world y) (gy_seqs y) l (gy_stats y).
(** Update of a component; the statics of mock_function.rs 1434-1439, 1505-1508. *)
Definition gset_stats (y : gsys) (l : gstats) : gsys :=
  GSys (gy_world y) (gy_seqs y) (gy_objs y) l.

(** [GenericExpectations] or not: mock_function.rs 737-744. *)
Definition generic_slot (s : slot V U) : bool :=
  match s with SGeneric _ => true | SPlain _ => false end.

(** The context of a function: the function that makes it, then its module.
    mock_function.rs 609-630, 1549-1652. *)
Definition context_at (g : gen_mock) (te : types) (y : gsys) (who : option nat) (f : ident)
  : option (list ident * mdecl V * smutex V U) :=
  match find_by gx_name (context_ident f) (contexts_in g who) with
  | Some x =>
      match find_mod g (gx_mod x), get_stat (gx_mod x) (gy_stats y) with
      | Some p, Some sm => Some (gx_mod x, mod_decl te (gx_mod x) p (generic_slot (sm_slot sm)), sm)
      | _, _ => None
      end
  | None => None
  end.

(** One operation: the generated functions of mock_function.rs 474-706, 1604-1648,
    mock_item_struct.rs 340-361. *)
Definition gstep (g : gen_mock) (te : types) (c : cfg) (sh : shuffle V U) (y : gsys) (o : uop)
  : option (gsys * res (option V)) :=
  let w := gy_world y in
  match o with
  | UNew =>
      match new_obj g with
      | Some ob => Some (gset_objs y (gy_objs y ++ [Some ob]), Ret None)
      | None => None
      end
  | UExpect i who f k l =>
      (* mock_function.rs 655-706 *)
      match find_by ge_name (expect_ident f) (expects_in g who) with
      | None => None
      | Some e =>
          match nth_error (gy_objs y) i with
          | Some (Some ob) =>
              match get_store ob (ge_store e) with
              | None => None
              | Some (m, s) =>
                  match find_mod g m with
                  | None => None
                  | Some p =>
                      if path_eq (ge_mod e) m
                      then
                        let '(s', t', r) :=
                          slot_expect c (mod_decl te m p (generic_slot s)) s k (w_thread w) l
                            (gy_seqs y) in
                        Some (GSys w t'
                                (set_nth (gy_objs y) i (Some (put_store ob (ge_store e) m s')))
                                (gy_stats y), unit_res r)
                      else None
                  end
              end
          | _ => Some (y, Ret None)
          end
      end
  | UCall i who f k args wr =>
      (* mock_function.rs 564-576 *)
      match find_by (fun x => unraw (sg_ident (gc_sig x))) (unraw f) (calls_in g who) with
      | None => None
      | Some x =>
          match gc_store x with
          | StaticIn _ => None
          | st =>
              match nth_error (gy_objs y) i with
              | Some (Some ob) =>
                  match get_store ob st with
                  | None => None
                  | Some (m, s) =>
                      match find_mod g m with
                      | None => None
                      | Some p =>
                          if call_exists x p
                          then
                            let '(s', w', r) :=
                              slot_call c (mod_decl te m p (generic_slot s)) s k args wr w in
                            Some (GSys w' (gy_seqs y)
                                    (set_nth (gy_objs y) i (Some (put_store ob st m s')))
                                    (gy_stats y),
                                  let? o := r in
                                  match o with
                                  | Some v => Ret (Some v)
                                  | None => Panic (no_match te m x args)
                                  end)
                          else None
                      end
                  end
              | _ => Some (y, Ret None)
              end
          end
      end
  | UCheckpoint i =>
      match nth_error (gy_objs y) i with
      | Some (Some ob) =>
          match obj_checkpoint g te c sh (w_panicking w) ob with
          | Some (ob', r) => Some (gset_objs y (set_nth (gy_objs y) i (Some ob')), unit_res r)
          | None => None
          end
      | _ => Some (y, Ret None)
      end
  | UDrop i =>
      match nth_error (gy_objs y) i with
      | Some (Some ob) =>
          match obj_drop g te c sh ob (w_panicking w) with
          | Some r => Some (gset_objs y (set_nth (gy_objs y) i None), unit_res r)
          | None => None
          end
      | _ => Some (y, Ret None)
      end
  | UCtxExpect who f k l =>
      match context_at g te y who f with
      | Some (m, md, sm) =>
          let '(sm', t', r) := context_expect c md sm k l (gy_seqs y) w in
          Some (GSys w t' (gy_objs y) (put_stat m sm' (gy_stats y)), unit_res r)
      | None => None
      end
  | UStaticCall who f k args =>
      match find_by (fun x => unraw (sg_ident (gc_sig x))) (unraw f) (calls_in g who) with
      | None => None
      | Some x =>
          match gc_store x with
          | StaticIn m =>
              match find_mod g m, get_stat m (gy_stats y) with
              | Some p, Some sm =>
                  if call_exists x p
                  then
                    let '(sm', w', r) :=
                      gstatic_call c (mod_decl te m p (generic_slot (sm_slot sm)))
                        (no_match te m x args) sm k args w in
                    Some (GSys w' (gy_seqs y) (gy_objs y) (put_stat m sm' (gy_stats y)),
                          let? v := r in Ret (Some v))
                  else None
              | _, _ => None
              end
          | _ => None
          end
      end
  | UCtxCheckpoint who f =>
      match context_at g te y who f with
      | Some (m, md, sm) =>
          let (sm', r) := static_checkpoint c md sh sm (w_panicking w) in
          Some (gset_stats y (put_stat m sm' (gy_stats y)), unit_res r)
      | None => None
      end
  | UCtxDrop who f =>
      match context_at g te y who f with
      | Some (m, md, sm) =>
          let (sm', r) := context_drop c md sh sm (w_panicking w) in
          Some (gset_stats y (put_stat m sm' (gy_stats y)), unit_res r)
      | None => None
      end
  | UThread t => Some (gset_world y (World (w_user w) (w_levels w) t (w_panicking w)), Ret None)
  | UUnwinding b => Some (gset_world y (World (w_user w) (w_levels w) (w_thread w) b), Ret None)
  | UUser f => Some (gset_world y (set_user w (f (w_user w))), Ret None)
  end.

(** A test that catches every panic.  Consecutive operations; see [gstep]
    (mock_function.rs 474-706, 1604-1648). *)
Fixpoint grun (g : gen_mock) (te : types) (c : cfg) (sh : shuffle V U) (y : gsys) (l : list uop)
  : option (gsys * list (res (option V))) :=
  match l with
  | [] => Some (y, [])
  | o :: l' =>
      match gstep g te c sh y o with
      | Some (y1, r) =>
          match grun g te c sh y1 l' with
          | Some (y2, rs) => Some (y2, r :: rs)
          | None => None
          end
      | None => None
      end
  end.

(** The state before the test: the statics of mock_function.rs 1434-1439, 1505-1508.
    *)
Definition ginit (g : gen_mock) (u : U) : option gsys :=
  match new_stats g with
  | Some l => Some (GSys (World u (fun _ => 0%N) 0 false) sequence_new [] l)
  | None => None
  end.

End GenRun.

Arguments types : clear implicits.
Arguments gval : clear implicits.
Arguments oval : clear implicits.
Arguments gobj : clear implicits.
Arguments gstats : clear implicits.
Arguments gsys : clear implicits.
Arguments uop : clear implicits.
