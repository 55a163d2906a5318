(** * Sig: the signatures of mocked methods

    mockall_derive/src/automock.rs 44-61 and 217-250,
    mockall_derive/src/mockable_struct.rs 25-255. *)

From Coq Require Import List Bool String NArith Arith.
From Verif Require Import Ast TyEq Rewrite Derive Subst.
Import ListNotations.
Open Scope string_scope.
Open Scope list_scope.

(** [syn::Signature]: name, generics, arguments, return type ([None] is
    [ReturnType::Default]) and ABI ([Some None] is [extern] without a name). Its
    other parts ([const], [async], [unsafe], variadic) are only copied by the macros
    and left out.  Read at mock_function.rs 199-343 and mockable_struct.rs 158-188.
    *)
Record signature : Type := Signature {
  sg_ident : ident;
  sg_generics : generics;
  sg_inputs : list fnarg;
  sg_output : option ty;
  sg_abi : option (option string)
}.

(** Update of [Signature::inputs]: mockable_struct.rs 160-161. *)
Definition with_inputs (s : signature) (l : list fnarg) : signature :=
  Signature (sg_ident s) (sg_generics s) l (sg_output s) (sg_abi s).
(** Update of [Signature::generics]: mockable_struct.rs 164. *)
Definition with_generics (s : signature) (g : generics) : signature :=
  Signature (sg_ident s) g (sg_inputs s) (sg_output s) (sg_abi s).
(** Update of [Signature::output]: mockable_struct.rs 163-168. *)
Definition with_output (s : signature) (o : option ty) : signature :=
  Signature (sg_ident s) (sg_generics s) (sg_inputs s) o (sg_abi s).

(** ** Associated types in a signature: automock.rs 44-61 (of an impl) and 233-243 (of a trait) *)

(** automock.rs 51-55, 235-239. *)
Definition substitute_arg (a : assoc_types) (tr : ident) (x : fnarg) : fnarg :=
  match x with
  | FaTyped p t => FaTyped p (substitute_type a tr t)
  | x => x
  end.

(** automock.rs 50-58, 234-242. *)
Definition substitute_sig (a : assoc_types) (tr : ident) (s : signature) : signature :=
  with_output (with_inputs s (map (substitute_arg a tr) (sg_inputs s)))
              (option_map (substitute_type a tr) (sg_output s)).

(** The errors of these: automock.rs 50-58, 234-242. *)
Definition substitute_sig_error (a : assoc_types) (tr : ident) (s : signature) : bool :=
  existsb (fun x => match x with
                    | FaTyped _ t => substitute_error a tr t
                    | FaReceiver _ _ _ _ => false
                    end) (sg_inputs s)
  || match sg_output s with Some t => substitute_error a tr t | None => false end.

(** ** add_lifetime_parameters: mockable_struct.rs 25-112 *)

(** The name of the argument in the lifetime: mockable_struct.rs 34-57. *)
Definition arg_ident (p : pat) : ident :=
  match p with
  | PatIdent _ _ i _ => i
  | _ => "dont_care"
  end.

(** mockable_struct.rs 57-59. *)
Definition arg_lifetime (p : pat) : lifetime := "__mockall_" ++ arg_ident p.

(** mockable_struct.rs 28-32. *)
Definition is_lifetime_bound (b : bound) : bool :=
  match b with BLifetime _ => true | _ => false end.

(** [add_to_trait_object]: mockable_struct.rs 26-66.  The second component of
    the results is the lifetimes pushed to the generics. *)
Definition add_to_trait_object (p : pat) (l : list bound) : list bound * list lifetime :=
  if existsb is_lifetime_bound l then (l, [])
  else (l ++ [BLifetime (arg_lifetime p)], [arg_lifetime p]).

(** [add_to_type]: mockable_struct.rs 68-105. *)
Fixpoint add_to_type (p : pat) (t : ty) : ty * list lifetime :=
  match t with
  | TArray e n => let '(e, l) := add_to_type p e in (TArray e n, l)
  | TRef r m e =>
      match e with
      | TParen (TDyn d b) =>
          let '(b, l) := add_to_trait_object p b in (TRef r m (TParen (TDyn d b)), l)
      | TDyn d b =>
          let '(b, l) := add_to_trait_object p b in (TRef r m (TParen (TDyn d b)), l)
      | _ => let '(e, l) := add_to_type p e in (TRef r m e, l)
      end
  | TSlice e => let '(e, l) := add_to_type p e in (TSlice e, l)
  | TTuple es =>
      (TTuple (map (fun e => fst (add_to_type p e)) es),
       flat_map (fun e => snd (add_to_type p e)) es)
  | t => (t, [])
  end.

(** [Lifetime::new] (line 58) panics for a name with [r#]. *)
Definition raw_pat (p : pat) : bool :=
  match p with PatIdent _ _ i _ => prefix "r#" i | _ => false end.

(** The errors of [add_to_type]: mockable_struct.rs 34-59, 103. *)
Fixpoint add_to_type_error (p : pat) (t : ty) : bool :=
  let object l := negb (existsb is_lifetime_bound l) && (demutify_pat_error p || raw_pat p) in
  match t with
  | TArray e _ | TSlice e => add_to_type_error p e
  | TBareFn _ _ _ _ | TImplTrait _ | TPath _ | TQPath _ _ _ | TPtr _ _ => false
  | TRef _ _ e =>
      match e with
      | TParen (TDyn _ b) | TDyn _ b => object b
      | _ => add_to_type_error p e
      end
  | TTuple es => existsb (add_to_type_error p) es
  | _ => true
  end.

(** One iteration of the loop: mockable_struct.rs 107-111. *)
Definition added_arg (x : fnarg) : fnarg :=
  match x with
  | FaTyped p t => FaTyped p (fst (add_to_type p t))
  | x => x
  end.

(** The parameters that it pushes: mockable_struct.rs 60-64. *)
Definition added_lifetimes (x : fnarg) : list lifetime :=
  match x with
  | FaTyped p t => snd (add_to_type p t)
  | FaReceiver _ _ _ _ => []
  end.

(** mockable_struct.rs 107-112; 60-64 for the generics. *)
Definition add_lifetime_parameters (s : signature) : signature :=
  let g := sg_generics s in
  let new := flat_map added_lifetimes (sg_inputs s) in
  with_generics (with_inputs s (map added_arg (sg_inputs s)))
    (Generics (lt_token g || match new with [] => false | _ => true end)
              (params g ++ map (fun l => GpLifetime l []) new)
              (where_clause g)).

(** Its errors: mockable_struct.rs 34-59, 103. *)
Definition add_lifetime_parameters_error (s : signature) : bool :=
  existsb (fun x => match x with
                    | FaTyped p t => add_to_type_error p t
                    | FaReceiver _ _ _ _ => false
                    end) (sg_inputs s).

(** [sanity_check_sig]: mockable_struct.rs 242-256. *)
Definition sanity_check_error (s : signature) : bool :=
  existsb (fun x => match x with
                    | FaTyped _ (TImplTrait _) => true
                    | _ => false
                    end) (sg_inputs s).

(** ** [mockable_method] (mockable_struct.rs 158-171) and
    [mockable_trait_method] (174-189), which are the same *)
Definition mockable_method (name : ident) (g : generics) (s : signature) : signature :=
  let s := with_inputs s (demutify (sg_inputs s)) in
  let s := with_inputs s (map (deselfify_arg name g) (sg_inputs s)) in
  let s := add_lifetime_parameters s in
  let s := with_output s (deimplify (sg_output s)) in
  let s := with_generics s (dewhereselfify (sg_generics s)) in
  with_output s (option_map (fun t => deanonymize (deselfify name g t)) (sg_output s)).

(** The errors of mockable_struct.rs 158-188. *)
Definition mockable_method_error (name : ident) (g : generics) (s : signature) : bool :=
  let pats := existsb (fun x => match x with
                                | FaTyped p _ => demutify_pat_error p
                                | FaReceiver _ _ _ _ => false
                                end) (sg_inputs s) in
  let s1 := with_inputs s (demutify (sg_inputs s)) in
  let selfs := existsb (fun x => match x with
                                 | FaTyped _ t | FaReceiver _ _ true t => deselfify_error g t
                                 | FaReceiver _ _ false _ => false
                                 end) (sg_inputs s1) in
  let s2 := with_inputs s1 (map (deselfify_arg name g) (sg_inputs s1)) in
  let out := match deimplify (sg_output s) with
             | Some t => deselfify_error g t || deanonymize_error (deselfify name g t)
             | None => false
             end in
  pats || selfs || add_lifetime_parameters_error s2 || out
  || sanity_check_error (mockable_method name g s).
