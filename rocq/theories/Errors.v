(** * Errors: what the macros refuse

    [compile_error] (lib.rs 44-60) panics on stable, so that nothing is
    generated; on nightly it records an error and the compilation fails after
    the macro.  Both are "refused" here.  The functions of Item.v, MockFn.v and
    MockItem.v say what is generated when nothing is refused; this file collects
    the errors of a whole macro call in the order of the calls. *)

From Coq Require Import List Bool String NArith.
From Verif Require Import Ast Rewrite Derive Sig MockFn Item MockItem.
Import ListNotations.
Open Scope string_scope.
Open Scope list_scope.

(** [supersuperfy_bounds] and [supersuperfy_generics]: lib.rs 988-1016. *)
Definition supersuperfy_bounds_error (l : list bound) : bool := existsb supersuperfy_bound_error l.

(** Of [supersuperfy_generics]: lib.rs 988-1005. *)
Definition supersuperfy_generics_error (g : generics) : bool :=
  existsb (fun p => match p with
                    | GpType _ b d => supersuperfy_bounds_error b || opt_error supersuperfy_error d
                    | _ => false
                    end) (params g)
  || match where_clause g with
     | None => false
     | Some w => existsb (fun p => match p with
                                   | WpType _ t b => supersuperfy_error t || supersuperfy_bounds_error b
                                   | WpLifetime _ _ => false
                                   end) w
     end.

(** [concretize_args]: bounds that [dyn] does not accept (lib.rs 116-119,
    126-129, 137-140: [syn] wants a trait among them) and patterns (172, 199, 237; the last one is implied by the others). *)
Definition concretize_error (g : generics) (args : list fnarg) : bool :=
  existsb (fun x => match snd x with
                    | [] => false
                    | l => negb (existsb (fun b => match b with BTrait _ _ _ => true | _ => false end) l)
                    end) (bounded_idents g)
  || existsb (fun a => match a with
                       | FaTyped p _ => demutify_pat_error p
                       | FaReceiver _ _ _ _ => false
                       end) args.

(** [split_lifetimes] calls [find_lifetimes] (lib.rs 1188-1203). *)
Definition split_lifetimes_error (g : generics) (args : list fnarg) (rt : ty) : bool :=
  lt_token g
  && (existsb (fun a => match a with
                        | FaTyped _ t => find_lifetimes_error t
                        | FaReceiver _ _ _ _ => false
                        end) args
      || find_lifetimes_error rt).

(** [Builder::build]: mock_function.rs 199-343; the panics are those of
    [build]. *)
Definition build_refused (b : builder) : bool :=
  match prepared b, build b with
  | Some (dg, di, _, _), Some f =>
      (if b_concretize b then concretize_error (sg_generics (b_sig b)) (sg_inputs (b_sig b))
       else declosurefy_error (sg_inputs (b_sig b)))
      || existsb (fun a => match a with
                           | FaTyped _ t => supersuperfy_error t
                           | FaReceiver _ _ _ _ => false
                           end) di
      || opt_error supersuperfy_error (sg_output (b_sig b))
      || supersuperfy_generics_error dg
      || build_error b
      || split_lifetimes_error (mf_struct_generics f) di (mf_owned_output f)
      || split_lifetimes_error (supersuperfy_generics (b_levels b) dg) di (mf_owned_output f)
  | _, _ => true
  end.

(** [MockTrait::new]: mock_trait.rs 60-121; the [Builder]s at 91-98. *)
Definition new_trait_refused (hash : list pargs -> N) (n : ident) (g : generics) (vis : visibility)
  (x : item_impl) : bool :=
  match new_trait hash n g x vis with
  | None => true
  | Some t =>
      existsb (fun f => build_refused (trait_builder n g vis (mt_ss_name t) f)) (impl_fns x)
  end.

(** [mock_it] of a structure: lib.rs 1295-1304. *)
Definition mock_it_refused (hash : list pargs -> N) (m : mockable_struct) : bool :=
  existsb (fun f => build_refused (method_builder m f)) (ms_methods m)
  || existsb (new_trait_refused hash (ms_name m) (ms_generics m) (ms_vis m)) (ms_impls m)
  || match mock_it hash m with None => true | Some _ => false end.

(** What a macro call generates; [None] if it is refused.  lib.rs 44-60: the macro
    panics or the compilation fails. *)
Definition unless {A} (refused : bool) (x : option A) : option A := if refused then None else x.

(** [do_automock] of a trait, with the types in its brackets: lib.rs 1353-1369,
    mockable_item.rs 29-40. *)
Definition automock_trait (hash : list pargs -> N) (l : list (ident * option ty)) (t : item_trait)
  : option gen_mock :=
  let a := parse_attrs l in
  let m := from_trait a t in
  unless (parse_attrs_error l || from_trait_error a t || mock_it_refused hash m) (mock_it hash m).

(** [do_automock] of an impl block.  lib.rs 1353-1369, mockable_item.rs 29-40,
    mockable_struct.rs 393-470. *)
Definition automock_impl (hash : list pargs -> N) (x : item_impl) : option gen_mock :=
  let m := from_impl x in
  unless (from_impl_error x || mock_it_refused hash m) (mock_it hash m).

(** [do_mock]: lib.rs 1306-1327. *)
Definition mock_macro (hash : list pargs -> N) (d : mock_decl) : option gen_mock :=
  let m := from_mock d in
  unless (from_mock_error d || mock_it_refused hash m) (mock_it hash m).

(** [do_automock] of a module, with its content unless it is in another file
    (mockable_item.rs 58-72): [mockable_fn] (5-9) refuses patterns, and the rest
    is the errors of the [Builder]s (mock_item.rs 57-163). *)
Definition mockable_item_error (i : item) : bool :=
  match i with
  | ItFn f _ => declosurefy_error (sg_inputs (fi_sig f))
  | _ => false
  end.

(** One iteration of mock_item.rs 62-154. *)
Definition item_refused (m : ident) (i : item) : bool :=
  match i with
  | ItFn f _ => build_refused (module_builder m f)
  | ItForeign abi l =>
      existsb (fun y => match y with
                        | FiFn f _ => build_refused (module_builder m (foreign_fn abi f))
                        | FiOther _ => true
                        end) l
  | _ => false
  end.

(** lib.rs 1353-1369, mockable_item.rs 58-80, mock_item.rs 57-163. *)
Definition automock_module (vis : visibility) (n : ident) (content : option (list item))
  : option gen_module :=
  match content with
  | None => None
  | Some items =>
      let m := from_module vis n items in
      unless (existsb mockable_item_error items
              || existsb (item_refused (mm_mock_ident m)) (mm_content m))
             (gen_mod m)
  end.
