(** * Derive: visibilities, attributes, arguments and generics

    The remaining helper functions of mockall_derive/src/lib.rs and the helpers
    at the top of mockall_derive/src/mock_function.rs.  As in Rewrite.v, a
    function that changes a tree in place is the function from the old tree to
    the new one, and a function ending in [_error] tells whether the code calls
    [compile_error]. *)

From Coq Require Import List Bool String NArith Arith.
From Verif Require Import Ast TyEq Rewrite.
Import ListNotations.
Open Scope string_scope.
Open Scope list_scope.

(** ** expectation_visibility: lib.rs 1243-1285 *)

(** [expectation_visibility]: lib.rs 1243-1285. *)
Definition expectation_visibility (v : visibility) (levels : nat) : visibility :=
  match levels with
  | 0 => v                                                   (* 1246-1248 *)
  | _ =>
      match v with
      | VInherited =>                                        (* 1253-1265 *)
          VRestricted true (Path false (repeat (seg_of "super") levels))
      | VRestricted i (Path b l) =>                          (* 1266-1282 *)
          match l with
          | Seg s _ :: _ =>
              if s =? "crate" then v
              else VRestricted true (Path b (repeat (seg_of "super") levels ++ l))
          | [] => v   (* [unwrap] of an empty path: the parser never makes one *)
          end
      | VPublic => v                                         (* 1283 *)
      end
  end.

(** ** Attributes *)

(** [str::contains].  Used at lib.rs 68. *)
Fixpoint contains (sub s : string) : bool :=
  String.prefix sub s
  || match s with
     | EmptyString => false
     | String _ r => contains sub r
     end.

(** [Path::is_ident] (syn): a single segment without arguments.  Used at lib.rs 65.
    *)
Definition is_ident (p : path) (i : ident) : bool :=
  match p with
  | Path false [Seg j PaNone] => i =? j
  | _ => false
  end.

(** [path().segments.last().unwrap().ident]: lib.rs 63, 813. *)
Definition last_ident (p : path) : option ident :=
  match rev (segs p) with
  | Seg i _ :: _ => Some i
  | [] => None
  end.

(** The comparison of it: lib.rs 63. *)
Definition last_is (p : path) (i : ident) : bool :=
  match last_ident p with Some j => j =? i | None => false end.

(** [is_concretize]: lib.rs 62-76. *)
Definition is_concretize (a : attribute) : bool :=
  if last_is (apath a) "concretize" then true
  else if is_ident (apath a) "cfg_attr"
       then match alist a with
            | Some l => contains "concretize" l
            | None => false
            end
       else false.

(** [AttrFormatter]: lib.rs 774-804; its flags. *)
Record attr_formatter : Type := AttrFormatter {
  af_async_trait : bool;
  af_doc : bool;
  af_must_use : bool
}.

(** The closure of [AttrFormatter::format]: lib.rs 812-855. *)
Definition attr_kept (f : attr_formatter) (a : attribute) : bool :=
  if is_concretize a then false
  else match last_ident (apath a) with
       | None => false
       | Some i =>
           if i =? "derive" then false
           else if i =? "doc" then af_doc f
           else if i =? "async_trait" then af_async_trait f
           else if i =? "expect" then false
           else if i =? "inline" then false
           else if i =? "cold" then false
           else if i =? "instrument" then false
           else if i =? "link_name" then false
           else if i =? "must_use" then af_must_use f
           else if i =? "auto_enum" then false
           else true
       end.

(** [AttrFormatter::format]: lib.rs 810-857. *)
Definition format (f : attr_formatter) (l : list attribute) : list attribute :=
  filter (attr_kept f) l.

(** ** Arguments *)

(** [demutify_arg]: lib.rs 511-532. *)
Definition demutify_pat (p : pat) : pat :=
  match p with
  | PatIdent r _ i s => PatIdent r false i s
  | p => p
  end.

(** Its errors: lib.rs 513-530. *)
Definition demutify_pat_error (p : pat) : bool :=
  match p with
  | PatWild => true
  | PatIdent r _ _ s => r || s
  | PatOther _ => true
  end.

(** [demutify]: lib.rs 499-509. *)
Definition demutify_arg (a : fnarg) : fnarg :=
  match a with
  | FaReceiver None _ c t => FaReceiver None false c t
  | FaReceiver r m c t => FaReceiver r m c t
  | FaTyped p t => FaTyped (demutify_pat p) t
  end.
(** [demutify]: lib.rs 499-509. *)
Definition demutify (l : list fnarg) : list fnarg := map demutify_arg l.

(** [pat_is_self]: lib.rs 861-867. *)
Definition pat_is_self (p : pat) : bool :=
  match p with
  | PatIdent _ _ i _ => i =? "self"
  | _ => false
  end.

(** An expression passed to the expectation's [call]: the argument itself,
    [Box::new(arg)], [&arg], [&mut arg], or the slice of references made from a
    slice of a concretized type.  lib.rs 201-223 and 434-440. *)
Inductive callexpr : Type :=
| CArg (p : pat)
| CBoxNew (p : pat)
| CRefTo (p : pat)
| CMutRefTo (p : pat)
| CDynSlice (p : pat) (bounds : list bound).

(** [parse2::<Ident>(quote!(#bounded_ty))]: succeeds for a single segment that is
    not a keyword. (A None-delimited group around the identifier, which only another
    macro can produce, is taken to fail.)  lib.rs 154, 350. *)
Definition path_keyword (i : ident) : bool :=
  existsb (String.eqb i) ["Self"; "self"; "super"; "crate"].

(** [parse2::<Ident>(quote!(#bounded_ty))]: lib.rs 154, 350, 381. *)
Definition ident_of_ty (t : ty) : option ident :=
  match t with
  | TPath (Path false [Seg i PaNone]) => if path_keyword i then None else Some i
  | _ => None
  end.

(** [Box<dyn bounds>].  lib.rs 331, 471. *)
Definition box_dyn (l : list bound) : ty :=
  TPath (Path false [Seg "Box" (PaAngle [GaType (TDyn true l)])]).

(** [declosurefy]: lib.rs 320-446.

    The [HashMap] is the list of its insertions. *)
Definition is_fn_bound (b : bound) : bool :=
  match b with
  | BTrait _ _ p => last_is p "Fn" || last_is p "FnMut" || last_is p "FnOnce"
  | _ => false
  end.

(** [save_fn_types]: lib.rs 325-338; one insertion per [Fn] bound. *)
Definition save_fn_types (i : ident) (l : list bound) : list (ty * ty) :=
  map (fun _ => (ty_of i, box_dyn l)) (filter is_fn_bound l).

(** The type parameters and the where predicates on a plain identifier, as the
    two loops visit them: lib.rs 341-357. *)
Definition bounded_idents (g : generics) : list (ident * list bound) :=
  flat_map (fun p => match p with GpType i b _ => [(i, b)] | _ => [] end) (params g)
  ++ match where_clause g with
     | None => []
     | Some w =>
         flat_map (fun p => match p with
                            | WpType _ t b =>
                                match ident_of_ty t with Some i => [(i, b)] | None => [] end
                            | WpLifetime _ _ => []
                            end) w
     end.

(** The map after both loops: lib.rs 323-357. *)
Definition fn_types (g : generics) : list (ty * ty) :=
  flat_map (fun x => save_fn_types (fst x) (snd x)) (bounded_idents g).

(** [HashMap::get]; the keys are distinct unless the assertion fails.  lib.rs 168,
    197, 408. *)
Fixpoint lookup {A} (t : ty) (l : list (ty * A)) : option A :=
  match l with
  | [] => None
  | (k, v) :: r => if ty_eqb k t then Some v else lookup t r
  end.

(** [contains_key]: lib.rs 362, 436. *)
Definition has_key {A} (t : ty) (l : list (ty * A)) : bool :=
  match lookup t l with Some _ => true | None => false end.

(** The assertion of [save_fn_types]: lib.rs 333-334. *)
Fixpoint distinct_keys {A} (l : list (ty * A)) : bool :=
  match l with
  | [] => true
  | (k, _) :: r => negb (has_key k r) && distinct_keys r
  end.

(** lib.rs 359-399. *)
Definition declosured_generics (g : generics) : generics :=
  let hm := fn_types g in
  let ps := filter (fun p => match p with
                             | GpType i _ _ => negb (has_key (ty_of i) hm)
                             | _ => true
                             end) (params g) in
  let keep p := match p with
                | WpType _ t _ =>
                    match ident_of_ty t with
                    | Some i => negb (has_key (ty_of i) hm)
                    | None => true
                    end
                | WpLifetime _ _ => true
                end in
  Generics (match ps with [] => false | _ => lt_token g end)
           ps
           match where_clause g with
           | None => None
           | Some w => match filter keep w with [] => None | w' => Some w' end
           end.

(** lib.rs 401-424. *)
Definition declosured_arg (g : generics) (a : fnarg) : fnarg :=
  match a with
  | FaTyped p t =>
      FaTyped (demutify_pat p)
              match lookup t (fn_types g) with Some t' => t' | None => t end
  | a => a
  end.

(** lib.rs 426-444. *)
Definition declosured_call (g : generics) (a : fnarg) : list callexpr :=
  match a with
  | FaTyped p t =>
      if pat_is_self (demutify_pat p) then []
      else if has_key t (fn_types g) then [CBoxNew (demutify_pat p)]
      else [CArg (demutify_pat p)]
  | FaReceiver _ _ _ _ => []
  end.

(** [None]: the assertion fails and the macro panics.  [declosurefy]: lib.rs
    320-446. *)
Definition declosurefy (g : generics) (args : list fnarg)
  : option (generics * list fnarg * list callexpr) :=
  if distinct_keys (fn_types g)
  then Some (declosured_generics g, map (declosured_arg g) args,
             flat_map (declosured_call g) args)
  else None.

(** The errors of [demutify_arg] in it: lib.rs 405, 432. *)
Definition declosurefy_error (args : list fnarg) : bool :=
  existsb (fun a => match a with
                    | FaTyped p _ => demutify_pat_error p
                    | FaReceiver _ _ _ _ => false
                    end) args.

(** [concretize_args]: lib.rs 86-245. *)

(** [&(dyn bounds)], [&mut (dyn bounds)].  lib.rs 95, 102, 121. *)
Definition ref_dyn (m : bool) (l : list bound) : ty := TRef None m (TParen (TDyn true l)).

(** lib.rs 97-105: the first segment of the first bound. *)
Definition first_is_fnmut (l : list bound) : bool :=
  match l with
  | BTrait _ _ (Path _ (Seg i _ :: _)) :: _ => i =? "FnMut"
  | _ => false
  end.

(** What [save_types] (lib.rs 93-142) inserts into both maps: the key, the new
    type, the bounds kept for a slice, and the flag of [needs_muts]. *)
Record conc_entry : Type := ConcEntry {
  ce_ty : ty;
  ce_bounds : option (list bound);
  ce_mut : bool
}.

(** [save_types]: lib.rs 93-142. *)
Definition save_types (i : ident) (l : list bound) : list (ty * conc_entry) :=
  match l with
  | [] => []
  | _ =>
      let m := first_is_fnmut l in
      [ (ty_of i, ConcEntry (ref_dyn m l) None m);
        (TRef None false (ty_of i), ConcEntry (ref_dyn m l) None m);
        (TRef None true (ty_of i), ConcEntry (ref_dyn true l) None m);
        (TRef None false (TSlice (ty_of i)),
         ConcEntry (TRef None false (TSlice (ref_dyn false l))) (Some l) m) ]
  end.

(** [HashMap::insert] replaces an earlier value of the key, so that the last
    insertion counts: lib.rs 144-161. *)
Definition conc_types (g : generics) : list (ty * conc_entry) :=
  rev (flat_map (fun x => save_types (fst x) (snd x)) (bounded_idents g)).

(** lib.rs 169-191. *)
Definition concretized_arg (g : generics) (a : fnarg) : fnarg :=
  match a with
  | FaTyped p t =>
      FaTyped (demutify_pat p)
              match lookup t (conc_types g) with Some e => ce_ty e | None => t end
  | a => a
  end.

(** lib.rs 193-227. *)
Definition concretized_call (g : generics) (a : fnarg) : list callexpr :=
  match a with
  | FaTyped p t =>
      let p := demutify_pat p in
      if pat_is_self p then []
      else match lookup t (conc_types g) with
           | Some e =>
               match t with
               | TRef _ _ (TSlice _) =>
                   [CDynSlice p match ce_bounds e with Some l => l | None => [] end]
               | TRef _ _ _ => [CArg p]
               | _ => if ce_mut e then [CMutRefTo p] else [CRefTo p]
               end
           | None => [CArg p]
           end
  | FaReceiver _ _ _ _ => []
  end.

(** lib.rs 229-242: the arguments of the mock function itself. *)
Definition concretized_input (g : generics) (a : fnarg) : fnarg :=
  match a with
  | FaTyped p t =>
      if match lookup t (conc_types g) with Some e => ce_mut e | None => false end
      then FaTyped match p with PatIdent r _ i s => PatIdent r true i s | p => p end t
      else a
  | a => a
  end.

(** [concretize_args]: lib.rs 86-245. *)
Definition concretize_args (g : generics) (args : list fnarg)
  : generics * list fnarg * list callexpr * list fnarg :=
  (no_generics, map (concretized_arg g) args, flat_map (concretized_call g) args,
   map (concretized_input g) args).

(** ** Return types and where clauses *)

(** [deimplify]: lib.rs 449-475. *)
Definition needs_pin (l : list bound) : bool :=
  existsb (fun b => match b with
                    | BTrait _ _ p => last_is p "Future" || last_is p "Stream"
                    | _ => false
                    end) l.

(** [deimplify]: lib.rs 449-475. *)
Definition deimplify (rt : option ty) : option ty :=
  match rt with
  | Some (TImplTrait l) =>
      Some (if needs_pin l
            then TPath (Path true [seg_of "std"; seg_of "pin";
                                   Seg "Pin" (PaAngle [GaType (box_dyn l)])])
            else box_dyn l)
  | rt => rt
  end.

(** [dewhereselfify]: lib.rs 478-496. *)
Definition dewhereselfify (g : generics) : generics :=
  Generics (lt_token g) (params g)
    match where_clause g with
    | None => None
    | Some w =>
        match filter (fun p => match p with
                               | WpType _ t _ => negb (ty_eqb t (ty_of "Self"))
                               | WpLifetime _ _ => true
                               end) w with
        | [] => None
        | w' => Some w'
        end
    end.

(** [staticize]: lib.rs 1287-1293. *)
Definition staticize (g : generics) : generics :=
  Generics (lt_token g)
           (map (fun p => match p with
                          | GpLifetime _ b => GpLifetime "static" b
                          | p => p
                          end) (params g))
           (where_clause g).

(** The parameter of [mockall::Key] made by [gen_keyid] (lib.rs 1019-1036): the
    type in the angle brackets.  For one parameter the brackets of
    [split_for_impl] are used, with whatever is in them. *)
Definition gen_keyid (g : generics) : list garg :=
  match params g with
  | [] => [GaType (TTuple [])]
  | [p] => [arg_of_param p]
  | ps => [GaType (TTuple (flat_map (fun p => match p with
                                              | GpType i _ _ => [ty_of i]
                                              | _ => []
                                              end) ps))]
  end.

(** ** merge_generics: lib.rs 1055-1145 *)

(** [cmp_gp_idents]: lib.rs 1057-1066. *)
Definition cmp_gp_idents (x y : gparam) : bool :=
  match x, y with
  | GpType i _ _, GpType j _ _ => i =? j
  | GpLifetime i _, GpLifetime j _ => i =? j
  | GpConst i _ _, GpConst j _ _ => i =? j
  | _, _ => false
  end.

(** [cmp_wp_idents]: lib.rs 1069-1077. *)
Definition cmp_wp_idents (x y : wpred) : bool :=
  match x, y with
  | WpType _ s _, WpType _ t _ => ty_eqb s t
  | WpLifetime i _, WpLifetime j _ => i =? j
  | _, _ => false
  end.

(** The comparison of bounds: lib.rs 1100, 1133. *)
Definition bounds_eqb : list bound -> list bound -> bool := list_eqb bound_eqb.

(** lib.rs 1100-1102, 1133-1135. *)
Definition add_bounds (o y : list bound) : list bound :=
  if bounds_eqb o y then o else o ++ y.

(** Two parameters with the same name: lib.rs 1090-1103. *)
Definition merge_param (o y : gparam) : gparam :=
  match o, y with
  | GpType i b d, GpType _ b' d' =>
      GpType i (add_bounds b b') (match d with None => d' | Some _ => d end)
  | o, _ => o
  end.

(** One iteration of ['outer_param]: lib.rs 1086-1108. *)
Fixpoint add_param (out : list gparam) (y : gparam) : list gparam :=
  match out with
  | [] => [y]
  | o :: r => if cmp_gp_idents o y then merge_param o y :: r else o :: add_param r y
  end.

(** Two predicates on the same type or lifetime: lib.rs 1120-1136. *)
Definition merge_pred (o y : wpred) : wpred :=
  match o, y with
  | WpType f t b, WpType f' _ b' =>
      WpType (match f, f' with
              | f, None => f
              | None, Some l => Some l
              | Some l, Some l' => Some (l ++ l')
              end) t (add_bounds b b')
  | o, _ => o
  end.

(** One iteration of ['outer_wc]: lib.rs 1116-1141. *)
Fixpoint add_pred (out : list wpred) (y : wpred) : list wpred :=
  match out with
  | [] => [y]
  | o :: r => if cmp_wp_idents o y then merge_pred o y :: r else o :: add_pred r y
  end.

(** lib.rs 1079, 1081. *)
Definition is_empty_generics (g : generics) : bool :=
  negb (lt_token g) && match where_clause g with None => true | Some _ => false end.

(** lib.rs 1079-1110. *)
Definition merge_params (x y : generics) : generics :=
  if is_empty_generics x then y
  else if is_empty_generics y then x
  else Generics (lt_token x) (fold_left add_param (params y) (params x)) (where_clause x).

(** [merge_generics]: lib.rs 1055-1145. *)
Definition merge_generics (x y : generics) : generics :=
  let out := merge_params x y in
  Generics (lt_token out) (params out)
    match where_clause out, where_clause y with
    | w, None => w
    | None, Some w => Some w
    | Some w, Some w' => Some (fold_left add_pred w' w)
    end.

(** ** split_lifetimes: lib.rs 1147-1235 *)

(** A [LifetimeParam] (syn): the lifetime and its bounds.  lib.rs 1147, 1178. *)
Notation ltparam := (string * list string)%type (only parsing).

(** [lifetimes_to_generics]: lib.rs 1147-1168. *)
Definition lifetimes_to_generics (l : list ltparam) : generics :=
  match l with
  | [] => no_generics
  | _ => Generics true (map (fun x => GpLifetime (fst x) (snd x)) l) None
  end.

(** The lifetimes that the arguments mention: lib.rs 1188-1200. *)
Definition arg_lifetimes (a : fnarg) : list lifetime :=
  match a with
  | FaReceiver (Some (Some l)) _ _ _ => [l]
  | FaReceiver _ _ _ _ => []
  | FaTyped _ t => find_lifetimes t
  end.

(** [HashSet::contains]: lib.rs 1210, 1212. *)
Definition memb (l : lifetime) (s : list lifetime) : bool := existsb (String.eqb l) s.

(** [split_lifetimes]: lib.rs 1173-1235; [rt = None] is [ReturnType::Default]. *)
Definition split_lifetimes (g : generics) (args : list fnarg) (rt : option ty)
  : generics * list ltparam * list ltparam :=
  if negb (lt_token g) then (g, [], [])
  else
    let alts := flat_map arg_lifetimes args in
    let rlts := match rt with Some t => find_lifetimes t | None => [] end in
    let tv := filter (fun p => match p with GpType _ _ _ => true | _ => false end) (params g) in
    let rlv := flat_map (fun p => match p with
                                  | GpLifetime l b => if memb l rlts then [(l, b)] else []
                                  | _ => []
                                  end) (params g) in
    let alv := flat_map (fun p => match p with
                                  | GpLifetime l b =>
                                      if memb l rlts then []
                                      else if memb l alts then [(l, b)] else []
                                  | _ => []
                                  end) (params g) in
    (match tv with
     | [] => no_generics
     | _ => Generics (lt_token g) tv (where_clause g)
     end, alv, rlv).

(** ** Owned outputs: mock_function.rs 30-137 *)

(** mock_function.rs 62-70. *)
Definition is_static_lt (l : option lifetime) : bool :=
  match l with Some l => l =? "static" | None => false end.

(** The paths [::std::...] of mock_function.rs 59-122. *)
Definition std_path (m i : ident) (a : pargs) : ty :=
  TPath (Path true [seg_of "std"; seg_of m; Seg i a]).

(** [destrify]: mock_function.rs 59-122. *)
Definition destrify (t : ty) : ty :=
  match t with
  | TRef l m e =>
      if is_static_lt l then t
      else TRef l m
             match e with
             | TPath (Path false [Seg i PaNone]) =>
                 if i =? "CStr" then std_path "ffi" "CString" PaNone
                 else if i =? "OsStr" then std_path "ffi" "OsString" PaNone
                 else if i =? "Path" then std_path "path" "PathBuf" PaNone
                 else if i =? "str" then std_path "string" "String" PaNone
                 else e
             | TSlice x => std_path "vec" "Vec" (PaAngle [GaType x])
             | e => e
             end
  | t => t
  end.

(** [dedynify]: mock_function.rs 35-58; the flag says whether it boxed. *)
Definition dedynify (t : ty) : ty * bool :=
  match t with
  | TRef l m (TDyn d b) =>
      if is_static_lt l then (TRef l m (TParen (TDyn d b)), false)
      else (TRef l m (TPath (Path false [Seg "Box" (PaAngle [GaType (TDyn d b)])])), true)
  | t => (t, false)
  end.

(** [ownify]: mock_function.rs 124-137. *)
Definition ownify (t : ty) : ty :=
  match t with
  | TRef l m e => if is_static_lt l then t else e
  | t => t
  end.

(** [send_syncify]: mock_function.rs 139-170. *)
Definition send_syncify (w : option (list wpred)) (t : ty) : option (list wpred) :=
  let p := WpType None t [BTrait false [] (path_of "Send"); BTrait false [] (path_of "Sync")] in
  Some (match w with None => [p] | Some w => w ++ [p] end).
