(** * RepoUnit: the unit tests of mockall_derive and mockall_double

    Written by tools/repo_tests.py: the inputs and the expected outputs of the unit tests
    that compare syntax trees. *)

From Coq Require Import List Bool String NArith.
From Verif Require Import Ast AstSpec TyEq Rewrite Derive Names Subst Sig.
Import ListNotations.
Open Scope string_scope.
Open Scope list_scope.

(** ** concretize_args: mockall_derive/src/lib.rs 1592-1729 *)

Example unit_concretize_args_bystanders :
  let f := (Signature "foo" (Generics true [GpType "P" [BTrait false [] (Path false [Seg "AsRef" (PaAngle [GaType (TPath (Path false [Seg "Path" PaNone]))])])] None] None) [FaTyped (PatIdent false false "x" false) (TPath (Path false [Seg "i32" PaNone])); FaTyped (PatIdent false false "p" false) (TPath (Path false [Seg "P" PaNone])); FaTyped (PatIdent false false "y" false) (TRef None false (TPath (Path false [Seg "f64" PaNone])))] None None) in
  concretize_args (sg_generics f) (sg_inputs f)
  = (no_generics, [FaTyped (PatIdent false false "x" false) (TPath (Path false [Seg "i32" PaNone])); FaTyped (PatIdent false false "p" false) (TRef None false (TParen (TDyn true [BTrait false [] (Path false [Seg "AsRef" (PaAngle [GaType (TPath (Path false [Seg "Path" PaNone]))])])]))); FaTyped (PatIdent false false "y" false) (TRef None false (TPath (Path false [Seg "f64" PaNone])))], [CArg (PatIdent false false "x" false); CRefTo (PatIdent false false "p" false); CArg (PatIdent false false "y" false)], [FaTyped (PatIdent false false "x" false) (TPath (Path false [Seg "i32" PaNone])); FaTyped (PatIdent false false "p" false) (TPath (Path false [Seg "P" PaNone])); FaTyped (PatIdent false false "y" false) (TRef None false (TPath (Path false [Seg "f64" PaNone])))]).
Proof. vm_compute. reflexivity. Qed.

Example unit_concretize_args_function_args :
  let f := (Signature "foo" (Generics true [GpType "F1" [BTrait false [] (Path false [Seg "Fn" (PaParen [(TPath (Path false [Seg "u32" PaNone]))] (Some (TPath (Path false [Seg "u32" PaNone]))))])] None; GpType "F2" [BTrait false [] (Path false [Seg "FnMut" (PaParen [(TRef None true (TPath (Path false [Seg "u32" PaNone])))] (Some (TPath (Path false [Seg "u32" PaNone]))))])] None; GpType "F3" [BTrait false [] (Path false [Seg "FnOnce" (PaParen [(TPath (Path false [Seg "u32" PaNone]))] (Some (TPath (Path false [Seg "u32" PaNone]))))])] None; GpType "F4" [BTrait false [] (Path false [Seg "Fn" (PaParen [] None)]); BTrait false [] (Path false [Seg "Send" PaNone])] None] None) [FaTyped (PatIdent false false "f1" false) (TPath (Path false [Seg "F1" PaNone])); FaTyped (PatIdent false false "f2" false) (TPath (Path false [Seg "F2" PaNone])); FaTyped (PatIdent false false "f3" false) (TPath (Path false [Seg "F3" PaNone])); FaTyped (PatIdent false false "f4" false) (TPath (Path false [Seg "F4" PaNone]))] None None) in
  concretize_args (sg_generics f) (sg_inputs f)
  = (no_generics, [FaTyped (PatIdent false false "f1" false) (TRef None false (TParen (TDyn true [BTrait false [] (Path false [Seg "Fn" (PaParen [(TPath (Path false [Seg "u32" PaNone]))] (Some (TPath (Path false [Seg "u32" PaNone]))))])]))); FaTyped (PatIdent false false "f2" false) (TRef None true (TParen (TDyn true [BTrait false [] (Path false [Seg "FnMut" (PaParen [(TRef None true (TPath (Path false [Seg "u32" PaNone])))] (Some (TPath (Path false [Seg "u32" PaNone]))))])]))); FaTyped (PatIdent false false "f3" false) (TRef None false (TParen (TDyn true [BTrait false [] (Path false [Seg "FnOnce" (PaParen [(TPath (Path false [Seg "u32" PaNone]))] (Some (TPath (Path false [Seg "u32" PaNone]))))])]))); FaTyped (PatIdent false false "f4" false) (TRef None false (TParen (TDyn true [BTrait false [] (Path false [Seg "Fn" (PaParen [] None)]); BTrait false [] (Path false [Seg "Send" PaNone])])))], [CRefTo (PatIdent false false "f1" false); CMutRefTo (PatIdent false false "f2" false); CRefTo (PatIdent false false "f3" false); CRefTo (PatIdent false false "f4" false)], [FaTyped (PatIdent false false "f1" false) (TPath (Path false [Seg "F1" PaNone])); FaTyped (PatIdent false true "f2" false) (TPath (Path false [Seg "F2" PaNone])); FaTyped (PatIdent false false "f3" false) (TPath (Path false [Seg "F3" PaNone])); FaTyped (PatIdent false false "f4" false) (TPath (Path false [Seg "F4" PaNone]))]).
Proof. vm_compute. reflexivity. Qed.

Example unit_concretize_args_multi_bounds :
  let f := (Signature "foo" (Generics true [GpType "P" [BTrait false [] (Path false [Seg "AsRef" (PaAngle [GaType (TPath (Path false [Seg "String" PaNone]))])]); BTrait false [] (Path false [Seg "AsMut" (PaAngle [GaType (TPath (Path false [Seg "String" PaNone]))])])] None] None) [FaTyped (PatIdent false false "p" false) (TPath (Path false [Seg "P" PaNone]))] None None) in
  concretize_args (sg_generics f) (sg_inputs f)
  = (no_generics, [FaTyped (PatIdent false false "p" false) (TRef None false (TParen (TDyn true [BTrait false [] (Path false [Seg "AsRef" (PaAngle [GaType (TPath (Path false [Seg "String" PaNone]))])]); BTrait false [] (Path false [Seg "AsMut" (PaAngle [GaType (TPath (Path false [Seg "String" PaNone]))])])])))], [CRefTo (PatIdent false false "p" false)], [FaTyped (PatIdent false false "p" false) (TPath (Path false [Seg "P" PaNone]))]).
Proof. vm_compute. reflexivity. Qed.

Example unit_concretize_args_mutable_reference_arg :
  let f := (Signature "foo" (Generics true [GpType "P" [BTrait false [] (Path false [Seg "AsMut" (PaAngle [GaType (TPath (Path false [Seg "Path" PaNone]))])])] None] None) [FaTyped (PatIdent false false "p" false) (TRef None true (TPath (Path false [Seg "P" PaNone])))] None None) in
  concretize_args (sg_generics f) (sg_inputs f)
  = (no_generics, [FaTyped (PatIdent false false "p" false) (TRef None true (TParen (TDyn true [BTrait false [] (Path false [Seg "AsMut" (PaAngle [GaType (TPath (Path false [Seg "Path" PaNone]))])])])))], [CArg (PatIdent false false "p" false)], [FaTyped (PatIdent false false "p" false) (TRef None true (TPath (Path false [Seg "P" PaNone])))]).
Proof. vm_compute. reflexivity. Qed.

Example unit_concretize_args_mutable_reference_multi_bounds :
  let f := (Signature "foo" (Generics true [GpType "P" [BTrait false [] (Path false [Seg "AsRef" (PaAngle [GaType (TPath (Path false [Seg "String" PaNone]))])]); BTrait false [] (Path false [Seg "AsMut" (PaAngle [GaType (TPath (Path false [Seg "String" PaNone]))])])] None] None) [FaTyped (PatIdent false false "p" false) (TRef None true (TPath (Path false [Seg "P" PaNone])))] None None) in
  concretize_args (sg_generics f) (sg_inputs f)
  = (no_generics, [FaTyped (PatIdent false false "p" false) (TRef None true (TParen (TDyn true [BTrait false [] (Path false [Seg "AsRef" (PaAngle [GaType (TPath (Path false [Seg "String" PaNone]))])]); BTrait false [] (Path false [Seg "AsMut" (PaAngle [GaType (TPath (Path false [Seg "String" PaNone]))])])])))], [CArg (PatIdent false false "p" false)], [FaTyped (PatIdent false false "p" false) (TRef None true (TPath (Path false [Seg "P" PaNone])))]).
Proof. vm_compute. reflexivity. Qed.

Example unit_concretize_args_reference_arg :
  let f := (Signature "foo" (Generics true [GpType "P" [BTrait false [] (Path false [Seg "AsRef" (PaAngle [GaType (TPath (Path false [Seg "Path" PaNone]))])])] None] None) [FaTyped (PatIdent false false "p" false) (TRef None false (TPath (Path false [Seg "P" PaNone])))] None None) in
  concretize_args (sg_generics f) (sg_inputs f)
  = (no_generics, [FaTyped (PatIdent false false "p" false) (TRef None false (TParen (TDyn true [BTrait false [] (Path false [Seg "AsRef" (PaAngle [GaType (TPath (Path false [Seg "Path" PaNone]))])])])))], [CArg (PatIdent false false "p" false)], [FaTyped (PatIdent false false "p" false) (TRef None false (TPath (Path false [Seg "P" PaNone])))]).
Proof. vm_compute. reflexivity. Qed.

Example unit_concretize_args_simple :
  let f := (Signature "foo" (Generics true [GpType "P" [BTrait false [] (Path false [Seg "AsRef" (PaAngle [GaType (TPath (Path false [Seg "Path" PaNone]))])])] None] None) [FaTyped (PatIdent false false "p" false) (TPath (Path false [Seg "P" PaNone]))] None None) in
  concretize_args (sg_generics f) (sg_inputs f)
  = (no_generics, [FaTyped (PatIdent false false "p" false) (TRef None false (TParen (TDyn true [BTrait false [] (Path false [Seg "AsRef" (PaAngle [GaType (TPath (Path false [Seg "Path" PaNone]))])])])))], [CRefTo (PatIdent false false "p" false)], [FaTyped (PatIdent false false "p" false) (TPath (Path false [Seg "P" PaNone]))]).
Proof. vm_compute. reflexivity. Qed.

Example unit_concretize_args_slice :
  let f := (Signature "foo" (Generics true [GpType "P" [BTrait false [] (Path false [Seg "AsRef" (PaAngle [GaType (TPath (Path false [Seg "Path" PaNone]))])])] None] None) [FaTyped (PatIdent false false "p" false) (TRef None false (TSlice (TPath (Path false [Seg "P" PaNone]))))] None None) in
  concretize_args (sg_generics f) (sg_inputs f)
  = (no_generics, [FaTyped (PatIdent false false "p" false) (TRef None false (TSlice (TRef None false (TParen (TDyn true [BTrait false [] (Path false [Seg "AsRef" (PaAngle [GaType (TPath (Path false [Seg "Path" PaNone]))])])])))))], [CDynSlice (PatIdent false false "p" false) [BTrait false [] (Path false [Seg "AsRef" (PaAngle [GaType (TPath (Path false [Seg "Path" PaNone]))])])]], [FaTyped (PatIdent false false "p" false) (TRef None false (TSlice (TPath (Path false [Seg "P" PaNone]))))]).
Proof. vm_compute. reflexivity. Qed.

Example unit_concretize_args_slice_with_multi_bounds :
  let f := (Signature "foo" (Generics true [GpType "P" [BTrait false [] (Path false [Seg "AsRef" (PaAngle [GaType (TPath (Path false [Seg "Path" PaNone]))])]); BTrait false [] (Path false [Seg "AsMut" (PaAngle [GaType (TPath (Path false [Seg "String" PaNone]))])])] None] None) [FaTyped (PatIdent false false "p" false) (TRef None false (TSlice (TPath (Path false [Seg "P" PaNone]))))] None None) in
  concretize_args (sg_generics f) (sg_inputs f)
  = (no_generics, [FaTyped (PatIdent false false "p" false) (TRef None false (TSlice (TRef None false (TParen (TDyn true [BTrait false [] (Path false [Seg "AsRef" (PaAngle [GaType (TPath (Path false [Seg "Path" PaNone]))])]); BTrait false [] (Path false [Seg "AsMut" (PaAngle [GaType (TPath (Path false [Seg "String" PaNone]))])])])))))], [CDynSlice (PatIdent false false "p" false) [BTrait false [] (Path false [Seg "AsRef" (PaAngle [GaType (TPath (Path false [Seg "Path" PaNone]))])]); BTrait false [] (Path false [Seg "AsMut" (PaAngle [GaType (TPath (Path false [Seg "String" PaNone]))])])]], [FaTyped (PatIdent false false "p" false) (TRef None false (TSlice (TPath (Path false [Seg "P" PaNone]))))]).
Proof. vm_compute. reflexivity. Qed.

Example unit_concretize_args_where_clause :
  let f := (Signature "foo" (Generics true [GpType "P" [] None] (Some [WpType None (TPath (Path false [Seg "P" PaNone])) [BTrait false [] (Path false [Seg "AsRef" (PaAngle [GaType (TPath (Path false [Seg "Path" PaNone]))])])]])) [FaTyped (PatIdent false false "p" false) (TPath (Path false [Seg "P" PaNone]))] None None) in
  concretize_args (sg_generics f) (sg_inputs f)
  = (no_generics, [FaTyped (PatIdent false false "p" false) (TRef None false (TParen (TDyn true [BTrait false [] (Path false [Seg "AsRef" (PaAngle [GaType (TPath (Path false [Seg "Path" PaNone]))])])])))], [CRefTo (PatIdent false false "p" false)], [FaTyped (PatIdent false false "p" false) (TPath (Path false [Seg "P" PaNone]))]).
Proof. vm_compute. reflexivity. Qed.

(** ** declosurefy: mockall_derive/src/lib.rs 1731-1819 *)

Example unit_declosurefy_bounds :
  let f := (Signature "foo" (Generics true [GpType "F" [BTrait false [] (Path false [Seg "Fn" (PaParen [(TPath (Path false [Seg "u32" PaNone]))] (Some (TPath (Path false [Seg "u32" PaNone]))))]); BTrait false [] (Path false [Seg "Send" PaNone])] None] None) [FaTyped (PatIdent false false "f" false) (TPath (Path false [Seg "F" PaNone]))] None None) in
  option_map (fun r => let '(g, a, c) := r in (params g, a, c)) (declosurefy (sg_generics f) (sg_inputs f))
  = Some ([], [FaTyped (PatIdent false false "f" false) (TPath (Path false [Seg "Box" (PaAngle [GaType (TDyn true [BTrait false [] (Path false [Seg "Fn" (PaParen [(TPath (Path false [Seg "u32" PaNone]))] (Some (TPath (Path false [Seg "u32" PaNone]))))]); BTrait false [] (Path false [Seg "Send" PaNone])])])]))], [CBoxNew (PatIdent false false "f" false)]).
Proof. vm_compute. reflexivity. Qed.

Example unit_declosurefy_fn :
  let f := (Signature "foo" (Generics true [GpType "F" [BTrait false [] (Path false [Seg "Fn" (PaParen [(TPath (Path false [Seg "u32" PaNone]))] (Some (TPath (Path false [Seg "u32" PaNone]))))])] None] None) [FaTyped (PatIdent false false "f" false) (TPath (Path false [Seg "F" PaNone]))] None None) in
  option_map (fun r => let '(g, a, c) := r in (params g, a, c)) (declosurefy (sg_generics f) (sg_inputs f))
  = Some ([], [FaTyped (PatIdent false false "f" false) (TPath (Path false [Seg "Box" (PaAngle [GaType (TDyn true [BTrait false [] (Path false [Seg "Fn" (PaParen [(TPath (Path false [Seg "u32" PaNone]))] (Some (TPath (Path false [Seg "u32" PaNone]))))])])])]))], [CBoxNew (PatIdent false false "f" false)]).
Proof. vm_compute. reflexivity. Qed.

Example unit_declosurefy_fn_mut :
  let f := (Signature "foo" (Generics true [GpType "F" [BTrait false [] (Path false [Seg "FnMut" (PaParen [(TPath (Path false [Seg "u32" PaNone]))] (Some (TPath (Path false [Seg "u32" PaNone]))))])] None] None) [FaTyped (PatIdent false false "f" false) (TPath (Path false [Seg "F" PaNone]))] None None) in
  option_map (fun r => let '(g, a, c) := r in (params g, a, c)) (declosurefy (sg_generics f) (sg_inputs f))
  = Some ([], [FaTyped (PatIdent false false "f" false) (TPath (Path false [Seg "Box" (PaAngle [GaType (TDyn true [BTrait false [] (Path false [Seg "FnMut" (PaParen [(TPath (Path false [Seg "u32" PaNone]))] (Some (TPath (Path false [Seg "u32" PaNone]))))])])])]))], [CBoxNew (PatIdent false false "f" false)]).
Proof. vm_compute. reflexivity. Qed.

Example unit_declosurefy_fn_once :
  let f := (Signature "foo" (Generics true [GpType "F" [BTrait false [] (Path false [Seg "FnOnce" (PaParen [(TPath (Path false [Seg "u32" PaNone]))] (Some (TPath (Path false [Seg "u32" PaNone]))))])] None] None) [FaTyped (PatIdent false false "f" false) (TPath (Path false [Seg "F" PaNone]))] None None) in
  option_map (fun r => let '(g, a, c) := r in (params g, a, c)) (declosurefy (sg_generics f) (sg_inputs f))
  = Some ([], [FaTyped (PatIdent false false "f" false) (TPath (Path false [Seg "Box" (PaAngle [GaType (TDyn true [BTrait false [] (Path false [Seg "FnOnce" (PaParen [(TPath (Path false [Seg "u32" PaNone]))] (Some (TPath (Path false [Seg "u32" PaNone]))))])])])]))], [CBoxNew (PatIdent false false "f" false)]).
Proof. vm_compute. reflexivity. Qed.

Example unit_declosurefy_mutable_pattern :
  let f := (Signature "foo" (Generics true [GpType "F" [BTrait false [] (Path false [Seg "FnMut" (PaParen [(TPath (Path false [Seg "u32" PaNone]))] (Some (TPath (Path false [Seg "u32" PaNone]))))])] None] None) [FaTyped (PatIdent false true "f" false) (TPath (Path false [Seg "F" PaNone]))] None None) in
  option_map (fun r => let '(g, a, c) := r in (params g, a, c)) (declosurefy (sg_generics f) (sg_inputs f))
  = Some ([], [FaTyped (PatIdent false false "f" false) (TPath (Path false [Seg "Box" (PaAngle [GaType (TDyn true [BTrait false [] (Path false [Seg "FnMut" (PaParen [(TPath (Path false [Seg "u32" PaNone]))] (Some (TPath (Path false [Seg "u32" PaNone]))))])])])]))], [CBoxNew (PatIdent false false "f" false)]).
Proof. vm_compute. reflexivity. Qed.

Example unit_declosurefy_where_clause :
  let f := (Signature "foo" (Generics true [GpType "F" [] None] (Some [WpType None (TPath (Path false [Seg "F" PaNone])) [BTrait false [] (Path false [Seg "Fn" (PaParen [(TPath (Path false [Seg "u32" PaNone]))] (Some (TPath (Path false [Seg "u32" PaNone]))))])]])) [FaTyped (PatIdent false false "f" false) (TPath (Path false [Seg "F" PaNone]))] None None) in
  option_map (fun r => let '(g, a, c) := r in (params g, a, c)) (declosurefy (sg_generics f) (sg_inputs f))
  = Some ([], [FaTyped (PatIdent false false "f" false) (TPath (Path false [Seg "Box" (PaAngle [GaType (TDyn true [BTrait false [] (Path false [Seg "Fn" (PaParen [(TPath (Path false [Seg "u32" PaNone]))] (Some (TPath (Path false [Seg "u32" PaNone]))))])])])]))], [CBoxNew (PatIdent false false "f" false)]).
Proof. vm_compute. reflexivity. Qed.

Example unit_declosurefy_where_clause_with_bounds :
  let f := (Signature "foo" (Generics true [GpType "F" [] None] (Some [WpType None (TPath (Path false [Seg "F" PaNone])) [BTrait false [] (Path false [Seg "Fn" (PaParen [(TPath (Path false [Seg "u32" PaNone]))] (Some (TPath (Path false [Seg "u32" PaNone]))))]); BTrait false [] (Path false [Seg "Send" PaNone])]])) [FaTyped (PatIdent false false "f" false) (TPath (Path false [Seg "F" PaNone]))] None None) in
  option_map (fun r => let '(g, a, c) := r in (params g, a, c)) (declosurefy (sg_generics f) (sg_inputs f))
  = Some ([], [FaTyped (PatIdent false false "f" false) (TPath (Path false [Seg "Box" (PaAngle [GaType (TDyn true [BTrait false [] (Path false [Seg "Fn" (PaParen [(TPath (Path false [Seg "u32" PaNone]))] (Some (TPath (Path false [Seg "u32" PaNone]))))]); BTrait false [] (Path false [Seg "Send" PaNone])])])]))], [CBoxNew (PatIdent false false "f" false)]).
Proof. vm_compute. reflexivity. Qed.

(** ** deimplify: mockall_derive/src/lib.rs 1821-1874 *)

Example unit_deimplify_impl_future :
  deimplify (Some (TImplTrait [BTrait false [] (Path false [Seg "Future" (PaAngle [GaAssocType "Output" (TPath (Path false [Seg "i32" PaNone]))])])])) = Some (TPath (Path true [Seg "std" PaNone; Seg "pin" PaNone; Seg "Pin" (PaAngle [GaType (TPath (Path false [Seg "Box" (PaAngle [GaType (TDyn true [BTrait false [] (Path false [Seg "Future" (PaAngle [GaAssocType "Output" (TPath (Path false [Seg "i32" PaNone]))])])])])]))])])).
Proof. vm_compute. reflexivity. Qed.

Example unit_deimplify_impl_future_reverse :
  deimplify (Some (TImplTrait [BTrait false [] (Path false [Seg "Send" PaNone]); BTrait false [] (Path false [Seg "Future" (PaAngle [GaAssocType "Output" (TPath (Path false [Seg "i32" PaNone]))])])])) = Some (TPath (Path true [Seg "std" PaNone; Seg "pin" PaNone; Seg "Pin" (PaAngle [GaType (TPath (Path false [Seg "Box" (PaAngle [GaType (TDyn true [BTrait false [] (Path false [Seg "Send" PaNone]); BTrait false [] (Path false [Seg "Future" (PaAngle [GaAssocType "Output" (TPath (Path false [Seg "i32" PaNone]))])])])])]))])])).
Proof. vm_compute. reflexivity. Qed.

Example unit_deimplify_impl_stream :
  deimplify (Some (TImplTrait [BTrait false [] (Path false [Seg "Stream" (PaAngle [GaAssocType "Item" (TPath (Path false [Seg "i32" PaNone]))])])])) = Some (TPath (Path true [Seg "std" PaNone; Seg "pin" PaNone; Seg "Pin" (PaAngle [GaType (TPath (Path false [Seg "Box" (PaAngle [GaType (TDyn true [BTrait false [] (Path false [Seg "Stream" (PaAngle [GaAssocType "Item" (TPath (Path false [Seg "i32" PaNone]))])])])])]))])])).
Proof. vm_compute. reflexivity. Qed.

Example unit_deimplify_impl_trait :
  deimplify (Some (TImplTrait [BTrait false [] (Path false [Seg "Foo" PaNone])])) = Some (TPath (Path false [Seg "Box" (PaAngle [GaType (TDyn true [BTrait false [] (Path false [Seg "Foo" PaNone])])])])).
Proof. vm_compute. reflexivity. Qed.

Example unit_deimplify_impl_trait2 :
  deimplify (Some (TImplTrait [BTrait false [] (Path false [Seg "Foo" PaNone]); BTrait false [] (Path false [Seg "Send" PaNone])])) = Some (TPath (Path false [Seg "Box" (PaAngle [GaType (TDyn true [BTrait false [] (Path false [Seg "Foo" PaNone]); BTrait false [] (Path false [Seg "Send" PaNone])])])])).
Proof. vm_compute. reflexivity. Qed.

(** ** deselfify: mockall_derive/src/lib.rs 1876-1943 *)

Example unit_deselfify_arc :
  tokens (deselfify "Foo" no_generics (TPath (Path false [Seg "Arc" (PaAngle [GaType (TPath (Path false [Seg "Self" PaNone]))])]))) = tokens (TPath (Path false [Seg "Arc" (PaAngle [GaType (TPath (Path false [Seg "Foo" PaNone]))])])).
Proof. vm_compute. reflexivity. Qed.

Example unit_deselfify_future :
  tokens (deselfify "Foo" no_generics (TPath (Path false [Seg "Box" (PaAngle [GaType (TDyn true [BTrait false [] (Path false [Seg "Future" (PaAngle [GaAssocType "Output" (TPath (Path false [Seg "Self" PaNone]))])])])])]))) = tokens (TPath (Path false [Seg "Box" (PaAngle [GaType (TDyn true [BTrait false [] (Path false [Seg "Future" (PaAngle [GaAssocType "Output" (TPath (Path false [Seg "Foo" PaNone]))])])])])])).
Proof. vm_compute. reflexivity. Qed.

Example unit_deselfify_qself :
  tokens (deselfify "Foo" no_generics (TQPath (TPath (Path false [Seg "Self" PaNone])) 1 (Path false [Seg "Self" PaNone; Seg "Self" PaNone]))) = tokens (TQPath (TPath (Path false [Seg "Foo" PaNone])) 1 (Path false [Seg "Foo" PaNone; Seg "Foo" PaNone])).
Proof. vm_compute. reflexivity. Qed.

Example unit_deselfify_trait_object :
  tokens (deselfify "Foo" no_generics (TPath (Path false [Seg "Box" (PaAngle [GaType (TDyn true [BTrait false [] (Path false [Seg "Self" PaNone])])])]))) = tokens (TPath (Path false [Seg "Box" (PaAngle [GaType (TDyn true [BTrait false [] (Path false [Seg "Foo" PaNone])])])])).
Proof. vm_compute. reflexivity. Qed.

Example unit_deselfify_trait_object2 :
  tokens (deselfify "Foo" no_generics (TPath (Path false [Seg "Box" (PaAngle [GaType (TDyn true [BTrait false [] (Path false [Seg "Self" PaNone]); BTrait false [] (Path false [Seg "Send" PaNone])])])]))) = tokens (TPath (Path false [Seg "Box" (PaAngle [GaType (TDyn true [BTrait false [] (Path false [Seg "Foo" PaNone]); BTrait false [] (Path false [Seg "Send" PaNone])])])])).
Proof. vm_compute. reflexivity. Qed.

(** ** dewhereselfify: mockall_derive/src/lib.rs 1945-1983 *)

Example unit_dewhereselfify_lifetime :
  let f := (Signature "foo" (Generics true [GpLifetime "a" []] (Some [WpLifetime "a" ["static"]; WpType None (TPath (Path false [Seg "Self" PaNone])) [BTrait false [] (Path false [Seg "Sized" PaNone])]])) [FaReceiver (Some None) false false (TRef None false (TPath (Path false [Seg "Self" PaNone])))] None None) in with_generics f (dewhereselfify (sg_generics f)) = (Signature "foo" (Generics true [GpLifetime "a" []] (Some [WpLifetime "a" ["static"]])) [FaReceiver (Some None) false false (TRef None false (TPath (Path false [Seg "Self" PaNone])))] None None).
Proof. vm_compute. reflexivity. Qed.

Example unit_dewhereselfify_normal_method :
  let f := (Signature "foo" (Generics false [] (Some [WpType None (TPath (Path false [Seg "Self" PaNone])) [BTrait false [] (Path false [Seg "Sized" PaNone])]])) [FaReceiver (Some None) false false (TRef None false (TPath (Path false [Seg "Self" PaNone])))] None None) in with_generics f (dewhereselfify (sg_generics f)) = (Signature "foo" (Generics false [] None) [FaReceiver (Some None) false false (TRef None false (TPath (Path false [Seg "Self" PaNone])))] None None).
Proof. vm_compute. reflexivity. Qed.

Example unit_dewhereselfify_with_real_generics :
  let f := (Signature "foo" (Generics true [GpType "T" [] None] (Some [WpType None (TPath (Path false [Seg "Self" PaNone])) [BTrait false [] (Path false [Seg "Sized" PaNone])]; WpType None (TPath (Path false [Seg "T" PaNone])) [BTrait false [] (Path false [Seg "Copy" PaNone])]])) [FaReceiver (Some None) false false (TRef None false (TPath (Path false [Seg "Self" PaNone]))); FaTyped (PatIdent false false "t" false) (TPath (Path false [Seg "T" PaNone]))] None None) in with_generics f (dewhereselfify (sg_generics f)) = (Signature "foo" (Generics true [GpType "T" [] None] (Some [WpType None (TPath (Path false [Seg "T" PaNone])) [BTrait false [] (Path false [Seg "Copy" PaNone])]])) [FaReceiver (Some None) false false (TRef None false (TPath (Path false [Seg "Self" PaNone]))); FaTyped (PatIdent false false "t" false) (TPath (Path false [Seg "T" PaNone]))] None None).
Proof. vm_compute. reflexivity. Qed.

(** ** gen_keyid: mockall_derive/src/lib.rs 1985-2008 *)

Example unit_gen_keyid_empty :
  gen_keyid (Generics false [] None) = [GaType (TTuple [])].
Proof. vm_compute. reflexivity. Qed.

Example unit_gen_keyid_onetype :
  gen_keyid (Generics true [GpType "T" [] None] None) = [GaType (TPath (Path false [Seg "T" PaNone]))].
Proof. vm_compute. reflexivity. Qed.

Example unit_gen_keyid_twotypes :
  gen_keyid (Generics true [GpType "T" [] None; GpType "V" [] None] None) = [GaType (TTuple [(TPath (Path false [Seg "T" PaNone])); (TPath (Path false [Seg "V" PaNone]))])].
Proof. vm_compute. reflexivity. Qed.

(** ** merge_generics: mockall_derive/src/lib.rs 2010-2093 *)

Example unit_merge_generics_both :
  merge_generics (Generics true [GpType "T" [BLifetime "static"] None; GpType "V" [BTrait false [] (Path false [Seg "Copy" PaNone])] None] (Some [WpType None (TPath (Path false [Seg "T" PaNone])) [BTrait false [] (Path false [Seg "Default" PaNone])]])) (Generics true [GpType "Q" [BTrait false [] (Path false [Seg "Send" PaNone])] None; GpType "V" [BTrait false [] (Path false [Seg "Clone" PaNone])] None] (Some [WpType None (TPath (Path false [Seg "T" PaNone])) [BTrait false [] (Path false [Seg "Sync" PaNone])]; WpType None (TPath (Path false [Seg "Q" PaNone])) [BTrait false [] (Path false [Seg "Debug" PaNone])]])) = (Generics true [GpType "T" [BLifetime "static"] None; GpType "V" [BTrait false [] (Path false [Seg "Copy" PaNone]); BTrait false [] (Path false [Seg "Clone" PaNone])] None; GpType "Q" [BTrait false [] (Path false [Seg "Send" PaNone])] None] (Some [WpType None (TPath (Path false [Seg "T" PaNone])) [BTrait false [] (Path false [Seg "Default" PaNone]); BTrait false [] (Path false [Seg "Sync" PaNone])]; WpType None (TPath (Path false [Seg "Q" PaNone])) [BTrait false [] (Path false [Seg "Debug" PaNone])]])).
Proof. vm_compute. reflexivity. Qed.

Example unit_merge_generics_eq :
  merge_generics (Generics true [GpType "T" [BLifetime "static"] None; GpType "V" [BTrait false [] (Path false [Seg "Copy" PaNone])] None] (Some [WpType None (TPath (Path false [Seg "T" PaNone])) [BTrait false [] (Path false [Seg "Default" PaNone])]])) (Generics true [GpType "T" [BLifetime "static"] None; GpType "V" [BTrait false [] (Path false [Seg "Copy" PaNone])] None] (Some [WpType None (TPath (Path false [Seg "T" PaNone])) [BTrait false [] (Path false [Seg "Default" PaNone])]])) = (Generics true [GpType "T" [BLifetime "static"] None; GpType "V" [BTrait false [] (Path false [Seg "Copy" PaNone])] None] (Some [WpType None (TPath (Path false [Seg "T" PaNone])) [BTrait false [] (Path false [Seg "Default" PaNone])]])).
Proof. vm_compute. reflexivity. Qed.

Example unit_merge_generics_lhs_only :
  merge_generics (Generics true [GpType "T" [BLifetime "static"] None; GpType "V" [BTrait false [] (Path false [Seg "Copy" PaNone])] None] (Some [WpType None (TPath (Path false [Seg "T" PaNone])) [BTrait false [] (Path false [Seg "Default" PaNone])]])) no_generics = (Generics true [GpType "T" [BLifetime "static"] None; GpType "V" [BTrait false [] (Path false [Seg "Copy" PaNone])] None] (Some [WpType None (TPath (Path false [Seg "T" PaNone])) [BTrait false [] (Path false [Seg "Default" PaNone])]])).
Proof. vm_compute. reflexivity. Qed.

Example unit_merge_generics_lhs_wc_only :
  merge_generics (Generics false [] (Some [WpType None (TPath (Path false [Seg "T" PaNone])) [BTrait false [] (Path false [Seg "Default" PaNone])]])) no_generics = (Generics false [] (Some [WpType None (TPath (Path false [Seg "T" PaNone])) [BTrait false [] (Path false [Seg "Default" PaNone])]])).
Proof. vm_compute. reflexivity. Qed.

Example unit_merge_generics_rhs_only :
  merge_generics no_generics (Generics true [GpType "Q" [BTrait false [] (Path false [Seg "Send" PaNone])] None; GpType "V" [BTrait false [] (Path false [Seg "Clone" PaNone])] None] (Some [WpType None (TPath (Path false [Seg "T" PaNone])) [BTrait false [] (Path false [Seg "Sync" PaNone])]; WpType None (TPath (Path false [Seg "Q" PaNone])) [BTrait false [] (Path false [Seg "Debug" PaNone])]])) = (Generics true [GpType "Q" [BTrait false [] (Path false [Seg "Send" PaNone])] None; GpType "V" [BTrait false [] (Path false [Seg "Clone" PaNone])] None] (Some [WpType None (TPath (Path false [Seg "T" PaNone])) [BTrait false [] (Path false [Seg "Sync" PaNone])]; WpType None (TPath (Path false [Seg "Q" PaNone])) [BTrait false [] (Path false [Seg "Debug" PaNone])]])).
Proof. vm_compute. reflexivity. Qed.

(** ** supersuperfy: mockall_derive/src/lib.rs 2095-2220 *)

Example unit_supersuperfy_array :
  (supersuperfy_error (TArray (TPath (Path false [Seg "super" PaNone; Seg "X" PaNone])) "n"), supersuperfy 1 (TArray (TPath (Path false [Seg "super" PaNone; Seg "X" PaNone])) "n")) = (false, (TArray (TPath (Path false [Seg "super" PaNone; Seg "super" PaNone; Seg "X" PaNone])) "n")).
Proof. vm_compute. reflexivity. Qed.

Example unit_supersuperfy_barefn :
  (supersuperfy_error (TBareFn "" [] [(TPath (Path false [Seg "super" PaNone; Seg "A" PaNone]))] (Some (TPath (Path false [Seg "super" PaNone; Seg "B" PaNone])))), supersuperfy 1 (TBareFn "" [] [(TPath (Path false [Seg "super" PaNone; Seg "A" PaNone]))] (Some (TPath (Path false [Seg "super" PaNone; Seg "B" PaNone]))))) = (false, (TBareFn "" [] [(TPath (Path false [Seg "super" PaNone; Seg "super" PaNone; Seg "A" PaNone]))] (Some (TPath (Path false [Seg "super" PaNone; Seg "super" PaNone; Seg "B" PaNone]))))).
Proof. vm_compute. reflexivity. Qed.

Example unit_supersuperfy_infer :
  (supersuperfy_error TInfer, supersuperfy 1 TInfer) = (false, TInfer).
Proof. vm_compute. reflexivity. Qed.

Example unit_supersuperfy_never :
  (supersuperfy_error TNever, supersuperfy 1 TNever) = (false, TNever).
Proof. vm_compute. reflexivity. Qed.

Example unit_supersuperfy_paren :
  (supersuperfy_error (TParen (TPath (Path false [Seg "super" PaNone; Seg "X" PaNone]))), supersuperfy 1 (TParen (TPath (Path false [Seg "super" PaNone; Seg "X" PaNone])))) = (false, (TParen (TPath (Path false [Seg "super" PaNone; Seg "super" PaNone; Seg "X" PaNone])))).
Proof. vm_compute. reflexivity. Qed.

Example unit_supersuperfy_path :
  (supersuperfy_error (TPath (Path true [Seg "super" PaNone; Seg "SuperT" (PaAngle [GaType (TPath (Path false [Seg "u32" PaNone]))])])), supersuperfy 1 (TPath (Path true [Seg "super" PaNone; Seg "SuperT" (PaAngle [GaType (TPath (Path false [Seg "u32" PaNone]))])]))) = (false, (TPath (Path true [Seg "super" PaNone; Seg "super" PaNone; Seg "SuperT" (PaAngle [GaType (TPath (Path false [Seg "u32" PaNone]))])]))).
Proof. vm_compute. reflexivity. Qed.

Example unit_supersuperfy_path_with_qself :
  (supersuperfy_error (TQPath (TPath (Path false [Seg "super" PaNone; Seg "X" PaNone])) 2 (Path false [Seg "super" PaNone; Seg "Y" PaNone; Seg "Foo" (PaAngle [GaType (TPath (Path false [Seg "u32" PaNone]))])])), supersuperfy 1 (TQPath (TPath (Path false [Seg "super" PaNone; Seg "X" PaNone])) 2 (Path false [Seg "super" PaNone; Seg "Y" PaNone; Seg "Foo" (PaAngle [GaType (TPath (Path false [Seg "u32" PaNone]))])]))) = (false, (TQPath (TPath (Path false [Seg "super" PaNone; Seg "super" PaNone; Seg "X" PaNone])) 3 (Path false [Seg "super" PaNone; Seg "super" PaNone; Seg "Y" PaNone; Seg "Foo" (PaAngle [GaType (TPath (Path false [Seg "u32" PaNone]))])]))).
Proof. vm_compute. reflexivity. Qed.

Example unit_supersuperfy_angle_bracketed_generic_arguments :
  (supersuperfy_error (TPath (Path false [Seg "mod_" PaNone; Seg "T" (PaAngle [GaType (TPath (Path false [Seg "super" PaNone; Seg "X" PaNone]))])])), supersuperfy 1 (TPath (Path false [Seg "mod_" PaNone; Seg "T" (PaAngle [GaType (TPath (Path false [Seg "super" PaNone; Seg "X" PaNone]))])]))) = (false, (TPath (Path false [Seg "mod_" PaNone; Seg "T" (PaAngle [GaType (TPath (Path false [Seg "super" PaNone; Seg "super" PaNone; Seg "X" PaNone]))])]))).
Proof. vm_compute. reflexivity. Qed.

Example unit_supersuperfy_ptr :
  (supersuperfy_error (TPtr false (TPath (Path false [Seg "super" PaNone; Seg "X" PaNone]))), supersuperfy 1 (TPtr false (TPath (Path false [Seg "super" PaNone; Seg "X" PaNone])))) = (false, (TPtr false (TPath (Path false [Seg "super" PaNone; Seg "super" PaNone; Seg "X" PaNone])))).
Proof. vm_compute. reflexivity. Qed.

Example unit_supersuperfy_reference :
  (supersuperfy_error (TRef (Some "a") true (TPath (Path false [Seg "super" PaNone; Seg "X" PaNone]))), supersuperfy 1 (TRef (Some "a") true (TPath (Path false [Seg "super" PaNone; Seg "X" PaNone])))) = (false, (TRef (Some "a") true (TPath (Path false [Seg "super" PaNone; Seg "super" PaNone; Seg "X" PaNone])))).
Proof. vm_compute. reflexivity. Qed.

Example unit_supersuperfy_slice :
  (supersuperfy_error (TSlice (TPath (Path false [Seg "super" PaNone; Seg "X" PaNone]))), supersuperfy 1 (TSlice (TPath (Path false [Seg "super" PaNone; Seg "X" PaNone])))) = (false, (TSlice (TPath (Path false [Seg "super" PaNone; Seg "super" PaNone; Seg "X" PaNone])))).
Proof. vm_compute. reflexivity. Qed.

Example unit_supersuperfy_trait_object :
  (supersuperfy_error (TDyn true [BTrait false [] (Path false [Seg "super" PaNone; Seg "X" PaNone]); BTrait false [] (Path false [Seg "super" PaNone; Seg "Y" PaNone])]), supersuperfy 1 (TDyn true [BTrait false [] (Path false [Seg "super" PaNone; Seg "X" PaNone]); BTrait false [] (Path false [Seg "super" PaNone; Seg "Y" PaNone])])) = (false, (TDyn true [BTrait false [] (Path false [Seg "super" PaNone; Seg "super" PaNone; Seg "X" PaNone]); BTrait false [] (Path false [Seg "super" PaNone; Seg "super" PaNone; Seg "Y" PaNone])])).
Proof. vm_compute. reflexivity. Qed.

Example unit_supersuperfy_tuple :
  (supersuperfy_error (TTuple [(TPath (Path false [Seg "super" PaNone; Seg "A" PaNone])); (TPath (Path false [Seg "super" PaNone; Seg "B" PaNone]))]), supersuperfy 1 (TTuple [(TPath (Path false [Seg "super" PaNone; Seg "A" PaNone])); (TPath (Path false [Seg "super" PaNone; Seg "B" PaNone]))])) = (false, (TTuple [(TPath (Path false [Seg "super" PaNone; Seg "super" PaNone; Seg "A" PaNone])); (TPath (Path false [Seg "super" PaNone; Seg "super" PaNone; Seg "B" PaNone]))])).
Proof. vm_compute. reflexivity. Qed.

Example unit_supersuperfy_group :
  supersuperfy 1 (TGroup (TPath (Path false [Seg "super" PaNone; Seg "T" PaNone]))) = TGroup (TPath (Path false [Seg "super" PaNone; Seg "super" PaNone; Seg "T" PaNone])).
Proof. vm_compute. reflexivity. Qed.

(** ** supersuperfy_generics: mockall_derive/src/lib.rs 2222-2299 *)

Example unit_supersuperfy_generics_default :
  supersuperfy_generics 1 (Generics true [GpType "T" [BTrait false [] (Path false [Seg "X" PaNone])] (Some (TPath (Path false [Seg "super" PaNone; Seg "Y" PaNone])))] None) = (Generics true [GpType "T" [BTrait false [] (Path false [Seg "X" PaNone])] (Some (TPath (Path false [Seg "super" PaNone; Seg "super" PaNone; Seg "Y" PaNone])))] None).
Proof. vm_compute. reflexivity. Qed.

Example unit_supersuperfy_generics_empty :
  supersuperfy_generics 1 (Generics false [] None) = (Generics false [] None).
Proof. vm_compute. reflexivity. Qed.

Example unit_supersuperfy_generics_everything :
  supersuperfy_generics 1 (Generics true [GpType "T" [BTrait false [] (Path false [Seg "super" PaNone; Seg "A" PaNone])] (Some (TPath (Path false [Seg "super" PaNone; Seg "B" PaNone])))] (Some [WpType None (TPath (Path false [Seg "super" PaNone; Seg "C" PaNone])) [BTrait false [] (Path false [Seg "super" PaNone; Seg "D" PaNone])]])) = (Generics true [GpType "T" [BTrait false [] (Path false [Seg "super" PaNone; Seg "super" PaNone; Seg "A" PaNone])] (Some (TPath (Path false [Seg "super" PaNone; Seg "super" PaNone; Seg "B" PaNone])))] (Some [WpType None (TPath (Path false [Seg "super" PaNone; Seg "super" PaNone; Seg "C" PaNone])) [BTrait false [] (Path false [Seg "super" PaNone; Seg "super" PaNone; Seg "D" PaNone])]])).
Proof. vm_compute. reflexivity. Qed.

Example unit_supersuperfy_generics_bound :
  supersuperfy_generics 1 (Generics true [GpType "T" [BTrait false [] (Path false [Seg "super" PaNone; Seg "A" PaNone])] None] None) = (Generics true [GpType "T" [BTrait false [] (Path false [Seg "super" PaNone; Seg "super" PaNone; Seg "A" PaNone])] None] None).
Proof. vm_compute. reflexivity. Qed.

Example unit_supersuperfy_generics_closure :
  supersuperfy_generics 1 (Generics true [GpType "F" [BTrait false [] (Path false [Seg "Fn" (PaParen [(TPath (Path false [Seg "u32" PaNone]))] (Some (TPath (Path false [Seg "super" PaNone; Seg "SuperT" PaNone]))))])] None] None) = (Generics true [GpType "F" [BTrait false [] (Path false [Seg "Fn" (PaParen [(TPath (Path false [Seg "u32" PaNone]))] (Some (TPath (Path false [Seg "super" PaNone; Seg "super" PaNone; Seg "SuperT" PaNone]))))])] None] None).
Proof. vm_compute. reflexivity. Qed.

Example unit_supersuperfy_generics_wc_bounded_ty :
  supersuperfy_generics 1 (Generics false [] (Some [WpType None (TPath (Path false [Seg "super" PaNone; Seg "T" PaNone])) [BTrait false [] (Path false [Seg "X" PaNone])]])) = (Generics false [] (Some [WpType None (TPath (Path false [Seg "super" PaNone; Seg "super" PaNone; Seg "T" PaNone])) [BTrait false [] (Path false [Seg "X" PaNone])]])).
Proof. vm_compute. reflexivity. Qed.

Example unit_supersuperfy_generics_wc_bounds :
  supersuperfy_generics 1 (Generics false [] (Some [WpType None (TPath (Path false [Seg "T" PaNone])) [BTrait false [] (Path false [Seg "super" PaNone; Seg "X" PaNone])]])) = (Generics false [] (Some [WpType None (TPath (Path false [Seg "T" PaNone])) [BTrait false [] (Path false [Seg "super" PaNone; Seg "super" PaNone; Seg "X" PaNone])]])).
Proof. vm_compute. reflexivity. Qed.

(** ** substitute_type: mockall_derive/src/automock.rs 276-319 *)

Example unit_substitute_type_qself :
  (substitute_error [("T", (TPath (Path false [Seg "u32" PaNone])))] "Foo" (TQPath (TPath (Path false [Seg "Self" PaNone])) 1 (Path false [Seg "Foo" PaNone; Seg "T" PaNone])), substitute_type [("T", (TPath (Path false [Seg "u32" PaNone])))] "Foo" (TQPath (TPath (Path false [Seg "Self" PaNone])) 1 (Path false [Seg "Foo" PaNone; Seg "T" PaNone]))) = (false, (TPath (Path false [Seg "u32" PaNone]))).
Proof. vm_compute. reflexivity. Qed.

Example unit_substitute_type_qself_other :
  substitute_error [("T", (TPath (Path false [Seg "u32" PaNone])))] "Foo" (TQPath (TPath (Path false [Seg "Self" PaNone])) 1 (Path false [Seg "AsRef" PaNone; Seg "T" PaNone])) = true.
Proof. vm_compute. reflexivity. Qed.

Example unit_substitute_type_unknown_substitution :
  substitute_error [("T", (TPath (Path false [Seg "u32" PaNone])))] "Foo" (TQPath (TPath (Path false [Seg "Self" PaNone])) 1 (Path false [Seg "Foo" PaNone; Seg "Q" PaNone])) = true.
Proof. vm_compute. reflexivity. Qed.

(** ** add_lifetime_parameters: mockall_derive/src/mockable_struct.rs 540-656 *)

Example unit_add_lifetime_parameters_array :
  (add_lifetime_parameters_error (Signature "foo" (Generics false [] None) [FaReceiver (Some None) false false (TRef None false (TPath (Path false [Seg "Self" PaNone]))); FaTyped (PatIdent false false "x" false) (TArray (TRef None false (TDyn true [BTrait false [] (Path false [Seg "T" PaNone])])) "1")] None None), add_lifetime_parameters (Signature "foo" (Generics false [] None) [FaReceiver (Some None) false false (TRef None false (TPath (Path false [Seg "Self" PaNone]))); FaTyped (PatIdent false false "x" false) (TArray (TRef None false (TDyn true [BTrait false [] (Path false [Seg "T" PaNone])])) "1")] None None)) = (false, (Signature "foo" (Generics true [GpLifetime "__mockall_x" []] None) [FaReceiver (Some None) false false (TRef None false (TPath (Path false [Seg "Self" PaNone]))); FaTyped (PatIdent false false "x" false) (TArray (TRef None false (TParen (TDyn true [BTrait false [] (Path false [Seg "T" PaNone]); BLifetime "__mockall_x"]))) "1")] None None)).
Proof. vm_compute. reflexivity. Qed.

Example unit_add_lifetime_parameters_bare_fn_with_named_args :
  (add_lifetime_parameters_error (Signature "foo" (Generics false [] None) [FaReceiver (Some None) false false (TRef None false (TPath (Path false [Seg "Self" PaNone]))); FaTyped (PatIdent false false "x" false) (TBareFn "" [] [(TRef None false (TDyn true [BTrait false [] (Path false [Seg "T" PaNone])]))] None)] None None), add_lifetime_parameters (Signature "foo" (Generics false [] None) [FaReceiver (Some None) false false (TRef None false (TPath (Path false [Seg "Self" PaNone]))); FaTyped (PatIdent false false "x" false) (TBareFn "" [] [(TRef None false (TDyn true [BTrait false [] (Path false [Seg "T" PaNone])]))] None)] None None)) = (false, (Signature "foo" (Generics false [] None) [FaReceiver (Some None) false false (TRef None false (TPath (Path false [Seg "Self" PaNone]))); FaTyped (PatIdent false false "x" false) (TBareFn "" [] [(TRef None false (TDyn true [BTrait false [] (Path false [Seg "T" PaNone])]))] None)] None None)).
Proof. vm_compute. reflexivity. Qed.

Example unit_add_lifetime_parameters_plain :
  (add_lifetime_parameters_error (Signature "foo" (Generics false [] None) [FaReceiver (Some None) false false (TRef None false (TPath (Path false [Seg "Self" PaNone]))); FaTyped (PatIdent false false "x" false) (TRef None false (TDyn true [BTrait false [] (Path false [Seg "T" PaNone])]))] None None), add_lifetime_parameters (Signature "foo" (Generics false [] None) [FaReceiver (Some None) false false (TRef None false (TPath (Path false [Seg "Self" PaNone]))); FaTyped (PatIdent false false "x" false) (TRef None false (TDyn true [BTrait false [] (Path false [Seg "T" PaNone])]))] None None)) = (false, (Signature "foo" (Generics true [GpLifetime "__mockall_x" []] None) [FaReceiver (Some None) false false (TRef None false (TPath (Path false [Seg "Self" PaNone]))); FaTyped (PatIdent false false "x" false) (TRef None false (TParen (TDyn true [BTrait false [] (Path false [Seg "T" PaNone]); BLifetime "__mockall_x"])))] None None)).
Proof. vm_compute. reflexivity. Qed.

Example unit_add_lifetime_parameters_slice :
  (add_lifetime_parameters_error (Signature "foo" (Generics false [] None) [FaReceiver (Some None) false false (TRef None false (TPath (Path false [Seg "Self" PaNone]))); FaTyped (PatIdent false false "x" false) (TRef None false (TSlice (TRef None false (TDyn true [BTrait false [] (Path false [Seg "T" PaNone])]))))] None None), add_lifetime_parameters (Signature "foo" (Generics false [] None) [FaReceiver (Some None) false false (TRef None false (TPath (Path false [Seg "Self" PaNone]))); FaTyped (PatIdent false false "x" false) (TRef None false (TSlice (TRef None false (TDyn true [BTrait false [] (Path false [Seg "T" PaNone])]))))] None None)) = (false, (Signature "foo" (Generics true [GpLifetime "__mockall_x" []] None) [FaReceiver (Some None) false false (TRef None false (TPath (Path false [Seg "Self" PaNone]))); FaTyped (PatIdent false false "x" false) (TRef None false (TSlice (TRef None false (TParen (TDyn true [BTrait false [] (Path false [Seg "T" PaNone]); BLifetime "__mockall_x"])))))] None None)).
Proof. vm_compute. reflexivity. Qed.

Example unit_add_lifetime_parameters_tuple :
  (add_lifetime_parameters_error (Signature "foo" (Generics false [] None) [FaReceiver (Some None) false false (TRef None false (TPath (Path false [Seg "Self" PaNone]))); FaTyped (PatIdent false false "x" false) (TTuple [(TRef None false (TDyn true [BTrait false [] (Path false [Seg "T" PaNone])])); (TPath (Path false [Seg "u32" PaNone]))])] None None), add_lifetime_parameters (Signature "foo" (Generics false [] None) [FaReceiver (Some None) false false (TRef None false (TPath (Path false [Seg "Self" PaNone]))); FaTyped (PatIdent false false "x" false) (TTuple [(TRef None false (TDyn true [BTrait false [] (Path false [Seg "T" PaNone])])); (TPath (Path false [Seg "u32" PaNone]))])] None None)) = (false, (Signature "foo" (Generics true [GpLifetime "__mockall_x" []] None) [FaReceiver (Some None) false false (TRef None false (TPath (Path false [Seg "Self" PaNone]))); FaTyped (PatIdent false false "x" false) (TTuple [(TRef None false (TParen (TDyn true [BTrait false [] (Path false [Seg "T" PaNone]); BLifetime "__mockall_x"]))); (TPath (Path false [Seg "u32" PaNone]))])] None None)).
Proof. vm_compute. reflexivity. Qed.

Example unit_add_lifetime_parameters_with_anonymous_lifetime :
  (add_lifetime_parameters_error (Signature "foo" (Generics false [] None) [FaReceiver (Some None) false false (TRef None false (TPath (Path false [Seg "Self" PaNone]))); FaTyped (PatIdent false false "x" false) (TRef None false (TParen (TDyn true [BTrait false [] (Path false [Seg "T" PaNone]); BLifetime "_"])))] None None), add_lifetime_parameters (Signature "foo" (Generics false [] None) [FaReceiver (Some None) false false (TRef None false (TPath (Path false [Seg "Self" PaNone]))); FaTyped (PatIdent false false "x" false) (TRef None false (TParen (TDyn true [BTrait false [] (Path false [Seg "T" PaNone]); BLifetime "_"])))] None None)) = (false, (Signature "foo" (Generics false [] None) [FaReceiver (Some None) false false (TRef None false (TPath (Path false [Seg "Self" PaNone]))); FaTyped (PatIdent false false "x" false) (TRef None false (TParen (TDyn true [BTrait false [] (Path false [Seg "T" PaNone]); BLifetime "_"])))] None None)).
Proof. vm_compute. reflexivity. Qed.

Example unit_add_lifetime_parameters_with_parens :
  (add_lifetime_parameters_error (Signature "foo" (Generics false [] None) [FaReceiver (Some None) false false (TRef None false (TPath (Path false [Seg "Self" PaNone]))); FaTyped (PatIdent false false "x" false) (TRef None false (TParen (TDyn true [BTrait false [] (Path false [Seg "T" PaNone])])))] None None), add_lifetime_parameters (Signature "foo" (Generics false [] None) [FaReceiver (Some None) false false (TRef None false (TPath (Path false [Seg "Self" PaNone]))); FaTyped (PatIdent false false "x" false) (TRef None false (TParen (TDyn true [BTrait false [] (Path false [Seg "T" PaNone])])))] None None)) = (false, (Signature "foo" (Generics true [GpLifetime "__mockall_x" []] None) [FaReceiver (Some None) false false (TRef None false (TPath (Path false [Seg "Self" PaNone]))); FaTyped (PatIdent false false "x" false) (TRef None false (TParen (TDyn true [BTrait false [] (Path false [Seg "T" PaNone]); BLifetime "__mockall_x"])))] None None)).
Proof. vm_compute. reflexivity. Qed.

Example unit_add_lifetime_parameters_with_lifetime_parameter :
  (add_lifetime_parameters_error (Signature "foo" (Generics true [GpLifetime "a" []] None) [FaReceiver (Some None) false false (TRef None false (TPath (Path false [Seg "Self" PaNone]))); FaTyped (PatIdent false false "x" false) (TRef None false (TParen (TDyn true [BTrait false [] (Path false [Seg "T" PaNone]); BLifetime "a"])))] None None), add_lifetime_parameters (Signature "foo" (Generics true [GpLifetime "a" []] None) [FaReceiver (Some None) false false (TRef None false (TPath (Path false [Seg "Self" PaNone]))); FaTyped (PatIdent false false "x" false) (TRef None false (TParen (TDyn true [BTrait false [] (Path false [Seg "T" PaNone]); BLifetime "a"])))] None None)) = (false, (Signature "foo" (Generics true [GpLifetime "a" []] None) [FaReceiver (Some None) false false (TRef None false (TPath (Path false [Seg "Self" PaNone]))); FaTyped (PatIdent false false "x" false) (TRef None false (TParen (TDyn true [BTrait false [] (Path false [Seg "T" PaNone]); BLifetime "a"])))] None None)).
Proof. vm_compute. reflexivity. Qed.

Example unit_add_lifetime_parameters_with_static_lifetime :
  (add_lifetime_parameters_error (Signature "foo" (Generics false [] None) [FaReceiver (Some None) false false (TRef None false (TPath (Path false [Seg "Self" PaNone]))); FaTyped (PatIdent false false "x" false) (TRef None false (TParen (TDyn true [BTrait false [] (Path false [Seg "T" PaNone]); BLifetime "static"])))] None None), add_lifetime_parameters (Signature "foo" (Generics false [] None) [FaReceiver (Some None) false false (TRef None false (TPath (Path false [Seg "Self" PaNone]))); FaTyped (PatIdent false false "x" false) (TRef None false (TParen (TDyn true [BTrait false [] (Path false [Seg "T" PaNone]); BLifetime "static"])))] None None)) = (false, (Signature "foo" (Generics false [] None) [FaReceiver (Some None) false false (TRef None false (TPath (Path false [Seg "Self" PaNone]))); FaTyped (PatIdent false false "x" false) (TRef None false (TParen (TDyn true [BTrait false [] (Path false [Seg "T" PaNone]); BLifetime "static"])))] None None)).
Proof. vm_compute. reflexivity. Qed.

(** ** sanity_check_sig: mockall_derive/src/mockable_struct.rs 658-670 *)

Example unit_sanity_check_sig_impl_trait :
  sanity_check_error (Signature "foo" (Generics false [] None) [FaReceiver (Some None) false false (TRef None false (TPath (Path false [Seg "Self" PaNone]))); FaTyped (PatIdent false false "x" false) (TImplTrait [BTrait false [] (Path false [Seg "SomeTrait" PaNone])])] None None) = true.
Proof. vm_compute. reflexivity. Qed.

(** ** double: mockall_double/src/lib.rs 228-348 *)

Example unit_double_group :
  (mock_item_error (DUse (UPath "foo" (UPath "bar" (UGroup [(UName "Baz"); (UName "Bean")])))), do_double (fun _ => false) (DUse (UPath "foo" (UPath "bar" (UGroup [(UName "Baz"); (UName "Bean")]))))) = (false, (DUse (UPath "foo" (UPath "bar" (UGroup [(UName "Baz"); (UName "Bean")]))), DUse (UPath "foo" (UPath "bar" (UGroup [(URename "MockBaz" "Baz"); (URename "MockBean" "Bean")]))))).
Proof. vm_compute. reflexivity. Qed.

Example unit_double_module :
  (mock_item_error (DUse (UPath "foo" (UName "bar"))), do_double (fun _ => false) (DUse (UPath "foo" (UName "bar")))) = (false, (DUse (UPath "foo" (UName "bar")), DUse (UPath "foo" (URename "mock_bar" "bar")))).
Proof. vm_compute. reflexivity. Qed.

Example unit_double_path :
  (mock_item_error (DUse (UPath "foo" (UPath "bar" (UName "Baz")))), do_double (fun _ => false) (DUse (UPath "foo" (UPath "bar" (UName "Baz"))))) = (false, (DUse (UPath "foo" (UPath "bar" (UName "Baz"))), DUse (UPath "foo" (UPath "bar" (URename "MockBaz" "Baz"))))).
Proof. vm_compute. reflexivity. Qed.

Example unit_double_rename :
  (mock_item_error (DUse (URename "Foo" "Bar")), do_double (fun _ => false) (DUse (URename "Foo" "Bar"))) = (false, (DUse (URename "Foo" "Bar"), DUse (URename "MockFoo" "Bar"))).
Proof. vm_compute. reflexivity. Qed.

Example unit_double_glob :
  mock_item_error (DUse (UPath "foo" UGlob)) = true.
Proof. vm_compute. reflexivity. Qed.

Example unit_double_name :
  mock_item_error (DUse (UName "Foo")) = true.
Proof. vm_compute. reflexivity. Qed.

Example unit_double_type_ :
  (mock_item_error (DType "Foo" no_generics (TPath (Path false [Seg "bar" PaNone; Seg "Baz" PaNone]))), do_double (fun _ => false) (DType "Foo" no_generics (TPath (Path false [Seg "bar" PaNone; Seg "Baz" PaNone])))) = (false, ((DType "Foo" no_generics (TPath (Path false [Seg "bar" PaNone; Seg "Baz" PaNone]))), (DType "Foo" no_generics (TPath (Path false [Seg "bar" PaNone; Seg "MockBaz" PaNone]))))).
Proof. vm_compute. reflexivity. Qed.

Example unit_double_undoubleable :
  mock_item_error (DOther "struct Foo { }") = true.
Proof. vm_compute. reflexivity. Qed.
