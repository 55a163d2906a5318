(** * RepoDecls: the declarations of mocks in mockall's own tests and documentation

    Written by tools/repo_tests.py from mockall/tests, mockall/examples, README.md and the
    documentation in mockall/src/lib.rs; all of them compile.  Bodies of functions are left
    out.  Each entry is the file and the line, the declarations, and the names of mocks, of
    their modules and of their [expect_] and [context] functions that the same text uses. *)

From Coq Require Import List Bool String NArith.
From Verif Require Import Ast Derive Sig Item RepoChecks.
Import ListNotations.
Open Scope string_scope.
Open Scope list_scope.

Definition repo_decls : list entry := [
(* mockall/examples/ffi.rs 1 *)
 Entry "mockall/examples/ffi.rs" 1
  [DMod VPublic "mockable_ffi" (Some [ItForeign (Some "C") [FiFn (FnItem [] VPublic (Signature "abs" (Generics false [] None) [FaTyped (PatIdent false false "i" false) (TPath (Path false [Seg "i32" PaNone]))] (Some (TPath (Path false [Seg "i32" PaNone]))) None)) false]])]
  ["abs_context"];
(* mockall/examples/serde.rs 1 *)
 Entry "mockall/examples/serde.rs" 1
  [DMock (MockDecl [] VPublic "Thing" (Generics false [] None) [] [(FnItem [] VInherited (Signature "private_deserialize" (Generics false [] None) [FaTyped (PatIdent false false "deserializable" false) (TPath (Path false [Seg "Result" (PaAngle [GaType (TPath (Path false [Seg "SurrogateThing" PaNone])); GaType (TTuple [])])]))] (Some (TPath (Path false [Seg "Self" PaNone]))) None)); (FnItem [] VInherited (Signature "private_serialize" (Generics false [] None) [FaReceiver (Some None) false false (TRef None false (TPath (Path false [Seg "Self" PaNone])))] (Some (TPath (Path false [Seg "SurrogateThing" PaNone]))) None))] [])]
  ["MockThing"; "expect_private_serialize"; "private_deserialize_context"];
(* mockall/examples/synchronization.rs 1 *)
 Entry "mockall/examples/synchronization.rs" 1
  [DImpl (ItemImpl [] false (Generics false [] None) None (TPath (Path false [Seg "Thing" PaNone])) [IiFn (FnItem [] VPublic (Signature "one" (Generics false [] None) [] (Some (TPath (Path false [Seg "u32" PaNone]))) None))])]
  ["MockThing"; "one_context"];
(* mockall/tests/anyhow.rs 1 *)
 Entry "mockall/tests/anyhow.rs" 1
  [DTrait [] (ItemTrait [] VPublic false "Foo" (Generics false [] None) [TiFn [] (Signature "foo" (Generics false [] None) [FaReceiver (Some None) false false (TRef None false (TPath (Path false [Seg "Self" PaNone])))] (Some (TPath (Path false [Seg "Result" (PaAngle [GaType (TTuple []); GaType (TPath (Path false [Seg "Error" PaNone]))])]))) None); TiFn [] (Signature "reffoo" (Generics false [] None) [FaReceiver (Some None) false false (TRef None false (TPath (Path false [Seg "Self" PaNone])))] (Some (TRef None false (TPath (Path false [Seg "Result" (PaAngle [GaType (TTuple []); GaType (TPath (Path false [Seg "Error" PaNone]))])])))) None); TiFn [] (Signature "refmutfoo" (Generics false [] None) [FaReceiver (Some None) true false (TRef None true (TPath (Path false [Seg "Self" PaNone])))] (Some (TRef None true (TPath (Path false [Seg "Result" (PaAngle [GaType (TTuple []); GaType (TPath (Path false [Seg "Error" PaNone]))])])))) None); TiFn [] (Signature "staticfoo" (Generics false [] None) [] (Some (TPath (Path false [Seg "Result" (PaAngle [GaType (TTuple []); GaType (TPath (Path false [Seg "Error" PaNone]))])]))) None)])]
  ["MockFoo"; "expect_foo"; "expect_reffoo"; "expect_refmutfoo"];
(* mockall/tests/auto_enum.rs 1 *)
 Entry "mockall/tests/auto_enum.rs" 1
  [DImpl (ItemImpl [] false (Generics false [] None) None (TPath (Path false [Seg "Foo" PaNone])) [IiFn (FnItem [Attribute (Path false [Seg "auto_enum" PaNone]) (Some "Future") ""] VPublic (Signature "sign" (Generics false [] None) [FaReceiver (Some None) false false (TRef None false (TPath (Path false [Seg "Self" PaNone]))); FaTyped (PatIdent false false "x" false) (TPath (Path false [Seg "i32" PaNone]))] (Some (TImplTrait [BTrait false [] (Path false [Seg "Future" (PaAngle [GaAssocType "Output" (TPath (Path false [Seg "i32" PaNone]))])])])) None))])]
  ["MockFoo"; "expect_sign"];
(* mockall/tests/automock_associated_const.rs 1 *)
 Entry "mockall/tests/automock_associated_const.rs" 1
  [DImpl (ItemImpl [] false (Generics false [] None) (Some (false, (Path false [Seg "Foo" PaNone]))) (TPath (Path false [Seg "Bar" PaNone])) [IiConst "X" "i32 = 42"]);
   DImpl (ItemImpl [] false (Generics false [] None) None (TPath (Path false [Seg "Baz" PaNone])) [IiConst "Y" "i32 = 69"])]
  ["MockBar"; "MockBaz"];
(* mockall/tests/automock_associated_type_constructor.rs 1 *)
 Entry "mockall/tests/automock_associated_type_constructor.rs" 1
  [DImpl (ItemImpl [] false (Generics false [] None) None (TPath (Path false [Seg "Foo" PaNone])) [IiFn (FnItem [] VPublic (Signature "open" (Generics false [] None) [] (Some (TImplTrait [BTrait false [] (Path false [Seg "MyIterator" (PaAngle [GaAssocType "Item" (TPath (Path false [Seg "Self" PaNone]))])])])) None))])]
  ["MockFoo"; "open_context"];
(* mockall/tests/automock_associated_types.rs 1 *)
 Entry "mockall/tests/automock_associated_types.rs" 1
  [DTrait [("T", (Some (TPath (Path false [Seg "u32" PaNone]))))] (ItemTrait [] VInherited false "A" (Generics false [] None) [TiType "T" [BTrait false [] (Path false [Seg "Clone" PaNone])] None; TiFn [] (Signature "foo" (Generics false [] None) [FaReceiver (Some None) false false (TRef None false (TPath (Path false [Seg "Self" PaNone]))); FaTyped (PatIdent false false "x" false) (TPath (Path false [Seg "Self" PaNone; Seg "T" PaNone]))] (Some (TPath (Path false [Seg "Self" PaNone; Seg "T" PaNone]))) None)])]
  ["MockA"; "expect_foo"];
(* mockall/tests/automock_associated_types_with_qself.rs 1 *)
 Entry "mockall/tests/automock_associated_types_with_qself.rs" 1
  [DTrait [("T", (Some (TPath (Path false [Seg "u32" PaNone]))))] (ItemTrait [] VInherited false "A" (Generics false [] None) [TiType "T" [BTrait false [] (Path false [Seg "Clone" PaNone])] None; TiFn [] (Signature "baz" (Generics false [] None) [FaReceiver (Some None) false false (TRef None false (TPath (Path false [Seg "Self" PaNone])))] (Some (TPath (Path false [Seg "Box" (PaAngle [GaType (TDyn true [BTrait false [] (Path false [Seg "SomeTrait" (PaAngle [GaType (TQPath (TPath (Path false [Seg "Self" PaNone])) 1 (Path false [Seg "A" PaNone; Seg "T" PaNone]))])])])])]))) None)])]
  ["MockA"; "expect_baz"];
(* mockall/tests/automock_async_trait.rs 1 *)
 Entry "mockall/tests/automock_async_trait.rs" 1
  [DTrait [] (ItemTrait [Attribute (Path false [Seg "async_trait" PaNone]) None ""] VPublic false "Foo" (Generics false [] None) [TiFn [] (Signature "foo" (Generics false [] None) [FaReceiver (Some None) false false (TRef None false (TPath (Path false [Seg "Self" PaNone])))] (Some (TPath (Path false [Seg "u32" PaNone]))) None); TiFn [] (Signature "bar" (Generics false [] None) [] (Some (TPath (Path false [Seg "u32" PaNone]))) None)])]
  ["MockFoo"; "expect_foo"; "bar_context"];
(* mockall/tests/automock_attrs.rs 1 *)
 Entry "mockall/tests/automock_attrs.rs" 1
  [DMod VPublic "m" (Some [ItFn (FnItem [Attribute (Path false [Seg "cfg" PaNone]) (Some "target_os = ""multics""") ""] VPublic (Signature "bloob" (Generics false [] None) [FaTyped (PatIdent false false "x" false) (TPath (Path false [Seg "DoesNotExist" PaNone]))] (Some (TPath (Path false [Seg "i64" PaNone]))) None)) false; ItFn (FnItem [Attribute (Path false [Seg "cfg" PaNone]) (Some "not ( target_os = ""multics"" )") ""] VPublic (Signature "blarg" (Generics false [] None) [FaTyped (PatIdent false false "_x" false) (TPath (Path false [Seg "i32" PaNone]))] (Some (TPath (Path false [Seg "i64" PaNone]))) None)) false]);
   DImpl (ItemImpl [] false (Generics false [] None) None (TPath (Path false [Seg "A" PaNone])) [IiFn (FnItem [Attribute (Path false [Seg "cfg" PaNone]) (Some "target_os = ""multics""") ""] VPublic (Signature "foo" (Generics false [] None) [FaReceiver (Some None) false false (TRef None false (TPath (Path false [Seg "Self" PaNone]))); FaTyped (PatIdent false false "x" false) (TPath (Path false [Seg "DoesNotExist" PaNone]))] None None)); IiFn (FnItem [Attribute (Path false [Seg "cfg" PaNone]) (Some "not ( target_os = ""multics"" )") ""] VPublic (Signature "bar" (Generics false [] None) [FaReceiver (Some None) false false (TRef None false (TPath (Path false [Seg "Self" PaNone]))); FaTyped (PatIdent false false "_x" false) (TPath (Path false [Seg "i32" PaNone]))] (Some (TPath (Path false [Seg "i32" PaNone]))) None))]);
   DMod VPublic "ffi" (Some [ItForeign (Some "C") [FiFn (FnItem [Attribute (Path false [Seg "cfg" PaNone]) (Some "target_os = ""multics""") ""] VPublic (Signature "baz" (Generics false [] None) [FaTyped (PatIdent false false "x" false) (TPath (Path false [Seg "DoesNotExist" PaNone]))] (Some (TPath (Path false [Seg "i64" PaNone]))) None)) false; FiFn (FnItem [Attribute (Path false [Seg "cfg" PaNone]) (Some "not ( target_os = ""multics"" )") ""] VPublic (Signature "bean" (Generics false [] None) [FaTyped (PatIdent false false "x" false) (TPath (Path false [Seg "u32" PaNone]))] (Some (TPath (Path false [Seg "i64" PaNone]))) None)) false]])]
  ["mock_m"; "blarg_context"; "MockA"; "expect_bar"; "mock_ffi"; "bean_context"];
(* mockall/tests/automock_boxed_constructor.rs 1 *)
 Entry "mockall/tests/automock_boxed_constructor.rs" 1
  [DTrait [] (ItemTrait [] VPublic false "A" (Generics false [] None) [TiFn [] (Signature "new" (Generics false [] None) [] (Some (TPath (Path false [Seg "Box" (PaAngle [GaType (TPath (Path false [Seg "Self" PaNone]))])]))) None)])]
  ["MockA"; "new_context"];
(* mockall/tests/automock_clippy_expect.rs 1 *)
 Entry "mockall/tests/automock_clippy_expect.rs" 1
  [DImpl (ItemImpl [] false (Generics false [] None) None (TPath (Path false [Seg "Foo" PaNone])) [IiFn (FnItem [Attribute (Path false [Seg "expect" PaNone]) (Some "unused_variables") ""] VPublic (Signature "foo" (Generics false [] None) [FaReceiver (Some None) false false (TRef None false (TPath (Path false [Seg "Self" PaNone])))] None None))])]
  [];
(* mockall/tests/automock_concretize.rs 1 *)
 Entry "mockall/tests/automock_concretize.rs" 1
  [DTrait [] (ItemTrait [] VInherited false "Foo" (Generics false [] None) [TiFn [Attribute (Path false [Seg "concretize" PaNone]) None ""] (Signature "foo" (Generics true [GpType "P" [BTrait false [] (Path false [Seg "AsRef" (PaAngle [GaType (TPath (Path false [Seg "std" PaNone; Seg "path" PaNone; Seg "Path" PaNone]))])])] None] None) [FaReceiver (Some None) false false (TRef None false (TPath (Path false [Seg "Self" PaNone]))); FaTyped (PatIdent false false "x" false) (TPath (Path false [Seg "P" PaNone]))] None None)]);
   DMod VPublic "mymod" (Some [ItFn (FnItem [Attribute (Path false [Seg "mockall" PaNone; Seg "concretize" PaNone]) None ""] VPublic (Signature "bang" (Generics true [GpType "P" [BTrait false [] (Path false [Seg "AsRef" (PaAngle [GaType (TPath (Path false [Seg "std" PaNone; Seg "path" PaNone; Seg "Path" PaNone]))])])] None] None) [FaTyped (PatIdent false false "_x" false) (TPath (Path false [Seg "P" PaNone]))] None None)) false])]
  ["MockFoo"; "expect_foo"; "mock_mymod"; "bang_context"];
(* mockall/tests/automock_concretize_closures.rs 1 *)
 Entry "mockall/tests/automock_concretize_closures.rs" 1
  [DImpl (ItemImpl [] false (Generics false [] None) None (TPath (Path false [Seg "Foo" PaNone])) [IiFn (FnItem [Attribute (Path false [Seg "concretize" PaNone]) None ""] VPublic (Signature "foo" (Generics true [GpType "F" [BTrait false [] (Path false [Seg "Fn" (PaParen [(TPath (Path false [Seg "u32" PaNone]))] (Some (TPath (Path false [Seg "u32" PaNone]))))])] None] None) [FaReceiver (Some None) false false (TRef None false (TPath (Path false [Seg "Self" PaNone]))); FaTyped (PatIdent false false "_f" false) (TPath (Path false [Seg "F" PaNone]))] (Some (TPath (Path false [Seg "u32" PaNone]))) None)); IiFn (FnItem [Attribute (Path false [Seg "concretize" PaNone]) None ""] VPublic (Signature "bar" (Generics true [GpType "F" [BTrait false [] (Path false [Seg "FnMut" (PaParen [(TRef None true (TPath (Path false [Seg "u32" PaNone])))] (Some (TPath (Path false [Seg "u32" PaNone]))))])] None] None) [FaReceiver (Some None) false false (TRef None false (TPath (Path false [Seg "Self" PaNone]))); FaTyped (PatIdent false false "_f" false) (TPath (Path false [Seg "F" PaNone]))] (Some (TPath (Path false [Seg "u32" PaNone]))) None))])]
  ["MockFoo"; "expect_foo"; "expect_bar"];
(* mockall/tests/automock_constructor_impl_trait.rs 1 *)
 Entry "mockall/tests/automock_constructor_impl_trait.rs" 1
  [DImpl (ItemImpl [] false (Generics false [] None) None (TPath (Path false [Seg "A" PaNone])) [IiFn (FnItem [] VPublic (Signature "build" (Generics false [] None) [] (Some (TImplTrait [BTrait false [] (Path false [Seg "Foo" PaNone])])) None))])]
  ["MockA"; "build_context"];
(* mockall/tests/automock_constructor_in_generic_trait.rs 1 *)
 Entry "mockall/tests/automock_constructor_in_generic_trait.rs" 1
  [DTrait [] (ItemTrait [] VInherited false "Foo" (Generics true [GpType "T" [BLifetime "static"] None] None) [TiFn [] (Signature "new" (Generics false [] None) [FaTyped (PatIdent false false "t" false) (TPath (Path false [Seg "T" PaNone]))] (Some (TPath (Path false [Seg "Self" PaNone]))) None)])]
  ["MockFoo"; "new_context"];
(* mockall/tests/automock_constructor_in_struct.rs 1 *)
 Entry "mockall/tests/automock_constructor_in_struct.rs" 1
  [DImpl (ItemImpl [Attribute (Path false [Seg "allow" PaNone]) (Some "clippy :: new_without_default") ""] false (Generics false [] None) None (TPath (Path false [Seg "A" PaNone])) [IiFn (FnItem [] VPublic (Signature "new" (Generics false [] None) [] (Some (TPath (Path false [Seg "Self" PaNone]))) None))])]
  ["MockA"; "new_context"];
(* mockall/tests/automock_constructor_in_trait.rs 1 *)
 Entry "mockall/tests/automock_constructor_in_trait.rs" 1
  [DTrait [] (ItemTrait [] VPublic false "A" (Generics false [] None) [TiFn [] (Signature "new" (Generics false [] None) [] (Some (TPath (Path false [Seg "Self" PaNone]))) None)])]
  ["MockA"; "new_context"];
(* mockall/tests/automock_constructor_in_trait_with_args.rs 1 *)
 Entry "mockall/tests/automock_constructor_in_trait_with_args.rs" 1
  [DTrait [] (ItemTrait [] VInherited false "Foo" (Generics false [] None) [TiFn [] (Signature "new" (Generics false [] None) [FaTyped (PatIdent false false "x" false) (TPath (Path false [Seg "u32" PaNone]))] (Some (TPath (Path false [Seg "Self" PaNone]))) None)])]
  ["MockFoo"; "new_context"];
(* mockall/tests/automock_constructor_with_args.rs 1 *)
 Entry "mockall/tests/automock_constructor_with_args.rs" 1
  [DImpl (ItemImpl [] false (Generics false [] None) None (TPath (Path false [Seg "Foo" PaNone])) [IiFn (FnItem [] VPublic (Signature "new" (Generics false [] None) [FaTyped (PatIdent false false "_x" false) (TPath (Path false [Seg "u32" PaNone]))] (Some (TPath (Path false [Seg "Self" PaNone]))) None))])]
  ["MockFoo"; "new_context"];
(* mockall/tests/automock_consume_arguments.rs 1 *)
 Entry "mockall/tests/automock_consume_arguments.rs" 1
  [DTrait [] (ItemTrait [] VInherited false "T" (Generics false [] None) [TiFn [] (Signature "foo" (Generics false [] None) [FaReceiver (Some None) false false (TRef None false (TPath (Path false [Seg "Self" PaNone]))); FaTyped (PatIdent false false "x" false) (TPath (Path false [Seg "NonCopy" PaNone]))] None None)])]
  ["MockT"; "expect_foo"];
(* mockall/tests/automock_custom_result.rs 1 *)
 Entry "mockall/tests/automock_custom_result.rs" 1
  [DImpl (ItemImpl [] false (Generics false [] None) None (TPath (Path false [Seg "MyStruct" PaNone])) [IiFn (FnItem [] VPublic (Signature "ret_static" (Generics false [] None) [FaReceiver (Some None) false false (TRef None false (TPath (Path false [Seg "Self" PaNone])))] (Some (TPath (Path false [Seg "Result" (PaAngle [GaType (TPath (Path false [Seg "i32" PaNone]))])]))) None)); IiFn (FnItem [] VPublic (Signature "ret_ref" (Generics false [] None) [FaReceiver (Some None) false false (TRef None false (TPath (Path false [Seg "Self" PaNone])))] (Some (TRef None false (TPath (Path false [Seg "Result" (PaAngle [GaType (TPath (Path false [Seg "i32" PaNone]))])])))) None)); IiFn (FnItem [] VPublic (Signature "ret_refmut" (Generics false [] None) [FaReceiver (Some None) true false (TRef None true (TPath (Path false [Seg "Self" PaNone])))] (Some (TRef None true (TPath (Path false [Seg "Result" (PaAngle [GaType (TPath (Path false [Seg "i32" PaNone]))])])))) None))])]
  ["MockMyStruct"; "expect_ret_ref"; "expect_ret_refmut"; "expect_ret_static"];
(* mockall/tests/automock_debug.rs 1 *)
 Entry "mockall/tests/automock_debug.rs" 1
  [DTrait [] (ItemTrait [] VPublic false "Foo" (Generics false [] None) []);
   DImpl (ItemImpl [] false (Generics false [] None) (Some (false, (Path false [Seg "Bar" PaNone]))) (TPath (Path false [Seg "Baz" PaNone])) []);
   DImpl (ItemImpl [] false (Generics false [] None) None (TPath (Path false [Seg "Bean" PaNone])) [])]
  ["MockFoo"; "MockBean"; "MockBaz"];
(* mockall/tests/automock_deref.rs 1 *)
 Entry "mockall/tests/automock_deref.rs" 1
  [DTrait [] (ItemTrait [] VInherited false "Foo" (Generics false [] None) [TiFn [] (Signature "name" (Generics false [] None) [FaReceiver (Some None) false false (TRef None false (TPath (Path false [Seg "Self" PaNone])))] (Some (TRef None false (TPath (Path false [Seg "CStr" PaNone])))) None); TiFn [] (Signature "alias" (Generics false [] None) [FaReceiver (Some None) false false (TRef None false (TPath (Path false [Seg "Self" PaNone])))] (Some (TRef None false (TPath (Path false [Seg "str" PaNone])))) None); TiFn [] (Signature "desc" (Generics false [] None) [FaReceiver (Some None) false false (TRef None false (TPath (Path false [Seg "Self" PaNone])))] (Some (TRef None false (TPath (Path false [Seg "OsStr" PaNone])))) None); TiFn [] (Signature "path" (Generics false [] None) [FaReceiver (Some None) false false (TRef None false (TPath (Path false [Seg "Self" PaNone])))] (Some (TRef None false (TPath (Path false [Seg "Path" PaNone])))) None); TiFn [] (Signature "text" (Generics false [] None) [FaReceiver (Some None) false false (TRef None false (TPath (Path false [Seg "Self" PaNone])))] (Some (TRef (Some "static") false (TPath (Path false [Seg "str" PaNone])))) None); TiFn [] (Signature "slice" (Generics false [] None) [FaReceiver (Some None) false false (TRef None false (TPath (Path false [Seg "Self" PaNone])))] (Some (TRef None false (TSlice (TPath (Path false [Seg "i32" PaNone]))))) None)])]
  ["MockFoo"; "expect_name"; "expect_desc"; "expect_path"; "expect_alias"; "expect_text"; "expect_slice"];
(* mockall/tests/automock_extern_std.rs 1 *)
 Entry "mockall/tests/automock_extern_std.rs" 1
  [DTrait [] (ItemTrait [] VPublic false "SimpleTrait" (Generics false [] None) [TiFn [] (Signature "foo" (Generics false [] None) [FaReceiver (Some None) false false (TRef None false (TPath (Path false [Seg "Self" PaNone]))); FaTyped (PatIdent false false "x" false) (TPath (Path false [Seg "u32" PaNone]))] (Some (TPath (Path false [Seg "u32" PaNone]))) None)])]
  ["MockSimpleTrait"];
(* mockall/tests/automock_foreign_c.rs 1 *)
 Entry "mockall/tests/automock_foreign_c.rs" 1
  [DMod VInherited "ffi" (Some [ItForeign (Some "C") [FiFn (FnItem [] (VRestricted false (Path false [Seg "super" PaNone])) (Signature "foo" (Generics false [] None) [FaTyped (PatIdent false false "x" false) (TPath (Path false [Seg "u32" PaNone]))] (Some (TPath (Path false [Seg "i64" PaNone]))) None)) false]])]
  ["mock_ffi"; "foo_context"];
(* mockall/tests/automock_foreign_c_variadic.rs 1 *)
 Entry "mockall/tests/automock_foreign_c_variadic.rs" 1
  [DMod VPublic "ffi" (Some [ItForeign (Some "C") [FiFn (FnItem [] VPublic (Signature "foo" (Generics false [] None) [FaTyped (PatIdent false false "x" false) (TPath (Path false [Seg "i32" PaNone])); FaTyped (PatIdent false false "y" false) (TPath (Path false [Seg "i32" PaNone]))] (Some (TPath (Path false [Seg "i32" PaNone]))) None)) false]])]
  ["mock_ffi"; "foo_context"];
(* mockall/tests/automock_foreign_rust.rs 1 *)
 Entry "mockall/tests/automock_foreign_rust.rs" 1
  [DMod VPublic "ffi" (Some [ItForeign (Some "Rust") [FiFn (FnItem [] VPublic (Signature "foo" (Generics false [] None) [FaTyped (PatIdent false false "_x" false) (TPath (Path false [Seg "u32" PaNone]))] (Some (TPath (Path false [Seg "i64" PaNone]))) None)) false]])]
  ["mock_ffi"; "foo_context"];
(* mockall/tests/automock_gat.rs 1 *)
 Entry "mockall/tests/automock_gat.rs" 1
  [DTrait [("Item", (Some (TRef (Some "a") false (TPath (Path false [Seg "u32" PaNone])))))] (ItemTrait [] VInherited false "LendingIterator" (Generics false [] None) [TiType "Item" [] None; TiFn [Attribute (Path false [Seg "allow" PaNone]) (Some "clippy :: needless_lifetimes") ""] (Signature "next" (Generics true [GpLifetime "a" []] None) [FaReceiver (Some (Some "a")) true false (TRef (Some "a") true (TPath (Path false [Seg "Self" PaNone])))] (Some (TPath (Path false [Seg "Option" (PaAngle [GaType (TPath (Path false [Seg "Self" PaNone; Seg "Item" (PaAngle [GaLifetime "a"])]))])]))) None)])]
  ["MockLendingIterator"; "expect_next"];
(* mockall/tests/automock_generic_arguments.rs 1 *)
 Entry "mockall/tests/automock_generic_arguments.rs" 1
  [DTrait [] (ItemTrait [] VInherited false "A" (Generics false [] None) [TiFn [] (Signature "foo" (Generics true [GpType "T" [BLifetime "static"] None] None) [FaReceiver (Some None) false false (TRef None false (TPath (Path false [Seg "Self" PaNone]))); FaTyped (PatIdent false false "t" false) (TPath (Path false [Seg "T" PaNone]))] None None)])]
  ["MockA"; "expect_foo"];
(* mockall/tests/automock_generic_arguments_returning_references.rs 1 *)
 Entry "mockall/tests/automock_generic_arguments_returning_references.rs" 1
  [DTrait [] (ItemTrait [] VInherited false "A" (Generics false [] None) [TiFn [] (Signature "foo" (Generics true [GpType "T" [BLifetime "static"] None] None) [FaReceiver (Some None) false false (TRef None false (TPath (Path false [Seg "Self" PaNone]))); FaTyped (PatIdent false false "t" false) (TPath (Path false [Seg "T" PaNone]))] (Some (TRef None false (TPath (Path false [Seg "u32" PaNone])))) None)])]
  ["MockA"; "expect_foo"];
(* mockall/tests/automock_generic_arguments_with_where_clause.rs 1 *)
 Entry "mockall/tests/automock_generic_arguments_with_where_clause.rs" 1
  [DTrait [] (ItemTrait [] VInherited false "A" (Generics false [] None) [TiFn [] (Signature "foo" (Generics true [GpType "T" [] None] (Some [WpType None (TPath (Path false [Seg "T" PaNone])) [BTrait false [] (Path false [Seg "Clone" PaNone]); BLifetime "static"]])) [FaReceiver (Some None) false false (TRef None false (TPath (Path false [Seg "Self" PaNone]))); FaTyped (PatIdent false false "t" false) (TPath (Path false [Seg "T" PaNone]))] None None)])]
  ["MockA"; "expect_foo"];
(* mockall/tests/automock_generic_constructor.rs 1 *)
 Entry "mockall/tests/automock_generic_constructor.rs" 1
  [DTrait [] (ItemTrait [] VInherited false "Foo" (Generics false [] None) [TiFn [] (Signature "build" (Generics true [GpType "T" [BLifetime "static"] None] None) [FaTyped (PatIdent false false "t" false) (TPath (Path false [Seg "T" PaNone]))] (Some (TPath (Path false [Seg "Self" PaNone]))) None)])]
  ["MockFoo"; "build_context"];
(* mockall/tests/automock_generic_future.rs 1 *)
 Entry "mockall/tests/automock_generic_future.rs" 1
  [DImpl (ItemImpl [] false (Generics true [GpType "T" [] None] None) (Some (false, (Path false [Seg "Future" PaNone]))) (TPath (Path false [Seg "Foo" (PaAngle [GaType (TPath (Path false [Seg "T" PaNone]))])])) [IiType "Output" (TTuple []); IiFn (FnItem [] VInherited (Signature "poll" (Generics true [GpLifetime "a" []] None) [FaReceiver None false true (TPath (Path false [Seg "Pin" (PaAngle [GaType (TRef None true (TPath (Path false [Seg "Self" PaNone])))])])); FaTyped (PatIdent false false "_cx" false) (TRef None true (TPath (Path false [Seg "Context" (PaAngle [GaLifetime "a"])])))] (Some (TPath (Path false [Seg "Poll" (PaAngle [GaType (TPath (Path false [Seg "Self" PaNone; Seg "Output" PaNone]))])]))) None))])]
  ["MockFoo"; "expect_poll"];
(* mockall/tests/automock_generic_future_with_where_clause.rs 1 *)
 Entry "mockall/tests/automock_generic_future_with_where_clause.rs" 1
  [DImpl (ItemImpl [] false (Generics true [GpType "T" [] None; GpType "V" [] None] (Some [WpType None (TPath (Path false [Seg "T" PaNone])) [BTrait false [] (Path false [Seg "Clone" PaNone])]])) (Some (false, (Path false [Seg "MyTrait" PaNone]))) (TPath (Path false [Seg "Foo" (PaAngle [GaType (TPath (Path false [Seg "T" PaNone])); GaType (TPath (Path false [Seg "V" PaNone]))])])) [IiType "Item" (TPath (Path false [Seg "V" PaNone])); IiFn (FnItem [] VInherited (Signature "myfunc" (Generics true [GpLifetime "a" []] None) [FaReceiver (Some None) false false (TRef None false (TPath (Path false [Seg "Self" PaNone]))); FaTyped (PatIdent false false "_cx" false) (TRef None false (TPath (Path false [Seg "NonStatic" (PaAngle [GaLifetime "a"])])))] (Some (TPath (Path false [Seg "V" PaNone]))) None))])]
  ["MockFoo"; "expect_myfunc"];
(* mockall/tests/automock_generic_method_with_bounds.rs 1 *)
 Entry "mockall/tests/automock_generic_method_with_bounds.rs" 1
  [DTrait [] (ItemTrait [] VInherited false "Foo" (Generics false [] None) [TiFn [] (Signature "foo" (Generics true [GpType "T" [BTrait false [] (Path false [Seg "Debug" PaNone]); BLifetime "static"] None] None) [FaReceiver (Some None) false false (TRef None false (TPath (Path false [Seg "Self" PaNone]))); FaTyped (PatIdent false false "x" false) (TPath (Path false [Seg "X" (PaAngle [GaType (TPath (Path false [Seg "T" PaNone]))])]))] None None)])]
  ["MockFoo"; "expect_foo"];
(* mockall/tests/automock_generic_method_with_lifetime_parameter.rs 1 *)
 Entry "mockall/tests/automock_generic_method_with_lifetime_parameter.rs" 1
  [DTrait [] (ItemTrait [] VInherited false "Foo" (Generics false [] None) [TiFn [] (Signature "foo" (Generics true [GpLifetime "a" []] None) [FaReceiver (Some None) false false (TRef None false (TPath (Path false [Seg "Self" PaNone]))); FaTyped (PatIdent false false "x" false) (TRef (Some "a") false (TPath (Path false [Seg "X" (PaAngle [GaLifetime "a"])])))] (Some (TPath (Path false [Seg "u32" PaNone]))) None)])]
  ["MockFoo"; "expect_foo"];
(* mockall/tests/automock_generic_method_with_unknown_size_bounds.rs 1 *)
 Entry "mockall/tests/automock_generic_method_with_unknown_size_bounds.rs" 1
  [DTrait [] (ItemTrait [] VInherited false "Foo" (Generics false [] None) [TiFn [] (Signature "foo" (Generics true [GpType "T" [BLifetime "static"; BTrait true [] (Path false [Seg "Sized" PaNone])] None] None) [FaReceiver (Some None) false false (TRef None false (TPath (Path false [Seg "Self" PaNone]))); FaTyped (PatIdent false false "input" false) (TPath (Path false [Seg "Box" (PaAngle [GaType (TPath (Path false [Seg "T" PaNone]))])]))] None None)])]
  ["MockFoo"; "expect_foo"];
(* mockall/tests/automock_generic_method_without_generic_args_or_return.rs 1 *)
 Entry "mockall/tests/automock_generic_method_without_generic_args_or_return.rs" 1
  [DImpl (ItemImpl [] false (Generics false [] None) None (TPath (Path false [Seg "Foo" PaNone])) [IiFn (FnItem [Attribute (Path false [Seg "allow" PaNone]) (Some "clippy :: extra_unused_type_parameters") ""] VPublic (Signature "foo" (Generics true [GpType "T" [BLifetime "static"] None] None) [FaReceiver (Some None) false false (TRef None false (TPath (Path false [Seg "Self" PaNone])))] (Some (TPath (Path false [Seg "i32" PaNone]))) None)); IiFn (FnItem [Attribute (Path false [Seg "doc" PaNone]) None "= "" A static method"""; Attribute (Path false [Seg "allow" PaNone]) (Some "clippy :: extra_unused_type_parameters") ""] VPublic (Signature "bar" (Generics true [GpType "T" [BLifetime "static"] None] None) [] (Some (TPath (Path false [Seg "i32" PaNone]))) None))])]
  ["MockFoo"; "expect_foo"; "bar_context"];
(* mockall/tests/automock_generic_return.rs 1 *)
 Entry "mockall/tests/automock_generic_return.rs" 1
  [DTrait [] (ItemTrait [] VInherited false "A" (Generics false [] None) [TiFn [] (Signature "foo" (Generics true [GpType "T" [BLifetime "static"] None] None) [FaReceiver (Some None) false false (TRef None false (TPath (Path false [Seg "Self" PaNone]))); FaTyped (PatIdent false false "t" false) (TPath (Path false [Seg "T" PaNone]))] (Some (TPath (Path false [Seg "T" PaNone]))) None)])]
  ["MockA"; "expect_foo"];
(* mockall/tests/automock_generic_static_method.rs 1 *)
 Entry "mockall/tests/automock_generic_static_method.rs" 1
  [DTrait [] (ItemTrait [] VInherited false "A" (Generics false [] None) [TiFn [] (Signature "bar" (Generics true [GpType "T" [BLifetime "static"] None] None) [FaTyped (PatIdent false false "t" false) (TPath (Path false [Seg "T" PaNone]))] (Some (TPath (Path false [Seg "u32" PaNone]))) None)])]
  ["MockA"; "bar_context"];
(* mockall/tests/automock_generic_struct.rs 1 *)
 Entry "mockall/tests/automock_generic_struct.rs" 1
  [DImpl (ItemImpl [] false (Generics true [GpType "T" [] None; GpType "V" [] None] None) None (TPath (Path false [Seg "GenericStruct" (PaAngle [GaType (TPath (Path false [Seg "T" PaNone])); GaType (TPath (Path false [Seg "V" PaNone]))])])) [IiFn (FnItem [] VPublic (Signature "foo" (Generics false [] None) [FaReceiver (Some None) false false (TRef None false (TPath (Path false [Seg "Self" PaNone]))); FaTyped (PatIdent false false "_x" false) (TPath (Path false [Seg "u32" PaNone]))] (Some (TPath (Path false [Seg "i64" PaNone]))) None))])]
  ["MockGenericStruct"; "expect_foo"];
(* mockall/tests/automock_generic_struct_with_bounds.rs 1 *)
 Entry "mockall/tests/automock_generic_struct_with_bounds.rs" 1
  [DImpl (ItemImpl [] false (Generics true [GpType "T" [BTrait false [] (Path false [Seg "Copy" PaNone]); BTrait false [] (Path false [Seg "Copy" PaNone])] None; GpType "V" [BTrait false [] (Path false [Seg "Clone" PaNone]); BTrait false [] (Path false [Seg "Copy" PaNone])] None] None) None (TPath (Path false [Seg "GenericStruct" (PaAngle [GaType (TPath (Path false [Seg "T" PaNone])); GaType (TPath (Path false [Seg "V" PaNone]))])])) [IiFn (FnItem [] VPublic (Signature "foo" (Generics false [] None) [FaReceiver (Some None) false false (TRef None false (TPath (Path false [Seg "Self" PaNone]))); FaTyped (PatIdent false false "_x" false) (TPath (Path false [Seg "u32" PaNone]))] (Some (TPath (Path false [Seg "i64" PaNone]))) None))])]
  ["MockGenericStruct"; "expect_foo"];
(* mockall/tests/automock_generic_struct_with_static_method.rs 1 *)
 Entry "mockall/tests/automock_generic_struct_with_static_method.rs" 1
  [DTrait [] (ItemTrait [] VInherited false "Foo" (Generics true [GpType "T" [BLifetime "static"] None] None) [TiFn [] (Signature "foo" (Generics false [] None) [FaTyped (PatIdent false false "t" false) (TPath (Path false [Seg "T" PaNone]))] None None)])]
  ["MockFoo"; "foo_context"];
(* mockall/tests/automock_generic_struct_with_where_clause.rs 1 *)
 Entry "mockall/tests/automock_generic_struct_with_where_clause.rs" 1
  [DImpl (ItemImpl [] false (Generics true [GpType "T" [] None] (Some [WpType None (TPath (Path false [Seg "T" PaNone])) [BTrait false [] (Path false [Seg "Clone" PaNone]); BTrait false [] (Path false [Seg "Default" PaNone])]])) None (TPath (Path false [Seg "GenericStruct" (PaAngle [GaType (TPath (Path false [Seg "T" PaNone]))])])) [IiFn (FnItem [Attribute (Path false [Seg "allow" PaNone]) (Some "clippy :: redundant_clone") ""] VPublic (Signature "foo" (Generics false [] None) [FaReceiver (Some None) false false (TRef None false (TPath (Path false [Seg "Self" PaNone]))); FaTyped (PatIdent false false "x" false) (TPath (Path false [Seg "T" PaNone]))] (Some (TPath (Path false [Seg "T" PaNone]))) None))])]
  ["MockGenericStruct"; "expect_foo"];
(* mockall/tests/automock_generic_trait.rs 1 *)
 Entry "mockall/tests/automock_generic_trait.rs" 1
  [DTrait [] (ItemTrait [] VInherited false "A" (Generics true [GpType "T" [] None] None) [TiFn [] (Signature "foo" (Generics false [] None) [FaReceiver (Some None) false false (TRef None false (TPath (Path false [Seg "Self" PaNone]))); FaTyped (PatIdent false false "t" false) (TPath (Path false [Seg "T" PaNone]))] None None); TiFn [] (Signature "bar" (Generics false [] None) [FaReceiver (Some None) false false (TRef None false (TPath (Path false [Seg "Self" PaNone])))] (Some (TPath (Path false [Seg "T" PaNone]))) None)])]
  ["MockA"; "expect_foo"; "expect_bar"];
(* mockall/tests/automock_generic_trait_with_bounds.rs 1 *)
 Entry "mockall/tests/automock_generic_trait_with_bounds.rs" 1
  [DTrait [] (ItemTrait [] VInherited false "A" (Generics true [GpType "T" [BTrait false [] (Path false [Seg "Copy" PaNone])] None] None) [TiFn [] (Signature "foo" (Generics false [] None) [FaReceiver (Some None) false false (TRef None false (TPath (Path false [Seg "Self" PaNone])))] None None)])]
  ["MockA"; "expect_foo"];
(* mockall/tests/automock_generic_trait_with_where_clause.rs 1 *)
 Entry "mockall/tests/automock_generic_trait_with_where_clause.rs" 1
  [DTrait [] (ItemTrait [] VInherited false "Foo" (Generics true [GpType "T" [] None] (Some [WpType None (TPath (Path false [Seg "T" PaNone])) [BTrait false [] (Path false [Seg "Clone" PaNone]); BTrait false [] (Path false [Seg "Copy" PaNone])]])) [TiFn [] (Signature "foo" (Generics false [] None) [FaReceiver (Some None) false false (TRef None false (TPath (Path false [Seg "Self" PaNone])))] None None)])]
  ["MockFoo"; "expect_foo"];
(* mockall/tests/automock_impl_future.rs 1 *)
 Entry "mockall/tests/automock_impl_future.rs" 1
  [DImpl (ItemImpl [] false (Generics false [] None) None (TPath (Path false [Seg "Foo" PaNone])) [IiFn (FnItem [] VPublic (Signature "foo" (Generics false [] None) [FaReceiver (Some None) false false (TRef None false (TPath (Path false [Seg "Self" PaNone])))] (Some (TImplTrait [BTrait false [] (Path false [Seg "Future" (PaAngle [GaAssocType "Output" (TPath (Path false [Seg "u32" PaNone]))])])])) None)); IiFn (FnItem [] VPublic (Signature "bar" (Generics false [] None) [FaReceiver (Some None) false false (TRef None false (TPath (Path false [Seg "Self" PaNone])))] (Some (TImplTrait [BTrait false [] (Path false [Seg "Stream" (PaAngle [GaAssocType "Item" (TPath (Path false [Seg "u32" PaNone]))])])])) None))])]
  ["MockFoo"; "expect_foo"; "expect_bar"];
(* mockall/tests/automock_impl_generic_trait_for.rs 1 *)
 Entry "mockall/tests/automock_impl_generic_trait_for.rs" 1
  [DImpl (ItemImpl [] false (Generics true [GpType "T" [] None] None) (Some (false, (Path false [Seg "Foo" (PaAngle [GaType (TPath (Path false [Seg "T" PaNone]))])]))) (TPath (Path false [Seg "SomeStruct" (PaAngle [GaType (TPath (Path false [Seg "T" PaNone]))])])) [IiFn (FnItem [] VInherited (Signature "foo" (Generics false [] None) [FaReceiver (Some None) false false (TRef None false (TPath (Path false [Seg "Self" PaNone]))); FaTyped (PatIdent false false "t" false) (TPath (Path false [Seg "T" PaNone]))] (Some (TPath (Path false [Seg "T" PaNone]))) None))])]
  ["MockSomeStruct"; "expect_foo"];
(* mockall/tests/automock_impl_trait.rs 1 *)
 Entry "mockall/tests/automock_impl_trait.rs" 1
  [DImpl (ItemImpl [] false (Generics false [] None) None (TPath (Path false [Seg "Foo" PaNone])) [IiFn (FnItem [] VPublic (Signature "foo" (Generics false [] None) [FaReceiver (Some None) false false (TRef None false (TPath (Path false [Seg "Self" PaNone])))] (Some (TImplTrait [BTrait false [] (Path false [Seg "Debug" PaNone]); BTrait false [] (Path false [Seg "Send" PaNone])])) None))])]
  ["MockFoo"; "expect_foo"];
(* mockall/tests/automock_impl_trait_for.rs 1 *)
 Entry "mockall/tests/automock_impl_trait_for.rs" 1
  [DImpl (ItemImpl [] false (Generics false [] None) (Some (false, (Path false [Seg "Foo" PaNone]))) (TPath (Path false [Seg "SomeStruct" PaNone])) [IiFn (FnItem [] VInherited (Signature "foo" (Generics false [] None) [FaReceiver (Some None) false false (TRef None false (TPath (Path false [Seg "Self" PaNone]))); FaTyped (PatIdent false false "_x" false) (TPath (Path false [Seg "u32" PaNone]))] (Some (TPath (Path false [Seg "i64" PaNone]))) None))])]
  ["MockSomeStruct"; "expect_foo"];
(* mockall/tests/automock_impl_trait_for_generic.rs 1 *)
 Entry "mockall/tests/automock_impl_trait_for_generic.rs" 1
  [DImpl (ItemImpl [] false (Generics true [GpType "T" [] None] None) (Some (false, (Path false [Seg "Foo" PaNone]))) (TPath (Path false [Seg "SomeStruct" (PaAngle [GaType (TPath (Path false [Seg "T" PaNone]))])])) [IiFn (FnItem [] VInherited (Signature "foo" (Generics false [] None) [FaReceiver (Some None) false false (TRef None false (TPath (Path false [Seg "Self" PaNone]))); FaTyped (PatIdent false false "_x" false) (TPath (Path false [Seg "u32" PaNone]))] (Some (TPath (Path false [Seg "i64" PaNone]))) None))])]
  ["MockSomeStruct"; "expect_foo"];
(* mockall/tests/automock_impl_trait_with_associated_types_for.rs 1 *)
 Entry "mockall/tests/automock_impl_trait_with_associated_types_for.rs" 1
  [DImpl (ItemImpl [] false (Generics false [] None) (Some (false, (Path false [Seg "Iterator" PaNone]))) (TPath (Path false [Seg "Foo" PaNone])) [IiType "Item" (TPath (Path false [Seg "u32" PaNone])); IiFn (FnItem [] VInherited (Signature "next" (Generics false [] None) [FaReceiver (Some None) true false (TRef None true (TPath (Path false [Seg "Self" PaNone])))] (Some (TPath (Path false [Seg "Option" (PaAngle [GaType (TPath (Path false [Seg "Self" PaNone; Seg "Item" PaNone]))])]))) None))])]
  ["MockFoo"; "expect_next"];
(* mockall/tests/automock_inline.rs 1 *)
 Entry "mockall/tests/automock_inline.rs" 1
  [DImpl (ItemImpl [] false (Generics false [] None) None (TPath (Path false [Seg "Foo" PaNone])) [IiFn (FnItem [Attribute (Path false [Seg "inline" PaNone]) None ""] VPublic (Signature "foo" (Generics false [] None) [FaReceiver (Some None) false false (TRef None false (TPath (Path false [Seg "Self" PaNone])))] (Some (TPath (Path false [Seg "i32" PaNone]))) None)); IiFn (FnItem [Attribute (Path false [Seg "inline" PaNone]) None ""] VPublic (Signature "bar" (Generics false [] None) [] (Some (TPath (Path false [Seg "i32" PaNone]))) None)); IiFn (FnItem [Attribute (Path false [Seg "cold" PaNone]) None ""] VPublic (Signature "baz" (Generics false [] None) [FaReceiver (Some None) false false (TRef None false (TPath (Path false [Seg "Self" PaNone])))] (Some (TPath (Path false [Seg "i32" PaNone]))) None)); IiFn (FnItem [Attribute (Path false [Seg "cold" PaNone]) None ""] VPublic (Signature "bean" (Generics false [] None) [] (Some (TPath (Path false [Seg "i32" PaNone]))) None))])]
  ["MockFoo"; "expect_foo"; "bar_context"; "expect_baz"; "bean_context"];
(* mockall/tests/automock_instrument.rs 1 *)
 Entry "mockall/tests/automock_instrument.rs" 1
  [DImpl (ItemImpl [] false (Generics false [] None) None (TPath (Path false [Seg "Foo" PaNone])) [IiFn (FnItem [Attribute (Path false [Seg "instrument" PaNone]) None ""] VInherited (Signature "foo" (Generics false [] None) [FaReceiver (Some None) false false (TRef None false (TPath (Path false [Seg "Self" PaNone])))] None None)); IiFn (FnItem [Attribute (Path false [Seg "instrument" PaNone]) None ""] VInherited (Signature "bar" (Generics false [] None) [] None None)); IiFn (FnItem [Attribute (Path false [Seg "tracing" PaNone; Seg "instrument" PaNone]) None ""] VInherited (Signature "fooz" (Generics false [] None) [FaReceiver (Some None) false false (TRef None false (TPath (Path false [Seg "Self" PaNone])))] None None)); IiFn (FnItem [Attribute (Path false [Seg "tracing" PaNone; Seg "instrument" PaNone]) None ""] VInherited (Signature "barz" (Generics false [] None) [] None None))])]
  [];
(* mockall/tests/automock_many_args.rs 1 *)
 Entry "mockall/tests/automock_many_args.rs" 1
  [DTrait [] (ItemTrait [] VInherited false "ManyArgs" (Generics false [] None) [TiFn [] (Signature "foo" (Generics false [] None) [FaReceiver (Some None) false false (TRef None false (TPath (Path false [Seg "Self" PaNone]))); FaTyped (PatIdent false false "_a0" false) (TPath (Path false [Seg "u8" PaNone])); FaTyped (PatIdent false false "_a1" false) (TPath (Path false [Seg "u8" PaNone])); FaTyped (PatIdent false false "_a2" false) (TPath (Path false [Seg "u8" PaNone])); FaTyped (PatIdent false false "_a3" false) (TPath (Path false [Seg "u8" PaNone])); FaTyped (PatIdent false false "_a4" false) (TPath (Path false [Seg "u8" PaNone])); FaTyped (PatIdent false false "_a5" false) (TPath (Path false [Seg "u8" PaNone])); FaTyped (PatIdent false false "_a6" false) (TPath (Path false [Seg "u8" PaNone])); FaTyped (PatIdent false false "_a7" false) (TPath (Path false [Seg "u8" PaNone])); FaTyped (PatIdent false false "_a8" false) (TPath (Path false [Seg "u8" PaNone])); FaTyped (PatIdent false false "_a9" false) (TPath (Path false [Seg "u8" PaNone])); FaTyped (PatIdent false false "_a10" false) (TPath (Path false [Seg "u8" PaNone])); FaTyped (PatIdent false false "_a11" false) (TPath (Path false [Seg "u8" PaNone])); FaTyped (PatIdent false false "_a12" false) (TPath (Path false [Seg "u8" PaNone])); FaTyped (PatIdent false false "_a13" false) (TPath (Path false [Seg "u8" PaNone])); FaTyped (PatIdent false false "_a14" false) (TPath (Path false [Seg "u8" PaNone])); FaTyped (PatIdent false false "_a15" false) (TPath (Path false [Seg "u8" PaNone]))] None None); TiFn [] (Signature "bar" (Generics false [] None) [FaReceiver (Some None) false false (TRef None false (TPath (Path false [Seg "Self" PaNone]))); FaTyped (PatIdent false false "_a0" false) (TPath (Path false [Seg "u8" PaNone])); FaTyped (PatIdent false false "_a1" false) (TPath (Path false [Seg "u8" PaNone])); FaTyped (PatIdent false false "_a2" false) (TPath (Path false [Seg "u8" PaNone])); FaTyped (PatIdent false false "_a3" false) (TPath (Path false [Seg "u8" PaNone])); FaTyped (PatIdent false false "_a4" false) (TPath (Path false [Seg "u8" PaNone])); FaTyped (PatIdent false false "_a5" false) (TPath (Path false [Seg "u8" PaNone])); FaTyped (PatIdent false false "_a6" false) (TPath (Path false [Seg "u8" PaNone])); FaTyped (PatIdent false false "_a7" false) (TPath (Path false [Seg "u8" PaNone])); FaTyped (PatIdent false false "_a8" false) (TPath (Path false [Seg "u8" PaNone])); FaTyped (PatIdent false false "_a9" false) (TPath (Path false [Seg "u8" PaNone])); FaTyped (PatIdent false false "_a10" false) (TPath (Path false [Seg "u8" PaNone])); FaTyped (PatIdent false false "_a11" false) (TPath (Path false [Seg "u8" PaNone])); FaTyped (PatIdent false false "_a12" false) (TPath (Path false [Seg "u8" PaNone])); FaTyped (PatIdent false false "_a13" false) (TPath (Path false [Seg "u8" PaNone])); FaTyped (PatIdent false false "_a14" false) (TPath (Path false [Seg "u8" PaNone])); FaTyped (PatIdent false false "_a15" false) (TPath (Path false [Seg "u8" PaNone]))] (Some (TRef None false (TPath (Path false [Seg "u32" PaNone])))) None); TiFn [] (Signature "baz" (Generics false [] None) [FaReceiver (Some None) true false (TRef None true (TPath (Path false [Seg "Self" PaNone]))); FaTyped (PatIdent false false "_a0" false) (TPath (Path false [Seg "u8" PaNone])); FaTyped (PatIdent false false "_a1" false) (TPath (Path false [Seg "u8" PaNone])); FaTyped (PatIdent false false "_a2" false) (TPath (Path false [Seg "u8" PaNone])); FaTyped (PatIdent false false "_a3" false) (TPath (Path false [Seg "u8" PaNone])); FaTyped (PatIdent false false "_a4" false) (TPath (Path false [Seg "u8" PaNone])); FaTyped (PatIdent false false "_a5" false) (TPath (Path false [Seg "u8" PaNone])); FaTyped (PatIdent false false "_a6" false) (TPath (Path false [Seg "u8" PaNone])); FaTyped (PatIdent false false "_a7" false) (TPath (Path false [Seg "u8" PaNone])); FaTyped (PatIdent false false "_a8" false) (TPath (Path false [Seg "u8" PaNone])); FaTyped (PatIdent false false "_a9" false) (TPath (Path false [Seg "u8" PaNone])); FaTyped (PatIdent false false "_a10" false) (TPath (Path false [Seg "u8" PaNone])); FaTyped (PatIdent false false "_a11" false) (TPath (Path false [Seg "u8" PaNone])); FaTyped (PatIdent false false "_a12" false) (TPath (Path false [Seg "u8" PaNone])); FaTyped (PatIdent false false "_a13" false) (TPath (Path false [Seg "u8" PaNone])); FaTyped (PatIdent false false "_a14" false) (TPath (Path false [Seg "u8" PaNone])); FaTyped (PatIdent false false "_a15" false) (TPath (Path false [Seg "u8" PaNone]))] (Some (TRef None true (TPath (Path false [Seg "u32" PaNone])))) None); TiFn [] (Signature "bean" (Generics false [] None) [FaTyped (PatIdent false false "_a0" false) (TPath (Path false [Seg "u8" PaNone])); FaTyped (PatIdent false false "_a1" false) (TPath (Path false [Seg "u8" PaNone])); FaTyped (PatIdent false false "_a2" false) (TPath (Path false [Seg "u8" PaNone])); FaTyped (PatIdent false false "_a3" false) (TPath (Path false [Seg "u8" PaNone])); FaTyped (PatIdent false false "_a4" false) (TPath (Path false [Seg "u8" PaNone])); FaTyped (PatIdent false false "_a5" false) (TPath (Path false [Seg "u8" PaNone])); FaTyped (PatIdent false false "_a6" false) (TPath (Path false [Seg "u8" PaNone])); FaTyped (PatIdent false false "_a7" false) (TPath (Path false [Seg "u8" PaNone])); FaTyped (PatIdent false false "_a8" false) (TPath (Path false [Seg "u8" PaNone])); FaTyped (PatIdent false false "_a9" false) (TPath (Path false [Seg "u8" PaNone])); FaTyped (PatIdent false false "_a10" false) (TPath (Path false [Seg "u8" PaNone])); FaTyped (PatIdent false false "_a11" false) (TPath (Path false [Seg "u8" PaNone])); FaTyped (PatIdent false false "_a12" false) (TPath (Path false [Seg "u8" PaNone])); FaTyped (PatIdent false false "_a13" false) (TPath (Path false [Seg "u8" PaNone])); FaTyped (PatIdent false false "_a14" false) (TPath (Path false [Seg "u8" PaNone])); FaTyped (PatIdent false false "_a15" false) (TPath (Path false [Seg "u8" PaNone]))] None None)])]
  ["MockManyArgs"; "expect_foo"; "expect_bar"; "expect_baz"; "bean_context"];
(* mockall/tests/automock_module.rs 1 *)
 Entry "mockall/tests/automock_module.rs" 1
  [DMod VPublic "foo" (Some [ItCopied "use super :: T ;"; ItFn (FnItem [] VPublic (Signature "bar" (Generics false [] None) [FaTyped (PatIdent false false "_x" false) (TPath (Path false [Seg "T" PaNone]))] (Some (TPath (Path false [Seg "i64" PaNone]))) None)) false; ItFn (FnItem [] VPublic (Signature "baz" (Generics false [] None) [] (Some (TImplTrait [BTrait false [] (Path false [Seg "std" PaNone; Seg "fmt" PaNone; Seg "Debug" PaNone]); BTrait false [] (Path false [Seg "Send" PaNone])])) None)) false; ItFn (FnItem [] VPublic (Signature "bean" (Generics false [] None) [FaTyped (PatIdent false true "_x" false) (TPath (Path false [Seg "u32" PaNone]))] None None)) false])]
  ["mock_foo"; "bar_context"; "baz_context"];
(* mockall/tests/automock_module_nonpub.rs 1 *)
 Entry "mockall/tests/automock_module_nonpub.rs" 1
  [DMod VInherited "m" (Some [ItCopied "use super :: * ;"; ItFn (FnItem [] (VRestricted false (Path false [Seg "crate" PaNone])) (Signature "foo" (Generics false [] None) [FaTyped (PatIdent false false "_x" false) (TPath (Path false [Seg "PubCrateT" PaNone]))] (Some (TPath (Path false [Seg "PubCrateT" PaNone]))) None)) false; ItFn (FnItem [] (VRestricted false (Path false [Seg "super" PaNone])) (Signature "bar" (Generics false [] None) [FaTyped (PatIdent false false "_x" false) (TPath (Path false [Seg "PrivT" PaNone]))] (Some (TPath (Path false [Seg "PrivT" PaNone]))) None)) false; ItFn (FnItem [] (VRestricted true (Path false [Seg "super" PaNone; Seg "super" PaNone])) (Signature "baz" (Generics false [] None) [FaTyped (PatIdent false false "_x" false) (TPath (Path false [Seg "super" PaNone; Seg "super" PaNone; Seg "SuperT" PaNone]))] (Some (TPath (Path false [Seg "super" PaNone; Seg "super" PaNone; Seg "SuperT" PaNone]))) None)) false; ItFn (FnItem [] (VRestricted true (Path false [Seg "crate" PaNone; Seg "outer" PaNone])) (Signature "bang" (Generics false [] None) [FaTyped (PatIdent false false "_x" false) (TPath (Path false [Seg "crate" PaNone; Seg "outer" PaNone; Seg "SuperT" PaNone]))] (Some (TPath (Path false [Seg "crate" PaNone; Seg "outer" PaNone; Seg "SuperT" PaNone]))) None)) false])]
  ["mock_m"; "foo_context"];
(* mockall/tests/automock_module_unused_import.rs 1 *)
 Entry "mockall/tests/automock_module_unused_import.rs" 1
  [DMod VPublic "foo" (Some [ItCopied "use std :: convert :: TryInto ;"; ItFn (FnItem [] VPublic (Signature "bar" (Generics false [] None) [] None None)) false])]
  ["mock_foo"; "bar_context"];
(* mockall/tests/automock_multiple_lifetime_parameters.rs 1 *)
 Entry "mockall/tests/automock_multiple_lifetime_parameters.rs" 1
  [DTrait [] (ItemTrait [] VPublic false "Foo" (Generics false [] None) [TiFn [] (Signature "foo" (Generics true [GpLifetime "a" []; GpLifetime "b" []; GpLifetime "c" []; GpLifetime "d" []; GpLifetime "e" []; GpLifetime "f" []] None) [FaReceiver (Some None) false false (TRef None false (TPath (Path false [Seg "Self" PaNone]))); FaTyped (PatIdent false false "x" false) (TRef (Some "a") false (TRef (Some "b") false (TRef (Some "c") false (TRef (Some "d") false (TRef (Some "e") false (TRef (Some "f") false (TPath (Path false [Seg "i32" PaNone]))))))))] None None)])]
  [];
(* mockall/tests/automock_must_use.rs 1 *)
 Entry "mockall/tests/automock_must_use.rs" 1
  [DImpl (ItemImpl [] false (Generics false [] None) None (TPath (Path false [Seg "Foo" PaNone])) [IiFn (FnItem [Attribute (Path false [Seg "must_use" PaNone]) None ""] VPublic (Signature "bloob" (Generics false [] None) [FaReceiver (Some None) false false (TRef None false (TPath (Path false [Seg "Self" PaNone])))] (Some (TPath (Path false [Seg "i32" PaNone]))) None)); IiFn (FnItem [Attribute (Path false [Seg "must_use" PaNone]) None ""] VPublic (Signature "blarg" (Generics false [] None) [] (Some (TPath (Path false [Seg "i32" PaNone]))) None))]);
   DImpl (ItemImpl [] false (Generics false [] None) None (TPath (Path false [Seg "MustUseStruct" PaNone])) []);
   DTrait [] (ItemTrait [Attribute (Path false [Seg "must_use" PaNone]) None ""] VPublic false "MustUseTrait" (Generics false [] None) [])]
  ["MockFoo"; "expect_bloob"; "blarg_context"];
(* mockall/tests/automock_mutable_args.rs 1 *)
 Entry "mockall/tests/automock_mutable_args.rs" 1
  [DImpl (ItemImpl [] false (Generics false [] None) None (TPath (Path false [Seg "Foo" PaNone])) [IiFn (FnItem [] VPublic (Signature "foo" (Generics false [] None) [FaReceiver (Some None) false false (TRef None false (TPath (Path false [Seg "Self" PaNone]))); FaTyped (PatIdent false true "_x" false) (TPath (Path false [Seg "u32" PaNone]))] None None)); IiFn (FnItem [] VPublic (Signature "bar" (Generics false [] None) [FaReceiver (Some None) true false (TRef None true (TPath (Path false [Seg "Self" PaNone]))); FaTyped (PatIdent false false "_x" false) (TPath (Path false [Seg "i32" PaNone]))] (Some (TPath (Path false [Seg "i32" PaNone]))) None))])]
  ["MockFoo"; "expect_bar"; "expect_foo"];
(* mockall/tests/automock_nondebug.rs 1 *)
 Entry "mockall/tests/automock_nondebug.rs" 1
  [DTrait [] (ItemTrait [] VPublic false "Foo" (Generics false [] None) [TiFn [] (Signature "foo" (Generics false [] None) [FaReceiver (Some None) false false (TRef None false (TPath (Path false [Seg "Self" PaNone]))); FaTyped (PatIdent false false "x" false) (TPath (Path false [Seg "NonDebug" PaNone]))] None None)])]
  ["MockFoo"];
(* mockall/tests/automock_nonpub_methods.rs 1 *)
 Entry "mockall/tests/automock_nonpub_methods.rs" 1
  [DImpl (ItemImpl [] false (Generics false [] None) None (TPath (Path false [Seg "Foo" PaNone])) [IiFn (FnItem [] VInherited (Signature "private_helper" (Generics false [] None) [FaReceiver (Some None) false false (TRef None false (TPath (Path false [Seg "Self" PaNone])))] None None)); IiFn (FnItem [] VInherited (Signature "static_private_helper" (Generics false [] None) [] None None)); IiFn (FnItem [] VPublic (Signature "pubfunc" (Generics false [] None) [FaReceiver (Some None) false false (TRef None false (TPath (Path false [Seg "Self" PaNone])))] None None))])]
  [];
(* mockall/tests/automock_nonsend.rs 1 *)
 Entry "mockall/tests/automock_nonsend.rs" 1
  [DTrait [] (ItemTrait [] VInherited false "Foo" (Generics false [] None) [TiFn [] (Signature "foo" (Generics false [] None) [FaReceiver (Some None) false false (TRef None false (TPath (Path false [Seg "Self" PaNone]))); FaTyped (PatIdent false false "x" false) (TPath (Path false [Seg "Rc" (PaAngle [GaType (TPath (Path false [Seg "u32" PaNone]))])]))] None None); TiFn [] (Signature "bar" (Generics false [] None) [FaReceiver (Some None) false false (TRef None false (TPath (Path false [Seg "Self" PaNone])))] (Some (TPath (Path false [Seg "Rc" (PaAngle [GaType (TPath (Path false [Seg "u32" PaNone]))])]))) None); TiFn [] (Signature "baz" (Generics false [] None) [FaReceiver (Some None) false false (TRef None false (TPath (Path false [Seg "Self" PaNone])))] (Some (TPath (Path false [Seg "NonSend" PaNone]))) None)]);
   DTrait [] (ItemTrait [] VInherited false "Foo" (Generics false [] None) [TiFn [] (Signature "foo" (Generics false [] None) [FaReceiver (Some None) true false (TRef None true (TPath (Path false [Seg "Self" PaNone]))); FaTyped (PatIdent false false "x" false) (TPath (Path false [Seg "Rc" (PaAngle [GaType (TPath (Path false [Seg "u32" PaNone]))])]))] None None); TiFn [] (Signature "bar" (Generics false [] None) [FaReceiver (Some None) true false (TRef None true (TPath (Path false [Seg "Self" PaNone])))] (Some (TRef None true (TPath (Path false [Seg "Rc" (PaAngle [GaType (TPath (Path false [Seg "u32" PaNone]))])])))) None)]);
   DTrait [] (ItemTrait [] VInherited false "Foo" (Generics false [] None) [TiFn [] (Signature "foo" (Generics false [] None) [FaTyped (PatIdent false false "x" false) (TPath (Path false [Seg "Rc" (PaAngle [GaType (TPath (Path false [Seg "u32" PaNone]))])]))] None None); TiFn [] (Signature "bar" (Generics false [] None) [] (Some (TPath (Path false [Seg "Rc" (PaAngle [GaType (TPath (Path false [Seg "u32" PaNone]))])]))) None); TiFn [] (Signature "baz" (Generics false [] None) [] (Some (TPath (Path false [Seg "NonSend" PaNone]))) None)])]
  ["MockFoo"; "expect_baz"; "expect_bar"; "expect_foo"; "baz_context"; "bar_context"; "foo_context"];
(* mockall/tests/automock_nonstatic_struct.rs 1 *)
 Entry "mockall/tests/automock_nonstatic_struct.rs" 1
  [DImpl (ItemImpl [] false (Generics true [GpLifetime "nss" []] None) None (TPath (Path false [Seg "NonStaticStruct" (PaAngle [GaLifetime "nss"])])) [IiFn (FnItem [] VPublic (Signature "foo" (Generics false [] None) [FaReceiver (Some None) false false (TRef None false (TPath (Path false [Seg "Self" PaNone])))] (Some (TPath (Path false [Seg "i64" PaNone]))) None)); IiFn (FnItem [] VPublic (Signature "bar" (Generics false [] None) [] (Some (TPath (Path false [Seg "i64" PaNone]))) None))])]
  ["MockNonStaticStruct"; "expect_foo"; "bar_context"];
(* mockall/tests/automock_partial_eq.rs 1 *)
 Entry "mockall/tests/automock_partial_eq.rs" 1
  [DMock (MockDecl [Attribute (Path false [Seg "derive" PaNone]) (Some "Debug") ""] VPublic "Foo" (Generics false [] None) [] [(FnItem [] VInherited (Signature "compare" (Generics false [] None) [FaReceiver (Some None) false false (TRef None false (TPath (Path false [Seg "Self" PaNone]))); FaTyped (PatIdent false false "other" false) (TRef None false (TPath (Path false [Seg "Self" PaNone])))] (Some (TPath (Path false [Seg "bool" PaNone]))) None))] [(ItemImpl [] false (Generics false [] None) (Some (false, (Path false [Seg "PartialEq" PaNone]))) (TPath (Path false [Seg "Foo" PaNone])) [IiFn (FnItem [] VInherited (Signature "eq" (Generics false [] None) [FaReceiver (Some None) false false (TRef None false (TPath (Path false [Seg "Self" PaNone]))); FaTyped (PatIdent false false "other" false) (TRef None false (TPath (Path false [Seg "Self" PaNone])))] (Some (TPath (Path false [Seg "bool" PaNone]))) None))])])]
  ["MockFoo"; "expect_compare"; "expect_eq"];
(* mockall/tests/automock_qself.rs 1 *)
 Entry "mockall/tests/automock_qself.rs" 1
  [DImpl (ItemImpl [] false (Generics false [] None) None (TPath (Path false [Seg "A" PaNone])) [IiFn (FnItem [] VPublic (Signature "foo" (Generics true [GpType "T" [BTrait false [] (Path false [Seg "Foo" PaNone]); BLifetime "static"] None] None) [FaReceiver (Some None) false false (TRef None false (TPath (Path false [Seg "Self" PaNone]))); FaTyped (PatIdent false false "_q" false) (TQPath (TPath (Path false [Seg "T" PaNone])) 1 (Path false [Seg "Foo" PaNone; Seg "Output" PaNone]))] None None)); IiFn (FnItem [] VPublic (Signature "bar" (Generics true [GpType "T" [BTrait false [] (Path false [Seg "Foo" PaNone]); BLifetime "static"] None] None) [FaReceiver (Some None) false false (TRef None false (TPath (Path false [Seg "Self" PaNone]))); FaTyped (PatIdent false false "_t" false) (TPath (Path false [Seg "T" PaNone]))] (Some (TQPath (TPath (Path false [Seg "T" PaNone])) 1 (Path false [Seg "Foo" PaNone; Seg "Output" PaNone]))) None)); IiFn (FnItem [] VPublic (Signature "bean" (Generics true [GpType "T" [] None] (Some [WpType None (TPath (Path false [Seg "T" PaNone])) [BTrait false [] (Path false [Seg "Foo" PaNone]); BLifetime "static"]; WpType None (TQPath (TPath (Path false [Seg "T" PaNone])) 1 (Path false [Seg "Foo" PaNone; Seg "Output" PaNone])) [BTrait false [] (Path false [Seg "Send" PaNone])]])) [FaReceiver (Some None) false false (TRef None false (TPath (Path false [Seg "Self" PaNone]))); FaTyped (PatIdent false false "_t" false) (TPath (Path false [Seg "T" PaNone]))] None None))])]
  ["MockA"; "expect_foo"; "expect_bean"; "expect_bar"];
(* mockall/tests/automock_refmut_arguments.rs 1 *)
 Entry "mockall/tests/automock_refmut_arguments.rs" 1
  [DTrait [] (ItemTrait [] VInherited false "T" (Generics false [] None) [TiFn [] (Signature "foo" (Generics false [] None) [FaReceiver (Some None) false false (TRef None false (TPath (Path false [Seg "Self" PaNone]))); FaTyped (PatIdent false false "x" false) (TRef None true (TPath (Path false [Seg "u32" PaNone])))] None None)])]
  ["MockT"; "expect_foo"];
(* mockall/tests/automock_return_mutable_ref.rs 1 *)
 Entry "mockall/tests/automock_return_mutable_ref.rs" 1
  [DTrait [] (ItemTrait [] VInherited false "A" (Generics false [] None) [TiFn [] (Signature "foo" (Generics false [] None) [FaReceiver (Some None) true false (TRef None true (TPath (Path false [Seg "Self" PaNone])))] (Some (TRef None true (TPath (Path false [Seg "u32" PaNone])))) None)])]
  ["MockA"; "expect_foo"];
(* mockall/tests/automock_return_owned.rs 1 *)
 Entry "mockall/tests/automock_return_owned.rs" 1
  [DTrait [] (ItemTrait [] VInherited false "T" (Generics false [] None) [TiFn [] (Signature "foo" (Generics false [] None) [FaReceiver (Some None) false false (TRef None false (TPath (Path false [Seg "Self" PaNone])))] (Some (TPath (Path false [Seg "NonCopy" PaNone]))) None)])]
  ["MockT"; "expect_foo"];
(* mockall/tests/automock_return_reference.rs 1 *)
 Entry "mockall/tests/automock_return_reference.rs" 1
  [DTrait [] (ItemTrait [] VInherited false "A" (Generics false [] None) [TiFn [] (Signature "foo" (Generics false [] None) [FaReceiver (Some None) false false (TRef None false (TPath (Path false [Seg "Self" PaNone])))] (Some (TRef None false (TPath (Path false [Seg "u32" PaNone])))) None)])]
  ["MockA"; "expect_foo"];
(* mockall/tests/automock_return_static_ref.rs 1 *)
 Entry "mockall/tests/automock_return_static_ref.rs" 1
  [DTrait [] (ItemTrait [] VInherited false "A" (Generics false [] None) [TiFn [] (Signature "foo" (Generics false [] None) [FaReceiver (Some None) false false (TRef None false (TPath (Path false [Seg "Self" PaNone])))] (Some (TRef (Some "static") false (TPath (Path false [Seg "u32" PaNone])))) None)])]
  ["MockA"; "expect_foo"];
(* mockall/tests/automock_rpitit.rs 1 *)
 Entry "mockall/tests/automock_rpitit.rs" 1
  [DTrait [] (ItemTrait [] VInherited false "Foo" (Generics false [] None) [TiFn [] (Signature "bar" (Generics false [] None) [FaReceiver (Some None) false false (TRef None false (TPath (Path false [Seg "Self" PaNone])))] (Some (TImplTrait [BTrait false [] (Path false [Seg "Debug" PaNone])])) None)])]
  ["MockFoo"; "expect_bar"];
(* mockall/tests/automock_self_by_value.rs 1 *)
 Entry "mockall/tests/automock_self_by_value.rs" 1
  [DImpl (ItemImpl [] false (Generics false [] None) None (TPath (Path false [Seg "MethodByValue" PaNone])) [IiFn (FnItem [] VPublic (Signature "foo" (Generics false [] None) [FaReceiver None false false (TPath (Path false [Seg "Self" PaNone])); FaTyped (PatIdent false false "_x" false) (TPath (Path false [Seg "u32" PaNone]))] (Some (TPath (Path false [Seg "i64" PaNone]))) None)); IiFn (FnItem [Attribute (Path false [Seg "allow" PaNone]) (Some "unused_mut") ""] VPublic (Signature "bar" (Generics false [] None) [FaReceiver None true false (TPath (Path false [Seg "Self" PaNone]))] None None))])]
  ["MockMethodByValue"; "expect_foo"; "expect_bar"];
(* mockall/tests/automock_send.rs 1 *)
 Entry "mockall/tests/automock_send.rs" 1
  [DTrait [] (ItemTrait [] VPublic false "T" (Generics false [] None) [TiFn [] (Signature "foo" (Generics false [] None) [FaReceiver (Some None) false false (TRef None false (TPath (Path false [Seg "Self" PaNone])))] (Some (TPath (Path false [Seg "u32" PaNone]))) None)])]
  ["MockT"];
(* mockall/tests/automock_seven_args.rs 1 *)
 Entry "mockall/tests/automock_seven_args.rs" 1
  [DTrait [] (ItemTrait [] VInherited false "ManyArgs" (Generics false [] None) [TiFn [] (Signature "foo" (Generics false [] None) [FaTyped (PatIdent false false "_a0" false) (TPath (Path false [Seg "u8" PaNone])); FaTyped (PatIdent false false "_a1" false) (TPath (Path false [Seg "u8" PaNone])); FaTyped (PatIdent false false "_a2" false) (TPath (Path false [Seg "u8" PaNone])); FaTyped (PatIdent false false "_a3" false) (TPath (Path false [Seg "u8" PaNone])); FaTyped (PatIdent false false "_a4" false) (TPath (Path false [Seg "u8" PaNone])); FaTyped (PatIdent false false "_a5" false) (TPath (Path false [Seg "u8" PaNone])); FaTyped (PatIdent false false "_a6" false) (TPath (Path false [Seg "u8" PaNone]))] None None)])]
  ["MockManyArgs"; "foo_context"];
(* mockall/tests/automock_slice_arguments.rs 1 *)
 Entry "mockall/tests/automock_slice_arguments.rs" 1
  [DTrait [] (ItemTrait [] VInherited false "Foo" (Generics false [] None) [TiFn [] (Signature "foo" (Generics false [] None) [FaReceiver (Some None) false false (TRef None false (TPath (Path false [Seg "Self" PaNone]))); FaTyped (PatIdent false false "x" false) (TRef None false (TSlice (TPath (Path false [Seg "u8" PaNone]))))] None None)])]
  ["MockFoo"; "expect_foo"];
(* mockall/tests/automock_specializing_method_of_nongeneric_struct.rs 1 *)
 Entry "mockall/tests/automock_specializing_method_of_nongeneric_struct.rs" 1
  [DTrait [] (ItemTrait [] VInherited false "Bar" (Generics false [] None) [TiFn [] (Signature "bar" (Generics false [] (Some [WpType None (TPath (Path false [Seg "Self" PaNone])) [BTrait false [] (Path false [Seg "Sized" PaNone])]])) [FaReceiver (Some None) false false (TRef None false (TPath (Path false [Seg "Self" PaNone])))] None None); TiFn [] (Signature "baz" (Generics false [] (Some [WpType None (TPath (Path false [Seg "Self" PaNone])) [BTrait false [] (Path false [Seg "Sized" PaNone])]])) [] None None)])]
  ["MockBar"; "expect_bar"; "baz_context"];
(* mockall/tests/automock_specializing_methods.rs 1 *)
 Entry "mockall/tests/automock_specializing_methods.rs" 1
  [DTrait [] (ItemTrait [] VInherited false "Foo" (Generics true [GpType "T" [] None] (Some [WpType None (TPath (Path false [Seg "T" PaNone])) [BTrait false [] (Path false [Seg "Copy" PaNone])]])) [TiFn [] (Signature "foo" (Generics false [] (Some [WpType None (TPath (Path false [Seg "T" PaNone])) [BTrait false [] (Path false [Seg "Default" PaNone]); BLifetime "static"]])) [FaReceiver (Some None) false false (TRef None false (TPath (Path false [Seg "Self" PaNone]))); FaTyped (PatIdent false false "t" false) (TPath (Path false [Seg "T" PaNone]))] (Some (TPath (Path false [Seg "G" (PaAngle [GaType (TPath (Path false [Seg "T" PaNone]))])]))) None)])]
  ["MockFoo"; "expect_foo"];
(* mockall/tests/automock_static_method.rs 1 *)
 Entry "mockall/tests/automock_static_method.rs" 1
  [DTrait [] (ItemTrait [] VInherited false "A" (Generics false [] None) [TiFn [] (Signature "bar" (Generics false [] None) [] (Some (TPath (Path false [Seg "u32" PaNone]))) None)])]
  ["MockA"; "bar_context"];
(* mockall/tests/automock_struct.rs 1 *)
 Entry "mockall/tests/automock_struct.rs" 1
  [DImpl (ItemImpl [] false (Generics false [] None) None (TPath (Path false [Seg "SimpleStruct" PaNone])) [IiFn (FnItem [] VPublic (Signature "foo" (Generics false [] None) [FaReceiver (Some None) false false (TRef None false (TPath (Path false [Seg "Self" PaNone]))); FaTyped (PatIdent false false "_x" false) (TPath (Path false [Seg "u32" PaNone]))] (Some (TPath (Path false [Seg "i64" PaNone]))) None))])]
  ["MockSimpleStruct"; "expect_foo"];
(* mockall/tests/automock_trait.rs 1 *)
 Entry "mockall/tests/automock_trait.rs" 1
  [DTrait [] (ItemTrait [] VInherited false "SimpleTrait" (Generics false [] None) [TiFn [] (Signature "foo" (Generics false [] None) [FaReceiver (Some None) false false (TRef None false (TPath (Path false [Seg "Self" PaNone]))); FaTyped (PatIdent false false "x" false) (TPath (Path false [Seg "u32" PaNone]))] (Some (TPath (Path false [Seg "u32" PaNone]))) None)])]
  ["MockSimpleTrait"; "expect_foo"];
(* mockall/tests/automock_trait_object.rs 1 *)
 Entry "mockall/tests/automock_trait_object.rs" 1
  [DTrait [] (ItemTrait [] VInherited false "Foo" (Generics false [] None) [TiFn [] (Signature "foo" (Generics false [] None) [FaReceiver (Some None) false false (TRef None false (TPath (Path false [Seg "Self" PaNone]))); FaTyped (PatIdent false false "x" false) (TRef None false (TDyn true [BTrait false [] (Path false [Seg "PartialEq" (PaAngle [GaType (TPath (Path false [Seg "u32" PaNone]))])])]))] None None)])]
  ["MockFoo"; "expect_foo"];
(* mockall/tests/automock_unsafe_trait.rs 1 *)
 Entry "mockall/tests/automock_unsafe_trait.rs" 1
  [DTrait [] (ItemTrait [Attribute (Path false [Seg "allow" PaNone]) (Some "clippy :: missing_safety_doc") ""] VPublic true "Foo" (Generics false [] None) [TiFn [] (Signature "foo" (Generics false [] None) [FaReceiver (Some None) false false (TRef None false (TPath (Path false [Seg "Self" PaNone])))] (Some (TPath (Path false [Seg "i32" PaNone]))) None)]);
   DImpl (ItemImpl [] true (Generics false [] None) (Some (false, (Path false [Seg "Foo" PaNone]))) (TPath (Path false [Seg "Baz" PaNone])) [IiFn (FnItem [] VInherited (Signature "foo" (Generics false [] None) [FaReceiver (Some None) false false (TRef None false (TPath (Path false [Seg "Self" PaNone])))] (Some (TPath (Path false [Seg "i32" PaNone]))) None))])]
  ["MockFoo"; "expect_foo"; "MockBaz"];
(* mockall/tests/automock_where_self.rs 1 *)
 Entry "mockall/tests/automock_where_self.rs" 1
  [DTrait [] (ItemTrait [] VPublic false "Server" (Generics false [] None) [TiFn [] (Signature "version" (Generics true [GpLifetime "a" []] (Some [WpType None (TPath (Path false [Seg "Self" PaNone])) [BTrait false [] (Path false [Seg "Sized" PaNone])]])) [FaReceiver (Some (Some "a")) false false (TRef (Some "a") false (TPath (Path false [Seg "Self" PaNone])))] (Some (TPath (Path false [Seg "Option" (PaAngle [GaType (TRef (Some "static") false (TPath (Path false [Seg "str" PaNone])))])]))) None)])]
  ["MockServer"; "expect_version"];
(* mockall/tests/cfg_attr_concretize.rs 1 *)
 Entry "mockall/tests/cfg_attr_concretize.rs" 1
  [DTrait [] (ItemTrait [] VInherited false "Foo" (Generics false [] None) [TiFn [Attribute (Path false [Seg "cfg_attr" PaNone]) (Some "not ( target_os = ""multics"" ) , concretize") ""] (Signature "foo" (Generics true [GpType "P" [BTrait false [] (Path false [Seg "AsRef" (PaAngle [GaType (TPath (Path false [Seg "Path" PaNone]))])])] None] None) [FaReceiver (Some None) false false (TRef None false (TPath (Path false [Seg "Self" PaNone]))); FaTyped (PatIdent false false "p" false) (TPath (Path false [Seg "P" PaNone]))] None None)])]
  ["MockFoo"; "expect_foo"];
(* mockall/tests/clear_expectations_on_panic.rs 1 *)
 Entry "mockall/tests/clear_expectations_on_panic.rs" 1
  [DTrait [] (ItemTrait [] VPublic false "Foo" (Generics false [] None) [TiFn [] (Signature "foo" (Generics false [] None) [] (Some (TPath (Path false [Seg "i32" PaNone]))) None); TiFn [] (Signature "bar" (Generics false [] None) [] (Some (TPath (Path false [Seg "i32" PaNone]))) None)])]
  ["MockFoo"; "foo_context"; "bar_context"];
(* mockall/tests/link_name.rs 1 *)
 Entry "mockall/tests/link_name.rs" 1
  [DMod VPublic "ffi" (Some [ItForeign (Some "C") [FiFn (FnItem [Attribute (Path false [Seg "link_name" PaNone]) None "= ""foo__extern"""] VPublic (Signature "foo" (Generics false [] None) [] (Some (TPath (Path false [Seg "u32" PaNone]))) None)) false]])]
  ["mock_ffi"; "foo_context"];
(* mockall/tests/mock_associated_const.rs 1 *)
 Entry "mockall/tests/mock_associated_const.rs" 1
  [DMock (MockDecl [] VInherited "Foo" (Generics false [] None) [("Y", "i32 = 69")] [] [(ItemImpl [] false (Generics false [] None) (Some (false, (Path false [Seg "Foo" PaNone]))) (TPath (Path false [Seg "Foo" PaNone])) [IiConst "X" "i32 = 42"])])]
  ["MockFoo"];
(* mockall/tests/mock_associated_types.rs 1 *)
 Entry "mockall/tests/mock_associated_types.rs" 1
  [DMock (MockDecl [] VInherited "MyIter" (Generics false [] None) [] [] [(ItemImpl [] false (Generics false [] None) (Some (false, (Path false [Seg "Iterator" PaNone]))) (TPath (Path false [Seg "MyIter" PaNone])) [IiType "Item" (TPath (Path false [Seg "u32" PaNone])); IiFn (FnItem [] VInherited (Signature "next" (Generics false [] None) [FaReceiver (Some None) true false (TRef None true (TPath (Path false [Seg "Self" PaNone])))] (Some (TPath (Path false [Seg "Option" (PaAngle [GaType (TPath (Path false [Seg "u32" PaNone]))])]))) None))])])]
  ["MockMyIter"; "expect_next"];
(* mockall/tests/mock_async_fn.rs 1 *)
 Entry "mockall/tests/mock_async_fn.rs" 1
  [DMock (MockDecl [] VPublic "Foo" (Generics false [] None) [] [(FnItem [] VInherited (Signature "foo" (Generics false [] None) [FaReceiver (Some None) false false (TRef None false (TPath (Path false [Seg "Self" PaNone])))] (Some (TPath (Path false [Seg "u32" PaNone]))) None)); (FnItem [] VInherited (Signature "bar" (Generics false [] None) [] (Some (TPath (Path false [Seg "u32" PaNone]))) None)); (FnItem [] VInherited (Signature "baz" (Generics true [GpType "T" [BLifetime "static"] None] None) [FaReceiver (Some None) false false (TRef None false (TPath (Path false [Seg "Self" PaNone]))); FaTyped (PatIdent false false "t" false) (TPath (Path false [Seg "T" PaNone]))] (Some (TPath (Path false [Seg "T" PaNone]))) None))] [])]
  ["MockFoo"; "expect_foo"; "bar_context"; "expect_baz"];
(* mockall/tests/mock_async_trait.rs 1 *)
 Entry "mockall/tests/mock_async_trait.rs" 1
  [DMock (MockDecl [] VPublic "Bar" (Generics false [] None) [] [] [(ItemImpl [Attribute (Path false [Seg "async_trait" PaNone]) None ""] false (Generics false [] None) (Some (false, (Path false [Seg "Foo" PaNone]))) (TPath (Path false [Seg "Bar" PaNone])) [IiFn (FnItem [] VInherited (Signature "foo" (Generics false [] None) [FaReceiver (Some None) false false (TRef None false (TPath (Path false [Seg "Self" PaNone])))] (Some (TPath (Path false [Seg "u32" PaNone]))) None))])])]
  ["MockBar"; "expect_foo"];
(* mockall/tests/mock_box_self.rs 1 *)
 Entry "mockall/tests/mock_box_self.rs" 1
  [DMock (MockDecl [] VInherited "Foo" (Generics false [] None) [] [(FnItem [] VInherited (Signature "foo" (Generics false [] None) [FaReceiver None false true (TRef None false (TPath (Path false [Seg "Box" (PaAngle [GaType (TPath (Path false [Seg "Self" PaNone]))])])))] None None)); (FnItem [] VInherited (Signature "baz" (Generics false [] None) [FaReceiver None true true (TPath (Path false [Seg "Box" (PaAngle [GaType (TPath (Path false [Seg "Self" PaNone]))])]))] None None)); (FnItem [] VInherited (Signature "bar" (Generics false [] None) [FaReceiver None false true (TPath (Path false [Seg "Box" (PaAngle [GaType (TPath (Path false [Seg "Self" PaNone]))])]))] None None)); (FnItem [] VInherited (Signature "bean" (Generics false [] None) [FaReceiver None false true (TPath (Path false [Seg "Arc" (PaAngle [GaType (TPath (Path false [Seg "Self" PaNone]))])]))] None None)); (FnItem [] VInherited (Signature "booz" (Generics false [] None) [FaReceiver None false true (TPath (Path false [Seg "Pin" (PaAngle [GaType (TPath (Path false [Seg "Box" (PaAngle [GaType (TPath (Path false [Seg "Self" PaNone]))])]))])]))] None None)); (FnItem [] VInherited (Signature "blez" (Generics false [] None) [FaReceiver None false true (TPath (Path false [Seg "Rc" (PaAngle [GaType (TPath (Path false [Seg "Self" PaNone]))])]))] None None))] [])]
  ["MockFoo"; "expect_bean"; "expect_booz"; "expect_blez"; "expect_foo"; "expect_baz"; "expect_bar"];
(* mockall/tests/mock_cfg.rs 1 *)
 Entry "mockall/tests/mock_cfg.rs" 1
  [DMock (MockDecl [] VPublic "Foo" (Generics false [] None) [] [(FnItem [Attribute (Path false [Seg "cfg" PaNone]) (Some "feature = ""nightly""") ""] VPublic (Signature "foo" (Generics false [] None) [FaReceiver (Some None) false false (TRef None false (TPath (Path false [Seg "Self" PaNone])))] None None)); (FnItem [Attribute (Path false [Seg "cfg" PaNone]) (Some "not ( feature = ""nightly"" )") ""] VPublic (Signature "foo" (Generics false [] None) [FaReceiver (Some None) false false (TRef None false (TPath (Path false [Seg "Self" PaNone]))); FaTyped (PatIdent false false "x" false) (TPath (Path false [Seg "i32" PaNone]))] (Some (TPath (Path false [Seg "i32" PaNone]))) None))] [(ItemImpl [Attribute (Path false [Seg "cfg" PaNone]) (Some "feature = ""nightly""") ""] false (Generics false [] None) (Some (false, (Path false [Seg "Beez" PaNone]))) (TPath (Path false [Seg "Foo" PaNone])) [IiFn (FnItem [] VInherited (Signature "beez" (Generics false [] None) [FaReceiver (Some None) false false (TRef None false (TPath (Path false [Seg "Self" PaNone])))] None None))]); (ItemImpl [Attribute (Path false [Seg "cfg" PaNone]) (Some "not ( feature = ""nightly"" )") ""] false (Generics false [] None) (Some (false, (Path false [Seg "Beez" PaNone]))) (TPath (Path false [Seg "Foo" PaNone])) [IiFn (FnItem [] VInherited (Signature "beez" (Generics false [] None) [FaReceiver (Some None) false false (TRef None false (TPath (Path false [Seg "Self" PaNone]))); FaTyped (PatIdent false false "x" false) (TPath (Path false [Seg "i32" PaNone]))] (Some (TPath (Path false [Seg "i32" PaNone]))) None))])])]
  ["MockFoo"; "expect_foo"; "expect_beez"];
(* mockall/tests/mock_clone.rs 1 *)
 Entry "mockall/tests/mock_clone.rs" 1
  [DMock (MockDecl [] VPublic "A" (Generics false [] None) [] [] [(ItemImpl [] false (Generics false [] None) (Some (false, (Path false [Seg "Clone" PaNone]))) (TPath (Path false [Seg "A" PaNone])) [IiFn (FnItem [] VInherited (Signature "clone" (Generics false [] None) [FaReceiver (Some None) false false (TRef None false (TPath (Path false [Seg "Self" PaNone])))] (Some (TPath (Path false [Seg "Self" PaNone]))) None))])])]
  ["MockA"; "expect_clone"];
(* mockall/tests/mock_closure.rs 1 *)
 Entry "mockall/tests/mock_closure.rs" 1
  [DMock (MockDecl [] VInherited "Foo" (Generics false [] None) [] [(FnItem [] VInherited (Signature "foo" (Generics true [GpType "F" [BTrait false [] (Path false [Seg "Fn" (PaParen [(TPath (Path false [Seg "u32" PaNone]))] (Some (TPath (Path false [Seg "u32" PaNone]))))]); BLifetime "static"] None] None) [FaReceiver (Some None) false false (TRef None false (TPath (Path false [Seg "Self" PaNone]))); FaTyped (PatIdent false false "f" false) (TPath (Path false [Seg "F" PaNone]))] (Some (TPath (Path false [Seg "u32" PaNone]))) None)); (FnItem [] VInherited (Signature "bar" (Generics true [GpType "F" [BTrait false [] (Path false [Seg "FnMut" (PaParen [(TPath (Path false [Seg "u32" PaNone]))] (Some (TPath (Path false [Seg "u32" PaNone]))))]); BLifetime "static"] None] None) [FaReceiver (Some None) false false (TRef None false (TPath (Path false [Seg "Self" PaNone]))); FaTyped (PatIdent false false "f" false) (TPath (Path false [Seg "F" PaNone]))] (Some (TPath (Path false [Seg "u32" PaNone]))) None)); (FnItem [] VInherited (Signature "baz" (Generics true [GpType "F" [BTrait false [] (Path false [Seg "FnOnce" (PaParen [(TPath (Path false [Seg "u32" PaNone]))] (Some (TPath (Path false [Seg "NonCopy" PaNone]))))]); BLifetime "static"] None] None) [FaReceiver (Some None) false false (TRef None false (TPath (Path false [Seg "Self" PaNone]))); FaTyped (PatIdent false false "f" false) (TPath (Path false [Seg "F" PaNone]))] (Some (TPath (Path false [Seg "NonCopy" PaNone]))) None)); (FnItem [] VInherited (Signature "bean" (Generics true [GpType "F" [BTrait false [] (Path false [Seg "Fn" (PaParen [(TPath (Path false [Seg "u32" PaNone]))] (Some (TPath (Path false [Seg "u32" PaNone]))))]); BLifetime "static"] None] None) [FaTyped (PatIdent false false "f" false) (TPath (Path false [Seg "F" PaNone]))] (Some (TPath (Path false [Seg "u32" PaNone]))) None)); (FnItem [] VInherited (Signature "bang" (Generics false [] None) [FaReceiver (Some None) false false (TRef None false (TPath (Path false [Seg "Self" PaNone]))); FaTyped (PatIdent false false "f" false) (TBareFn "" [] [(TPath (Path false [Seg "u32" PaNone]))] (Some (TPath (Path false [Seg "u32" PaNone]))))] (Some (TPath (Path false [Seg "u32" PaNone]))) None)); (FnItem [] VInherited (Signature "food" (Generics true [GpType "F" [] None] (Some [WpType None (TPath (Path false [Seg "F" PaNone])) [BTrait false [] (Path false [Seg "Fn" (PaParen [(TPath (Path false [Seg "u32" PaNone]))] (Some (TPath (Path false [Seg "u32" PaNone]))))]); BLifetime "static"]])) [FaReceiver (Some None) false false (TRef None false (TPath (Path false [Seg "Self" PaNone]))); FaTyped (PatIdent false false "f" false) (TPath (Path false [Seg "F" PaNone]))] (Some (TPath (Path false [Seg "u32" PaNone]))) None)); (FnItem [] VInherited (Signature "foody" (Generics true [GpType "F" [] None; GpType "G" [] None] (Some [WpType None (TPath (Path false [Seg "F" PaNone])) [BTrait false [] (Path false [Seg "Fn" (PaParen [(TPath (Path false [Seg "u32" PaNone]))] (Some (TPath (Path false [Seg "u32" PaNone]))))]); BLifetime "static"]; WpType None (TPath (Path false [Seg "G" PaNone])) [BLifetime "static"]])) [FaReceiver (Some None) false false (TRef None false (TPath (Path false [Seg "Self" PaNone]))); FaTyped (PatIdent false false "f" false) (TPath (Path false [Seg "F" PaNone])); FaTyped (PatIdent false false "g" false) (TPath (Path false [Seg "G" PaNone]))] (Some (TPath (Path false [Seg "u32" PaNone]))) None))] [])]
  ["MockFoo"; "expect_bang"; "expect_foo"; "expect_bar"; "expect_baz"; "bean_context"; "expect_food"; "expect_foody"];
(* mockall/tests/mock_concrete_struct_with_generic_trait.rs 1 *)
 Entry "mockall/tests/mock_concrete_struct_with_generic_trait.rs" 1
  [DMock (MockDecl [] VInherited "Bar" (Generics false [] None) [] [] [(ItemImpl [] false (Generics false [] None) (Some (false, (Path false [Seg "Foo" (PaAngle [GaType (TPath (Path false [Seg "i32" PaNone]))])]))) (TPath (Path false [Seg "Bar" PaNone])) [IiFn (FnItem [] VInherited (Signature "foo" (Generics false [] None) [FaReceiver (Some None) false false (TRef None false (TPath (Path false [Seg "Self" PaNone]))); FaTyped (PatIdent false false "x" false) (TPath (Path false [Seg "i32" PaNone]))] (Some (TPath (Path false [Seg "i32" PaNone]))) None))])])]
  ["MockBar"; "expect_foo"];
(* mockall/tests/mock_concretize.rs 1 *)
 Entry "mockall/tests/mock_concretize.rs" 1
  [DMock (MockDecl [] VInherited "Foo" (Generics false [] None) [] [(FnItem [Attribute (Path false [Seg "doc" PaNone]) None "= "" Base concretized function"""; Attribute (Path false [Seg "mockall" PaNone; Seg "concretize" PaNone]) None ""] VInherited (Signature "foo" (Generics true [GpType "P" [BTrait false [] (Path false [Seg "AsRef" (PaAngle [GaType (TPath (Path false [Seg "std" PaNone; Seg "path" PaNone; Seg "Path" PaNone]))])])] None] None) [FaReceiver (Some None) false false (TRef None false (TPath (Path false [Seg "Self" PaNone]))); FaTyped (PatIdent false false "x" false) (TPath (Path false [Seg "P" PaNone]))] None None)); (FnItem [Attribute (Path false [Seg "doc" PaNone]) None "= "" With a where clause"""; Attribute (Path false [Seg "mockall" PaNone; Seg "concretize" PaNone]) None ""] VInherited (Signature "boom" (Generics true [GpType "P" [] None] (Some [WpType None (TPath (Path false [Seg "P" PaNone])) [BTrait false [] (Path false [Seg "AsRef" (PaAngle [GaType (TPath (Path false [Seg "std" PaNone; Seg "path" PaNone; Seg "Path" PaNone]))])])]])) [FaReceiver (Some None) false false (TRef None false (TPath (Path false [Seg "Self" PaNone]))); FaTyped (PatIdent false false "x" false) (TPath (Path false [Seg "P" PaNone]))] None None)); (FnItem [Attribute (Path false [Seg "doc" PaNone]) None "= "" Static function"""; Attribute (Path false [Seg "mockall" PaNone; Seg "concretize" PaNone]) None ""] VInherited (Signature "bang" (Generics true [GpType "P" [BTrait false [] (Path false [Seg "AsRef" (PaAngle [GaType (TPath (Path false [Seg "std" PaNone; Seg "path" PaNone; Seg "Path" PaNone]))])])] None] None) [FaTyped (PatIdent false false "x" false) (TPath (Path false [Seg "P" PaNone]))] None None)); (FnItem [Attribute (Path false [Seg "doc" PaNone]) None "= "" Reference argument"""; Attribute (Path false [Seg "mockall" PaNone; Seg "concretize" PaNone]) None ""] VInherited (Signature "boomref" (Generics true [GpType "P" [BTrait false [] (Path false [Seg "AsRef" (PaAngle [GaType (TPath (Path false [Seg "std" PaNone; Seg "path" PaNone; Seg "Path" PaNone]))])])] None] None) [FaReceiver (Some None) false false (TRef None false (TPath (Path false [Seg "Self" PaNone]))); FaTyped (PatIdent false false "x" false) (TRef None false (TPath (Path false [Seg "P" PaNone])))] None None)); (FnItem [Attribute (Path false [Seg "doc" PaNone]) None "= "" Mutable reference argument"""; Attribute (Path false [Seg "mockall" PaNone; Seg "concretize" PaNone]) None ""] VInherited (Signature "boom_mutref" (Generics true [GpType "T" [BTrait false [] (Path false [Seg "AsRefMut" (PaAngle [GaType (TPath (Path false [Seg "str" PaNone]))])])] None] None) [FaReceiver (Some None) false false (TRef None false (TPath (Path false [Seg "Self" PaNone]))); FaTyped (PatIdent false false "x" false) (TRef None true (TPath (Path false [Seg "T" PaNone])))] None None)); (FnItem [Attribute (Path false [Seg "doc" PaNone]) None "= "" Slice argument"""; Attribute (Path false [Seg "mockall" PaNone; Seg "concretize" PaNone]) None ""] VInherited (Signature "boomv" (Generics true [GpType "P" [] None] (Some [WpType None (TPath (Path false [Seg "P" PaNone])) [BTrait false [] (Path false [Seg "AsRef" (PaAngle [GaType (TPath (Path false [Seg "std" PaNone; Seg "path" PaNone; Seg "Path" PaNone]))])])]])) [FaReceiver (Some None) false false (TRef None false (TPath (Path false [Seg "Self" PaNone]))); FaTyped (PatIdent false false "x" false) (TRef None false (TSlice (TPath (Path false [Seg "P" PaNone]))))] None None)); (FnItem [Attribute (Path false [Seg "doc" PaNone]) None "= "" Public visiblity"""; Attribute (Path false [Seg "mockall" PaNone; Seg "concretize" PaNone]) None ""] VPublic (Signature "foopub" (Generics true [GpType "P" [BTrait false [] (Path false [Seg "AsRef" (PaAngle [GaType (TPath (Path false [Seg "std" PaNone; Seg "path" PaNone; Seg "Path" PaNone]))])])] None] None) [FaReceiver (Some None) false false (TRef None false (TPath (Path false [Seg "Self" PaNone]))); FaTyped (PatIdent false false "x" false) (TPath (Path false [Seg "P" PaNone]))] None None))] [])]
  ["MockFoo"; "expect_foo"; "expect_boom"; "expect_boom_mutref"; "expect_boomref"; "expect_boomv"; "bang_context"];
(* mockall/tests/mock_concretize_with_bounds.rs 1 *)
 Entry "mockall/tests/mock_concretize_with_bounds.rs" 1
  [DMock (MockDecl [] VInherited "Foo" (Generics false [] None) [] [(FnItem [Attribute (Path false [Seg "doc" PaNone]) None "= "" Base concretized function"""; Attribute (Path false [Seg "mockall" PaNone; Seg "concretize" PaNone]) None ""] VInherited (Signature "foo" (Generics true [GpType "P" [BTrait false [] (Path false [Seg "AsRef" (PaAngle [GaType (TPath (Path false [Seg "std" PaNone; Seg "path" PaNone; Seg "Path" PaNone]))])]); BTrait false [] (Path false [Seg "Send" PaNone])] None] None) [FaReceiver (Some None) false false (TRef None false (TPath (Path false [Seg "Self" PaNone]))); FaTyped (PatIdent false false "x" false) (TPath (Path false [Seg "P" PaNone]))] None None)); (FnItem [Attribute (Path false [Seg "doc" PaNone]) None "= "" With a where clause"""; Attribute (Path false [Seg "mockall" PaNone; Seg "concretize" PaNone]) None ""] VInherited (Signature "boom" (Generics true [GpType "P" [] None] (Some [WpType None (TPath (Path false [Seg "P" PaNone])) [BTrait false [] (Path false [Seg "AsRef" (PaAngle [GaType (TPath (Path false [Seg "std" PaNone; Seg "path" PaNone; Seg "Path" PaNone]))])]); BTrait false [] (Path false [Seg "Send" PaNone])]])) [FaReceiver (Some None) false false (TRef None false (TPath (Path false [Seg "Self" PaNone]))); FaTyped (PatIdent false false "x" false) (TPath (Path false [Seg "P" PaNone]))] None None)); (FnItem [Attribute (Path false [Seg "doc" PaNone]) None "= "" Static function"""; Attribute (Path false [Seg "mockall" PaNone; Seg "concretize" PaNone]) None ""] VInherited (Signature "bang" (Generics true [GpType "P" [BTrait false [] (Path false [Seg "AsRef" (PaAngle [GaType (TPath (Path false [Seg "std" PaNone; Seg "path" PaNone; Seg "Path" PaNone]))])]); BTrait false [] (Path false [Seg "Send" PaNone])] None] None) [FaTyped (PatIdent false false "x" false) (TPath (Path false [Seg "P" PaNone]))] None None)); (FnItem [Attribute (Path false [Seg "doc" PaNone]) None "= "" Reference argument"""; Attribute (Path false [Seg "mockall" PaNone; Seg "concretize" PaNone]) None ""] VInherited (Signature "boomref" (Generics true [GpType "P" [BTrait false [] (Path false [Seg "AsRef" (PaAngle [GaType (TPath (Path false [Seg "std" PaNone; Seg "path" PaNone; Seg "Path" PaNone]))])]); BTrait false [] (Path false [Seg "Send" PaNone])] None] None) [FaReceiver (Some None) false false (TRef None false (TPath (Path false [Seg "Self" PaNone]))); FaTyped (PatIdent false false "x" false) (TRef None false (TPath (Path false [Seg "P" PaNone])))] None None)); (FnItem [Attribute (Path false [Seg "doc" PaNone]) None "= "" Mutable reference argument"""; Attribute (Path false [Seg "mockall" PaNone; Seg "concretize" PaNone]) None ""] VInherited (Signature "boom_mutref" (Generics true [GpType "T" [BTrait false [] (Path false [Seg "AsRefMut" (PaAngle [GaType (TPath (Path false [Seg "str" PaNone]))])]); BTrait false [] (Path false [Seg "Send" PaNone])] None] None) [FaReceiver (Some None) false false (TRef None false (TPath (Path false [Seg "Self" PaNone]))); FaTyped (PatIdent false false "x" false) (TRef None true (TPath (Path false [Seg "T" PaNone])))] None None)); (FnItem [Attribute (Path false [Seg "doc" PaNone]) None "= "" Slice argument"""; Attribute (Path false [Seg "mockall" PaNone; Seg "concretize" PaNone]) None ""] VInherited (Signature "boomv" (Generics true [GpType "P" [] None] (Some [WpType None (TPath (Path false [Seg "P" PaNone])) [BTrait false [] (Path false [Seg "AsRef" (PaAngle [GaType (TPath (Path false [Seg "std" PaNone; Seg "path" PaNone; Seg "Path" PaNone]))])]); BTrait false [] (Path false [Seg "Send" PaNone])]])) [FaReceiver (Some None) false false (TRef None false (TPath (Path false [Seg "Self" PaNone]))); FaTyped (PatIdent false false "x" false) (TRef None false (TSlice (TPath (Path false [Seg "P" PaNone]))))] None None))] [])]
  ["MockFoo"; "expect_foo"; "expect_boom"; "expect_boom_mutref"; "expect_boomref"; "expect_boomv"; "bang_context"];
(* mockall/tests/mock_constructor_with_args.rs 1 *)
 Entry "mockall/tests/mock_constructor_with_args.rs" 1
  [DMock (MockDecl [] VPublic "Foo" (Generics false [] None) [] [(FnItem [] VInherited (Signature "new" (Generics false [] None) [FaTyped (PatIdent false false "x" false) (TPath (Path false [Seg "u32" PaNone]))] (Some (TPath (Path false [Seg "Self" PaNone]))) None))] [])]
  ["MockFoo"; "new_context"];
(* mockall/tests/mock_debug.rs 1 *)
 Entry "mockall/tests/mock_debug.rs" 1
  [DMock (MockDecl [Attribute (Path false [Seg "derive" PaNone]) (Some "Debug") ""] VPublic "Bar" (Generics false [] None) [] [] [(ItemImpl [] false (Generics false [] None) (Some (false, (Path false [Seg "Clone" PaNone]))) (TPath (Path false [Seg "Bar" PaNone])) [IiFn (FnItem [] VInherited (Signature "clone" (Generics false [] None) [FaReceiver (Some None) false false (TRef None false (TPath (Path false [Seg "Self" PaNone])))] (Some (TPath (Path false [Seg "Self" PaNone]))) None))])]);
   DMock (MockDecl [] VPublic "Baz" (Generics false [] None) [] [] [(ItemImpl [] false (Generics false [] None) (Some (false, (Path false [Seg "Clone" PaNone]))) (TPath (Path false [Seg "Baz" PaNone])) [IiFn (FnItem [] VInherited (Signature "clone" (Generics false [] None) [FaReceiver (Some None) false false (TRef None false (TPath (Path false [Seg "Self" PaNone])))] (Some (TPath (Path false [Seg "Self" PaNone]))) None))])])]
  ["MockBar"; "MockBaz"];
(* mockall/tests/mock_deref.rs 1 *)
 Entry "mockall/tests/mock_deref.rs" 1
  [DMock (MockDecl [] VInherited "Foo" (Generics false [] None) [] [(FnItem [] VInherited (Signature "foo" (Generics false [] None) [FaReceiver (Some None) false false (TRef None false (TPath (Path false [Seg "Self" PaNone])))] (Some (TRef None false (TPath (Path false [Seg "str" PaNone])))) None))] [])]
  ["MockFoo"; "expect_foo"];
(* mockall/tests/mock_deref_args.rs 1 *)
 Entry "mockall/tests/mock_deref_args.rs" 1
  [DMock (MockDecl [] VInherited "Foo" (Generics false [] None) [] [(FnItem [] VInherited (Signature "foo" (Generics true [GpType "T" [BLifetime "static"] None] None) [FaReceiver (Some None) false false (TRef None false (TPath (Path false [Seg "Self" PaNone]))); FaTyped (PatIdent false false "x" false) (TPath (Path false [Seg "Vec" (PaAngle [GaType (TPath (Path false [Seg "T" PaNone]))])]))] None None)); (FnItem [] VInherited (Signature "bar" (Generics false [] None) [FaReceiver (Some None) false false (TRef None false (TPath (Path false [Seg "Self" PaNone]))); FaTyped (PatIdent false false "x" false) (TPath (Path false [Seg "String" PaNone]))] None None)); (FnItem [] VInherited (Signature "baz" (Generics false [] None) [FaReceiver (Some None) false false (TRef None false (TPath (Path false [Seg "Self" PaNone]))); FaTyped (PatIdent false false "x" false) (TPath (Path false [Seg "CString" PaNone]))] None None)); (FnItem [] VInherited (Signature "bean" (Generics false [] None) [FaReceiver (Some None) false false (TRef None false (TPath (Path false [Seg "Self" PaNone]))); FaTyped (PatIdent false false "x" false) (TPath (Path false [Seg "OsString" PaNone]))] None None)); (FnItem [] VInherited (Signature "boom" (Generics false [] None) [FaReceiver (Some None) false false (TRef None false (TPath (Path false [Seg "Self" PaNone]))); FaTyped (PatIdent false false "x" false) (TPath (Path false [Seg "PathBuf" PaNone]))] None None))] [])]
  ["MockFoo"; "expect_baz"; "expect_bean"; "expect_boom"; "expect_bar"; "expect_foo"];
(* mockall/tests/mock_docs.rs 1 *)
 Entry "mockall/tests/mock_docs.rs" 1
  [DMock (MockDecl [Attribute (Path false [Seg "doc" PaNone]) None "= "" Struct docs"""] VPublic "Foo" (Generics false [] None) [] [(FnItem [Attribute (Path false [Seg "doc" PaNone]) None "= "" Method docs"""] VInherited (Signature "foo" (Generics false [] None) [FaReceiver (Some None) false false (TRef None false (TPath (Path false [Seg "Self" PaNone])))] None None))] [(ItemImpl [Attribute (Path false [Seg "doc" PaNone]) None "= "" Trait docs"""] false (Generics false [] None) (Some (false, (Path false [Seg "Tr" PaNone]))) (TPath (Path false [Seg "Foo" PaNone])) [IiFn (FnItem [Attribute (Path false [Seg "doc" PaNone]) None "= "" Trait method docs"""] VInherited (Signature "bar" (Generics false [] None) [FaReceiver (Some None) false false (TRef None false (TPath (Path false [Seg "Self" PaNone])))] None None))])])]
  [];
(* mockall/tests/mock_generic_and_reference_arguments.rs 1 *)
 Entry "mockall/tests/mock_generic_and_reference_arguments.rs" 1
  [DMock (MockDecl [] VInherited "Foo" (Generics false [] None) [] [(FnItem [] VInherited (Signature "foo" (Generics true [GpType "T" [BLifetime "static"] None] None) [FaReceiver (Some None) false false (TRef None false (TPath (Path false [Seg "Self" PaNone]))); FaTyped (PatIdent false false "t" false) (TPath (Path false [Seg "T" PaNone])); FaTyped (PatIdent false false "x" false) (TRef None false (TPath (Path false [Seg "i16" PaNone])))] (Some (TPath (Path false [Seg "u32" PaNone]))) None))] [])]
  ["MockFoo"; "expect_foo"];
(* mockall/tests/mock_generic_arguments.rs 1 *)
 Entry "mockall/tests/mock_generic_arguments.rs" 1
  [DMock (MockDecl [] VInherited "Foo" (Generics false [] None) [] [(FnItem [] VInherited (Signature "foo" (Generics true [GpType "T" [BLifetime "static"; BTrait false [] (Path false [Seg "std" PaNone; Seg "fmt" PaNone; Seg "Debug" PaNone])] None] None) [FaReceiver (Some None) false false (TRef None false (TPath (Path false [Seg "Self" PaNone]))); FaTyped (PatIdent false false "t" false) (TPath (Path false [Seg "T" PaNone]))] (Some (TPath (Path false [Seg "i32" PaNone]))) None)); (FnItem [] VInherited (Signature "bar" (Generics true [GpType "T" [BLifetime "static"] None] None) [FaReceiver (Some None) false false (TRef None false (TPath (Path false [Seg "Self" PaNone]))); FaTyped (PatIdent false false "t" false) (TPath (Path false [Seg "T" PaNone]))] (Some (TPath (Path false [Seg "i32" PaNone]))) None))] [])]
  ["MockFoo"; "expect_foo"; "expect_bar"];
(* mockall/tests/mock_generic_arguments_returning_reference.rs 1 *)
 Entry "mockall/tests/mock_generic_arguments_returning_reference.rs" 1
  [DMock (MockDecl [] VInherited "MyStruct" (Generics false [] None) [] [] [(ItemImpl [] false (Generics false [] None) (Some (false, (Path false [Seg "Foo" PaNone]))) (TPath (Path false [Seg "MyStruct" PaNone])) [IiFn (FnItem [] VInherited (Signature "foo" (Generics true [GpType "T" [BLifetime "static"] None] None) [FaReceiver (Some None) false false (TRef None false (TPath (Path false [Seg "Self" PaNone]))); FaTyped (PatIdent false false "t" false) (TPath (Path false [Seg "T" PaNone]))] (Some (TRef None false (TPath (Path false [Seg "u32" PaNone])))) None))])])]
  ["MockMyStruct"; "expect_foo"];
(* mockall/tests/mock_generic_constructor.rs 1 *)
 Entry "mockall/tests/mock_generic_constructor.rs" 1
  [DMock (MockDecl [] VPublic "Foo" (Generics true [GpType "T" [BTrait false [] (Path false [Seg "Default" PaNone]); BLifetime "static"] None] None) [] [(FnItem [] VInherited (Signature "build" (Generics false [] None) [] (Some (TPath (Path false [Seg "MockFoo" (PaAngle [GaType (TPath (Path false [Seg "T" PaNone]))])]))) None))] [])]
  ["MockFoo"; "build_context"];
(* mockall/tests/mock_generic_constructor_with_where_clause.rs 1 *)
 Entry "mockall/tests/mock_generic_constructor_with_where_clause.rs" 1
  [DMock (MockDecl [] VPublic "Foo" (Generics true [GpType "T" [] None] (Some [WpType None (TPath (Path false [Seg "T" PaNone])) [BTrait false [] (Path false [Seg "Default" PaNone]); BLifetime "static"]])) [] [(FnItem [] VInherited (Signature "build" (Generics false [] None) [] (Some (TPath (Path false [Seg "MockFoo" (PaAngle [GaType (TPath (Path false [Seg "T" PaNone]))])]))) None))] [])]
  ["MockFoo"; "build_context"];
(* mockall/tests/mock_generic_method_on_generic_struct_returning_nonstatic.rs 1 *)
 Entry "mockall/tests/mock_generic_method_on_generic_struct_returning_nonstatic.rs" 1
  [DMock (MockDecl [] VInherited "Thing" (Generics true [GpType "T" [] None] None) [] [(FnItem [] VInherited (Signature "foo" (Generics true [GpLifetime "a" []] None) [FaReceiver (Some None) false false (TRef None false (TPath (Path false [Seg "Self" PaNone])))] (Some (TPath (Path false [Seg "X" (PaAngle [GaLifetime "a"])]))) None)); (FnItem [] VInherited (Signature "baz" (Generics true [GpLifetime "a" []] None) [FaReceiver (Some None) false false (TRef None false (TPath (Path false [Seg "Self" PaNone])))] (Some (TRef None false (TPath (Path false [Seg "X" (PaAngle [GaLifetime "a"])])))) None))] [(ItemImpl [] false (Generics true [GpType "T" [] None] None) (Some (false, (Path false [Seg "Bong" PaNone]))) (TPath (Path false [Seg "Thing" (PaAngle [GaType (TPath (Path false [Seg "T" PaNone]))])])) [IiFn (FnItem [] VInherited (Signature "trait_foo" (Generics true [GpLifetime "a" []] None) [FaReceiver (Some None) false false (TRef None false (TPath (Path false [Seg "Self" PaNone])))] (Some (TPath (Path false [Seg "X" (PaAngle [GaLifetime "a"])]))) None)); IiFn (FnItem [] VInherited (Signature "trait_baz" (Generics true [GpLifetime "a" []] None) [FaReceiver (Some None) false false (TRef None false (TPath (Path false [Seg "Self" PaNone])))] (Some (TRef None false (TPath (Path false [Seg "X" (PaAngle [GaLifetime "a"])])))) None))])])]
  ["MockThing"; "expect_foo"; "expect_baz"; "expect_trait_foo"; "expect_trait_baz"];
(* mockall/tests/mock_generic_method_returning_nonstatic.rs 1 *)
 Entry "mockall/tests/mock_generic_method_returning_nonstatic.rs" 1
  [DMock (MockDecl [] VInherited "Thing" (Generics false [] None) [] [(FnItem [] VInherited (Signature "foo" (Generics true [GpLifetime "a" []] None) [FaReceiver (Some None) false false (TRef None false (TPath (Path false [Seg "Self" PaNone])))] (Some (TPath (Path false [Seg "X" (PaAngle [GaLifetime "a"])]))) None)); (FnItem [] VInherited (Signature "baz" (Generics true [GpLifetime "a" []] None) [FaReceiver (Some None) false false (TRef None false (TPath (Path false [Seg "Self" PaNone])))] (Some (TRef None false (TPath (Path false [Seg "X" (PaAngle [GaLifetime "a"])])))) None))] [(ItemImpl [] false (Generics false [] None) (Some (false, (Path false [Seg "Bong" PaNone]))) (TPath (Path false [Seg "Thing" PaNone])) [IiFn (FnItem [] VInherited (Signature "trait_foo" (Generics true [GpLifetime "a" []] None) [FaReceiver (Some None) false false (TRef None false (TPath (Path false [Seg "Self" PaNone])))] (Some (TPath (Path false [Seg "X" (PaAngle [GaLifetime "a"])]))) None)); IiFn (FnItem [] VInherited (Signature "trait_baz" (Generics true [GpLifetime "a" []] None) [FaReceiver (Some None) false false (TRef None false (TPath (Path false [Seg "Self" PaNone])))] (Some (TRef None false (TPath (Path false [Seg "X" (PaAngle [GaLifetime "a"])])))) None))])])]
  ["MockThing"; "expect_foo"; "expect_baz"; "expect_trait_foo"; "expect_trait_baz"];
(* mockall/tests/mock_generic_method_with_lifetime_parameter.rs 1 *)
 Entry "mockall/tests/mock_generic_method_with_lifetime_parameter.rs" 1
  [DMock (MockDecl [] VInherited "Foo" (Generics false [] None) [] [(FnItem [] VInherited (Signature "foo" (Generics true [GpLifetime "a" []] None) [FaReceiver (Some None) false false (TRef None false (TPath (Path false [Seg "Self" PaNone]))); FaTyped (PatIdent false false "x" false) (TRef (Some "a") false (TPath (Path false [Seg "X" (PaAngle [GaLifetime "a"])])))] (Some (TPath (Path false [Seg "u32" PaNone]))) None))] [])]
  ["MockFoo"; "expect_foo"];
(* mockall/tests/mock_generic_method_with_where_clause.rs 1 *)
 Entry "mockall/tests/mock_generic_method_with_where_clause.rs" 1
  [DMock (MockDecl [] VInherited "Foo" (Generics false [] None) [] [(FnItem [] VInherited (Signature "foo" (Generics true [GpType "T" [] None] (Some [WpType None (TPath (Path false [Seg "T" PaNone])) [BTrait false [] (Path false [Seg "Copy" PaNone]); BLifetime "static"]])) [FaReceiver (Some None) false false (TRef None false (TPath (Path false [Seg "Self" PaNone]))); FaTyped (PatIdent false false "t" false) (TPath (Path false [Seg "T" PaNone]))] (Some (TPath (Path false [Seg "G" (PaAngle [GaType (TPath (Path false [Seg "T" PaNone]))])]))) None)); (FnItem [] VInherited (Signature "bar" (Generics true [GpType "T" [] None] (Some [WpType None (TPath (Path false [Seg "T" PaNone])) [BTrait false [] (Path false [Seg "Copy" PaNone]); BLifetime "static"]])) [FaReceiver (Some None) false false (TRef None false (TPath (Path false [Seg "Self" PaNone]))); FaTyped (PatIdent false false "g" false) (TPath (Path false [Seg "G" (PaAngle [GaType (TPath (Path false [Seg "T" PaNone]))])]))] (Some (TPath (Path false [Seg "T" PaNone]))) None)); (FnItem [] VInherited (Signature "baz" (Generics true [GpType "T" [] None] (Some [WpType None (TPath (Path false [Seg "T" PaNone])) [BTrait false [] (Path false [Seg "Copy" PaNone]); BLifetime "static"]])) [FaReceiver (Some None) false false (TRef None false (TPath (Path false [Seg "Self" PaNone])))] (Some (TRef None false (TPath (Path false [Seg "G" (PaAngle [GaType (TPath (Path false [Seg "T" PaNone]))])])))) None)); (FnItem [] VInherited (Signature "bean" (Generics true [GpType "T" [] None] (Some [WpType None (TPath (Path false [Seg "T" PaNone])) [BTrait false [] (Path false [Seg "Copy" PaNone]); BLifetime "static"]])) [FaReceiver (Some None) true false (TRef None true (TPath (Path false [Seg "Self" PaNone])))] (Some (TRef None true (TPath (Path false [Seg "G" (PaAngle [GaType (TPath (Path false [Seg "T" PaNone]))])])))) None))] [])]
  ["MockFoo"; "expect_foo"; "expect_bar"; "expect_baz"; "expect_bean"];
(* mockall/tests/mock_generic_methods_returning_mutable_reference.rs 1 *)
 Entry "mockall/tests/mock_generic_methods_returning_mutable_reference.rs" 1
  [DMock (MockDecl [] VInherited "MyStruct" (Generics false [] None) [] [(FnItem [] VInherited (Signature "foo" (Generics true [GpType "T" [BLifetime "static"] None] None) [FaReceiver (Some None) true false (TRef None true (TPath (Path false [Seg "Self" PaNone]))); FaTyped (PatIdent false false "t" false) (TPath (Path false [Seg "T" PaNone]))] (Some (TRef None true (TPath (Path false [Seg "u32" PaNone])))) None))] [])]
  ["MockMyStruct"; "expect_foo"];
(* mockall/tests/mock_generic_return.rs 1 *)
 Entry "mockall/tests/mock_generic_return.rs" 1
  [DMock (MockDecl [] VInherited "Foo" (Generics false [] None) [] [(FnItem [] VInherited (Signature "foo" (Generics true [GpType "O" [BLifetime "static"] None] None) [FaReceiver (Some None) false false (TRef None false (TPath (Path false [Seg "Self" PaNone])))] (Some (TPath (Path false [Seg "O" PaNone]))) None))] [])]
  ["MockFoo"; "expect_foo"];
(* mockall/tests/mock_generic_static_method_with_where_clause.rs 1 *)
 Entry "mockall/tests/mock_generic_static_method_with_where_clause.rs" 1
  [DMock (MockDecl [] VInherited "Foo" (Generics false [] None) [] [(FnItem [] VInherited (Signature "make_g" (Generics true [GpType "T" [BLifetime "static"] None] (Some [WpType None (TPath (Path false [Seg "T" PaNone])) [BTrait false [] (Path false [Seg "Copy" PaNone])]])) [FaTyped (PatIdent false false "x" false) (TPath (Path false [Seg "T" PaNone]))] (Some (TPath (Path false [Seg "G" (PaAngle [GaType (TPath (Path false [Seg "T" PaNone]))])]))) None))] [])]
  ["MockFoo"; "make_g_context"];
(* mockall/tests/mock_generic_struct.rs 1 *)
 Entry "mockall/tests/mock_generic_struct.rs" 1
  [DMock (MockDecl [] VPublic "ExtGenericStruct" (Generics true [GpType "T" [BTrait false [] (Path false [Seg "Clone" PaNone])] None] None) [] [(FnItem [] VInherited (Signature "foo" (Generics false [] None) [FaReceiver (Some None) false false (TRef None false (TPath (Path false [Seg "Self" PaNone]))); FaTyped (PatIdent false false "x" false) (TPath (Path false [Seg "T" PaNone]))] (Some (TPath (Path false [Seg "T" PaNone]))) None))] [])]
  ["MockExtGenericStruct"; "expect_foo"];
(* mockall/tests/mock_generic_struct_with_bounds.rs 1 *)
 Entry "mockall/tests/mock_generic_struct_with_bounds.rs" 1
  [DMock (MockDecl [] VPublic "Foo" (Generics true [GpType "T" [BTrait false [] (Path false [Seg "Clone" PaNone]); BTrait false [] (Path false [Seg "Copy" PaNone])] None] None) [] [(FnItem [] VInherited (Signature "foo" (Generics false [] None) [FaReceiver (Some None) false false (TRef None false (TPath (Path false [Seg "Self" PaNone]))); FaTyped (PatIdent false false "x" false) (TPath (Path false [Seg "u32" PaNone]))] (Some (TPath (Path false [Seg "i64" PaNone]))) None))] [])]
  ["MockFoo"; "expect_foo"];
(* mockall/tests/mock_generic_struct_with_generic_method.rs 1 *)
 Entry "mockall/tests/mock_generic_struct_with_generic_method.rs" 1
  [DMock (MockDecl [] VPublic "Foo" (Generics true [GpType "T" [BTrait false [] (Path false [Seg "Clone" PaNone]); BLifetime "static"] None] None) [] [(FnItem [] VInherited (Signature "foo" (Generics true [GpType "Q" [BLifetime "static"] None] None) [FaReceiver (Some None) false false (TRef None false (TPath (Path false [Seg "Self" PaNone]))); FaTyped (PatIdent false false "q" false) (TPath (Path false [Seg "Q" PaNone]))] (Some (TPath (Path false [Seg "T" PaNone]))) None))] [])]
  ["MockFoo"; "expect_foo"];
(* mockall/tests/mock_generic_struct_with_generic_static_method.rs 1 *)
 Entry "mockall/tests/mock_generic_struct_with_generic_static_method.rs" 1
  [DMock (MockDecl [] VInherited "Foo" (Generics true [GpType "T" [BLifetime "static"; BTrait false [] (Path false [Seg "std" PaNone; Seg "fmt" PaNone; Seg "Debug" PaNone])] None] None) [] [(FnItem [] VInherited (Signature "foo" (Generics true [GpType "Q" [BLifetime "static"; BTrait false [] (Path false [Seg "std" PaNone; Seg "fmt" PaNone; Seg "Debug" PaNone])] None] None) [FaTyped (PatIdent false false "t" false) (TPath (Path false [Seg "T" PaNone])); FaTyped (PatIdent false false "q" false) (TPath (Path false [Seg "Q" PaNone]))] (Some (TPath (Path false [Seg "u64" PaNone]))) None))] [])]
  ["MockFoo"; "foo_context"];
(* mockall/tests/mock_generic_struct_with_generic_trait.rs 1 *)
 Entry "mockall/tests/mock_generic_struct_with_generic_trait.rs" 1
  [DMock (MockDecl [] VInherited "Bar" (Generics true [GpType "T" [] None; GpType "Z" [] None] None) [] [] [(ItemImpl [] false (Generics true [GpType "T" [] None; GpType "Z" [] None] None) (Some (false, (Path false [Seg "Foo" (PaAngle [GaType (TPath (Path false [Seg "T" PaNone]))])]))) (TPath (Path false [Seg "Bar" (PaAngle [GaType (TPath (Path false [Seg "T" PaNone])); GaType (TPath (Path false [Seg "Z" PaNone]))])])) [IiFn (FnItem [] VInherited (Signature "foo" (Generics false [] None) [FaReceiver (Some None) false false (TRef None false (TPath (Path false [Seg "Self" PaNone]))); FaTyped (PatIdent false false "x" false) (TPath (Path false [Seg "T" PaNone]))] (Some (TPath (Path false [Seg "T" PaNone]))) None))])])]
  ["MockBar"; "expect_foo"];
(* mockall/tests/mock_generic_struct_with_generic_trait_with_different_bounds.rs 1 *)
 Entry "mockall/tests/mock_generic_struct_with_generic_trait_with_different_bounds.rs" 1
  [DMock (MockDecl [] VInherited "Bar" (Generics true [GpType "T" [] None] None) [] [] [(ItemImpl [] false (Generics true [GpType "T" [BTrait false [] (Path false [Seg "Copy" PaNone])] None] None) (Some (false, (Path false [Seg "Foo" (PaAngle [GaType (TPath (Path false [Seg "T" PaNone]))])]))) (TPath (Path false [Seg "Bar" (PaAngle [GaType (TPath (Path false [Seg "T" PaNone]))])])) [IiFn (FnItem [] VInherited (Signature "foo" (Generics false [] None) [FaReceiver (Some None) false false (TRef None false (TPath (Path false [Seg "Self" PaNone]))); FaTyped (PatIdent false false "x" false) (TPath (Path false [Seg "T" PaNone]))] (Some (TPath (Path false [Seg "T" PaNone]))) None))])])]
  ["MockBar"; "expect_foo"];
(* mockall/tests/mock_generic_struct_with_nondefault_parameter.rs 1 *)
 Entry "mockall/tests/mock_generic_struct_with_nondefault_parameter.rs" 1
  [DMock (MockDecl [] VInherited "ExternalStruct" (Generics true [GpType "T" [] None] None) [] [] [(ItemImpl [] false (Generics true [GpType "T" [] None] None) (Some (false, (Path false [Seg "Foo" (PaAngle [GaType (TPath (Path false [Seg "T" PaNone]))])]))) (TPath (Path false [Seg "ExternalStruct" (PaAngle [GaType (TPath (Path false [Seg "T" PaNone]))])])) [IiFn (FnItem [] VInherited (Signature "foo" (Generics false [] None) [FaReceiver (Some None) false false (TRef None false (TPath (Path false [Seg "Self" PaNone])))] (Some (TPath (Path false [Seg "T" PaNone]))) None))])])]
  ["MockExternalStruct"; "expect_foo"];
(* mockall/tests/mock_generic_struct_with_static_method.rs 1 *)
 Entry "mockall/tests/mock_generic_struct_with_static_method.rs" 1
  [DMock (MockDecl [] VInherited "Foo" (Generics true [GpType "T" [BLifetime "static"] None] None) [] [(FnItem [] VInherited (Signature "foo" (Generics false [] None) [FaTyped (PatIdent false false "t" false) (TPath (Path false [Seg "T" PaNone]))] None None))] [])]
  ["MockFoo"; "foo_context"];
(* mockall/tests/mock_generic_struct_with_trait.rs 1 *)
 Entry "mockall/tests/mock_generic_struct_with_trait.rs" 1
  [DMock (MockDecl [] VInherited "Bar" (Generics true [GpType "T" [BTrait false [] (Path false [Seg "Copy" PaNone])] None] None) [] [] [(ItemImpl [] false (Generics true [GpType "T" [BTrait false [] (Path false [Seg "Copy" PaNone])] None] None) (Some (false, (Path false [Seg "Foo" PaNone]))) (TPath (Path false [Seg "Bar" (PaAngle [GaType (TPath (Path false [Seg "T" PaNone]))])])) [IiFn (FnItem [] VInherited (Signature "foo" (Generics false [] None) [FaReceiver (Some None) false false (TRef None false (TPath (Path false [Seg "Self" PaNone]))); FaTyped (PatIdent false false "x" false) (TPath (Path false [Seg "u32" PaNone]))] (Some (TPath (Path false [Seg "u32" PaNone]))) None))])])]
  ["MockBar"; "expect_foo"];
(* mockall/tests/mock_generic_struct_with_trait_with_associated_types.rs 1 *)
 Entry "mockall/tests/mock_generic_struct_with_trait_with_associated_types.rs" 1
  [DMock (MockDecl [] VInherited "Foo" (Generics true [GpType "T" [] None] None) [] [] [(ItemImpl [] false (Generics true [GpType "T" [] None] None) (Some (false, (Path false [Seg "Iterator" PaNone]))) (TPath (Path false [Seg "Foo" (PaAngle [GaType (TPath (Path false [Seg "T" PaNone]))])])) [IiType "Item" (TPath (Path false [Seg "T" PaNone])); IiFn (FnItem [] VInherited (Signature "next" (Generics false [] None) [FaReceiver (Some None) true false (TRef None true (TPath (Path false [Seg "Self" PaNone])))] (Some (TPath (Path false [Seg "Option" (PaAngle [GaType (TPath (Path false [Seg "T" PaNone]))])]))) None))])])]
  ["MockFoo"; "expect_next"];
(* mockall/tests/mock_generic_struct_with_where_clause.rs 1 *)
 Entry "mockall/tests/mock_generic_struct_with_where_clause.rs" 1
  [DMock (MockDecl [] VInherited "Foo" (Generics true [GpType "T" [] None] (Some [WpType None (TPath (Path false [Seg "T" PaNone])) [BTrait false [] (Path false [Seg "Clone" PaNone])]])) [] [(FnItem [] VInherited (Signature "foo" (Generics false [] None) [FaReceiver (Some None) false false (TRef None false (TPath (Path false [Seg "Self" PaNone]))); FaTyped (PatIdent false false "t" false) (TPath (Path false [Seg "T" PaNone]))] (Some (TPath (Path false [Seg "T" PaNone]))) None))] [])]
  ["MockFoo"; "expect_foo"];
(* mockall/tests/mock_generic_struct_with_where_clause_and_trait.rs 1 *)
 Entry "mockall/tests/mock_generic_struct_with_where_clause_and_trait.rs" 1
  [DMock (MockDecl [] VInherited "Foo" (Generics true [GpType "T" [] None] (Some [WpType None (TPath (Path false [Seg "T" PaNone])) [BTrait false [] (Path false [Seg "Clone" PaNone])]])) [] [(FnItem [] VInherited (Signature "foo" (Generics false [] None) [FaReceiver (Some None) false false (TRef None false (TPath (Path false [Seg "Self" PaNone]))); FaTyped (PatIdent false false "t" false) (TPath (Path false [Seg "T" PaNone]))] (Some (TPath (Path false [Seg "T" PaNone]))) None))] [(ItemImpl [] false (Generics true [GpType "T" [] None] (Some [WpType None (TPath (Path false [Seg "T" PaNone])) [BTrait false [] (Path false [Seg "Clone" PaNone])]])) (Some (false, (Path false [Seg "Bar" PaNone]))) (TPath (Path false [Seg "Foo" (PaAngle [GaType (TPath (Path false [Seg "T" PaNone]))])])) [IiFn (FnItem [] VInherited (Signature "bar" (Generics false [] None) [FaReceiver (Some None) false false (TRef None false (TPath (Path false [Seg "Self" PaNone])))] None None))])])]
  ["MockFoo"; "expect_foo"; "expect_bar"];
(* mockall/tests/mock_generic_trait.rs 1 *)
 Entry "mockall/tests/mock_generic_trait.rs" 1
  [DMock (MockDecl [] VInherited "Bar" (Generics true [GpType "T" [] None] None) [] [] [(ItemImpl [] false (Generics true [GpType "T" [] None] None) (Some (false, (Path false [Seg "Foo" PaNone]))) (TPath (Path false [Seg "Bar" (PaAngle [GaType (TPath (Path false [Seg "T" PaNone]))])])) [IiFn (FnItem [] VInherited (Signature "foo" (Generics false [] None) [FaReceiver (Some None) false false (TRef None false (TPath (Path false [Seg "Self" PaNone])))] None None))])])]
  ["MockBar"; "expect_foo"];
(* mockall/tests/mock_impl_generic_trait.rs 1 *)
 Entry "mockall/tests/mock_impl_generic_trait.rs" 1
  [DMock (MockDecl [] VInherited "Foo" (Generics false [] None) [] [(FnItem [] VInherited (Signature "foo" (Generics true [GpType "R" [BLifetime "static"] None] None) [FaReceiver (Some None) false false (TRef None false (TPath (Path false [Seg "Self" PaNone])))] (Some (TImplTrait [BTrait false [] (Path false [Seg "MyTrait" (PaAngle [GaType (TPath (Path false [Seg "R" PaNone]))])])])) None))] [])]
  ["MockFoo"; "expect_foo"];
(* mockall/tests/mock_impl_trait.rs 1 *)
 Entry "mockall/tests/mock_impl_trait.rs" 1
  [DMock (MockDecl [] VInherited "Foo" (Generics false [] None) [] [(FnItem [] VInherited (Signature "foo" (Generics false [] None) [FaReceiver (Some None) false false (TRef None false (TPath (Path false [Seg "Self" PaNone])))] (Some (TImplTrait [BTrait false [] (Path false [Seg "Debug" PaNone]); BTrait false [] (Path false [Seg "Send" PaNone])])) None))] [])]
  ["MockFoo"; "expect_foo"];
(* mockall/tests/mock_inherited_traits.rs 1 *)
 Entry "mockall/tests/mock_inherited_traits.rs" 1
  [DMock (MockDecl [] VInherited "B" (Generics false [] None) [] [] [(ItemImpl [] false (Generics false [] None) (Some (false, (Path false [Seg "A" PaNone]))) (TPath (Path false [Seg "B" PaNone])) [IiFn (FnItem [] VInherited (Signature "foo" (Generics false [] None) [FaReceiver (Some None) false false (TRef None false (TPath (Path false [Seg "Self" PaNone])))] None None))]); (ItemImpl [] false (Generics false [] None) (Some (false, (Path false [Seg "B" PaNone]))) (TPath (Path false [Seg "B" PaNone])) [IiFn (FnItem [] VInherited (Signature "bar" (Generics false [] None) [FaReceiver (Some None) false false (TRef None false (TPath (Path false [Seg "Self" PaNone])))] None None))])])]
  ["MockB"; "expect_foo"; "expect_bar"];
(* mockall/tests/mock_life0.rs 1 *)
 Entry "mockall/tests/mock_life0.rs" 1
  [DMock (MockDecl [] VInherited "Foo" (Generics false [] None) [] [(FnItem [] VInherited (Signature "foo" (Generics true [GpLifetime "life0" []] None) [FaReceiver (Some (Some "life0")) false false (TRef (Some "life0") false (TPath (Path false [Seg "Self" PaNone]))); FaTyped (PatIdent false false "x" false) (TPath (Path false [Seg "u32" PaNone]))] (Some (TPath (Path false [Seg "u32" PaNone]))) None))] [])]
  [];
(* mockall/tests/mock_multiple_generic_arguments.rs 1 *)
 Entry "mockall/tests/mock_multiple_generic_arguments.rs" 1
  [DMock (MockDecl [] VInherited "Foo" (Generics false [] None) [] [(FnItem [] VInherited (Signature "foo" (Generics true [GpType "T" [BLifetime "static"] None; GpType "Q" [BLifetime "static"] None] None) [FaReceiver (Some None) false false (TRef None false (TPath (Path false [Seg "Self" PaNone]))); FaTyped (PatIdent false false "t" false) (TPath (Path false [Seg "T" PaNone])); FaTyped (PatIdent false false "q" false) (TPath (Path false [Seg "Q" PaNone]))] None None))] [])]
  ["MockFoo"; "expect_foo"];
(* mockall/tests/mock_multiple_traits.rs 1 *)
 Entry "mockall/tests/mock_multiple_traits.rs" 1
  [DMock (MockDecl [] VInherited "MultiTrait" (Generics false [] None) [] [] [(ItemImpl [] false (Generics false [] None) (Some (false, (Path false [Seg "A" PaNone]))) (TPath (Path false [Seg "MultiTrait" PaNone])) []); (ItemImpl [] false (Generics false [] None) (Some (false, (Path false [Seg "B" PaNone]))) (TPath (Path false [Seg "MultiTrait" PaNone])) [])])]
  ["MockMultiTrait"];
(* mockall/tests/mock_multiple_traits_same_name.rs 1 *)
 Entry "mockall/tests/mock_multiple_traits_same_name.rs" 1
  [DMock (MockDecl [] VInherited "MultiTrait" (Generics false [] None) [] [] [(ItemImpl [] false (Generics false [] None) (Some (false, (Path false [Seg "a" PaNone; Seg "Trait" PaNone]))) (TPath (Path false [Seg "MultiTrait" PaNone])) []); (ItemImpl [] false (Generics false [] None) (Some (false, (Path false [Seg "b" PaNone; Seg "Trait" PaNone]))) (TPath (Path false [Seg "MultiTrait" PaNone])) [])])]
  ["MockMultiTrait"];
(* mockall/tests/mock_nonlocal_trait.rs 1 *)
 Entry "mockall/tests/mock_nonlocal_trait.rs" 1
  [DMock (MockDecl [] VInherited "Bar" (Generics false [] None) [] [] [(ItemImpl [] false (Generics false [] None) (Some (false, (Path false [Seg "my_module" PaNone; Seg "Foo" PaNone]))) (TPath (Path false [Seg "Bar" PaNone])) [IiFn (FnItem [] VInherited (Signature "foo" (Generics false [] None) [FaReceiver (Some None) false false (TRef None false (TPath (Path false [Seg "Self" PaNone])))] (Some (TPath (Path false [Seg "i32" PaNone]))) None))])])]
  ["MockBar"; "expect_foo"];
(* mockall/tests/mock_nonpub.rs 1 *)
 Entry "mockall/tests/mock_nonpub.rs" 1
  [DMock (MockDecl [] VInherited "Foo" (Generics false [] None) [] [(FnItem [] VInherited (Signature "foo" (Generics false [] None) [FaReceiver (Some None) false false (TRef None false (TPath (Path false [Seg "Self" PaNone]))); FaTyped (PatIdent false false "x" false) (TPath (Path false [Seg "PubCrateT" PaNone]))] (Some (TPath (Path false [Seg "PubCrateT" PaNone]))) None)); (FnItem [] VInherited (Signature "bar" (Generics false [] None) [FaReceiver (Some None) false false (TRef None false (TPath (Path false [Seg "Self" PaNone]))); FaTyped (PatIdent false false "x" false) (TPath (Path false [Seg "PrivT" PaNone]))] (Some (TPath (Path false [Seg "PrivT" PaNone]))) None)); (FnItem [] VInherited (Signature "baz" (Generics false [] None) [FaReceiver (Some None) false false (TRef None false (TPath (Path false [Seg "Self" PaNone]))); FaTyped (PatIdent false false "x" false) (TPath (Path false [Seg "super" PaNone; Seg "SuperT" PaNone]))] (Some (TPath (Path false [Seg "super" PaNone; Seg "SuperT" PaNone]))) None)); (FnItem [] VInherited (Signature "refbaz" (Generics false [] None) [FaReceiver (Some None) false false (TRef None false (TPath (Path false [Seg "Self" PaNone]))); FaTyped (PatIdent false false "x" false) (TPath (Path false [Seg "super" PaNone; Seg "SuperT" PaNone]))] (Some (TRef None false (TPath (Path false [Seg "super" PaNone; Seg "SuperT" PaNone])))) None)); (FnItem [] VInherited (Signature "refmutbaz" (Generics false [] None) [FaReceiver (Some None) true false (TRef None true (TPath (Path false [Seg "Self" PaNone]))); FaTyped (PatIdent false false "x" false) (TPath (Path false [Seg "super" PaNone; Seg "SuperT" PaNone]))] (Some (TRef None true (TPath (Path false [Seg "super" PaNone; Seg "SuperT" PaNone])))) None)); (FnItem [] VInherited (Signature "staticbaz" (Generics false [] None) [FaTyped (PatIdent false false "x" false) (TPath (Path false [Seg "super" PaNone; Seg "SuperT" PaNone]))] (Some (TPath (Path false [Seg "super" PaNone; Seg "SuperT" PaNone]))) None)); (FnItem [] VInherited (Signature "bang" (Generics false [] None) [FaReceiver (Some None) false false (TRef None false (TPath (Path false [Seg "Self" PaNone]))); FaTyped (PatIdent false false "x" false) (TPath (Path false [Seg "crate" PaNone; Seg "outer" PaNone; Seg "SuperT" PaNone]))] (Some (TPath (Path false [Seg "crate" PaNone; Seg "outer" PaNone; Seg "SuperT" PaNone]))) None)); (FnItem [] VInherited (Signature "bean" (Generics false [] None) [FaReceiver (Some None) false false (TRef None false (TPath (Path false [Seg "Self" PaNone]))); FaTyped (PatIdent false false "x" false) (TPath (Path false [Seg "self" PaNone; Seg "PrivT" PaNone]))] (Some (TPath (Path false [Seg "self" PaNone; Seg "PrivT" PaNone]))) None)); (FnItem [] VInherited (Signature "goo" (Generics true [GpType "T" [BTrait false [] (Path false [Seg "super" PaNone; Seg "SuperTrait" PaNone]); BLifetime "static"] None] None) [FaTyped (PatIdent false false "t" false) (TPath (Path false [Seg "T" PaNone]))] None None)); (FnItem [] VInherited (Signature "goo_wc" (Generics true [GpType "T" [] None] (Some [WpType None (TPath (Path false [Seg "T" PaNone])) [BTrait false [] (Path false [Seg "super" PaNone; Seg "SuperTrait" PaNone]); BLifetime "static"]])) [FaTyped (PatIdent false false "t" false) (TPath (Path false [Seg "T" PaNone]))] None None)); (FnItem [] VInherited (Signature "boob" (Generics true [GpType "F" [BTrait false [] (Path false [Seg "Fn" (PaParen [(TPath (Path false [Seg "u32" PaNone]))] (Some (TPath (Path false [Seg "super" PaNone; Seg "SuperT" PaNone]))))]); BLifetime "static"] None] None) [FaReceiver (Some None) false false (TRef None false (TPath (Path false [Seg "Self" PaNone]))); FaTyped (PatIdent false false "f" false) (TPath (Path false [Seg "F" PaNone]))] (Some (TPath (Path false [Seg "u32" PaNone]))) None)); (FnItem [] VInherited (Signature "boobwc" (Generics true [GpType "F" [] None] (Some [WpType None (TPath (Path false [Seg "F" PaNone])) [BTrait false [] (Path false [Seg "Fn" (PaParen [(TPath (Path false [Seg "u32" PaNone]))] (Some (TPath (Path false [Seg "super" PaNone; Seg "SuperT" PaNone]))))]); BLifetime "static"]])) [FaReceiver (Some None) false false (TRef None false (TPath (Path false [Seg "Self" PaNone]))); FaTyped (PatIdent false false "f" false) (TPath (Path false [Seg "F" PaNone]))] (Some (TPath (Path false [Seg "u32" PaNone]))) None))] [])]
  [];
(* mockall/tests/mock_ref_and_nonref_arguments.rs 1 *)
 Entry "mockall/tests/mock_ref_and_nonref_arguments.rs" 1
  [DMock (MockDecl [] VInherited "Foo" (Generics false [] None) [] [(FnItem [] VInherited (Signature "foo" (Generics false [] None) [FaReceiver (Some None) false false (TRef None false (TPath (Path false [Seg "Self" PaNone]))); FaTyped (PatIdent false false "i0" false) (TPath (Path false [Seg "i32" PaNone])); FaTyped (PatIdent false false "i1" false) (TRef None false (TPath (Path false [Seg "u16" PaNone])))] (Some (TPath (Path false [Seg "i32" PaNone]))) None))] [])]
  ["MockFoo"; "expect_foo"];
(* mockall/tests/mock_reference_arguments.rs 1 *)
 Entry "mockall/tests/mock_reference_arguments.rs" 1
  [DMock (MockDecl [] VInherited "Foo" (Generics false [] None) [] [(FnItem [] VInherited (Signature "foo" (Generics false [] None) [FaReceiver (Some None) false false (TRef None false (TPath (Path false [Seg "Self" PaNone]))); FaTyped (PatIdent false false "x" false) (TRef None false (TPath (Path false [Seg "u32" PaNone])))] (Some (TPath (Path false [Seg "u32" PaNone]))) None)); (FnItem [] VInherited (Signature "bar" (Generics false [] None) [FaReceiver (Some None) false false (TRef None false (TPath (Path false [Seg "Self" PaNone]))); FaTyped (PatIdent false false "y" false) (TRef (Some "static") false (TPath (Path false [Seg "u32" PaNone])))] None None))] [])]
  ["MockFoo"; "expect_foo"; "expect_bar"];
(* mockall/tests/mock_refmut_arguments.rs 1 *)
 Entry "mockall/tests/mock_refmut_arguments.rs" 1
  [DMock (MockDecl [] VInherited "Foo" (Generics false [] None) [] [(FnItem [] VInherited (Signature "foo" (Generics false [] None) [FaReceiver (Some None) false false (TRef None false (TPath (Path false [Seg "Self" PaNone]))); FaTyped (PatIdent false false "x" false) (TRef None true (TPath (Path false [Seg "u32" PaNone])))] None None)); (FnItem [] VInherited (Signature "bar" (Generics false [] None) [FaReceiver (Some None) false false (TRef None false (TPath (Path false [Seg "Self" PaNone]))); FaTyped (PatIdent false false "y" false) (TRef (Some "static") true (TPath (Path false [Seg "u32" PaNone])))] None None))] [])]
  ["MockFoo"; "expect_foo"; "expect_bar"];
(* mockall/tests/mock_return_anonymous_lifetime.rs 1 *)
 Entry "mockall/tests/mock_return_anonymous_lifetime.rs" 1
  [DMock (MockDecl [] VInherited "Foo" (Generics false [] None) [] [(FnItem [] VInherited (Signature "inherent_method" (Generics false [] None) [FaReceiver (Some None) false false (TRef None false (TPath (Path false [Seg "Self" PaNone])))] (Some (TPath (Path false [Seg "X" (PaAngle [GaLifetime "_"])]))) None))] [(ItemImpl [] false (Generics false [] None) (Some (false, (Path false [Seg "T" PaNone]))) (TPath (Path false [Seg "Foo" PaNone])) [IiFn (FnItem [] VInherited (Signature "trait_method" (Generics false [] None) [FaReceiver (Some None) false false (TRef None false (TPath (Path false [Seg "Self" PaNone])))] (Some (TPath (Path false [Seg "X" (PaAngle [GaLifetime "_"])]))) None))])])]
  ["MockFoo"; "expect_inherent_method"; "expect_trait_method"];
(* mockall/tests/mock_return_dyn_trait.rs 1 *)
 Entry "mockall/tests/mock_return_dyn_trait.rs" 1
  [DMock (MockDecl [] VInherited "Foo" (Generics false [] None) [] [(FnItem [] VInherited (Signature "ref_dyn" (Generics false [] None) [FaReceiver (Some None) false false (TRef None false (TPath (Path false [Seg "Self" PaNone])))] (Some (TRef None false (TDyn true [BTrait false [] (Path false [Seg "Test" PaNone])]))) None)); (FnItem [] VInherited (Signature "static_dyn" (Generics false [] None) [FaReceiver (Some None) false false (TRef None false (TPath (Path false [Seg "Self" PaNone])))] (Some (TRef (Some "static") false (TDyn true [BTrait false [] (Path false [Seg "Test" PaNone])]))) None)); (FnItem [] VInherited (Signature "mut_dyn" (Generics false [] None) [FaReceiver (Some None) true false (TRef None true (TPath (Path false [Seg "Self" PaNone])))] (Some (TRef None true (TDyn true [BTrait false [] (Path false [Seg "Test" PaNone])]))) None))] [])]
  ["MockFoo"; "expect_ref_dyn"; "expect_static_dyn"; "expect_mut_dyn"];
(* mockall/tests/mock_return_mutable_reference.rs 1 *)
 Entry "mockall/tests/mock_return_mutable_reference.rs" 1
  [DMock (MockDecl [] VInherited "Foo" (Generics false [] None) [] [(FnItem [] VInherited (Signature "foo" (Generics false [] None) [FaReceiver (Some None) true false (TRef None true (TPath (Path false [Seg "Self" PaNone]))); FaTyped (PatIdent false false "i" false) (TPath (Path false [Seg "u32" PaNone]))] (Some (TRef None true (TPath (Path false [Seg "u32" PaNone])))) None))] [])]
  ["MockFoo"; "expect_foo"];
(* mockall/tests/mock_return_reference.rs 1 *)
 Entry "mockall/tests/mock_return_reference.rs" 1
  [DMock (MockDecl [] VInherited "Foo" (Generics false [] None) [] [(FnItem [] VInherited (Signature "foo" (Generics false [] None) [FaReceiver (Some None) false false (TRef None false (TPath (Path false [Seg "Self" PaNone]))); FaTyped (PatIdent false false "x" false) (TPath (Path false [Seg "i32" PaNone]))] (Some (TRef None false (TPath (Path false [Seg "u32" PaNone])))) None)); (FnItem [] VInherited (Signature "bar" (Generics false [] None) [FaReceiver (Some None) false false (TRef None false (TPath (Path false [Seg "Self" PaNone])))] (Some (TRef None false (TPath (Path false [Seg "u32" PaNone])))) None))] [])]
  ["MockFoo"; "expect_bar"; "expect_foo"];
(* mockall/tests/mock_same_trait_twice_on_generic_struct.rs 1 *)
 Entry "mockall/tests/mock_same_trait_twice_on_generic_struct.rs" 1
  [DMock (MockDecl [] VPublic "Foo" (Generics true [GpType "T" [] None] None) [] [] [(ItemImpl [] false (Generics false [] None) (Some (false, (Path false [Seg "Into" (PaAngle [GaType (TPath (Path false [Seg "u32" PaNone]))])]))) (TPath (Path false [Seg "Foo" (PaAngle [GaType (TPath (Path false [Seg "u32" PaNone]))])])) [IiFn (FnItem [] VInherited (Signature "into" (Generics false [] None) [FaReceiver None false false (TPath (Path false [Seg "Self" PaNone]))] (Some (TPath (Path false [Seg "u32" PaNone]))) None))]); (ItemImpl [] false (Generics false [] None) (Some (false, (Path false [Seg "Into" (PaAngle [GaType (TPath (Path false [Seg "i32" PaNone]))])]))) (TPath (Path false [Seg "Foo" (PaAngle [GaType (TPath (Path false [Seg "i32" PaNone]))])])) [IiFn (FnItem [] VInherited (Signature "into" (Generics false [] None) [FaReceiver None false false (TPath (Path false [Seg "Self" PaNone]))] (Some (TPath (Path false [Seg "i32" PaNone]))) None))])])]
  ["MockFoo"; "expect_into"];
(* mockall/tests/mock_specializing_methods.rs 1 *)
 Entry "mockall/tests/mock_specializing_methods.rs" 1
  [DMock (MockDecl [] VInherited "Foo" (Generics true [GpType "T" [] None] (Some [WpType None (TPath (Path false [Seg "T" PaNone])) [BTrait false [] (Path false [Seg "Copy" PaNone])]])) [] [(FnItem [] VInherited (Signature "foo" (Generics false [] (Some [WpType None (TPath (Path false [Seg "T" PaNone])) [BTrait false [] (Path false [Seg "Default" PaNone]); BLifetime "static"]])) [FaReceiver (Some None) false false (TRef None false (TPath (Path false [Seg "Self" PaNone]))); FaTyped (PatIdent false false "t" false) (TPath (Path false [Seg "T" PaNone]))] (Some (TPath (Path false [Seg "G" (PaAngle [GaType (TPath (Path false [Seg "T" PaNone]))])]))) None))] [])]
  ["MockFoo"; "expect_foo"];
(* mockall/tests/mock_static_method_with_generic_args.rs 1 *)
 Entry "mockall/tests/mock_static_method_with_generic_args.rs" 1
  [DMock (MockDecl [] VInherited "Foo" (Generics false [] None) [] [(FnItem [] VInherited (Signature "bar" (Generics true [GpType "T" [BLifetime "static"] None] None) [FaTyped (PatIdent false false "x" false) (TPath (Path false [Seg "T" PaNone]))] None None))] [])]
  ["MockFoo"; "bar_context"];
(* mockall/tests/mock_static_method_with_generic_return.rs 1 *)
 Entry "mockall/tests/mock_static_method_with_generic_return.rs" 1
  [DMock (MockDecl [] VInherited "Foo" (Generics false [] None) [] [(FnItem [] VInherited (Signature "bar" (Generics true [GpType "T" [BLifetime "static"] None] None) [FaTyped (PatIdent false false "x" false) (TPath (Path false [Seg "T" PaNone]))] (Some (TPath (Path false [Seg "Vec" (PaAngle [GaType (TPath (Path false [Seg "T" PaNone]))])]))) None))] [])]
  ["MockFoo"; "bar_context"];
(* mockall/tests/mock_static_method_with_lifetime_parameters.rs 1 *)
 Entry "mockall/tests/mock_static_method_with_lifetime_parameters.rs" 1
  [DMock (MockDecl [] VInherited "Foo" (Generics false [] None) [] [(FnItem [] VInherited (Signature "foo" (Generics true [GpLifetime "a" []] None) [FaTyped (PatIdent false false "x" false) (TRef (Some "a") false (TPath (Path false [Seg "X" (PaAngle [GaLifetime "a"])])))] (Some (TPath (Path false [Seg "u32" PaNone]))) None))] [])]
  ["MockFoo"; "foo_context"];
(* mockall/tests/mock_static_method_with_reference_arguments.rs 1 *)
 Entry "mockall/tests/mock_static_method_with_reference_arguments.rs" 1
  [DMock (MockDecl [] VInherited "Foo" (Generics false [] None) [] [(FnItem [] VInherited (Signature "bar" (Generics false [] None) [FaTyped (PatIdent false false "x" false) (TRef None false (TPath (Path false [Seg "u32" PaNone])))] (Some (TPath (Path false [Seg "u64" PaNone]))) None))] [])]
  ["MockFoo"; "bar_context"];
(* mockall/tests/mock_struct.rs 1 *)
 Entry "mockall/tests/mock_struct.rs" 1
  [DMock (MockDecl [] VInherited "Foo" (Generics false [] None) [] [(FnItem [] VInherited (Signature "foo" (Generics false [] None) [FaReceiver (Some None) false false (TRef None false (TPath (Path false [Seg "Self" PaNone]))); FaTyped (PatIdent false false "x" false) (TPath (Path false [Seg "u32" PaNone]))] (Some (TPath (Path false [Seg "u32" PaNone]))) None)); (FnItem [] VInherited (Signature "bar" (Generics false [] None) [FaReceiver (Some None) false false (TRef None false (TPath (Path false [Seg "Self" PaNone]))); FaTyped (PatIdent false false "x" false) (TPath (Path false [Seg "u32" PaNone]))] None None)); (FnItem [] VInherited (Signature "baz" (Generics false [] None) [FaReceiver (Some None) false false (TRef None false (TPath (Path false [Seg "Self" PaNone])))] None None))] [])]
  ["MockFoo"; "expect_foo"; "expect_bar"; "expect_baz"];
(* mockall/tests/mock_struct_with_static_method.rs 1 *)
 Entry "mockall/tests/mock_struct_with_static_method.rs" 1
  [DMock (MockDecl [] VInherited "Foo" (Generics false [] None) [] [(FnItem [] VInherited (Signature "bar" (Generics false [] None) [FaTyped (PatIdent false false "x" false) (TPath (Path false [Seg "u32" PaNone]))] (Some (TPath (Path false [Seg "u64" PaNone]))) None))] [])]
  ["MockFoo"; "bar_context"];
(* mockall/tests/mock_struct_with_trait.rs 1 *)
 Entry "mockall/tests/mock_struct_with_trait.rs" 1
  [DMock (MockDecl [] VPublic "Bar" (Generics false [] None) [] [] [(ItemImpl [] false (Generics false [] None) (Some (false, (Path false [Seg "Foo" PaNone]))) (TPath (Path false [Seg "Bar" PaNone])) [IiFn (FnItem [] VInherited (Signature "foo" (Generics false [] None) [FaReceiver (Some None) false false (TRef None false (TPath (Path false [Seg "Self" PaNone]))); FaTyped (PatIdent false false "x" false) (TPath (Path false [Seg "u32" PaNone]))] (Some (TPath (Path false [Seg "i64" PaNone]))) None))])])]
  ["MockBar"; "expect_foo"];
(* mockall/tests/mock_struct_with_trait_with_associated_types.rs 1 *)
 Entry "mockall/tests/mock_struct_with_trait_with_associated_types.rs" 1
  [DMock (MockDecl [] VPublic "MyIter" (Generics false [] None) [] [] [(ItemImpl [] false (Generics false [] None) (Some (false, (Path false [Seg "Iterator" PaNone]))) (TPath (Path false [Seg "MyIter" PaNone])) [IiType "Item" (TPath (Path false [Seg "u32" PaNone])); IiFn (FnItem [] VInherited (Signature "next" (Generics false [] None) [FaReceiver (Some None) true false (TRef None true (TPath (Path false [Seg "Self" PaNone])))] (Some (TPath (Path false [Seg "Option" (PaAngle [GaType (TPath (Path false [Seg "u32" PaNone]))])]))) None))])])]
  ["MockMyIter"; "expect_next"];
(* mockall/tests/mock_trait_returning_reference.rs 1 *)
 Entry "mockall/tests/mock_trait_returning_reference.rs" 1
  [DMock (MockDecl [] VPublic "Bar" (Generics false [] None) [] [] [(ItemImpl [] false (Generics false [] None) (Some (false, (Path false [Seg "Foo" PaNone]))) (TPath (Path false [Seg "Bar" PaNone])) [IiFn (FnItem [] VInherited (Signature "foo" (Generics false [] None) [FaReceiver (Some None) false false (TRef None false (TPath (Path false [Seg "Self" PaNone])))] (Some (TRef None false (TPath (Path false [Seg "u32" PaNone])))) None))])])]
  ["MockBar"; "expect_foo"];
(* mockall/tests/mock_trait_returning_static_reference.rs 1 *)
 Entry "mockall/tests/mock_trait_returning_static_reference.rs" 1
  [DMock (MockDecl [] VInherited "Foo" (Generics false [] None) [] [(FnItem [] VInherited (Signature "foo" (Generics false [] None) [FaReceiver (Some None) false false (TRef None false (TPath (Path false [Seg "Self" PaNone])))] (Some (TRef (Some "static") false (TPath (Path false [Seg "u32" PaNone])))) None))] [])]
  ["MockFoo"; "expect_foo"];
(* mockall/tests/mock_trait_with_static_method.rs 1 *)
 Entry "mockall/tests/mock_trait_with_static_method.rs" 1
  [DMock (MockDecl [] VPublic "Foo" (Generics false [] None) [] [] [(ItemImpl [] false (Generics false [] None) (Some (false, (Path false [Seg "Bar" PaNone]))) (TPath (Path false [Seg "Foo" PaNone])) [IiFn (FnItem [] VInherited (Signature "baz" (Generics false [] None) [FaTyped (PatIdent false false "x" false) (TPath (Path false [Seg "u32" PaNone]))] (Some (TPath (Path false [Seg "u64" PaNone]))) None))])])]
  ["MockFoo"; "baz_context"];
(* mockall/tests/mock_unsafe_trait.rs 1 *)
 Entry "mockall/tests/mock_unsafe_trait.rs" 1
  [DMock (MockDecl [] VPublic "Foo" (Generics false [] None) [] [] [(ItemImpl [] true (Generics false [] None) (Some (false, (Path false [Seg "Bar" PaNone]))) (TPath (Path false [Seg "Foo" PaNone])) [IiFn (FnItem [] VInherited (Signature "bar" (Generics false [] None) [FaReceiver (Some None) false false (TRef None false (TPath (Path false [Seg "Self" PaNone])))] (Some (TPath (Path false [Seg "i32" PaNone]))) None))])])]
  ["MockFoo"; "expect_bar"];
(* mockall/tests/mock_unsized.rs 1 *)
 Entry "mockall/tests/mock_unsized.rs" 1
  [DMock (MockDecl [] VInherited "Foo" (Generics false [] None) [] [(FnItem [] VInherited (Signature "foo" (Generics false [] None) [FaReceiver (Some None) false false (TRef None false (TPath (Path false [Seg "Self" PaNone]))); FaTyped (PatIdent false false "arg" false) (TRef None false (TPath (Path false [Seg "str" PaNone])))] None None))] [])]
  ["MockFoo"; "expect_foo"];
(* mockall/tests/raw_identifier.rs 1 *)
 Entry "mockall/tests/raw_identifier.rs" 1
  [DTrait [] (ItemTrait [] VInherited false "r#while" (Generics false [] None) [TiFn [] (Signature "r#match" (Generics false [] None) [FaReceiver (Some None) false false (TRef None false (TPath (Path false [Seg "Self" PaNone])))] None None); TiFn [] (Signature "r#loop" (Generics false [] None) [] None None)]);
   DMod VPublic "r#break" (Some [ItFn (FnItem [] VPublic (Signature "r#if" (Generics false [] None) [] None None)) false]);
   DMock (MockDecl [] VInherited "r#do" (Generics false [] None) [] [] [(ItemImpl [] false (Generics false [] None) (Some (false, (Path false [Seg "r#while" PaNone]))) (TPath (Path false [Seg "r#do" PaNone])) [IiFn (FnItem [] VInherited (Signature "r#match" (Generics false [] None) [FaReceiver (Some None) false false (TRef None false (TPath (Path false [Seg "Self" PaNone])))] None None)); IiFn (FnItem [] VInherited (Signature "r#loop" (Generics false [] None) [] None None))])]);
   DImpl (ItemImpl [] false (Generics false [] None) (Some (false, (Path false [Seg "r#while" PaNone]))) (TPath (Path false [Seg "r#else" PaNone])) [IiFn (FnItem [] VInherited (Signature "r#match" (Generics false [] None) [FaReceiver (Some None) false false (TRef None false (TPath (Path false [Seg "Self" PaNone])))] None None)); IiFn (FnItem [] VInherited (Signature "r#loop" (Generics false [] None) [] None None))])]
  ["expect_match"; "loop_context"; "mock_break"; "if_context"];
(* mockall/tests/ref_option.rs 1 *)
 Entry "mockall/tests/ref_option.rs" 1
  [DTrait [] (ItemTrait [] VPublic false "Store" (Generics false [] None) [TiFn [] (Signature "find" (Generics false [] None) [FaReceiver (Some None) false false (TRef None false (TPath (Path false [Seg "Self" PaNone]))); FaTyped (PatIdent false false "name" false) (TPath (Path false [Seg "Option" (PaAngle [GaType (TPath (Path false [Seg "String" PaNone]))])]))] (Some (TPath (Path false [Seg "bool" PaNone]))) None)])]
  [];
(* mockall/tests/single-use-lifetime.rs 1 *)
 Entry "mockall/tests/single-use-lifetime.rs" 1
  [DTrait [] (ItemTrait [] VPublic false "MyTrait" (Generics false [] None) [TiFn [Attribute (Path false [Seg "allow" PaNone]) (Some "clippy :: needless_lifetimes") ""] (Signature "get" (Generics true [GpLifetime "a" []] None) [FaReceiver (Some (Some "a")) true false (TRef (Some "a") true (TPath (Path false [Seg "Self" PaNone]))); FaTyped (PatIdent false false "data" false) (TPath (Path false [Seg "i32" PaNone]))] (Some (TPath (Path false [Seg "std" PaNone; Seg "io" PaNone; Seg "Result" (PaAngle [GaType (TRef (Some "a") false (TPath (Path false [Seg "str" PaNone])))])]))) None)])]
  ["MockMyTrait"; "expect_get"];
(* mockall/tests/specific_impl.rs 1 *)
 Entry "mockall/tests/specific_impl.rs" 1
  [DMock (MockDecl [] VPublic "Foo" (Generics true [GpType "T" [BLifetime "static"] None] None) [] [] [(ItemImpl [] false (Generics false [] None) (Some (false, (Path false [Seg "Bar" PaNone]))) (TPath (Path false [Seg "Foo" (PaAngle [GaType (TPath (Path false [Seg "u32" PaNone]))])])) [IiFn (FnItem [] VInherited (Signature "bar" (Generics false [] None) [FaReceiver (Some None) false false (TRef None false (TPath (Path false [Seg "Self" PaNone])))] None None))]); (ItemImpl [] false (Generics false [] None) (Some (false, (Path false [Seg "Bar" PaNone]))) (TPath (Path false [Seg "Foo" (PaAngle [GaType (TPath (Path false [Seg "i32" PaNone]))])])) [IiFn (FnItem [] VInherited (Signature "bar" (Generics false [] None) [FaReceiver (Some None) false false (TRef None false (TPath (Path false [Seg "Self" PaNone])))] None None))])]);
   DMock (MockDecl [] VPublic "Bean" (Generics true [GpType "X" [BLifetime "static"] None; GpType "Y" [BLifetime "static"] None] None) [] [] [(ItemImpl [] false (Generics true [GpType "Y" [BLifetime "static"] None] None) (Some (false, (Path false [Seg "Bar" PaNone]))) (TPath (Path false [Seg "Bean" (PaAngle [GaType (TPath (Path false [Seg "u32" PaNone])); GaType (TPath (Path false [Seg "Y" PaNone]))])])) [IiFn (FnItem [] VInherited (Signature "bar" (Generics false [] None) [FaReceiver (Some None) false false (TRef None false (TPath (Path false [Seg "Self" PaNone])))] None None))]); (ItemImpl [] false (Generics true [GpType "Y" [BLifetime "static"] None] None) (Some (false, (Path false [Seg "Bar" PaNone]))) (TPath (Path false [Seg "Bean" (PaAngle [GaType (TPath (Path false [Seg "i32" PaNone])); GaType (TPath (Path false [Seg "Y" PaNone]))])])) [IiFn (FnItem [] VInherited (Signature "bar" (Generics false [] None) [FaReceiver (Some None) false false (TRef None false (TPath (Path false [Seg "Self" PaNone])))] None None))])])]
  ["MockFoo"; "expect_bar"; "MockBean"];
(* mockall/src/lib.rs 54 *)
 Entry "mockall/src/lib.rs" 54
  [DTrait [] (ItemTrait [] VInherited false "MyTrait" (Generics false [] None) [TiFn [] (Signature "foo" (Generics false [] None) [FaReceiver (Some None) false false (TRef None false (TPath (Path false [Seg "Self" PaNone]))); FaTyped (PatIdent false false "x" false) (TPath (Path false [Seg "u32" PaNone]))] (Some (TPath (Path false [Seg "u32" PaNone]))) None)])]
  ["MockMyTrait"; "expect_foo"];
(* mockall/src/lib.rs 89 *)
 Entry "mockall/src/lib.rs" 89
  [DTrait [] (ItemTrait [] VInherited false "MyTrait" (Generics false [] None) [TiFn [] (Signature "foo" (Generics false [] None) [FaReceiver (Some None) false false (TRef None false (TPath (Path false [Seg "Self" PaNone])))] (Some (TPath (Path false [Seg "u32" PaNone]))) None); TiFn [] (Signature "bar" (Generics false [] None) [FaReceiver (Some None) false false (TRef None false (TPath (Path false [Seg "Self" PaNone]))); FaTyped (PatIdent false false "x" false) (TPath (Path false [Seg "u32" PaNone])); FaTyped (PatIdent false false "y" false) (TPath (Path false [Seg "u32" PaNone]))] (Some (TPath (Path false [Seg "u32" PaNone]))) None)])]
  ["MockMyTrait"; "expect_foo"; "expect_bar"];
(* mockall/src/lib.rs 108 *)
 Entry "mockall/src/lib.rs" 108
  [DTrait [] (ItemTrait [] VInherited false "Foo" (Generics false [] None) [TiFn [] (Signature "foo" (Generics false [] None) [FaReceiver (Some None) false false (TRef None false (TPath (Path false [Seg "Self" PaNone])))] (Some (TPath (Path false [Seg "NonClone" PaNone]))) None)])]
  ["MockFoo"; "expect_foo"];
(* mockall/src/lib.rs 128 *)
 Entry "mockall/src/lib.rs" 128
  [DTrait [] (ItemTrait [] VInherited false "Foo" (Generics false [] None) [TiFn [] (Signature "foo" (Generics false [] None) [FaReceiver (Some None) false false (TRef None false (TPath (Path false [Seg "Self" PaNone])))] (Some (TPath (Path false [Seg "NonClone" PaNone]))) None)])]
  ["MockFoo"; "expect_foo"];
(* mockall/src/lib.rs 162 *)
 Entry "mockall/src/lib.rs" 162
  [DTrait [] (ItemTrait [] VInherited false "Foo" (Generics false [] None) [TiFn [] (Signature "foo" (Generics false [] None) [FaReceiver (Some None) false false (TRef None false (TPath (Path false [Seg "Self" PaNone]))); FaTyped (PatIdent false false "x" false) (TPath (Path false [Seg "Rc" (PaAngle [GaType (TPath (Path false [Seg "u32" PaNone]))])]))] (Some (TPath (Path false [Seg "Rc" (PaAngle [GaType (TPath (Path false [Seg "u32" PaNone]))])]))) None)])]
  ["MockFoo"; "expect_foo"];
(* mockall/src/lib.rs 188 *)
 Entry "mockall/src/lib.rs" 188
  [DTrait [] (ItemTrait [] VInherited false "Foo" (Generics false [] None) [TiFn [] (Signature "foo" (Generics false [] None) [FaReceiver (Some None) false false (TRef None false (TPath (Path false [Seg "Self" PaNone]))); FaTyped (PatIdent false false "x" false) (TPath (Path false [Seg "u32" PaNone]))] None None)])]
  ["MockFoo"; "expect_foo"];
(* mockall/src/lib.rs 211 *)
 Entry "mockall/src/lib.rs" 211
  [DTrait [] (ItemTrait [] VInherited false "Foo" (Generics false [] None) [TiFn [] (Signature "foo" (Generics false [] None) [FaReceiver (Some None) false false (TRef None false (TPath (Path false [Seg "Self" PaNone]))); FaTyped (PatIdent false false "x" false) (TPath (Path false [Seg "u32" PaNone])); FaTyped (PatIdent false false "y" false) (TPath (Path false [Seg "u32" PaNone]))] None None)])]
  ["MockFoo"; "expect_foo"];
(* mockall/src/lib.rs 237 *)
 Entry "mockall/src/lib.rs" 237
  [DTrait [] (ItemTrait [] VInherited false "Foo" (Generics false [] None) [TiFn [] (Signature "foo" (Generics false [] None) [FaReceiver (Some None) false false (TRef None false (TPath (Path false [Seg "Self" PaNone]))); FaTyped (PatIdent false false "x" false) (TPath (Path false [Seg "u32" PaNone]))] (Some (TPath (Path false [Seg "u32" PaNone]))) None)])]
  ["MockFoo"; "expect_foo"];
(* mockall/src/lib.rs 260 *)
 Entry "mockall/src/lib.rs" 260
  [DTrait [] (ItemTrait [] VInherited false "Foo" (Generics false [] None) [TiFn [] (Signature "open" (Generics false [] None) [FaReceiver (Some None) false false (TRef None false (TPath (Path false [Seg "Self" PaNone]))); FaTyped (PatIdent false false "path" false) (TPath (Path false [Seg "String" PaNone]))] (Some (TPath (Path false [Seg "Option" (PaAngle [GaType (TPath (Path false [Seg "u32" PaNone]))])]))) None)])]
  ["MockFoo"; "expect_open"];
(* mockall/src/lib.rs 282 *)
 Entry "mockall/src/lib.rs" 282
  [DTrait [] (ItemTrait [] VInherited false "Foo" (Generics false [] None) [TiFn [] (Signature "foo" (Generics false [] None) [FaReceiver (Some None) false false (TRef None false (TPath (Path false [Seg "Self" PaNone]))); FaTyped (PatIdent false false "x" false) (TPath (Path false [Seg "u32" PaNone]))] None None)])]
  ["MockFoo"; "expect_foo"];
(* mockall/src/lib.rs 309 *)
 Entry "mockall/src/lib.rs" 309
  [DTrait [] (ItemTrait [] VInherited false "Foo" (Generics false [] None) [TiFn [] (Signature "foo" (Generics false [] None) [FaReceiver (Some None) false false (TRef None false (TPath (Path false [Seg "Self" PaNone])))] None None)])]
  ["MockFoo"; "expect_foo"];
(* mockall/src/lib.rs 344 *)
 Entry "mockall/src/lib.rs" 344
  [DTrait [] (ItemTrait [] VInherited false "Foo" (Generics false [] None) [TiFn [] (Signature "foo" (Generics false [] None) [FaReceiver (Some None) false false (TRef None false (TPath (Path false [Seg "Self" PaNone])))] None None)])]
  ["MockFoo"; "expect_foo"];
(* mockall/src/lib.rs 360 *)
 Entry "mockall/src/lib.rs" 360
  [DTrait [] (ItemTrait [] VInherited false "Foo" (Generics false [] None) [TiFn [] (Signature "foo" (Generics false [] None) [FaReceiver (Some None) false false (TRef None false (TPath (Path false [Seg "Self" PaNone])))] None None)])]
  ["MockFoo"; "expect_foo"];
(* mockall/src/lib.rs 385 *)
 Entry "mockall/src/lib.rs" 385
  [DTrait [] (ItemTrait [] VInherited false "Foo" (Generics false [] None) [TiFn [] (Signature "foo" (Generics false [] None) [FaReceiver (Some None) false false (TRef None false (TPath (Path false [Seg "Self" PaNone]))); FaTyped (PatIdent false false "x" false) (TRef None false (TPath (Path false [Seg "u32" PaNone])))] (Some (TPath (Path false [Seg "u32" PaNone]))) None)])]
  ["MockFoo"; "expect_foo"];
(* mockall/src/lib.rs 413 *)
 Entry "mockall/src/lib.rs" 413
  [DTrait [] (ItemTrait [] VInherited false "Container" (Generics false [] None) [TiFn [] (Signature "get" (Generics false [] None) [FaReceiver (Some None) false false (TRef None false (TPath (Path false [Seg "Self" PaNone]))); FaTyped (PatIdent false false "i" false) (TPath (Path false [Seg "u32" PaNone]))] (Some (TRef (Some "static") false (TPath (Path false [Seg "Thing" PaNone])))) None)])]
  ["MockContainer"; "expect_get"];
(* mockall/src/lib.rs 438 *)
 Entry "mockall/src/lib.rs" 438
  [DTrait [] (ItemTrait [] VInherited false "Container" (Generics false [] None) [TiFn [] (Signature "get" (Generics false [] None) [FaReceiver (Some None) false false (TRef None false (TPath (Path false [Seg "Self" PaNone]))); FaTyped (PatIdent false false "i" false) (TPath (Path false [Seg "u32" PaNone]))] (Some (TRef None false (TPath (Path false [Seg "Thing" PaNone])))) None)])]
  ["MockContainer"; "expect_get"];
(* mockall/src/lib.rs 466 *)
 Entry "mockall/src/lib.rs" 466
  [DTrait [] (ItemTrait [] VInherited false "Container" (Generics false [] None) [TiFn [] (Signature "get_mut" (Generics false [] None) [FaReceiver (Some None) true false (TRef None true (TPath (Path false [Seg "Self" PaNone]))); FaTyped (PatIdent false false "i" false) (TPath (Path false [Seg "u32" PaNone]))] (Some (TRef None true (TPath (Path false [Seg "Thing" PaNone])))) None)])]
  ["MockContainer"; "expect_get_mut"];
(* mockall/src/lib.rs 499 *)
 Entry "mockall/src/lib.rs" 499
  [DTrait [] (ItemTrait [] VInherited false "Foo" (Generics false [] None) [TiFn [] (Signature "name" (Generics false [] None) [FaReceiver (Some None) false false (TRef None false (TPath (Path false [Seg "Self" PaNone])))] (Some (TRef None false (TPath (Path false [Seg "str" PaNone])))) None)])]
  ["MockFoo"; "expect_name"];
(* mockall/src/lib.rs 514 *)
 Entry "mockall/src/lib.rs" 514
  [DTrait [] (ItemTrait [] VInherited false "Foo" (Generics false [] None) [TiFn [] (Signature "name" (Generics false [] None) [FaReceiver (Some None) false false (TRef None false (TPath (Path false [Seg "Self" PaNone])))] (Some (TRef None false (TDyn true [BTrait false [] (Path false [Seg "Display" PaNone])]))) None)])]
  ["MockFoo"; "expect_name"];
(* mockall/src/lib.rs 541 *)
 Entry "mockall/src/lib.rs" 541
  [DImpl (ItemImpl [] false (Generics false [] None) None (TPath (Path false [Seg "Foo" PaNone])) [IiFn (FnItem [] VInherited (Signature "foo" (Generics false [] None) [FaReceiver (Some None) false false (TRef None false (TPath (Path false [Seg "Self" PaNone])))] (Some (TImplTrait [BTrait false [] (Path false [Seg "Debug" PaNone])])) None))])]
  ["MockFoo"; "expect_foo"];
(* mockall/src/lib.rs 607 *)
 Entry "mockall/src/lib.rs" 607
  [DImpl (ItemImpl [] false (Generics false [] None) None (TPath (Path false [Seg "Foo" PaNone])) [IiFn (FnItem [] VInherited (Signature "foo" (Generics false [] None) [FaReceiver (Some None) false false (TRef None false (TPath (Path false [Seg "Self" PaNone])))] (Some (TImplTrait [BTrait false [] (Path false [Seg "Future" (PaAngle [GaAssocType "Output" (TPath (Path false [Seg "i32" PaNone]))])])])) None))])]
  ["MockFoo"; "expect_foo"];
(* mockall/src/lib.rs 637 *)
 Entry "mockall/src/lib.rs" 637
  [DImpl (ItemImpl [] false (Generics false [] None) None (TPath (Path false [Seg "Thing" PaNone])) [IiFn (FnItem [] VPublic (Signature "foo" (Generics false [] None) [FaReceiver (Some None) false false (TRef None false (TPath (Path false [Seg "Self" PaNone])))] (Some (TPath (Path false [Seg "u32" PaNone]))) None))])]
  ["expect_foo"];
(* mockall/src/lib.rs 686 *)
 Entry "mockall/src/lib.rs" 686
  [DTrait [] (ItemTrait [] VInherited false "Foo" (Generics false [] None) [TiFn [] (Signature "foo" (Generics true [GpType "T" [BLifetime "static"] None] None) [FaReceiver (Some None) false false (TRef None false (TPath (Path false [Seg "Self" PaNone]))); FaTyped (PatIdent false false "t" false) (TPath (Path false [Seg "T" PaNone]))] (Some (TPath (Path false [Seg "i32" PaNone]))) None)])]
  ["MockFoo"; "expect_foo"];
(* mockall/src/lib.rs 722 *)
 Entry "mockall/src/lib.rs" 722
  [DTrait [] (ItemTrait [] VInherited false "Foo" (Generics false [] None) [TiFn [] (Signature "foo" (Generics true [GpLifetime "a" []] None) [FaReceiver (Some None) false false (TRef None false (TPath (Path false [Seg "Self" PaNone]))); FaTyped (PatIdent false false "x" false) (TPath (Path false [Seg "X" (PaAngle [GaLifetime "a"])]))] (Some (TPath (Path false [Seg "i32" PaNone]))) None)])]
  ["MockFoo"; "expect_foo"];
(* mockall/src/lib.rs 748 *)
 Entry "mockall/src/lib.rs" 748
  [DTrait [] (ItemTrait [] VInherited false "Foo" (Generics true [GpType "T" [] None] None) [TiFn [] (Signature "foo" (Generics false [] None) [FaReceiver (Some None) false false (TRef None false (TPath (Path false [Seg "Self" PaNone]))); FaTyped (PatIdent false false "t" false) (TPath (Path false [Seg "T" PaNone]))] (Some (TPath (Path false [Seg "i32" PaNone]))) None)])]
  ["MockFoo"; "expect_foo"];
(* mockall/src/lib.rs 770 *)
 Entry "mockall/src/lib.rs" 770
  [DTrait [("Key", (Some (TPath (Path false [Seg "u16" PaNone])))); ("Value", (Some (TPath (Path false [Seg "i32" PaNone]))))] (ItemTrait [] VPublic false "A" (Generics false [] None) [TiType "Key" [] None; TiType "Value" [] None; TiFn [] (Signature "foo" (Generics false [] None) [FaReceiver (Some None) false false (TRef None false (TPath (Path false [Seg "Self" PaNone]))); FaTyped (PatIdent false false "k" false) (TPath (Path false [Seg "Self" PaNone; Seg "Key" PaNone]))] (Some (TPath (Path false [Seg "Self" PaNone; Seg "Value" PaNone]))) None)])]
  ["MockA"; "expect_foo"];
(* mockall/src/lib.rs 791 *)
 Entry "mockall/src/lib.rs" 791
  [DMock (MockDecl [] VInherited "C" (Generics false [] None) [] [] [(ItemImpl [] false (Generics false [] None) (Some (false, (Path false [Seg "A" PaNone]))) (TPath (Path false [Seg "C" PaNone])) [IiFn (FnItem [] VInherited (Signature "foo" (Generics false [] None) [FaReceiver (Some None) false false (TRef None false (TPath (Path false [Seg "Self" PaNone])))] None None))]); (ItemImpl [] false (Generics false [] None) (Some (false, (Path false [Seg "B" PaNone]))) (TPath (Path false [Seg "C" PaNone])) [IiFn (FnItem [] VInherited (Signature "bar" (Generics false [] None) [FaReceiver (Some None) false false (TRef None false (TPath (Path false [Seg "Self" PaNone])))] None None))])])]
  ["MockC"; "expect_foo"; "expect_bar"];
(* mockall/src/lib.rs 828 *)
 Entry "mockall/src/lib.rs" 828
  [DMock (MockDecl [] VInherited "MyStruct" (Generics false [] None) [] [] [(ItemImpl [] false (Generics false [] None) (Some (false, (Path false [Seg "Clone" PaNone]))) (TPath (Path false [Seg "MyStruct" PaNone])) [IiFn (FnItem [] VInherited (Signature "clone" (Generics false [] None) [FaReceiver (Some None) false false (TRef None false (TPath (Path false [Seg "Self" PaNone])))] (Some (TPath (Path false [Seg "Self" PaNone]))) None))])])]
  ["MockMyStruct"; "expect_clone"];
(* mockall/src/lib.rs 856 *)
 Entry "mockall/src/lib.rs" 856
  [DTrait [] (ItemTrait [] VPublic false "A" (Generics false [] None) [TiFn [] (Signature "foo" (Generics false [] None) [] (Some (TPath (Path false [Seg "u32" PaNone]))) None)])]
  ["MockA"; "foo_context"];
(* mockall/src/lib.rs 871 *)
 Entry "mockall/src/lib.rs" 871
  [DImpl (ItemImpl [] false (Generics false [] None) None (TPath (Path false [Seg "Foo" PaNone])) [IiFn (FnItem [] VInherited (Signature "from_i32" (Generics false [] None) [FaTyped (PatIdent false false "x" false) (TPath (Path false [Seg "i32" PaNone]))] (Some (TPath (Path false [Seg "Self" PaNone]))) None)); IiFn (FnItem [] VInherited (Signature "foo" (Generics false [] None) [FaReceiver (Some None) false false (TRef None false (TPath (Path false [Seg "Self" PaNone])))] (Some (TPath (Path false [Seg "i32" PaNone]))) None))])]
  ["MockFoo"; "from_i32_context"; "expect_foo"];
(* mockall/src/lib.rs 906 *)
 Entry "mockall/src/lib.rs" 906
  [DTrait [] (ItemTrait [] VInherited false "Foo" (Generics true [GpType "T" [BLifetime "static"] None] None) [TiFn [] (Signature "new" (Generics false [] None) [FaTyped (PatIdent false false "t" false) (TPath (Path false [Seg "T" PaNone]))] (Some (TPath (Path false [Seg "MockFoo" (PaAngle [GaType (TPath (Path false [Seg "T" PaNone]))])]))) None)])]
  ["MockFoo"; "new_context"];
(* mockall/src/lib.rs 927 *)
 Entry "mockall/src/lib.rs" 927
  [DTrait [] (ItemTrait [] VPublic false "A" (Generics false [] None) [TiFn [] (Signature "foo" (Generics false [] None) [] (Some (TPath (Path false [Seg "u32" PaNone]))) None)])]
  ["MockA"; "foo_context"];
(* mockall/src/lib.rs 945 *)
 Entry "mockall/src/lib.rs" 945
  [DTrait [] (ItemTrait [] VPublic false "A" (Generics false [] None) [TiFn [] (Signature "build" (Generics false [] None) [] (Some (TPath (Path false [Seg "Self" PaNone]))) None); TiFn [] (Signature "bar" (Generics false [] None) [FaReceiver (Some None) false false (TRef None false (TPath (Path false [Seg "Self" PaNone])))] (Some (TPath (Path false [Seg "i32" PaNone]))) None)])]
  ["MockA"; "build_context"; "expect_bar"];
(* mockall/src/lib.rs 981 *)
 Entry "mockall/src/lib.rs" 981
  [DMod (VRestricted false (Path false [Seg "super" PaNone])) "inner" (Some [ItFn (FnItem [] VPublic (Signature "bar" (Generics false [] None) [FaTyped (PatIdent false false "x" false) (TPath (Path false [Seg "u32" PaNone]))] (Some (TPath (Path false [Seg "i64" PaNone]))) None)) false])]
  ["bar_context"];
(* mockall/src/lib.rs 1019 *)
 Entry "mockall/src/lib.rs" 1019
  [DMod VPublic "ffi" (Some [ItForeign (Some "C") [FiFn (FnItem [] VPublic (Signature "foo" (Generics false [] None) [FaTyped (PatIdent false false "x" false) (TPath (Path false [Seg "u32" PaNone]))] (Some (TPath (Path false [Seg "i64" PaNone]))) None)) false]])]
  ["foo_context"];
(* mockall/src/lib.rs 1058 *)
 Entry "mockall/src/lib.rs" 1058
  [DMock (MockDecl [Attribute (Path false [Seg "derive" PaNone]) (Some "Debug") ""] VPublic "Foo" (Generics false [] None) [] [] [])]
  ["MockFoo"];
(* mockall/src/lib.rs 1081 *)
 Entry "mockall/src/lib.rs" 1081
  [DTrait [] (ItemTrait [Attribute (Path false [Seg "async_trait" PaNone]) None ""] VPublic false "Foo" (Generics false [] None) [TiFn [] (Signature "foo" (Generics false [] None) [FaReceiver (Some None) false false (TRef None false (TPath (Path false [Seg "Self" PaNone])))] (Some (TPath (Path false [Seg "u32" PaNone]))) None)]);
   DMock (MockDecl [] VPublic "Bar" (Generics false [] None) [] [] [(ItemImpl [Attribute (Path false [Seg "async_trait" PaNone]) None ""] false (Generics false [] None) (Some (false, (Path false [Seg "Foo" PaNone]))) (TPath (Path false [Seg "Bar" PaNone])) [IiFn (FnItem [] VInherited (Signature "foo" (Generics false [] None) [FaReceiver (Some None) false false (TRef None false (TPath (Path false [Seg "Self" PaNone])))] (Some (TPath (Path false [Seg "u32" PaNone]))) None))])])]
  [];
(* mockall/src/lib.rs 1194 *)
 Entry "mockall/src/lib.rs" 1194
  [DTrait [] (ItemTrait [] VPublic false "Foo" (Generics false [] None) [TiFn [] (Signature "foo" (Generics false [] None) [FaReceiver (Some None) false false (TRef None false (TPath (Path false [Seg "Self" PaNone]))); FaTyped (PatIdent false false "key" false) (TPath (Path false [Seg "i16" PaNone]))] None None)])]
  ["MockFoo"];
(* mockall/src/lib.rs 1205 *)
 Entry "mockall/src/lib.rs" 1205
  [DImpl (ItemImpl [] false (Generics false [] None) None (TPath (Path false [Seg "Foo" PaNone])) [IiFn (FnItem [] VInherited (Signature "foo" (Generics false [] None) [FaReceiver (Some None) false false (TRef None false (TPath (Path false [Seg "Self" PaNone])))] (Some (TPath (Path false [Seg "u32" PaNone]))) None))])]
  [];
(* mockall/src/lib.rs 1218 *)
 Entry "mockall/src/lib.rs" 1218
  [DImpl (ItemImpl [] false (Generics false [] None) (Some (false, (Path false [Seg "Foo" PaNone]))) (TPath (Path false [Seg "Bar" PaNone])) [IiFn (FnItem [] VInherited (Signature "foo" (Generics false [] None) [FaReceiver (Some None) false false (TRef None false (TPath (Path false [Seg "Self" PaNone]))); FaTyped (PatIdent false false "key" false) (TPath (Path false [Seg "i16" PaNone]))] None None))])]
  ["MockBar"];
(* mockall/src/lib.rs 1237 *)
 Entry "mockall/src/lib.rs" 1237
  [DTrait [("Item", (Some (TPath (Path false [Seg "u32" PaNone]))))] (ItemTrait [] VInherited false "Foo" (Generics false [] None) [TiType "Item" [] None; TiFn [] (Signature "foo" (Generics false [] None) [FaReceiver (Some None) false false (TRef None false (TPath (Path false [Seg "Self" PaNone])))] (Some (TPath (Path false [Seg "Self" PaNone; Seg "Item" PaNone]))) None)])]
  [];
(* mockall/src/lib.rs 1249 *)
 Entry "mockall/src/lib.rs" 1249
  [DMod VInherited "mymod" (Some [ItFn (FnItem [] VPublic (Signature "foo" (Generics false [] None) [] (Some (TPath (Path false [Seg "u32" PaNone]))) None)) false])]
  [];
(* mockall/src/lib.rs 1262 *)
 Entry "mockall/src/lib.rs" 1262
  [DMod VInherited "ffi" (Some [ItForeign (Some "C") [FiFn (FnItem [] VPublic (Signature "foo" (Generics false [] None) [] (Some (TPath (Path false [Seg "u32" PaNone]))) None)) false]])]
  [];
(* mockall/src/lib.rs 1310 *)
 Entry "mockall/src/lib.rs" 1310
  [DTrait [] (ItemTrait [] VInherited false "Foo" (Generics false [] None) [TiFn [Attribute (Path false [Seg "mockall" PaNone; Seg "concretize" PaNone]) None ""] (Signature "foo" (Generics true [GpType "P" [BTrait false [] (Path false [Seg "AsRef" (PaAngle [GaType (TPath (Path false [Seg "Path" PaNone]))])])] None] None) [FaReceiver (Some None) false false (TRef None false (TPath (Path false [Seg "Self" PaNone]))); FaTyped (PatIdent false false "p" false) (TPath (Path false [Seg "P" PaNone]))] None None)])]
  ["MockFoo"; "expect_foo"];
(* mockall/src/lib.rs 1357 *)
 Entry "mockall/src/lib.rs" 1357
  [DMock (MockDecl [] VPublic "MyStruct" (Generics true [GpType "T" [BTrait false [] (Path false [Seg "Clone" PaNone]); BLifetime "static"] None] None) [] [(FnItem [] VInherited (Signature "bar" (Generics false [] None) [FaReceiver (Some None) false false (TRef None false (TPath (Path false [Seg "Self" PaNone])))] (Some (TPath (Path false [Seg "u8" PaNone]))) None))] [(ItemImpl [] false (Generics true [GpType "T" [BTrait false [] (Path false [Seg "Clone" PaNone]); BLifetime "static"] None] None) (Some (false, (Path false [Seg "Foo" PaNone]))) (TPath (Path false [Seg "MyStruct" (PaAngle [GaType (TPath (Path false [Seg "T" PaNone]))])])) [IiFn (FnItem [] VInherited (Signature "foo" (Generics false [] None) [FaReceiver (Some None) false false (TRef None false (TPath (Path false [Seg "Self" PaNone]))); FaTyped (PatIdent false false "x" false) (TPath (Path false [Seg "u32" PaNone]))] None None))])])]
  [];
(* mockall/src/lib.rs 1374 *)
 Entry "mockall/src/lib.rs" 1374
  [DMock (MockDecl [] VPublic "MyStruct" (Generics false [] None) [] [(FnItem [] VInherited (Signature "bar" (Generics false [] None) [FaReceiver (Some None) false false (TRef None false (TPath (Path false [Seg "Self" PaNone])))] None None))] [(ItemImpl [] false (Generics false [] None) (Some (false, (Path false [Seg "Clone" PaNone]))) (TPath (Path false [Seg "MyStruct" PaNone])) [IiFn (FnItem [] VInherited (Signature "clone" (Generics false [] None) [FaReceiver (Some None) false false (TRef None false (TPath (Path false [Seg "Self" PaNone])))] (Some (TPath (Path false [Seg "Self" PaNone]))) None))])])]
  [];
(* mockall/src/lib.rs 1393 *)
 Entry "mockall/src/lib.rs" 1393
  [DMock (MockDecl [] VPublic "Rc" (Generics true [GpType "T" [] None] None) [] [] [(ItemImpl [] false (Generics true [GpType "T" [] None] None) (Some (false, (Path false [Seg "AsRef" (PaAngle [GaType (TPath (Path false [Seg "T" PaNone]))])]))) (TPath (Path false [Seg "Rc" (PaAngle [GaType (TPath (Path false [Seg "T" PaNone]))])])) [IiFn (FnItem [] VInherited (Signature "as_ref" (Generics false [] None) [FaReceiver (Some None) false false (TRef None false (TPath (Path false [Seg "Self" PaNone])))] (Some (TRef None false (TPath (Path false [Seg "T" PaNone])))) None))])])]
  [];
(* mockall/src/lib.rs 1416 *)
 Entry "mockall/src/lib.rs" 1416
  [DMock (MockDecl [] VInherited "MyIter" (Generics false [] None) [] [] [(ItemImpl [] false (Generics false [] None) (Some (false, (Path false [Seg "Iterator" PaNone]))) (TPath (Path false [Seg "MyIter" PaNone])) [IiType "Item" (TPath (Path false [Seg "u32" PaNone])); IiFn (FnItem [] VInherited (Signature "next" (Generics false [] None) [FaReceiver (Some None) true false (TRef None true (TPath (Path false [Seg "Self" PaNone])))] (Some (TPath (Path false [Seg "Option" (PaAngle [GaType (TQPath (TPath (Path false [Seg "Self" PaNone])) 1 (Path false [Seg "Iterator" PaNone; Seg "Item" PaNone]))])]))) None))])])]
  [];
(* mockall/src/lib.rs 1725 *)
 Entry "mockall/src/lib.rs" 1725
  [DTrait [] (ItemTrait [] VInherited false "Foo" (Generics false [] None) [TiFn [] (Signature "foo" (Generics false [] None) [FaReceiver (Some None) false false (TRef None false (TPath (Path false [Seg "Self" PaNone])))] None None); TiFn [] (Signature "bar" (Generics false [] None) [FaReceiver (Some None) false false (TRef None false (TPath (Path false [Seg "Self" PaNone])))] (Some (TPath (Path false [Seg "u32" PaNone]))) None)])]
  ["MockFoo"; "expect_foo"; "expect_bar"];
(* mockall/src/lib.rs 1753 *)
 Entry "mockall/src/lib.rs" 1753
  [DTrait [] (ItemTrait [] VInherited false "Foo" (Generics false [] None) [TiFn [] (Signature "foo" (Generics false [] None) [FaReceiver (Some None) false false (TRef None false (TPath (Path false [Seg "Self" PaNone])))] None None)])]
  ["MockFoo"; "expect_foo"];
(* README.md 38 *)
 Entry "README.md" 38
  [DTrait [] (ItemTrait [] VInherited false "MyTrait" (Generics false [] None) [TiFn [] (Signature "foo" (Generics false [] None) [FaReceiver (Some None) false false (TRef None false (TPath (Path false [Seg "Self" PaNone]))); FaTyped (PatIdent false false "x" false) (TPath (Path false [Seg "u32" PaNone]))] (Some (TPath (Path false [Seg "u32" PaNone]))) None)])]
  ["MockMyTrait"; "expect_foo"]].

(** Declarations that the documentation says do not compile. *)
Definition repo_bad_decls : list entry := [
(* mockall/src/lib.rs 566 *)
 Entry "mockall/src/lib.rs" 566
  [DImpl (ItemImpl [] false (Generics false [] None) None (TPath (Path false [Seg "Foo" PaNone])) [IiFn (FnItem [] VInherited (Signature "foo" (Generics false [] None) [FaReceiver (Some None) false false (TRef None false (TPath (Path false [Seg "Self" PaNone])))] (Some (TImplTrait [BTrait false [] (Path false [Seg "Clone" PaNone])])) None))])]
  [];
(* mockall/src/lib.rs 581 *)
 Entry "mockall/src/lib.rs" 581
  [DImpl (ItemImpl [] false (Generics false [] None) None (TPath (Path false [Seg "Foo" PaNone])) [IiFn (FnItem [] VInherited (Signature "foo" (Generics false [] None) [FaReceiver (Some None) false false (TRef None false (TPath (Path false [Seg "Self" PaNone])))] (Some (TImplTrait [BTrait false [] (Path false [Seg "Debug" PaNone]); BTrait false [] (Path false [Seg "Display" PaNone])])) None))])]
  [];
(* mockall/src/lib.rs 1330 *)
 Entry "mockall/src/lib.rs" 1330
  [DTrait [] (ItemTrait [] VInherited false "Foo" (Generics false [] None) [TiFn [Attribute (Path false [Seg "something_else" PaNone]) None ""] (Signature "foo" (Generics true [GpType "T" [] None] None) [FaReceiver (Some None) false false (TRef None false (TPath (Path false [Seg "Self" PaNone]))); FaTyped (PatIdent false false "t" false) (TPath (Path false [Seg "T" PaNone]))] None None)])]
  [];
(* mockall/src/lib.rs 1404 *)
 Entry "mockall/src/lib.rs" 1404
  [DMock (MockDecl [] VPublic "Rc" (Generics true [GpType "Q" [] None] None) [] [] [(ItemImpl [] false (Generics true [GpType "T" [] None] None) (Some (false, (Path false [Seg "AsRef" (PaAngle [GaType (TPath (Path false [Seg "T" PaNone]))])]))) (TPath (Path false [Seg "Rc" (PaAngle [GaType (TPath (Path false [Seg "T" PaNone]))])])) [IiFn (FnItem [] VInherited (Signature "as_ref" (Generics false [] None) [FaReceiver (Some None) false false (TRef None false (TPath (Path false [Seg "Self" PaNone])))] (Some (TRef None false (TPath (Path false [Seg "T" PaNone])))) None))])])]
  []].

(** The inputs of the tests of the whole output: mockall_derive/src/lib.rs 1396-1590. *)
Definition whole_inherent_method_visibility : decl :=
  DMock (MockDecl [] VInherited "Foo" (Generics false [] None) [] [(FnItem [] VInherited (Signature "foo" (Generics false [] None) [FaReceiver (Some None) false false (TRef None false (TPath (Path false [Seg "Self" PaNone])))] None None)); (FnItem [] VPublic (Signature "bar" (Generics false [] None) [FaReceiver (Some None) false false (TRef None false (TPath (Path false [Seg "Self" PaNone])))] None None)); (FnItem [] (VRestricted false (Path false [Seg "crate" PaNone])) (Signature "baz" (Generics false [] None) [FaReceiver (Some None) false false (TRef None false (TPath (Path false [Seg "Self" PaNone])))] None None)); (FnItem [] (VRestricted false (Path false [Seg "super" PaNone])) (Signature "bean" (Generics false [] None) [FaReceiver (Some None) false false (TRef None false (TPath (Path false [Seg "Self" PaNone])))] None None)); (FnItem [] (VRestricted true (Path false [Seg "crate" PaNone; Seg "outer" PaNone])) (Signature "boom" (Generics false [] None) [FaReceiver (Some None) false false (TRef None false (TPath (Path false [Seg "Self" PaNone])))] None None))] []).
Definition whole_must_use_struct : decl :=
  DMock (MockDecl [Attribute (Path false [Seg "must_use" PaNone]) None ""] VPublic "Foo" (Generics false [] None) [] [] []).
Definition whole_specific_impl : decl :=
  DMock (MockDecl [] VPublic "Foo" (Generics true [GpType "T" [BLifetime "static"] None] None) [] [] [(ItemImpl [] false (Generics false [] None) (Some (false, (Path false [Seg "Bar" PaNone]))) (TPath (Path false [Seg "Foo" (PaAngle [GaType (TPath (Path false [Seg "u32" PaNone]))])])) [IiFn (FnItem [] VInherited (Signature "bar" (Generics false [] None) [FaReceiver (Some None) false false (TRef None false (TPath (Path false [Seg "Self" PaNone])))] None None))]); (ItemImpl [] false (Generics false [] None) (Some (false, (Path false [Seg "Bar" PaNone]))) (TPath (Path false [Seg "Foo" (PaAngle [GaType (TPath (Path false [Seg "i32" PaNone]))])])) [IiFn (FnItem [] VInherited (Signature "bar" (Generics false [] None) [FaReceiver (Some None) false false (TRef None false (TPath (Path false [Seg "Self" PaNone])))] None None))])]).
Definition whole_doc_comments : decl :=
  DMod VInherited "foo" (Some [ItFn (FnItem [Attribute (Path false [Seg "doc" PaNone]) None "= "" Function docs"""] VPublic (Signature "bar" (Generics false [] None) [] None None)) false]).
Definition whole_method_visibility : decl :=
  DImpl (ItemImpl [] false (Generics false [] None) None (TPath (Path false [Seg "Foo" PaNone])) [IiFn (FnItem [] VInherited (Signature "foo" (Generics false [] None) [FaReceiver (Some None) false false (TRef None false (TPath (Path false [Seg "Self" PaNone])))] None None)); IiFn (FnItem [] VPublic (Signature "bar" (Generics false [] None) [FaReceiver (Some None) false false (TRef None false (TPath (Path false [Seg "Self" PaNone])))] None None)); IiFn (FnItem [] (VRestricted false (Path false [Seg "super" PaNone])) (Signature "baz" (Generics false [] None) [FaReceiver (Some None) false false (TRef None false (TPath (Path false [Seg "Self" PaNone])))] None None)); IiFn (FnItem [] (VRestricted false (Path false [Seg "crate" PaNone])) (Signature "bang" (Generics false [] None) [FaReceiver (Some None) false false (TRef None false (TPath (Path false [Seg "Self" PaNone])))] None None)); IiFn (FnItem [] (VRestricted true (Path false [Seg "super" PaNone; Seg "x" PaNone])) (Signature "bean" (Generics false [] None) [FaReceiver (Some None) false false (TRef None false (TPath (Path false [Seg "Self" PaNone])))] None None))]).
Definition whole_must_use_method : decl :=
  DImpl (ItemImpl [] false (Generics false [] None) None (TPath (Path false [Seg "Foo" PaNone])) [IiFn (FnItem [Attribute (Path false [Seg "must_use" PaNone]) None ""] VInherited (Signature "foo" (Generics false [] None) [FaReceiver (Some None) false false (TRef None false (TPath (Path false [Seg "Self" PaNone])))] (Some (TPath (Path false [Seg "i32" PaNone]))) None))]).
Definition whole_must_use_static_method : decl :=
  DImpl (ItemImpl [] false (Generics false [] None) None (TPath (Path false [Seg "Foo" PaNone])) [IiFn (FnItem [Attribute (Path false [Seg "must_use" PaNone]) None ""] VInherited (Signature "foo" (Generics false [] None) [] (Some (TPath (Path false [Seg "i32" PaNone]))) None))]).
Definition whole_must_use_trait : decl :=
  DTrait [] (ItemTrait [Attribute (Path false [Seg "must_use" PaNone]) None ""] VInherited false "Foo" (Generics false [] None) []).
Definition whole_elided_lifetimes : decl :=
  DImpl (ItemImpl [] false (Generics false [] None) None (TPath (Path false [Seg "X" (PaAngle [GaLifetime "_"])])) []).
Definition whole_external_module : decl :=
  DMod VInherited "foo" None.
Definition whole_trait_visibility : decl :=
  DTrait [] (ItemTrait [] (VRestricted false (Path false [Seg "super" PaNone])) false "Foo" (Generics false [] None) []).
