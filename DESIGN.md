# A Rocq model of mockall

`/verif/rocq/theories` contains a model of the mockall run-time library
(`mockall/src/lib.rs`), of the code that `mockall_derive` generates for mocks, of
`mockall_derive` itself as functions on a `syn`-like syntax tree, and of
`mockall_double`.  `properties.jsonl` lists the claims, `MANIFEST.json` says which
theorem settles which claim.  `seeded/LOG.jsonl` lists wrong programs that were
tried against the theorems.

## Trusted base

* The kernel of Coq 8.16.1 (`coqc`), and `vm_compute` where an `Example` or a
  refutation computes with it.
* No axioms.  Every theorem named in `MANIFEST.json` is followed by `Print
  Assumptions`, which says "Closed under the global context" for each.  The
  constants of `Coq.ssr.ssrunder` that `vcheck` reports are merely loaded by `lia`
  (`Psatz` loads `ssreflect` files); no theorem depends on them.
* No `Admitted`, no `Axiom`/`Parameter`, no functors or module types, no switched-off checks, no plugins.
* That the definitions say what the Rust text says.  Each carries the file and the
  lines it models.  As a check, `tools/repo_tests.py` translates mockall's own tests:
  `RepoDecls.v` has the 235 declarations of mocks in its integration tests, examples and
  documentation, and `RepoUnit.v` the 80 unit tests of the macros that compare syntax trees.
  `RepoTests.v` shows that the model accepts all declarations, generates the functions that
  the tests use, and that the declarations meet the hypotheses of C74, C75 and C76
  (`mock_cfg.rs`, which declares functions twice under opposite conditions, only those of
  C76); and it has the tests of the whole output.  `RepoRuns.v` runs 114 of mockall's integration
  tests, transcribed by hand, on the generated items, and compares the texts of `should_panic`.  No claim rests on these files; the
  translator is not trusted.
* That the specifications (`*Spec.v` and the statements) say what the English
  claims say.

## What is modelled

| files | Rust |
|---|---|
| `Base.v` | panics, aborts, `usize` with overflow |
| `Times.v` | `TimesRange`, `Times`: mockall/src/lib.rs 1512-1668 |
| `Expect.v` | `Sequence`, `SeqHandle`, `DefaultReturner`: mockall/src/lib.rs 1434-1785; generated `Matcher`, `Rfunc` (three kinds), `Common`, `Expectation`, `Expectations`: mockall_derive/src/mock_function.rs 892-2440 |
| `Messages.v` | the texts of all panics: lib.rs, mock_function.rs, and std's as far as needed |
| `Fragile.v` | what happens to `Fragile` closures on other threads: drops of expectations, mocks and contexts, and `Rfunc::call` of `OnceSt` (mock_function.rs 1966-1996) |
| `Mock.v` | generated `GenericExpectations`, mock structs, `Context`, static methods, mock modules: mock_function.rs 2443-2546, mock_item_struct.rs, mock_item.rs; whole tests |
| `Conc.v` | the call path of the above as atomic steps of several threads |
| `Contexts.v` | operations on a static function's store by several threads: mock_function.rs 1583-1652 |
| `Guards.v` | `Contexts.v` with guards that outlive their statement: mock_function.rs 1243-1407, 1428-1545, 1621-1625 |
| `Multi.v` | guards of several functions: mock_function.rs 539-562, 1243-1407, 1411-1545, 1604-1648, mock_item.rs 190-194 |
| `Prints.v` | the operations of `Mock.v` with the user's `Debug` and `Display` implementations as code: mock_function.rs 486-488, 539-576, 632-644, 956-968, 1037-1061, 1742-1754, 2028-2037, 2089-2101, 2184-2194 |
| `Owns.v` | the operations of `Mock.v` with what they destroy: mock_function.rs 586-599, 927-932, 1010-1061, 1205-1221, 1632-1648, 1703-1714, 1779-1786, 1844-1859, 1924-1985, 2020-2046, 2085-2135, 2175-2310, 2464-2476; mock_item_struct.rs 335-361 |
| `Drops.v` | `Owns.v` with the destructors of closures and predicates as code: the same lines |
| `Nest.v` | `Conc.v` with return closures that call mocks |
| `Ask.v` | `Nest.v` with predicates that call mocks, too |
| `Relaxed.v` | `Conc.v` with relaxed loads: lib.rs 1588-1650, 1699-1722 |
| `Ast.v`, `TyEq.v` | the parts of `syn`'s syntax tree that the macros look at, and its equality |
| `Rewrite.v`, `Derive.v`, `Names.v` | mockall_derive/src/lib.rs 44-1293: `deanonymize`, `deselfify`, `supersuperfy`, `find_lifetimes`, `concretize_args`, `declosurefy`, `deimplify`, `dewhereselfify`, `demutify`, `AttrFormatter`, `gen_keyid`, `merge_generics`, `split_lifetimes`, `expectation_visibility`, `staticize`, names; mockall_double/src/lib.rs 39-222 |
| `Subst.v` | automock.rs: associated types |
| `Sig.v`, `Item.v` | mockable_struct.rs, mockable_item.rs, automock.rs: from the user's item to `MockableStruct` / `MockableModule` |
| `MockFn.v` | mock_function.rs 139-343: `Builder::build`, and what a `MockFunction` knows |
| `MockItem.v` | mock_trait.rs, mock_item_struct.rs, mock_item.rs and the rest of mock_function.rs: the generated items as records (attributes, names, generics, types, visibility, stores, call expressions) |
| `GenRun.v` | the generated items at run time: mock_item_struct.rs 85-452, mock_trait.rs, mock_function.rs 474-860 |
| `ModRun.v` | the generated modules at run time: mock_item.rs 49-200, mock_function.rs 474-890 |
| `Scopes.v` | parameter lists around the types in the templates: mock_function.rs 893-2545 |
| `AutoTraits.v` | the types of generated fields, as far as `Send` and `Sync` depend on them: mock_function.rs 893-2545, mock_item_struct.rs 30-60, 244-452, lib.rs 1430-1785 |
| `Front.v` | `Parse for MockableStruct`, `Parse for Attrs`, `From<(Attrs, Item)>`, `do_mock`, `do_automock`: mockable_struct.rs 473-540, automock.rs 13-22, 253-272, mockable_item.rs 29-41, lib.rs 1306-1386 |
| `Errors.v` | every `compile_error` and panic of a macro call |

`RepoChecks.v`, `RepoDecls.v`, `RepoUnit.v`, `RepoTests.v` and `RepoRuns.v` are tests of the model (above).

Specifications are in `*Spec.v`, lemmas in `*Proofs.v`, the theorems that
`MANIFEST.json` names in `Prop*.v`, each followed by `Print Assumptions`.  Beside
each theorem an `Example ..._applies` shows a concrete case that meets its
hypotheses.  Theorems named `..._refuted` exhibit a witness against a claim
that the code does not satisfy; they are part of the findings below.

## What is not modelled

* rustc: type checking and borrow checking of the generated code (auto traits: C83), macro
  hygiene, spans, name resolution beyond module paths, monomorphization.
* Parsing of tokens by `syn`: the macros start from its items.  What mockall's own parsers do with them is `Front.v` (C86).
* Bodies, documentation, `async`/`const`/`unsafe`/variadic markers of functions, which are
  only copied.  Expressions in array lengths and const arguments are text.
* The text of generated code beyond the records of `MockItem.v`.  The bodies of the generated run-time
  types (`Expect.v`, `Mock.v`) were written from the `quote!` templates by hand.  That the generated functions, fields,
  modules and statics fit together such that they behave like `Mock.v` is C74 (structs and traits) and C75
  (modules).
* The `predicates` crate: a predicate is an arbitrary function that may have effects and panic, with
  a name; in `Prints.v` (C89) printing it, or an argument, may too.  The `fragile` crate: a value that panics when it is used on another thread, and
  in `Fragile.v` (C81) also when it is dropped there.  When the user's closures and predicates are destroyed is in `Owns.v` (C90), what their destructors do in `Drops.v` (C91).  The destructors of plain values are not modelled, nor destructors that call mock methods.
* Reentrancy: return closures that call mocks are modelled in `Nest.v` (C71), predicates that do in
  `Ask.v` (C85).  The closures of methods returning `&mut T` that call mocks are modelled for mocks that are not running them (C93) only; not modelled are `Display` and `Debug`
  implementations (of predicates and arguments) that do.
* In `Contexts.v` the guard that `ctx.expect()` returns is dropped at the end of the builder chain (`ctx.expect().times(1).returning(f)`); in `Guards.v` (C88) it may be kept in a variable.  A thread of `Guards.v` has one guard at a time, of one function's store; one of `Multi.v` (C92) has guards of any number of functions, but its calls are single steps.  A test of C78 has one context from its beginning to its end, and may make and drop others in between.
* Weak memory: the atomics are `Relaxed` in the code and sequentially consistent in `Conc.v` and `Nest.v`.  `Relaxed.v`
  (C73) lets loads return old values; loads that return values written later (load buffering) are not modelled.
* `Debug` output of mock structs, `#[automock]`'s `#[cfg(test)]` handling by the user, the nightly-only
  diagnostics (refusing is the same on both).

## Modelling decisions

* A panic is a result value `Panic m`; the state changes made before the panic
  are kept, because `catch_unwind` and destructors can observe them.  A panic in a
  destructor during unwinding is `Abort`.
* User closures (matchers, predicates, return closures) are arbitrary functions
  of the arguments and of an arbitrary user state `U`, which they may change;
  they may panic.  The environment captured by an `FnMut` is part of `U`.
* Argument and return types are one abstract type `V`; a method's arguments are
  a `list V`.
* `usize` is `N` with an explicit maximum that is a parameter, so that overflow
  is visible; overflow checks are a parameter (debug / release).
* A `Mutex` is its contents and a poison flag; a guard dropped while panicking
  sets the flag unless the thread was already panicking when it locked.
* A `HashMap` is an association list; its iteration order is an arbitrary permutation.
* Threads interleave at the granularity of atomic operations and of critical
  sections; memory is sequentially consistent, except in `Relaxed.v`.
* A macro is a total function on syntax trees.  Where the code calls `compile_error`
  (which panics on stable) or panics, a separate `..._error` function says so, or the
  result is `None`.

## Properties

One entry per claim: what is modelled, how it is proved, and the theorems.  All of
them are closed under the global context.

* **C01, times(r) accepts exactly the call counts in r** (proved; `PropCounts.v`).  `TimesRange`, `Times` over `N` with an explicit `usize::MAX`; case analysis over the eight forms of the argument of `times`.
  Theorems: `times_counts`, `times_messages`.
* **C02, Empty or backwards ranges are rejected when they are set** (proved; `PropCounts.v`).  The argument forms that `times` rejects are characterised exactly, in debug and release builds, by cases on the `From` implementations; the exceptions are refuted with witnesses.
  Theorems: `times_accepts_exact`, `times_accepts_release`, `times_accepts_iff_satisfiable`, `empty_times_accepted_refuted`, `times_to_zero_breaks_dispatch_refuted`, `full_times_overflow_refuted`, `number_and_range_setters`.
* **C03, An expectation answers exactly its maximum number of calls** (proved; `PropCounts.v`).  A method with one expectation; induction over the calls with the invariant count = number of calls answered.
  Theorems: `sole_expectation_answers`, `sole_expectation_budget`.
* **C04, A dying expectation panics exactly when its call count is out of range** (proved; `PropCounts.v`).  `Drop for Common`; case analysis on the count, the bounds and whether the thread panics.
  Theorems: `dying_expectation`.
* **C05, never() forbids every call that reaches the expectation** (proved; `PropCounts.v`).  `never()` alone and among other expectations; induction over the expectation list.
  Theorems: `never_alone`, `never_among_others`.
* **C06, FIFO dispatch** (proved; `PropDispatch.v`).  `Expectations::call` picks the first expectation that matches and is not done; induction over the list.
  Theorems: `fifo_dispatch`.
* **C07, An unmatched call panics and changes nothing** (proved; `PropDispatch.v`).  The same; `None` becomes the panic of the mock function; the state is equal before and after.
  Theorems: `unmatched_call`.
* **C08, Saturated expectations hand over to later ones** (proved; `PropDispatch.v`).  `Spec.v` says who answers which call of a history without mentioning the state; induction over the history.
  Theorems: `saturated_hand_over`, `owner_meaning`.
* **C09, Call histories refine greedy assignment** (proved; `PropDispatch.v`).  As C08, for all calls of a history at once (greedy assignment).
  Theorems: `history_refines_greedy_assignment`.
* **C10, Matchers mean what they say** (proved; `PropDispatch.v`).  `Matcher::matches` against the conjunction of the predicates / the user's function.
  Theorems: `with_meaning`, `withf_meaning`, `no_matcher_accepts_everything`.
* **C11, Each matcher is consulted at most once per call, in order** (proved; `PropDispatch.v`).  User closures log into the user state; the log of one call is computed by induction over the list.
  Theorems: `matchers_consulted_once_in_order`, `all_predicates_evaluated`.
* **C12, A fresh expectation accepts anything, any number of times** (proved; `PropDispatch.v`).  A fresh expectation is `MtAlways` with count 0..MAX; induction over histories.
  Theorems: `fresh_expectation`.
* **C13, The return closure runs once per answered call on the call's arguments** (proved; `PropReturns.v`).  The three kinds of `Rfunc`; logs as in C11.
  Theorems: `answered_call_runs_one_closure`, `call_runs_at_most_one_closure`.
* **C14, return_const returns the same value every time** (proved; `PropReturns.v`).  Case analysis plus induction over histories.
  Theorems: `return_const_constant`.
* **C15, return_once runs its closure at most once** (proved; `PropReturns.v`).  `Once` is taken out before it runs; invariant over histories: at most one run.
  Theorems: `return_once_at_most_once`, `return_once_answers`.
* **C16, A call with no return action** (proved; `PropReturns.v`).  Configuration has a `nightly` flag and the method an optional default value.
  Theorems: `no_return_action`.
* **C17, return_var keeps what the caller writes** (proved; `PropReturns.v`).  The caller's writes through `&mut` are an arbitrary function applied to the stored value.
  Theorems: `return_var_keeps_writes`, `returning_mut_is_fresh`.
* **C18, The last setter wins** (proved; `PropReturns.v`).  Builder chains are lists of setters; induction over the chain.
  Theorems: `last_setter_wins`, `setters_commute`.
* **C19, Single-threaded variants refuse other threads** (proved; `PropReturns.v`).  `Fragile` remembers its thread; simulation with the ordinary variants on one thread.
  Theorems: `st_like_ordinary_on_own_thread`, `st_closures_stay_on_their_thread`, `st_action_refuses_other_threads`, `st_matcher_refuses_other_threads`.
* **C20, Sequence safety** (proved; `PropSequences.v`).  Tests are lists of operations on a system of objects, static methods and sequences; invariant relating levels, counts and handles; induction over the test.  Refuted if the count changes after `in_sequence`.
  Theorems: `sequence_safety`, `sequence_safety_any_chain_refuted`.
* **C21, Sequence acceptance** (proved; `PropSequences.v`).  Both directions, against a specification on call lists; the zero-count member is proved to block.
  Theorems: `sequence_acceptance`, `zero_count_member_blocks_sequence`.
* **C22, in_sequence demands an exact count** (proved; `PropSequences.v`).  `Times::is_exact`; the bypass (changing `times` afterwards) is refuted.
  Theorems: `in_sequence_needs_exact_count`, `sequenced_is_exact_refuted`.
* **C23, Unrelated sequences do not interact** (proved; `PropSequences.v`).  Frame lemma for levels, induction over tests.
  Theorems: `only_members_move_a_sequence`, `unrelated_sequences`.
* **C24, A call out of order still counts** (proved; `PropSequences.v`).  `Times::call` counts before the sequence is verified.
  Theorems: `out_of_turn_call_still_counts`, `call_over_maximum_still_counts`.
* **C25, checkpoint validates and forgets** (proved; `PropValidation.v`).  `Vec::drain` / `HashMap::drain` then drop; induction over expectations with an arbitrary iteration order.
  Theorems: `context_checkpoint_validates_and_forgets`, `method_checkpoint`, `complaint_meaning`.
* **C26, A mock object's checkpoint covers exactly its non-static methods** (proved; `PropValidation.v`).  Fields of the generated struct; order and content of `checkpoint`.
  Theorems: `object_checkpoint_covers_its_methods`, `object_has_exactly_the_nonstatic_methods`.
* **C27, No double panic** (proved; `PropValidation.v`).  `Abort` is unreachable from the drop glue: induction over nested drops.
  Theorems: `validation_never_aborts`, `no_panic_while_unwinding`.
* **C28, Dropping a mock validates everything** (proved; `PropValidation.v`).  Drop glue of the struct; every unmet expectation is reported by the first one in order.
  Theorems: `drop_validates_every_method`.
* **C29, A checkpointed mock behaves like a new one** (proved; `PropValidation.v`).  Bisimulation: cleared slots equal new slots.
  Theorems: `checkpointed_mock_is_new`.
* **C30, Type parameters are independent** (proved; `PropStatics.v`).  The generic store as an association list; projection to one key commutes with all operations.
  Theorems: `generic_method_is_a_family`, `other_type_parameters_untouched`.
* **C31, A generic checkpoint covers all type parameters in any order** (proved; `PropStatics.v`, `PropValidation.v`).  For every permutation of the map.
  Theorems: `hash_order_is_irrelevant`, `context_checkpoint_validates_and_forgets`, `object_checkpoint_covers_its_methods`.
* **C32, A Context leaves a clean slate** (proved; `PropStatics.v`).  `Drop for Context` with and without a panic and poison.
  Theorems: `context_drop_outcomes`.
* **C33, Which panics poison a static method** (proved; `PropStatics.v`, `PropValidation.v`).  The poison flag as part of the state; which operations set and clear it.
  Theorems: `unmatched_static_call_is_harmless`, `dispatch_panic_poisons`, `builder_panic_poisons`, `poison_lasts_until_unwinding_drop`, `context_checkpoint_validates_and_forgets`.
* **C34, Contexts of one static method share one store** (proved; `PropStatics.v`).  Several `Context`s address one store.
  Theorems: `static_method_is_one_method`, `context_expect_appends`, `other_statics_untouched`, `context_drop_outcomes`.
* **C35, A mock module's checkpoint covers every function** (proved; `PropStatics.v`).  `checkpoint()` of a mock module, statement by statement.
  Theorems: `module_checkpoint_covers_every_function`.
* **C36, Call budget under every schedule** (proved; `PropThreads.v`).  `Conc.v`: small-step semantics over all schedules; invariant: counter = number of `fetch_add`s.
  Theorems: `count_under_every_schedule`, `budget_under_every_schedule`.
* **C37, return_once under every schedule** (proved; `PropThreads.v`).  Invariant: a `Once` is taken by at most one thread.
  Theorems: `return_once_under_every_schedule`.
* **C38, Static calls are linearizable** (proved; `PropThreads.v`).  Linearization point = acquisition of the store's mutex; forward simulation with the sequential model.
  Theorems: `static_calls_linearizable`.
* **C39, Concurrent calls of an object's method are not atomic** (proved; `PropThreads.v`, `PropViolation.v`).  Two witness schedules show that the claim of atomicity is false of objects.  `violations_tell_level_and_place` (ViolationSpec/ViolationProofs/PropViolation) is about every schedule: an invariant says that a thread between the check and the move of its sequence sees a level of at least its place, so what it is told, level and place in this order, is true.
  Theorems: `object_calls_linearizable_refuted`, `object_sequence_linearizable_refuted`, `violations_tell_level_and_place`.
* **C40, Sequence safety under every schedule** (proved; `PropThreads.v`).  Invariant over schedules up to the first violation.
  Theorems: `sequence_under_every_schedule`.
* **C41, A panicking user closure disables only its own expectation** (proved; `PropPanics.v`).  Panics inside user closures leave the expectation's mutex poisoned or its `Rfunc` expired; frame lemmas for the others; refuted for `&mut` methods.
  Theorems: `panicking_return_closure_never_runs_again`, `disabled_expectation_panics`, `other_expectations_unaffected`, `panicking_matcher`, `poisoned_matcher_stops_calls`, `older_expectations_unaffected`, `panicking_mut_closure_disabled_refuted`.
* **C42, Generated items keep the visibility of the original** (proved; `PropRewrite.v`).  `expectation_visibility`; a module-path semantics of visibilities (`AstSpec.v`).  `pub(self)` is the exception.
  Theorems: `visibility_means_the_same`, `visibility_means_the_same_for_all_refuted`, `self_visibility_is_rejected`.
* **C43, super:: paths keep their meaning in generated modules** (proved; `PropRewrite.v`).  `supersuperfy`; resolution of paths relative to a module; structural induction.  Exceptions refuted.
  Theorems: `paths_mean_the_same`, `generics_mean_the_same`, `paths_in_inner_arguments_refuted`, `paths_from_self_super_refuted`, `shadowed_names_refuted`.
* **C44, Self is eliminated from mocked signatures** (proved; `PropRewrite.v`).  `deselfify`; structural induction, with a relation that says where a type is replaced.
  Theorems: `self_is_replaced`, `no_self_is_left`, `other_types_keep_their_text`, `self_in_function_types_refuted`.
* **C45, Anonymous lifetimes are eliminated from return types** (proved; `PropRewrite.v`).  `deanonymize`; structural induction.
  Theorems: `anonymous_lifetimes_become_static`, `no_anonymous_lifetime_is_left`, `named_lifetimes_are_unchanged`, `nested_anonymous_lifetimes_refuted`.
* **C46, Import doubling binds the same names** (proved; `PropDouble.v`).  `mockall_double`: names bound by a use tree under both configurations.
  Theorems: `double_binds_the_same_names`, `double_refuses`, `double_of_self_refuted`, `double_of_alias`.
* **C47, double and automock agree on names** (proved; `PropDouble.v`).  The names computed by both crates; injectivity.
  Theorems: `double_agrees_on_types`, `double_agrees_on_modules`, `mock_names_are_distinct`, `mock_module_names_are_distinct`, `imported_mock_names_are_distinct`, `double_disagrees_on_other_types_refuted`, `double_disagrees_on_other_modules_refuted`.
* **C48, Splitting a method's generics** (proved; `PropGenerics.v`).  `split_lifetimes`, `find_lifetimes`; the three groups of parameters.
  Theorems: `generics_are_split`, `used_lifetimes_are_in_one_group`, `unused_lifetimes_refuted`, `const_parameters_refuted`, `where_clause_is_dropped_refuted`, `lifetimes_in_function_types_refuted`.
* **C49, Merging generics is a union** (proved; `PropGenerics.v`).  `merge_generics`; parameters and bounds of the result.
  Theorems: `merged_parameters`, `merged_bounds_are_of_both`, `merged_where_bounds_are_of_both`, `merging_empty_generics`, `merging_into_empty_generics_refuted`, `merged_lifetime_bounds_refuted`.
* **C50, Attribute filtering** (proved; `PropAttrs.v`, `PropBody.v`).  `AttrFormatter`; kept attributes characterised by name; end to end for the generated items.
  Theorems: `attributes_are_filtered`, `copied_attributes_are_a_subsequence`, `cfg_attr_is_dropped_refuted`, `attributes_of_mocks`, `attributes_of_automocks`.
* **C51, Every method has its own expectations** (proved; `PropItems.v`).  The store that a generated function uses (field of the object, of a sub-structure, or static in a private module) as an abstract `store`; injectivity under distinct names; refuted otherwise.
  Theorems: `methods_have_their_own_expectations`, `methods_have_their_own_expectations_refuted`.
* **C52, When a mock gets a new() function** (proved; `PropItems.v`).  `has_new` of `mockable_struct.rs` and the generated `new`.
  Theorems: `new_is_generated`.
* **C53, Owned output of reference-returning methods** (proved; `PropOutput.v`).  `output_of`, `ownify`; the type stored in `Rfunc`.
  Theorems: `expectations_store_the_owned_output`, `expectations_store_boxed_objects`, `expectation_kinds`, `static_functions_cannot_borrow`, `other_unsized_paths_refuted`, `parenthesised_objects_refuted`.
* **C54, Closure arguments keep their positions** (proved; `PropClosure.v`).  `declosurefy`; argument lists position by position.
  Theorems: `closure_arguments_are_boxed`, `closure_arguments_are_passed`, `closure_parameters_are_removed`, `two_closure_bounds_are_refused`, `other_closure_bounds_refuted`, `closures_inside_types_refuted`.
* **C55, Associated types are substituted everywhere they can occur** (proved; `PropSubst.v`).  `substitute_type`; structural induction against a relation.
  Theorems: `associated_types_are_replaced`, `last_declared_type_counts`, `no_associated_type_is_left`, `types_without_associated_types_are_unchanged`, `generic_associated_types_refuted`, `associated_types_in_bounds_refuted`, `associated_types_in_declarations_refuted`, `associated_types_in_constraints_refuted`.
* **C56, A return closure never overlaps itself** (proved; `PropThreads.v`).  Invariant: between run and ran events the mutex of the `Rfunc` is held.
  Theorems: `closures_do_not_overlap`.
* **C57, Concurrent calls never deadlock** (proved; `PropThreads.v`).  Order of lock acquisition; every non-final state has an enabled thread.
  Theorems: `calls_never_deadlock`.
* **C58, Default initialises every field** (proved; `PropItems.v`).  Fields of the generated structs against those that `default()` initialises.
  Theorems: `default_initialises_the_fields`, `every_parameter_is_used`.
* **C59, checkpoint() validates exactly the methods of the object** (proved; `PropItems.v`).  The stores visited by the generated `checkpoint()` against the stores of the calls.
  Theorems: `checkpoint_covers_every_method`, `checkpoint_covers_only_methods`, `expectations_of_calls_exist_refuted`.
* **C60, Expectations are set where calls look for them** (proved; `PropItems.v`).  The stores addressed by `expect_*`, `*_context` against the stores of the calls.
  Theorems: `expectations_are_set_where_calls_look`, `expectations_of_calls_exist`, `expectations_of_calls_exist_refuted`.
* **C61, Conditional compilation is consistent** (proved; `PropItems.v`).  The `cfg` attributes of every generated piece.
  Theorems: `methods_are_compiled_conditionally`, `default_initialises_the_fields`, `trait_methods_are_compiled_conditionally`, `substructures_are_compiled_conditionally`, `structures_are_compiled_conditionally_refuted`.
* **C62, Arguments reach the expectation** (proved; `PropCalls.v`).  Call expressions and patterns of the generated call, position by position.
  Theorems: `arguments_are_handed_over`, `mock_functions_keep_their_arguments`, `predicates_get_references`, `arguments_are_handed_over_refuted`.
* **C63, Concretized functions have no generic parameters** (proved; `PropCalls.v`).  `concretize_args`.
  Theorems: `concretized_functions_are_not_generic`, `concretized_inner_types_refuted`.
* **C64, Signatures of mocked methods** (proved; `PropSig.v`).  `mockable_method`: arguments, output, generics of the adapted signature against a relation on signatures.
  Theorems: `signatures_are_adapted`, `lifetimes_are_declared_once_refuted`, `raw_names_of_objects_are_refused`.
* **C65, What #[automock] and mock! generate** (proved; `PropPipeline.v`).  `MockableStruct` for the four inputs, through to the generated items.
  Theorems: `automock_of_a_trait`, `automock_of_an_inherent_impl`, `automock_of_a_trait_impl`, `mock_of_a_declaration`.
* **C66, Mocks of modules** (proved; `PropModules.v`).  `MockableModule`, `MockItemModule`.
  Theorems: `automock_of_a_module`, `unsupported_items_are_refused`.
* **C67, Generic expectations are kept per type** (proved; `PropExpectTypes.v`).  `RefExpectations`, `GenericExpectations`, `Key`: the type parameters, bounds and `'static` of everything that keeps or looks up a generic expectation.
  Theorems: `expectations_have_their_types`, `trait_expectations_have_their_types`, `generic_returned_lifetimes_refuted`, `trait_lifetimes_refuted`.
* **C68, Bodies of mock functions** (proved; `PropBody.v`).  The body of the generated function.
  Theorems: `methods_call_their_expectations`, `functions_call_their_expectations`.
* **C69, What the macros refuse and what they accept** (proved; `PropRefuse.v`, `PropAccept.v`).  All calls of `compile_error` and all panics on the way of a macro call, collected in `Errors.v`.  Soundness by inversion of the whole pipeline, completeness by showing that every stage preserves `ordinary`.
  Theorems: `unsupported_traits_are_refused`, `unsupported_impls_are_refused`, `unsupported_declarations_are_refused`, `unsupported_modules_are_refused`, `ordinary_traits_are_accepted`, `ordinary_impls_are_accepted`, `ordinary_declarations_are_accepted`, `ordinary_modules_are_accepted`, `module_impl_arguments_refuted`.
* **C70, Calls that do not overlap in time behave as in one thread** (proved; `PropSerial.v`).  The steps of `Conc.v` against `Expectations::call` of `Expect.v`: what the call that is going on still has to do (`fin`) is unchanged by each of its steps; only one thread is inside a call.
  Theorems: `separate_calls_are_sequential`, `one_thread_is_sequential`.
* **C71, Return closures that call mocks** (proved; `PropNest.v`).  `Nest.v`: a thread is a stack of calls of `Conc.v`; a closure is a tree of calls.  Compared with a recursive evaluator (`NestSpec.v`) that remembers only the held mutexes; the depth of nesting is bounded by the number of expectations, since each frame holds a different `Rfunc`.
  Theorems: `nested_calls_run`, `call_of_own_expectation_hangs`, `call_of_own_store_hangs`, `plain_calls_are_single_calls`.
* **C72, Threads whose closures call mocks** (proved; `PropNestThreads.v`).  `Nest.v` with several threads.  Invariant: each mutex is held by exactly the call that is at a point where it holds it.  Deadlock: strong induction on the order; termination: a well-founded order on stacks of calls, closures being well-founded trees.
  Theorems: `nested_closures_do_not_overlap`, `ordered_calls_finish`, `crossed_calls_deadlock_refuted`.
* **C73, Relaxed atomic operations** (proved; `PropRelaxed.v`).  `Relaxed.v`: the steps of `Conc.v`, with a history of past states and a view (a lower bound on the age of what may be read) for each thread and mutex.  Loads happen at four places; all other steps are those of `Conc.v`.  Safety: the invariants of C37-C40 do not use the loaded values.  Consistency: the view of whoever holds the store, or makes the only call, is up to date.
  Theorems: `count_with_relaxed_loads`, `budget_with_relaxed_loads`, `return_once_with_relaxed_loads`, `closures_do_not_overlap_with_relaxed_loads`, `relaxed_calls_never_deadlock`, `sequence_with_relaxed_loads`, `static_calls_are_consistent`, `relaxed_static_calls_linearizable`, `handed_over_calls_are_sequential`, `separate_calls_are_sequential_refuted`, `separate_sequence_calls_refuted`, `relaxed_includes_consistent`.
* **C74, Generated code behaves as documented as a whole** (proved; `PropGenRun.v`).  `GenRun.v`: an interpreter of the records of `MockItem.v` that looks every name up; what cannot be found does not compile.  Simulation with `Mock.v`, for the declarations that `GenRunSpec.v` reads off the input; then the theorems about `Mock.v` carry over, of which three are stated for the generated code.
  Theorems: `generated_code_runs_like_the_model`, `undeclared_names_do_not_compile`, `generated_mock_counts_calls`, `generated_mock_refuses_surplus_calls`, `generated_code_hides_hash_order`, `clear_names_are_distinct`, `distinct_names_refuted`, `marker_names_refuted`, `clear_functions_are_distinct`, `checkpoint_methods_refuted`, `methods_of_two_traits_refuted`, `generated_static_methods_count_calls`.
* **C75, The mock of a module behaves as documented as a whole** (proved; `PropModRun.v`).  `ModRun.v`: the interpreter for mock modules; `ModRunProofs.v` simulates it with `Mock.v`, a static method for each function; `ModRunSpec.v` reads the functions off the module.
  Theorems: `generated_module_runs_like_the_model`, `undeclared_functions_do_not_compile`, `generated_module_counts_calls`, `generated_module_refuses_surplus_calls`, `generated_module_hides_hash_order`, `clear_modules_are_distinct`, `checkpoint_functions_refuted`, `context_functions_refuted`.
* **C76, Generated code declares the lifetime and type parameters it names** (proved; `PropScopes.v`).  `Scopes.v`: every place of the templates that contains types of the function, with the parameter lists around it.  `ScopeSpec.v`: what naming and declaring mean, and which signatures fit (`scopable`).  Proof: what `Builder::build` puts into each parameter list, against where each token of the types comes from.
  Theorems: `generated_parameters_are_declared`, `generated_trait_parameters_are_declared`, `generated_module_parameters_are_declared`, `ref_mut_lifetimes_refuted`, `generic_argument_lifetimes_refuted`, `concretized_lifetimes_refuted`, `shared_lifetimes_refuted`, `static_lifetimes_refuted`, `bound_lifetimes_refuted`, `nested_closures_refuted`, `impl_parameters_refuted`.
* **C77, Operations on a static function's expectations are atomic across threads** (proved; `PropContexts.v`).  `Contexts.v`: the steps of calls (of `Conc.v`), of builder chains, checkpoints and drops, with the store's lock.  Refinement to a system whose threads execute whole pieces, with a relation that says what the holder of the lock still has to do.  A `clear_poison` that takes effect while another thread holds the lock is moved before that thread's operation.
  Theorems: `context_operations_are_atomic`, `context_operations_are_those_of_the_model`, `context_drop_is_atomic_refuted`.
* **C78, Tests that share a mutex cannot influence each other through a static mock function** (proved; `PropContexts.v`).  `Contexts.v` with a user mutex.  Invariant of the atomic system of C77: whoever holds the mutex is at the same place of its test as when alone, with the same store; between tests the store is empty and not poisoned.
  Theorems: `synchronised_tests_are_isolated`, `unsynchronised_tests_are_isolated_refuted`, `caught_panics_are_isolated_refuted`.
* **C79, Operations on a static function's expectations never deadlock** (proved; `PropContexts.v`).  `Contexts.v`.  Invariant: the store is held exactly by the thread that is at a place where it holds it, and the locks of matchers and `Rfunc`s by a call of this thread.  A thread that finds the store free, or holds it, ends its operation in a bounded number of its own steps; programs are well-founded.
  Theorems: `context_operations_never_deadlock`, `synchronised_tests_can_end`, `unbracketed_programs_never_deadlock_refuted`.
* **C80, Failure messages are unambiguous and true** (proved; `PropMessages.v`).  `Messages.v` gives the texts, `MessageSpec.v` the causes.  The text is read from its end: kinds without numbers end differently, the others end in a blank and a number; names of functions have no blanks.  Causes: by cases on the operation, down to `Times::call`, `Common::call`, `Drop for Common` and the setters.  Poison: as long as nothing panicked nothing is poisoned, provided that the user's closures panic in their own words.  The texts of std and of the fragile crate are cut short; that identifiers have no blanks is a hypothesis (`proper`).
  Theorems: `messages_tell_failures`, `failure_messages_tell_what_failed`, `poison_errors_follow_panics`, `too_many_messages_are_true_refuted`.
* **C81, Single-threaded closures must stay on their thread** (proved; `PropFragile.v`).  `Fragile.v`: the operations of `Mock.v` with the destructors of `Fragile` (fragile 2.0, read from its documentation, not in /repo): `Drop` panics on another thread if the value needs dropping, as boxes do; `into_inner` checks the thread before it takes the value, so its argument is dropped while that panic unwinds.  All drops of an operation become one list of destructors; then the result depends on the complaints and the number of closures away from home.  That setters drop the previous closure on a wrong thread is not modelled: a builder chain sets its closures on one thread.
  Theorems: `single_threaded_tests_are_unaffected`, `closures_at_home_are_unaffected`, `strangers_never_die_quietly`, `drops_elsewhere`, `once_st_elsewhere_aborts`, `drops_while_panicking_are_quiet_refuted`, `right_counts_suffice_refuted`, `contexts_only_drop_their_own_refuted`.
* **C82, Failures point to the line that set the expectation** (proved; `PropPoint.v`).  `PointSpec.v`: the places for which a test sets expectations, and what an explanation of a failure is, for tests of any kind.  Invariant of runs: every stored expectation stems from a line, with the text and range that its setters give (or those before the setter that panicked), a count not above the number of calls since, and no successful validation since.  Then the causes of C80.  `PointGen.v` carries it over to the generated code (C74, C75): functions of one trait and name have one position.  Tests are shorter than `usize::MAX`, counts are `usize` values, `times(..0)` is left out (C80 shows why), and closures do not panic with mockall's messages.
  Theorems: `failures_point_to_the_expectation`, `generated_failures_point_to_the_expectation`, `generated_module_failures_point_to_the_expectation`, `generated_messages_tell_failures`, `names_in_messages_are_unique_refuted`.
* **C83, Mocks are Send and Sync exactly if what they lend is** (proved; `PropAuto.v`).  `AutoTraits.v`: the generated types with the rules for `Send` and `Sync`; what the user's types implement is a parameter.  Fields are found as in `GenRun.v`; what an expectation stores is C53's.  Lifetimes and `cfg` play no part.
  Theorems: `mocks_are_as_safe_as_what_they_lend`, `mocks_that_lend_nothing_are_send_and_sync`, `mocks_are_always_send_refuted`, `statics_are_sync`, `generic_expectations_are_send_and_sync`, `contexts_move_and_guards_stay`.
* **C84, Every accepted macro call makes a mock that works** (proved; `PropEnd.v`).  `EndSpec.v`: what the user wrote (`source`, `written`), which method of `Mock.v` a written function is (`told`), and tests in the user's words.  Composition of the pipeline (C55, C64, C65), the refusals (C69) and the interpreter of the generated code (C74): each written function is followed through the substitution of associated types and the preparation to its generated field or static.  `bracketed_source` is what syn's parser guarantees, `agreeing` and `distinct_names` what rustc requires; the second theorem derives `distinct_names` for `#[automock]`.  The exact description of generic methods needs a where clause about `Self` and closures only (`usual_where`); others make the method generic (C48).
  Theorems: `accepted_macros_make_working_mocks`, `automocked_names_are_distinct`.
* **C85, Predicates may call mocks, but not their own expectation** (proved; `PropAsk.v`).  `Ask.v`: the machine of `Nest.v` with frames for running predicates; a predicate is a tree of calls.  Conservativity by simulation with `Nest.v`.  Mutual exclusion and waiting: the lock invariant of C72, extended to the frames of predicates.  The verdict: what a call does on top of other frames it does alone, and a held matcher is not poisoned by others.  Termination as in C72.  Two deadlocked threads are given by a witness.
  Theorems: `predicates_that_call_nothing`, `predicate_is_worth_its_verdict`, `predicates_do_not_overlap`, `own_predicate_waits_for_ever`, `own_store_waits_for_ever`, `predicate_that_calls_its_own_method`, `ordered_predicates_finish`, `crossed_predicates_deadlock_refuted`.
* **C86, What is written in a macro call is what is mocked** (proved; `PropFront.v`).  `Front.v`: from syn's items to the declarations of `Item.v`, with the three ways in which a macro can end (code, a `compile_error!`, a panic).  `FrontSpec.v` gives the grammar as relations; each parser is shown equivalent to its relation.  `accepted_text_is_what_is_mocked` connects the text with the declarations of C84.  Which tokens syn reads as which item is not modelled; that it reads functions without bodies in impl blocks as `Verbatim` is taken from its documentation.
  Theorems: `mock_reads_its_grammar`, `bodies_do_not_matter`, `automock_keeps_the_item`, `types_are_for_traits`, `accepted_text_is_what_is_mocked`.
* **C87, #[automock] is short for mock!** (proved; `PropOut.v`).  `FrontSpec.v`: `trait_out`, `impl_out`: the text of the `mock!` call.  Both macros make the same `MockableStruct` of it; the substitution of associated types is C55's.
  Theorems: `automocked_traits_can_be_written_out`, `automocked_impls_can_be_written_out`.
* **C88, Expectations of static functions that are set in several statements** (proved; `PropGuards.v`).  `Guards.v`: the steps of `Contexts.v`, with guards in variables.  Invariant: the store's lock is held by exactly the thread that has the guard, or is inside an operation that holds it.  `a_guard_is_one_builder` compares a guard's life with the uninterrupted `expect` of C77; `chains_are_short_guards` is a lock-step simulation with `Contexts.v`.  Deadlock freedom: programs are well-founded, the holder of the lock can always move.
  Theorems: `guards_keep_others_out`, `a_guard_is_one_builder`, `using_the_function_under_a_guard_waits_for_ever`, `the_holder_of_a_guard_never_waits`, `tidy_guards_never_deadlock`, `chains_are_short_guards`.
* **C89, When Debug and Display implementations of the user run** (proved; `PropPrints.v`).  `Prints.v`: the operations of `Mock.v`, with every text that a `Debug` or `Display` implementation makes replaced by running it, where and under the locks where the generated code does.  `unseen_printing_changes_nothing` is a simulation with `Mock.v`; it carries the theorems about `Mock.v` over to printers with effects.  The log of what is printed: induction on the expectations.
  Theorems: `unseen_printing_changes_nothing`, `arguments_are_printed_first`, `calls_print_their_arguments_twice`, `the_second_printing_comes_before_the_count`, `failing_calls_print_predicates`, `drops_print_predicates`, `context_drops_print_predicates`, `printing_matters_only_for_messages_refuted`.
* **C90, What is handed to a mock is dropped exactly once** (proved; `PropOwns.v`).  `Owns.v`: the operations of `Mock.v`, each with the list of what it destroys; `OwnsSpec.v`: what setters are given and what stores hold.  Erasure, then conservation by induction on setters, stores, drop glue and tests, up to permutation.  Followed are closures and predicates, not plain values; destructors have no effects (those of `Fragile` are C81's).
  Theorems: `watching_destructors_changes_nothing`, `what_is_handed_over_is_held_or_dropped`, `dropped_mocks_leak_nothing`, `dropping_a_mock_drops_what_it_holds`, `checkpoints_drop_what_they_check`, `dropping_a_context_drops_what_its_method_holds`, `contexts_drop_what_their_methods_hold_refuted`, `calls_drop_only_the_closure_they_run`, `chains_keep_their_last_closures`, `chains_hand_over_until_they_panic`.
* **C91, Destructors of closures run in order, and mocks inside closures are checked** (proved; `PropDrops.v`).  `Drops.v`: the operations of `Owns.v` with destructors as code.  `DropsSpec.v` lists what a drop does and how such a list ends.  Nested drop glue is flattened to that list; conservativity by induction as in C90.  Owned mocks are part of the user state; soundness of an inner mock is not changed by dropping others.  Plain values have no destructors, the destructor of a `return_once` closure that is run belongs to its body, and destructors do not call mock methods.
  Theorems: `destructors_that_return_run_in_order`, `destructors_without_effects_change_nothing`, `the_first_panic_goes_through`, `the_first_panic_goes_through_contexts`, `polite_destructors_never_abort`, `mocks_owned_by_closures_are_checked`, `mocks_are_polite`, `setters_whose_old_closures_panic`, `static_setters_whose_old_closures_panic`, `checkpoints_stop_at_the_first_panic`, `module_checkpoints_stop_at_the_first_panic`, `context_checkpoints_stop_at_the_first_panic`.
* **C92, Guards of several static functions at once** (proved; `PropMulti.v`).  `Multi.v`: any number of stores with locks, threads with any number of guards.  An operation that takes and releases one lock is one step (that is C77).  Refinement of `Mock.v`: the sequential state is the concurrent one without the expectations of open guards.  Deadlock freedom by following waits upwards in the order, termination by induction on all programs together.  Return closures and predicates that use mocks are C71 and C85; contexts are not dropped by panics here.
  Theorems: `guards_of_several_functions_are_atomic`, `guards_are_chains`, `guards_with_sequences_are_atomic_refuted`, `guards_keep_their_function`, `threads_wait_for_guards_only`, `waiting_in_a_circle_is_for_ever`, `crossed_guards_never_deadlock_refuted`, `ordered_guards_never_deadlock`, `module_checkpoints_take_one_lock_after_the_other`.
* **C93, What closures share, and mocks that call other mocks** (proved; `PropDeleg.v`, `PropDelegPoint.v`).  `DelegSpec.v`: closures that use other mocks are trees of operations of `Mock.v`; the shared state is a second system with a record of what was done.  `step_along`: an invariant of `Mock.v` (all stored code moves the user's state along a preorder), applied to the preorder `reached by recorded operations`.  That the theorems about tests carry over is shown with C82.  Sequential tests: closures that use the mock that runs them, or other threads' mocks, are C71 and C72; destructors and `Debug` implementations with effects are C89 and C91.
  Theorems: `user_state_moves_only_by_user_code`, `only_calls_run_user_code`, `mocks_that_call_mocks`, `calls_passed_on`, `mocks_in_closures_run_like_tests`, `failures_in_closures_point_to_the_expectation`.

## Findings

What the code does not do, each with a machine-checked witness unless marked (text).

Run time:

* `times(..0)` is accepted and its first call underflows; `times(MAX..)` with an exclusive bound is empty; counts of `MAX` overflow (C02).  Without overflow checks the message of `times(..0)` gives 18446744073709551615 as the maximum (C80).
* An expectation with `never()` beside others is skipped rather than enforced: a later expectation answers (C05).
* `times(0)` in a sequence blocks the sequence (C21); so does `in_sequence` twice on one expectation (text).
* Calling `times` after `in_sequence` makes a sequence accept wrong orders (C20).
* A call that violates a sequence still consumes a count (C24).
* A matcher that panics poisons its expectation, and the drop of the mock then panics (C41).
* A panic in a builder chain on a static method poisons the method until a `Context` is dropped while unwinding (C33).
* A failing `checkpoint()` leaves the expectations of later methods (C25, C26).
* Calls of one object's method from several threads are not atomic: `times` and sequences can be observed out of order (C39).
* A panicking closure of a `&mut` method is not disabled (C41).
* A return closure that calls the method it answers hangs, as does one of a static method that calls a method of the same store (C71).
* Two threads whose closures call each other's methods can deadlock (C72).
* Calls on one object by threads that do not synchronise can panic though they do not overlap: the counters and levels are read with relaxed order (C73).
* Mocks with `_st` closures panic when another thread drops them, and abort if there are two such closures or if a count is wrong; calling a `return_once_st` closure on another thread aborts.  A context dropped on one thread panics because of the `_st` closures that a test on another thread has set (C81).

Code generation:

* `pub(self)` items give an invalid path (C42).
* `supersuperfy` looks only at the last segment's arguments, not into `impl Trait`, and not at `self::super::` (C43).
* `deselfify` ignores function types and constraints (C44); `deanonymize` does not look into type arguments (C45).
* `double` of `use foo::{self, ..}`; names that are raw or in the other case disagree with automock (C46, C47).
* `split_lifetimes` drops const parameters, unused lifetimes, and the where clause without type parameters (C48).
* `merge_generics` duplicates `for<'a>`, drops bounds of lifetimes (C49).
* `#[cfg_attr]` containing "concretize" is dropped (C50).
* `a__b::Tr` and `a::b::Tr`, and traits whose name ends like another one's hash, share their expectations (C51).
* `declosurefy` loses other where bounds and leaves closures inside types (C54).
* Arguments of generic associated types, bounds, declarations and constraints are not substituted (C55).
* A mock that implements one trait path in two impl blocks with different methods uses fields that don't exist (C59, C60).
* `#[cfg]` on a mocked struct reaches only the struct (C61).
* An argument named `no_match_msg` is shadowed (C62).
* Two trait objects in one argument (`x: (&dyn A, &dyn B)`) declare one lifetime twice; raw names with `&dyn` are refused (C64).
* Functions of modules may take `impl Trait`, which is copied to where it is not allowed (C69).
* Methods called `Tr_expectations` (beside a trait `Tr`) or `_t0` (of a generic mock) clash with generated fields (C74).
* A method called `checkpoint`, or methods of one name in two traits of one mock, make generated functions of one name; the mock does not compile (C74).
* A module with a function `checkpoint`, or with `foo_context` beside `foo`, does not compile; messages about the number of calls of a module's function do not name the module, others do (C75).
* `fn foo<'a>(&mut self, x: &'a str) -> &mut u32` does not compile (the stored closure has no `for<'a>`), nor do concretized
  methods with named lifetimes, nor closures inside other types such as `Option<F>` (C76).  The other limits of C76 on lifetimes
  are documented in part (mockall/src/lib.rs 709-744).
* The drop of a context during a panic clears the poison flag and then locks the store.  If a call on another thread panics in between, the drop does nothing:
  the store keeps its expectations and stays poisoned for all later tests (C77).
* A test that catches a panic of a static mock function and ends normally makes the drop of its context panic, and the next test too (C78).
* A message names a function by the mock and its own name, not by its trait: a method of one trait and a static function of another may share it (C82).
* Mock objects are not "always `Send`" (mockall/src/lib.rs 149): not if they return a reference to, or have a type parameter, that is not (C83).
* A predicate that calls its own method, directly or not, hangs; two threads whose predicates call each other's methods can deadlock (C85).
* `#[automock(type A = T;)]` on an impl block or a module is accepted, and the types are ignored (C86).
* A test that keeps the value of `ctx.expect()` in a variable and then calls the function, makes a checkpoint, drops the context or calls `expect()` again hangs, and so does everyone else who uses the function (C88).
* `Debug` of the arguments runs on every call, twice if the call is answered (the second time with a static function's store locked), and `Display` of the predicates on every drop, although the texts are only needed when a test fails.
  If they panic, tests fail that would pass; one that panics the second time poisons a static function's store (C89).
* The closures of a static function whose store is poisoned outlive a context that is dropped normally, with all that they own: they are only destroyed when some context of the function is dropped during a panic (C90).
* A setter that replaces a closure whose destructor panics leaves its expectation poisoned, with the new closure in place: the mock can then neither be called nor dropped without a panic if it was a matcher; for a static method every later call of the function panics until the context is dropped while panicking (C91).
* Two threads that keep guards of two functions, taken in opposite orders, wait for each other for ever, though the documentation only warns of tests that share a function (C92).  If two guards use `in_sequence` in turns, and one of them twice, no order of the two chains has the same effect.
