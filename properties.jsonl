{"id": "C01", "title": "times(r) accepts exactly the call counts in r", "statement": "For every argument form that `times` accepts (n, a..b, a.., .., a..=b, ..b, ..=b) that does not hit the top of usize, an expectation that has been called k times is reported as satisfied when it is dropped if and only if k is in the range; below the range the panic says 'fewer', above it 'more', and the message carries k and the violated bound.", "quantifier": "all seven argument forms, all bounds, all call counts k, both overflow-check modes", "why_tests_cant": "There are infinitely many bounds and counts; tests sample a handful and never the boundaries of usize.", "anchors": ["mockall/src/lib.rs: TimesRange, From impls (1516-1567)", "mockall/src/lib.rs: Times::is_satisfied (1627-1637)", "mockall_derive/src/mock_function.rs: Common drop (1037-1061)"]}
{"id": "C02", "title": "Empty or backwards ranges are rejected when they are set", "statement": "Setting a call-count range panics at the `times` call, and leaves the expectation unchanged, exactly if no count satisfies the range, apart from these arguments: `..0` and `usize::MAX..` are accepted although nothing satisfies them, and a range that includes `usize::MAX` as its last count overflows: it panics in a debug build and is accepted in a release build.", "quantifier": "all argument forms, all usize bounds, debug and release builds", "why_tests_cant": "Tests only try one backwards range; the claim is about which of all possible arguments are refused.", "anchors": ["mockall/src/lib.rs: TimesRange From impls (1525-1567)", "mockall_derive/src/mock_function.rs: Common::times (1002-1006)"]}
{"id": "C03", "title": "An expectation answers exactly its maximum number of calls", "statement": "If an expectation is the only one on its method and nothing else makes it panic, the first max calls are answered and every later call panics, the k-th one saying it was called k times against max (or 'should not have been called' when max is 0); no call history makes it answer more than max calls.", "quantifier": "all call histories, all ranges, all arguments", "why_tests_cant": "Unbounded histories; a test can only make finitely many calls against particular bounds.", "anchors": ["mockall/src/lib.rs: Times::call (1587-1602)", "mockall_derive/src/mock_function.rs: Common::call (956-968)"]}
{"id": "C04", "title": "A dying expectation panics exactly when its call count is out of range", "statement": "Dropping an expectation outside of unwinding panics if and only if its call count is below the minimum or above the maximum, or its matcher panicked earlier (its lock is then poisoned); during unwinding it never panics.", "quantifier": "all call counts, all ranges, both values of thread::panicking()", "why_tests_cant": "Quantifies over all histories that lead to the drop.", "anchors": ["mockall_derive/src/mock_function.rs: Common drop (1037-1061)"]}
{"id": "C05", "title": "never() forbids every call that reaches the expectation", "statement": "A sole expectation marked never() (or times(0)) panics on every matching call, and passes validation if it is not called; when it is followed by another expectation on the same method it is skipped and the later one answers.", "quantifier": "all arguments, all call histories, all neighbouring expectations", "why_tests_cant": "The interaction with neighbouring expectations ranges over all expectation lists.", "anchors": ["mockall/src/lib.rs: Times::never (1655-1657)", "mockall_derive/src/mock_function.rs: Expectations::call (2349-2359)"]}
{"id": "C06", "title": "FIFO dispatch", "statement": "A call is answered by the oldest expectation on that method whose matcher accepts the arguments and that is not yet used up; with a single expectation on the method, by that one whenever it matches.", "quantifier": "all expectation lists, all arguments, all call histories", "why_tests_cant": "All lists and all histories.", "anchors": ["mockall_derive/src/mock_function.rs: RefExpectations/RefMutExpectations/StaticExpectations call (2333-2441)"]}
{"id": "C07", "title": "An unmatched call panics and changes nothing", "statement": "When no expectation can take the call, the call panics with 'No matching expectation found' naming the function and its arguments, no return closure runs and no call count, sequence or stored return value changes.", "quantifier": "all expectation lists, all arguments", "why_tests_cant": "All lists.", "anchors": ["mockall_derive/src/mock_function.rs: MockFunction::call (474-578)", "mockall_derive/src/mock_function.rs: Expectations::call (2349-2359)"]}
{"id": "C08", "title": "Saturated expectations hand over to later ones", "statement": "Expectations e1..en (n>=2) that accept the same arguments, with maxima m1..mn, answer a run of calls as: the first m1 by e1, the next m2 by e2, and so on; the call after the sum is unmatched.", "quantifier": "all n, all maxima, all numbers of calls", "why_tests_cant": "Unbounded n, maxima and run length.", "anchors": ["mockall_derive/src/mock_function.rs: Expectations::call (2333-2441)", "mockall/src/lib.rs: Times::is_done (1615-1617)"]}
{"id": "C09", "title": "Call histories refine greedy assignment", "statement": "For every list of expectations with side-effect free matchers and every call history (including calls that panicked and were caught), the result of each call is the one computed from the history alone: call j goes to the least i that accepts it and has been given fewer than max_i earlier calls.  The final validation panics if and only if some expectation was given fewer than min_i calls.", "quantifier": "all expectation lists of length at least two, all call histories of any length", "why_tests_cant": "Whole-history refinement against an independent specification.", "anchors": ["mockall_derive/src/mock_function.rs: Expectations::call (2333-2441)", "mockall_derive/src/mock_function.rs: Common (937-1061)"]}
{"id": "C10", "title": "Matchers mean what they say", "statement": "with(p1..pn) accepts exactly the argument tuples on which every predicate holds, withf(f) exactly those on which f returns true, no matcher accepts everything, and a later with/withf replaces an earlier one.", "quantifier": "all predicates, all functions, all argument tuples, all setter orders", "why_tests_cant": "All predicates and tuples.", "anchors": ["mockall_derive/src/mock_function.rs: Matcher (1658-1757)", "mockall_derive/src/mock_function.rs: Common::with/withf/withf_st (921-1028)"]}
{"id": "C11", "title": "Each matcher is consulted at most once per call, in order", "statement": "A call evaluates the matchers of the expectations in FIFO order, each exactly once, up to and including the one that answers, and none after it; when nothing answers all are evaluated.  With predicates, all predicates of a consulted expectation are evaluated even after one is false.", "quantifier": "all expectation lists, arguments and stateful matchers", "why_tests_cant": "Observable through stateful matchers for every list.", "anchors": ["mockall_derive/src/mock_function.rs: Matcher::matches (1722-1732)", "mockall_derive/src/mock_function.rs: Expectations::call (2349-2359)"]}
{"id": "C12", "title": "A fresh expectation accepts anything, any number of times", "statement": "An expectation on which nothing but a return action was set answers every call whatever its arguments for up to usize::MAX-1 calls, passes validation after any number of calls up to that, and imposes no order.", "quantifier": "all arguments, all histories shorter than usize::MAX", "why_tests_cant": "Unbounded histories.", "anchors": ["mockall/src/lib.rs: TimesRange::default (1518-1523)", "mockall_derive/src/mock_function.rs: Common::default (944-953)"]}
{"id": "C13", "title": "The return closure runs once per answered call on the call's arguments", "statement": "An answered call runs the expectation's return closure exactly once, with exactly the arguments of the call, in call order, and the caller gets exactly what it returned; no closure of any other expectation runs.", "quantifier": "all closures (including stateful ones), all arguments, all expectation lists", "why_tests_cant": "All closures and histories.", "anchors": ["mockall_derive/src/mock_function.rs: StaticRfunc::call_mut (1947-1983)", "mockall_derive/src/mock_function.rs: StaticExpectation::call (2184-2195)"]}
{"id": "C14", "title": "return_const returns the same value every time", "statement": "After return_const(v) every answered call returns v, whatever the arguments and however many calls were made before.", "quantifier": "all values, all arguments, all histories", "why_tests_cant": "Unbounded histories.", "anchors": ["mockall_derive/src/mock_function.rs: return_const (2207-2213, 2041-2046)", "mockall_derive/src/mock_function.rs: RefRfunc::call (1788-1803)"]}
{"id": "C15", "title": "return_once runs its closure at most once", "statement": "After return_once(f), over any history of calls f runs at most once, on the first call that gets that far; the next such call panics with 'called twice, but it returns by move', and every later one panics too (with the error of a poisoned lock).", "quantifier": "all call histories", "why_tests_cant": "Unbounded histories.", "anchors": ["mockall_derive/src/mock_function.rs: StaticRfunc::call_mut Once/Expired (1956-1980)"]}
{"id": "C16", "title": "A call with no return action", "statement": "Without a return action a call that reaches the expectation returns the type's default when the nightly feature is on and the type has one, and otherwise panics; the message is the one for that configuration, except that for methods returning a 'static value only the first such call carries it and later ones panic because the lock is poisoned.", "quantifier": "both feature settings, types with and without Default, all three return kinds, all histories", "why_tests_cant": "All configurations and histories.", "anchors": ["mockall/src/lib.rs: ReturnDefault (1434-1475)", "mockall_derive/src/mock_function.rs: Rfunc Default arms (1792-1797, 1863-1868, 1951-1955)"]}
{"id": "C17", "title": "return_var keeps what the caller writes", "statement": "For a method returning &mut T with return_var(v): each call yields a reference whose value is what the caller last wrote through it (initially v).  With returning(f) each call yields a freshly computed value and earlier writes are lost.", "quantifier": "all values, all writes, all histories", "why_tests_cant": "Unbounded histories of reads and writes.", "anchors": ["mockall_derive/src/mock_function.rs: RefMutRfunc::call_mut (1859-1894)"]}
{"id": "C18", "title": "The last setter wins", "statement": "For each of matcher, call count, sequence position and return action, only the last value set on an expectation matters; setters of different kinds commute.", "quantifier": "all sequences of setters", "why_tests_cant": "All orders and lengths of builder chains.", "anchors": ["mockall_derive/src/mock_function.rs: setters (989-1028, 2041-2046, 2109-2135, 2207-2310)"]}
{"id": "C19", "title": "Single-threaded variants refuse other threads", "statement": "withf_st, returning_st, return_once_st and return_const_st behave like their counterparts on the thread that set them, and a call from any other thread that reaches them panics without running the closure.", "quantifier": "all thread pairs, all closures, all histories", "why_tests_cant": "All histories.", "anchors": ["mockall_derive/src/mock_function.rs: Matcher::FuncSt (1727-1728)", "mockall_derive/src/mock_function.rs: MutSt/OnceSt (1962-1979)"]}
{"id": "C20", "title": "Sequence safety", "statement": "In a test that changes no expectation's call count after in_sequence: if expectations were added to a Sequence in order 0..n-1, a call answered by expectation k happens only after every expectation j<k has been called its full number of times, across all mock objects that share the Sequence and for every history, including histories with caught panics.  (Without that condition the claim is false.)", "quantifier": "all sequences, all histories of calls over all mocks", "why_tests_cant": "Unbounded histories over several objects.", "anchors": ["mockall/src/lib.rs: SeqInner/SeqHandle/Sequence (1681-1785)", "mockall_derive/src/mock_function.rs: Common::call (956-968)"]}
{"id": "C21", "title": "Sequence acceptance", "statement": "A history of calls to sequenced expectations 0..n-1 with exact counts c_i>=1 runs without panic if and only if it is a prefix of 0 repeated c_0 times, then 1 repeated c_1 times, and so on.  (Fails if some c_i is 0: that expectation blocks the sequence for ever.)", "quantifier": "all n, all positive counts, all histories", "why_tests_cant": "Both directions quantify over all histories.", "anchors": ["mockall/src/lib.rs: SeqInner::satisfy/verify (1704-1716)", "mockall_derive/src/mock_function.rs: Common::call (956-968)"]}
{"id": "C22", "title": "in_sequence demands an exact count", "statement": "in_sequence panics unless the expectation's call count is exact at that moment; each successful in_sequence takes the next position of the Sequence.  (The check can be bypassed by changing times afterwards.)", "quantifier": "all ranges, all setter orders", "why_tests_cant": "All ranges and builder chains.", "anchors": ["mockall_derive/src/mock_function.rs: Common::in_sequence (970-977)", "mockall/src/lib.rs: Times::is_exact (1621-1623)"]}
{"id": "C23", "title": "Unrelated sequences do not interact", "statement": "A call on an expectation outside Sequence S never changes how S treats later calls, and expectations without a sequence impose no order.", "quantifier": "all histories, all sequences", "why_tests_cant": "All histories.", "anchors": ["mockall/src/lib.rs: Sequence (1765-1785)", "mockall_derive/src/mock_function.rs: verify_sequence/satisfy_sequence (994-998,1030-1034)"]}
{"id": "C24", "title": "A call out of order still counts", "statement": "A call that panics with a sequence violation leaves the sequence unchanged but uses up one of the expectation's calls; so does a call over the maximum.", "quantifier": "all sequenced expectations, all histories", "why_tests_cant": "Needs the state after a panic for all histories.", "anchors": ["mockall_derive/src/mock_function.rs: Common::call (956-968)"]}
{"id": "C25", "title": "checkpoint validates and forgets", "statement": "A method's checkpoint removes all its expectations whatever happens; it panics if and only if some expectation's call count is out of range, and the panic is that of the oldest such expectation.", "quantifier": "all expectation lists, all histories", "why_tests_cant": "All lists.", "anchors": ["mockall_derive/src/mock_function.rs: Expectations::checkpoint (1207-1213)", "mockall_derive/src/mock_function.rs: Common drop (1037-1061)"]}
{"id": "C26", "title": "A mock object's checkpoint covers exactly its non-static methods", "statement": "checkpoint() on a mock validates and clears all its non-static methods in order and leaves static methods alone; it panics if and only if some non-static method has an unsatisfied expectation.  (When it panics, methods after the failing one are neither validated nor cleared.)", "quantifier": "all mock shapes, all expectation states", "why_tests_cant": "All shapes.", "anchors": ["mockall_derive/src/mock_item_struct.rs: Methods::checkpoints (88-127), to_tokens (244-365)", "mockall_derive/src/mock_function.rs: MockFunction::checkpoint (581-600)"]}
{"id": "C27", "title": "No double panic", "statement": "Whatever the state of a mock object or Context, dropping it or checkpointing it raises at most one panic, and dropping it while the thread is already unwinding raises none, so the process is never aborted by a validation.", "quantifier": "all states (including poisoned ones), both values of thread::panicking()", "why_tests_cant": "All states; an abort kills the test harness.", "anchors": ["mockall_derive/src/mock_function.rs: Common drop (1037-1061)", "mockall_derive/src/mock_function.rs: Context drop (1632-1649)"]}
{"id": "C28", "title": "Dropping a mock validates everything", "statement": "Dropping a mock object outside unwinding panics if and only if one of its non-static methods has an expectation whose call count is out of range.", "quantifier": "all mock states", "why_tests_cant": "All states.", "anchors": ["mockall_derive/src/mock_function.rs: Common drop (1037-1061)", "mockall_derive/src/mock_item_struct.rs: to_tokens (244-365)"]}
{"id": "C29", "title": "A checkpointed mock behaves like a new one", "statement": "After a successful checkpoint, every further history of expectations and calls on the mock gives the same results as on a newly created mock.", "quantifier": "all earlier states, all later histories", "why_tests_cant": "Quantifies over all continuations.", "anchors": ["mockall_derive/src/mock_function.rs: Expectations::checkpoint (1207-1213)"]}
{"id": "C30", "title": "Type parameters are independent", "statement": "For a generic method, calls with one tuple of type parameters are answered only by expectations set for that tuple and never affect expectations of another tuple.", "quantifier": "all tuples, all histories", "why_tests_cant": "All interleavings of expectations and calls over all type tuples.", "anchors": ["mockall_derive/src/mock_function.rs: GenericExpectations (2447-2546)", "mockall/src/lib.rs: Key (1669-1679)", "mockall_derive/src/lib.rs: gen_keyid (1019-1036)"]}
{"id": "C31", "title": "A generic checkpoint covers all type parameters in any order", "statement": "checkpoint (and Context drop) of a generic method clears the expectations of every tuple of type parameters; whether it panics does not depend on the hash map's iteration order.", "quantifier": "all stores, all iteration orders", "why_tests_cant": "Iteration order is random per process.", "anchors": ["mockall_derive/src/mock_function.rs: GenericExpectations::checkpoint (2471-2476)"]}
{"id": "C32", "title": "A Context leaves a clean slate", "statement": "Dropping a Context while unwinding always leaves its static method with no expectations and an unpoisoned lock, without panicking; dropping it normally does too (panicking if some expectation is unsatisfied) unless the lock was already poisoned, in which case it panics and clears nothing.", "quantifier": "all states of the static method", "why_tests_cant": "All states, including poisoned ones reached by panics at any point.", "anchors": ["mockall_derive/src/mock_function.rs: Context drop (1632-1649)"]}
{"id": "C33", "title": "Which panics poison a static method", "statement": "An unmatched static call and a failed static checkpoint leave the static method usable; a panic raised inside the dispatch (matcher, count, sequence, return closure) or while configuring an expectation through the guard makes every later call, expect and checkpoint of that method panic until a Context is dropped during unwinding.", "quantifier": "all states, all later operations", "why_tests_cant": "All later operations.", "anchors": ["mockall_derive/src/mock_function.rs: MockFunction::call static (539-562)", "mockall_derive/src/mock_function.rs: Context (1553-1652)"]}
{"id": "C34", "title": "Contexts of one static method share one store", "statement": "Expectations set through any Context of a static method are seen by every call of it, in the order set, and dropping any one Context validates and clears all of them; other static methods are unaffected.", "quantifier": "all histories over several contexts and methods", "why_tests_cant": "All histories.", "anchors": ["mockall_derive/src/mock_function.rs: ConcreteExpectationGuard/GenericExpectationGuard/Context (1414-1652)"]}
{"id": "C35", "title": "A mock module's checkpoint covers every function", "statement": "checkpoint() of a mocked module validates and clears all functions of the module in order; it panics if and only if some function's expectation is unsatisfied or its lock poisoned, and then later functions are untouched.", "quantifier": "all modules, all states", "why_tests_cant": "All shapes.", "anchors": ["mockall_derive/src/mock_item.rs: to_tokens (165-213)", "mockall_derive/src/mock_function.rs: MockFunction::checkpoint (586-595)"]}
{"id": "C36", "title": "Call budget under every schedule", "statement": "When any number of threads call a method through a shared reference, under every interleaving each expectation answers at most its maximum number of calls and its recorded count equals the number of calls that reached it.", "quantifier": "all numbers of threads, all interleavings of atomic steps", "why_tests_cant": "Schedules cannot be enumerated.", "anchors": ["mockall/src/lib.rs: Times::call (1587-1602)", "mockall_derive/src/mock_function.rs: Expectations::call (2349-2359)"]}
{"id": "C37", "title": "return_once under every schedule", "statement": "When any number of threads race on an expectation set with return_once, under every interleaving the closure runs at most once.", "quantifier": "all numbers of threads, all interleavings", "why_tests_cant": "Schedules cannot be enumerated.", "anchors": ["mockall_derive/src/mock_function.rs: StaticExpectation::call (2184-2195)"]}
{"id": "C38", "title": "Static calls are linearizable", "statement": "Concurrent calls of one static mock function behave, under every interleaving, as if executed one at a time in some order.", "quantifier": "all numbers of threads, all interleavings", "why_tests_cant": "Schedules cannot be enumerated.", "anchors": ["mockall_derive/src/mock_function.rs: MockFunction::call static (539-562)"]}
{"id": "C39", "title": "Concurrent calls of an object's method are not atomic", "statement": "Concurrent calls of one method of a shared mock object are not always equivalent to calling one at a time: two threads racing on two expectations with times(1) each can both pick the first one, so that one of them panics although every serial order answers both calls; and two threads racing on a sequenced times(2) expectation can both advance the sequence, so that one is told about an already-satisfied method and the sequence skips its next member.  Under every schedule, a call that is told so panics with a message that shows how far the sequence had got and the place of the called expectation, and the sequence was past that place.", "quantifier": "all numbers of threads, all interleavings", "why_tests_cant": "Schedules cannot be enumerated.", "anchors": ["mockall_derive/src/mock_function.rs: StaticExpectations::call (2426-2436)", "mockall/src/lib.rs: Times::is_done/call (1587-1617)", "mockall/src/lib.rs: SeqInner (1704-1716)"]}
{"id": "C40", "title": "Sequence safety under every schedule", "statement": "Under every interleaving of calls in which no thread has panicked, an expectation of a Sequence is entered only after all earlier members have been called their full number of times.", "quantifier": "all interleavings, all sequences", "why_tests_cant": "Schedules cannot be enumerated.", "anchors": ["mockall/src/lib.rs: SeqInner (1704-1716)", "mockall_derive/src/mock_function.rs: Common::call (956-968)"]}
{"id": "C41", "title": "A panicking user closure disables only its own expectation", "statement": "After a matcher panicked, or the return closure of a method returning a 'static value (and the panic was caught), later calls that reach that expectation panic, and calls that do not reach it are unaffected.  (The closure of a method returning &mut T is not disabled.)", "quantifier": "all expectation lists, all later histories", "why_tests_cant": "All histories after the panic.", "anchors": ["mockall_derive/src/mock_function.rs: Common::matches (985-987)", "mockall_derive/src/mock_function.rs: StaticExpectation::call (2184-2195)"]}
{"id": "C42", "title": "Generated items keep the visibility of the original", "statement": "For every visibility specifier and every nesting depth of the generated private module, the specifier that Mockall emits there denotes the same region of the crate as the original did at the original place.  (Fails for pub(self).)", "quantifier": "all visibilities, all depths, all module paths", "why_tests_cant": "All paths and depths.", "anchors": ["mockall_derive/src/lib.rs: expectation_visibility (1243-1285)"]}
{"id": "C43", "title": "super:: paths keep their meaning in generated modules", "statement": "Moving a type `levels` modules down with the super-rewriting leaves every path in it naming the same item.  (Fails for paths in the generic arguments of a segment that is not the last one, for paths in `impl Trait`, for paths that start with `self::super`, and for names that the generated module itself defines.)", "quantifier": "all types, all depths", "why_tests_cant": "All types of unbounded depth.", "anchors": ["mockall_derive/src/lib.rs: supersuperfy (870-1016)"]}
{"id": "C44", "title": "Self is eliminated from mocked signatures", "statement": "Rewriting Self to the mock's name leaves no Self in a type without function types, `impl Trait` and associated-type constraints, and changes nothing else.  (Self stays in `fn(Self)` and `Fn(Self)`.)", "quantifier": "all types of unbounded depth", "why_tests_cant": "All types.", "anchors": ["mockall_derive/src/lib.rs: deselfify (534-668)"]}
{"id": "C45", "title": "Anonymous lifetimes are eliminated from return types", "statement": "After de-anonymization a return type contains no '_ lifetime, and named lifetimes are unchanged.  (Fails for '_ nested inside a generic type argument.)", "quantifier": "all types of unbounded depth", "why_tests_cant": "All types.", "anchors": ["mockall_derive/src/lib.rs: deanonymize (247-316)"]}
{"id": "C46", "title": "Import doubling binds the same names", "statement": "For every use tree accepted by #[double], the test-mode import binds exactly the same local names as the real import, each to the mock-named item at the same path; the non-test import is the original.  (Fails for `self` in a group.)", "quantifier": "all use trees of unbounded depth", "why_tests_cant": "All trees.", "anchors": ["mockall_double/src/lib.rs: do_double, mock_usetree, mock_ident (39-222)"]}
{"id": "C47", "title": "double and automock agree on names", "statement": "The name that #[double] imports is the name that #[automock] generates for the item, for types whose name starts with an uppercase letter and modules whose name does not.  (Fails otherwise, e.g. for raw or lowercase type names.)", "quantifier": "all identifiers", "why_tests_cant": "All identifiers.", "anchors": ["mockall_double/src/lib.rs: mock_ident (182-195)", "mockall_derive/src/lib.rs: gen_mock_ident (1039-1041)", "mockall_derive/src/mockable_item.rs: MockableModule (58-81)"]}
{"id": "C48", "title": "Splitting a method's generics", "statement": "Splitting a method's generics puts exactly the lifetime parameters that occur in the return type in the return group, exactly those that occur in an argument and not in the return type in the argument group, and exactly the type parameters, with the where clause, in the type generics; order and bounds are kept. (Lost: unused lifetimes, const parameters, the where clause if there is no type parameter, and lifetimes that occur only inside a function type.)", "quantifier": "all generics, argument lists and return types", "why_tests_cant": "All lists.", "anchors": ["mockall_derive/src/lib.rs: split_lifetimes (1173-1235)", "mockall_derive/src/lib.rs: find_lifetimes (680-772)"]}
{"id": "C49", "title": "Merging generics is a union", "statement": "Merging a struct's and an impl's generics yields every parameter of both exactly once, those of the first one first, in order; the bounds of type parameters and the bounds on types in the where clause are those of both; merging with empty generics is the identity. (Fails: into empty generics, a where predicate with a `for<'a>` binder gets the binder twice; of a lifetime that both have, the second one's bounds are dropped.)", "quantifier": "all generics", "why_tests_cant": "All lists.", "anchors": ["mockall_derive/src/lib.rs: merge_generics (1055-1145)"]}
{"id": "C50", "title": "Attribute filtering", "statement": "Attributes copied to generated items are a subsequence of the original attributes: every attribute that is not excluded by name (or, for doc, async_trait and must_use, by flag) is copied and no excluded one is; filtering twice changes nothing. (A cfg_attr attribute that merely contains the text \"concretize\" is dropped too.)", "quantifier": "all attribute lists, all flag settings", "why_tests_cant": "All lists.", "anchors": ["mockall_derive/src/lib.rs: AttrFormatter::format (774-858)"]}
{"id": "C51", "title": "Every method has its own expectations", "statement": "In a generated mock, two methods that differ in name or in the trait they belong to never use the same set of expectations, so expectations set for one method are never seen by calls of another. Traits are told apart by the identifiers and written-out arguments of their paths, provided the hashes of the arguments differ. (Fails for paths with double underscores or border underscores in a name, and for a name ending in an underscore and a number.)", "quantifier": "all mocked structs, all pairs of methods", "why_tests_cant": "All pairs of names and trait paths.", "anchors": ["mockall_derive/src/mock_trait.rs: ss_name_priv, join_path_segments, hash_path_arguments (37-47,178-208)", "mockall_derive/src/mock_function.rs: call (474-578)"]}
{"id": "C52", "title": "When a mock gets a new() function", "statement": "A mock gets a generated zero-argument new() exactly if neither the mocked struct nor any trait it implements has a method named new.", "quantifier": "all mock declarations", "why_tests_cant": "All declarations.", "anchors": ["mockall_derive/src/mock_item_struct.rs: From<MockableStruct> (195-242), to_tokens (244-365)"]}
{"id": "C53", "title": "Owned output of reference-returning methods", "statement": "For a method returning a non-'static reference, the type the expectation stores is the owned counterpart of the referent (str->String, [T]->Vec<T>, Path->PathBuf, CStr->CString, OsStr->OsString, dyn Trait->Box<dyn Trait>, anything else as it is); any other return type, 'static references included, is stored as it is; a static method that returns a non-'static reference is refused. (Path, CStr and OsStr are recognised by their bare names only, so a user's type of that name is replaced and std::path::Path is not; a parenthesised trait object is not boxed.)", "quantifier": "all return types", "why_tests_cant": "All types.", "anchors": ["mockall_derive/src/mock_function.rs: destrify, ownify, dedynify (35-137)", "mockall_derive/src/mock_function.rs: Builder::build (188-343)"]}
{"id": "C54", "title": "Closure arguments keep their positions", "statement": "Replacing generic closure parameters by boxed closures keeps the number, order and names of arguments, boxes exactly the arguments whose type is a closure-bounded type parameter, passes these arguments boxed, and removes exactly these type parameters; a type parameter with two closure bounds is refused. (The parameter's other bounds that are declared elsewhere are lost, and a closure parameter that occurs inside of another type is removed although it is still used.)", "quantifier": "all generics and argument lists", "why_tests_cant": "All lists.", "anchors": ["mockall_derive/src/lib.rs: declosurefy (320-446)"]}
{"id": "C55", "title": "Associated types are substituted everywhere they can occur", "statement": "Mocking a trait with associated types A_i = T_i replaces every Self::A_i and <Self as Trait>::A_i in argument and return types of methods by T_i and changes nothing else; of several declarations of one name the last counts. (The generic arguments of a projection are lost, and projections inside bounds of generic parameters, inside constraints, and inside of the declared types themselves are not replaced.)", "quantifier": "all types of unbounded depth", "why_tests_cant": "All types.", "anchors": ["mockall_derive/src/automock.rs: substitute_type (100-193), substitute_path_segment (63-97)"]}
{"id": "C56", "title": "A return closure never overlaps itself", "statement": "When any number of threads call a method through a shared reference, under every interleaving two runs of the return closure of one expectation never overlap: a run ends before the next one begins.", "quantifier": "all numbers of threads, all interleavings", "why_tests_cant": "Schedules cannot be enumerated.", "anchors": ["mockall_derive/src/mock_function.rs: StaticExpectation::call (2184-2195)"]}
{"id": "C57", "title": "Concurrent calls never deadlock", "statement": "Whatever static functions, matchers and closures threads compete for, from every state they can reach every call finishes under every scheduler that keeps giving each thread turns (provided the user's closures themselves return).", "quantifier": "all numbers of threads, all reachable states, all fair schedules", "why_tests_cant": "Schedules cannot be enumerated.", "anchors": ["mockall_derive/src/mock_function.rs: MockFunction::call static (539-562)", "mockall_derive/src/mock_function.rs: StaticExpectation::call (2184-2195)", "mockall_derive/src/mock_function.rs: Common::matches (985-987)"]}
{"id": "C58", "title": "Default initialises every field", "statement": "The generated Default implementation of a mock, and of the structure that holds a trait's expectations, initialises exactly the fields that the structure declares, in order and under the same conditional compilation; and every lifetime and type parameter of the mock is used by a field. (Const parameters and bounds on lifetimes are refused.)", "quantifier": "all mocked structs", "why_tests_cant": "All declarations and combinations of cfg attributes.", "anchors": ["mockall_derive/src/mock_item_struct.rs: phantom_fields (20-58), Methods (83-125), to_tokens (244-452)"]}
{"id": "C59", "title": "checkpoint() validates exactly the methods of the object", "statement": "checkpoint() of a mock object covers the expectations of every method with a self argument, of the struct and of every implemented trait, and nothing else; in particular not those of static methods. (A trait implemented for two types with different methods loses those of the second.)", "quantifier": "all mocked structs, all methods", "why_tests_cant": "All declarations.", "anchors": ["mockall_derive/src/mock_item_struct.rs: Methods::checkpoints (83-125), to_tokens (244-365), MockItemTraitImpl (368-452)", "mockall_derive/src/mock_function.rs: checkpoint (581-607)"]}
{"id": "C60", "title": "Expectations are set where calls look for them", "statement": "For every method, expect_method() of the mock adds to the very set of expectations that calling the method looks in; for every static method, method_context() does. That set exists in the generated code: its field, sub-structure and module are declared, and a generic method's module has the generic set. (Fails if one trait is implemented for two types with different methods.)", "quantifier": "all mocked structs, all methods", "why_tests_cant": "All declarations.", "anchors": ["mockall_derive/src/mock_function.rs: call (474-578), expect (655-706), context_fn (609-630), field_definition (746-763), priv_module (824-890)", "mockall_derive/src/mock_trait.rs: trait_impl (122-175)", "mockall_derive/src/mock_item_struct.rs: to_tokens (244-365)"]}
{"id": "C61", "title": "Conditional compilation is consistent", "statement": "Everything that is generated for a method - the function, its module, expect_ function, context, field, initialisation and checkpoint - carries the same cfg attributes as the method; everything generated for an implemented trait carries those of the impl block. (The cfg attributes of the mocked struct itself are only put on the structure, not on its impl blocks.)", "quantifier": "all mocked structs, all attributes", "why_tests_cant": "All combinations of attributes.", "anchors": ["mockall_derive/src/lib.rs: AttrFormatter (774-858)", "mockall_derive/src/mock_function.rs: call (474-578), checkpoint (581-607), expect (655-706), field_definition (746-763), priv_module (824-890)", "mockall_derive/src/mock_item_struct.rs: unique_trait_iter (62-80), to_tokens (244-452)"]}
{"id": "C62", "title": "Arguments reach the expectation", "statement": "A mock function keeps the name, generics, argument types, return type and ABI of the function it mocks. It hands each of its arguments, in order, to the expectation, with an expression whose type is (up to an unsizing coercion) the type that the expectation's closures take: closures are boxed, concretized arguments become references to trait objects, everything else is handed over as it is. Predicates and withf closures always get a reference: arguments that are references already are passed as they are, others by reference. (Fails for a concretized argument &F with F: FnMut, which is passed as a shared reference where a mutable one is taken.)", "quantifier": "all mocked functions with identifier patterns, all argument types", "why_tests_cant": "All signatures; the type of the expression must match in each case.", "anchors": ["mockall_derive/src/mock_function.rs: build (199-343), call (474-578)", "mockall_derive/src/lib.rs: concretize_args (86-245), declosurefy (320-446), demutify (499-532)"]}
{"id": "C63", "title": "Concretized functions have no generic parameters", "statement": "With #[concretize], the expectation of a function with type parameters is not generic: an argument of type T, &T, &mut T or &[T], for a parameter T declared with bounds, is seen by the expectation as a reference to a trait object with exactly those bounds (mutable if T's first bound is FnMut or the argument is a mutable reference; for &[T] a slice of references). (An argument that only mentions T inside another type, like Vec<T>, is left as it is, although T is no longer declared.)", "quantifier": "all concretized functions", "why_tests_cant": "All signatures and bounds.", "anchors": ["mockall_derive/src/lib.rs: is_concretize (62-76), concretize_args (86-245)", "mockall_derive/src/mock_function.rs: build (199-343)"]}
{"id": "C64", "title": "Signatures of mocked methods", "statement": "A mocked method has the name, ABI and receiver of the original, and the same generics, arguments and return type up to these changes: Self in arguments and in the return type becomes the mock type with its parameters; where-clause predicates about Self are dropped; mut in front of arguments is dropped; a return type `impl Trait` becomes Box<dyn Trait> (pinned for a future or a stream); '_ in the return type becomes 'static; and each reference to a trait object without a lifetime bound gets one, a lifetime named after the argument and declared by the method. (Two trait objects in one argument declare the same lifetime twice; a raw argument name is refused.)", "quantifier": "all methods the macro accepts", "why_tests_cant": "All signatures, with types nested to any depth.", "anchors": ["mockall_derive/src/mockable_struct.rs: add_lifetime_parameters (25-112), mockable_method (158-171)", "mockall_derive/src/lib.rs: deimplify (449-475), dewhereselfify (478-496), demutify (499-532), deselfify (534-668)"]}
{"id": "C65", "title": "What #[automock] and mock! generate", "statement": "#[automock] of a trait T declares MockT with the trait's visibility, parameters and Debug, which implements T with the same safety, parameters, constants and the declared associated types, and with one mock of each of the trait's methods, in order, and nothing else. #[automock] of an impl block declares a public MockS with the block's parameters: for an inherent block with its constants and a mock of each method, with the method's visibility; for a trait's block with an implementation of that trait, in which the block's associated types replace Self::A. mock! declares what is written: name, visibility, parameters, constants, a mock of each method and of each impl block; Debug only if derived. For every mocked method with a self argument there is exactly one expect_method, for every other a method_context, with the method's visibility (for trait methods, the mock's).", "quantifier": "all traits, impl blocks and mock! declarations that the macros accept", "why_tests_cant": "All declarations; a method may be dropped or reordered for particular shapes only.", "anchors": ["mockall_derive/src/mockable_struct.rs: mockable_item_impl (145-155), mockable_trait (191-240), From (365-470), Parse (473-540)", "mockall_derive/src/lib.rs: mock_it, do_mock, do_automock (1295-1380)", "mockall_derive/src/mock_item_struct.rs: From (195-242), to_tokens (244-365)", "mockall_derive/src/mock_trait.rs: new (50-120), trait_impl (122-175)"]}
{"id": "C66", "title": "Mocks of modules", "statement": "#[automock] of a module m declares mock_m with the same visibility. It has, in the order of the items: each const, static, type, trait alias and use as it is, nothing for extern crates and impl blocks, and for each function (also those of extern blocks) exactly one mock function of the same visibility, signature and cfg attributes, and a context. mut in front of arguments is dropped, impl Trait as a return type is boxed. Mocks of foreign functions are unsafe, use the block's ABI (\"C-unwind\" for \"C\") and are linked by name. checkpoint() covers every mocked function, under its cfg conditions. Any other item is refused with an error.", "quantifier": "all modules", "why_tests_cant": "All sequences of items; an item may be dropped or reordered.", "anchors": ["mockall_derive/src/mockable_item.rs: 5-80", "mockall_derive/src/mock_item.rs: MockItemModule (57-214)", "mockall_derive/src/mock_function.rs: call (474-578), checkpoint (581-607), context_fn (609-630)"]}
{"id": "C67", "title": "Generic expectations are kept per type", "statement": "The mocked method, the field that holds its expectations (or the static) and the expect_ function (or the context) agree on the type of the expectations: the type parameters are those of the struct and those of the method other than closures, and none are mixed up. For a generic method a call finds the expectations set with expect_::<..>() exactly if every type parameter (also the struct's) is the same type in both. expect_ keeps the where clause of the method; for a method returning a reference it requires that the value be Send and Sync. If a trait is implemented for particular arguments of the struct, expect_ returns the expectations for these arguments. This holds as long as lifetimes are not in the return type of a generic method (documented) and the struct has no lifetime parameters (documented).", "quantifier": "all mocked structs, traits and methods, all type parameters and bounds, all choices of types", "why_tests_cant": "Unbounded syntax; two expectations for different types may only be confused for some combination of parameters.", "anchors": ["mockall_derive/src/mock_function.rs: call (474-578), expect (655-706), expectation_obj (709-735), field_definition (736-763), Context (1549-1652), GenericExpectations (2443-2545), send_syncify (139-170)", "mockall_derive/src/lib.rs: gen_keyid (1019-1036), merge_generics (1055-1145), split_lifetimes (1173-1235), staticize (1287)", "mockall/src/lib.rs: 673-745"]}
{"id": "C68", "title": "Bodies of mock functions", "statement": "A mock function passes each of its arguments, in order, to call of its expectations, or to call_mut exactly if it returns a non-static &mut reference. The expectations have the reference kind exactly if the function returns a non-static & reference, and the mutable kind exactly for &mut. Trait objects returned by reference, which expectations keep boxed, are unboxed exactly for &dyn and &mut dyn. The message for an unmatched call names the mocked struct (for a function of a module: the mock module) and the function, and shows every argument in order. The function repeats all attributes of the mocked one other than those that are never copied, and is linked by name exactly if its ABI is not Rust's.", "quantifier": "all mocked structs, traits, impl blocks and modules", "why_tests_cant": "Unbounded syntax of return types and argument lists.", "anchors": ["mockall_derive/src/mock_function.rs: build (199-343), call (474-578), desc (632-645), funcname (765-771), priv_module (824-890)", "mockall_derive/src/mock_trait.rs: trait_impl (122-173)"]}
{"id": "C69", "title": "What the macros refuse and what they accept", "statement": "Whenever automock or mock! generates something, then every argument of every mocked method has a plain name and a type that is not impl Trait, ! or _, no macro call stands where a type is mocked, no function without self returns a reference that is not 'static, the structure has no const parameters and no bounds on its lifetimes, an impl block repeats all its parameters, negative impls and macro calls as items are refused, constants of traits have values and associated types are given. The exception: functions of modules may take impl Trait arguments, which are then copied to where they are not allowed. Conversely, every trait, impl block, declaration and module whose methods have plain argument names and only paths, references, pointers, slices, arrays, tuples and trait objects behind a pointer as types, with at most one closure bound per type parameter (with #[concretize]: a trait among its bounds), is accepted.", "quantifier": "all traits, impl blocks, declarations in mock! and modules", "why_tests_cant": "Unbounded syntax; tests of macro errors cover single inputs.", "anchors": ["mockall_derive/src/lib.rs: compile_error (44-60), deselfify (534-668), find_lifetimes (680-772), supersuperfy (870-1016), do_mock, do_automock (1295-1380)", "mockall_derive/src/mockable_struct.rs: 25-256, 365-540", "mockall_derive/src/automock.rs: 24-271", "mockall_derive/src/mock_function.rs: build (199-343)", "mockall_derive/src/mock_item_struct.rs: 20-60", "mockall_derive/src/mockable_item.rs"]}
{"id": "C70", "title": "Calls that do not overlap in time behave as in one thread", "statement": "Whichever threads call which methods of mock objects and static mock functions: as long as no call begins before the previous one has returned, every call returns or panics with what it would give if one thread made the same calls in the same order, and the expectations, sequences, poisoned stores and the state of the user's closures are left as that thread would leave them. The calls of one thread never overlap, and after enough steps all of them have returned.", "quantifier": "all mocks, expectations, closures, numbers of threads, lists of calls, and schedules in which calls do not overlap", "why_tests_cant": "The number of schedules and of states is unbounded; tests run a few calls from few threads.", "anchors": ["mockall_derive/src/mock_function.rs: call (474-578), Common (893-1065), Expectation::call (2028-2038, 2184-2195), RefExpectations, StaticExpectations (2329-2441)", "mockall/src/lib.rs: Times, TimesRange, SeqHandle (1587-1715)"]}
{"id": "C71", "title": "Return closures that call mocks", "statement": "A return closure may itself call mock functions and methods, to any depth, and catch their panics. In one thread such a call behaves as an ordinary call made at that moment, with the counts, sequences and state that it finds there; what happens around it is unaffected, and the outer call ends with what its closure makes of the outcome. Every call ends, except for one that waits for ever: a call that is answered by an expectation whose closure is still running in the same thread, or a call of a static function whose store is that of a static function whose closure is still running. A closure may call its own method when another expectation answers. A closure that calls no mocks behaves as in the other properties.", "quantifier": "all mocks, closures with any tree of calls, states and lists of calls of one thread, any number of steps", "why_tests_cant": "The closures, depths of nesting and states are unbounded, and a hang is not an observable that a test can assert.", "anchors": ["mockall_derive/src/mock_function.rs: call (474-578), Expectation::call (2028-2038, 2184-2195), Rfunc::call_mut (1946-1985)", "mockall/src/lib.rs: Times (1587-1715)"]}
{"id": "C72", "title": "Threads whose closures call mocks", "statement": "Several threads may call mocks whose return closures call mocks. Whatever the closures do, the closure of one expectation is never run by two calls at the same time, neither in two threads nor one inside the other. If the methods can be ordered so that closures only call methods lower in the order (static functions that share a store being equal), then nobody waits for ever: whatever has happened so far, every scheduler that forgets no thread gets all calls done. Without such an order threads can wait for each other for ever, although each of them alone would finish.", "quantifier": "all mocks, closures with any tree of calls, numbers of threads, programs and schedules", "why_tests_cant": "Absence of deadlock is about all schedules; a test sees a few of them and cannot observe that something never happens.", "anchors": ["mockall_derive/src/mock_function.rs: call (474-578), Expectation::call (2028-2038, 2184-2195), Rfunc::call_mut (1946-1985)"]}
{"id": "C73", "title": "Relaxed atomic operations", "statement": "The counters and sequence levels are read with relaxed memory order, so a thread may see old values. Whatever old values the threads see: the count of an expectation is exact, an expectation never answers more calls than its range allows, a return_once closure runs at most once, runs of one closure never overlap, a method in a sequence never runs before the earlier members have been called often enough, and no call waits for ever. Calls of static methods that share a store, and calls that do not overlap and are made by threads that synchronise with each other, never see an old value: they have the results of the same calls one after the other. For calls on one object by threads that do not synchronise this is not so, even if the calls do not overlap: a caller can miss that an expectation is exhausted, or that a sequence has moved on, and panic.", "quantifier": "all mocks, numbers of threads, programs, schedules and choices of the values that relaxed loads return", "why_tests_cant": "Relaxed loads return old values only on some machines, at some moments; a test on one machine sees next to none of the allowed executions.", "anchors": ["mockall/src/lib.rs: Times (1579-1650), SeqInner (1699-1722)", "mockall_derive/src/mock_function.rs: call (474-578), Common (620-760), Matcher and Rfunc mutexes (930-990, 2170-2200)"]}
{"id": "C74", "title": "Generated code behaves as documented as a whole", "statement": "Take the items that the macro emits for a struct or trait, and run a test on them, resolving every function, field, module and static by its name. The test compiles if it uses the declared names only, and only then; every operation returns, panics (with the same message) or aborts exactly as on the mock that the input describes, where each method has its own expectations, static methods share theirs per process, and messages name the mock and the method. So an expected method answers up to the expected number of calls, the next call panics, and dropping the mock panics unless the number was reached; and the order of hash maps cannot be observed except in which of several failures is reported. It is required that the generated names are distinct; they are, unless two functions of a block or two traits are called alike or a method is called like a generated field (`Tr_expectations`, `_t0`), in which case the mock does not compile. Likewise no two generated functions of the mock's type have one name, unless the input has functions that are called alike (also in two traits, unless these are implemented for different instances of the type) or like generated ones (`checkpoint`, `expect_foo`, `foo_context`).", "quantifier": "all mocks (with any traits, methods and generics), all tests, all user closures, all build configurations and hash orders", "why_tests_cant": "It is about all inputs of the macro together with all tests of its output.", "anchors": ["mockall_derive/src/mock_item_struct.rs: MockItemStruct, Methods (60-452)", "mockall_derive/src/mock_trait.rs: trait_impl (130-176)", "mockall_derive/src/mock_function.rs: MockFunction (474-860), priv_module (824-890)"]}
{"id": "C75", "title": "The mock of a module behaves as documented as a whole", "statement": "Take the items that the macro emits for a module, and run a test on them, resolving every function, context, module and static by its name. The test compiles if it uses the names of the module's functions (also the foreign ones) only, and only then; every operation returns, panics (with the same message) or aborts exactly as on a mock that has one static method for each function: functions have separate expectations, the module's checkpoint checks all of them, and dropping a context checks and clears those of its function. So an expected function answers up to the expected number of calls, the next call panics, and dropping its context panics unless the number was reached; after that, and also after the panic of a surplus call, the function expects nothing and later tests are not affected. Messages about the number of calls name the function, those about calls that match no expectation also the mock module. No two generated functions have one name, unless the module has a function called `checkpoint`, or `foo_context` beside `foo`.", "quantifier": "all modules (with any functions, foreign blocks and other items), all tests, all user closures, all build configurations and hash orders", "why_tests_cant": "It is about all inputs of the macro together with all tests of its output.", "anchors": ["mockall_derive/src/mock_item.rs: MockItemModule (49-200)", "mockall_derive/src/mockable_item.rs: MockableModule (49-90)", "mockall_derive/src/mock_function.rs: MockFunction (474-890)"]}
{"id": "C76", "title": "Generated code declares the lifetime and type parameters it names", "statement": "Wherever the expectation code that is generated for a method (of a struct or a trait) or a module's function names a lifetime or type parameter of the struct or of the method, that parameter is declared by the structure, impl block, function or `for<..>` around it; and no parameter is declared twice. This holds for all type parameters that the caller chooses, for closure parameters that are arguments themselves, for concretized parameters behind the documented references, for lifetimes of arguments, of a returned `&'a T`, and of a struct. It does not hold (so that the mock cannot compile) for: named lifetimes in arguments of methods returning `&mut T`, of generic methods and of concretized methods; lifetimes in bounds; a lifetime that both an argument type (other than a reference) and the return type have; lifetimes in the return type of a static method; closure parameters inside other types; and parameters of a trait's impl block that the struct does not declare under the same name.", "quantifier": "all mocked structs, traits, impl blocks and modules; all signatures within the stated limits", "why_tests_cant": "Each test compiles one signature; this is about all combinations of receivers, generics, where clauses, lifetimes and attributes.", "anchors": ["mockall_derive/src/mock_function.rs: Builder::build (199-375), templates (893-2545)", "mockall_derive/src/lib.rs: declosurefy (320), merge_generics (1055), split_lifetimes (1173)", "mockall/src/lib.rs: generic methods, generic lifetimes (680-744)"]}
{"id": "C77", "title": "Operations on a static function's expectations are atomic across threads", "statement": "If any number of threads call static functions that share a store, set expectations on them through contexts (with whole chains of setters), checkpoint the contexts and drop them, then whatever the scheduler does, what every thread gets back and what is left in the store is what these operations give when they are executed one after the other, in one order that agrees with the order of operations of each thread and in which every operation lies between its start and its return. The one exception is the drop of a context during a panic, which consists of two such pieces, clearing the poison flag and draining the store: a call that panics in between leaves the store poisoned and its expectations in place, which no order of whole operations does.", "quantifier": "all programs of all threads (which may depend on what earlier operations returned), all schedules, stores, closures", "why_tests_cant": "There are unboundedly many interleavings of unboundedly many operations; a test runs a few of them and cannot control the scheduler.", "anchors": ["mockall_derive/src/mock_function.rs: Context (1583-1652), StaticExpectationsFn, call_body", "mockall/src/lib.rs: Static methods (844-852)"]}
{"id": "C78", "title": "Tests that share a mutex cannot influence each other through a static mock function", "statement": "If all tests that use a static function follow the documented example (lock a common mutex, make a context, use the function, drop the context, unlock), then on any number of threads, with any number of tests on each, under every schedule, every test observes exactly what it observes when it is the only test of the process; whether other tests pass, panic in the middle, or fail when their context is dropped because an expectation was not met. This does not hold for tests that do not lock the mutex, nor for a test that catches a panic of the mocked function and ends normally: the drop of its context then panics and the next test cannot set expectations.", "quantifier": "all tests, numbers of threads and tests, schedules, points at which tests fail", "why_tests_cant": "The claim is about tests in general, including all the ways in which one may fail, and about all schedules of the test harness.", "anchors": ["mockall/examples/synchronization.rs", "mockall/src/lib.rs: Static methods (844-852)", "mockall_derive/src/mock_function.rs: Context::drop (1634-1648)"]}
{"id": "C79", "title": "Operations on a static function's expectations never deadlock", "statement": "Whatever several threads have done with static functions that share a store (calls, chains of setters, checkpoints and drops of contexts, each at any stage, whichever of them panicked), the scheduler can go on such that all threads come to the end of their programs, or the process aborts. In particular no lock of the store is kept after an operation returned or panicked, and this includes tests that share a mutex as in the documented example. Programs that use a mutex of their own must unlock it before they end and not lock it twice.", "quantifier": "all programs, schedules and points at which a run is stopped", "why_tests_cant": "A deadlock shows up only under particular interleavings; a test that passes does not exclude it.", "anchors": ["mockall_derive/src/mock_function.rs: Context (1583-1652), StaticExpectationsFn, call_body", "mockall/examples/synchronization.rs"]}
{"id": "C80", "title": "Failure messages are unambiguous and true", "statement": "Two panic messages of mockall with the same text are the same failure: the same kind of failure, the same function, the same matcher text, the same numbers. And whenever an operation of a test panics with a message, what the message says is so: an expectation of the called (or validated) function has that text, that number of calls and those bounds, the call's arguments are those printed, the sequence stood at that level, no value to return was set, the chain of setters had that range or that sequence, or the closure belongs to another thread. All other panics come from the user's closures. A poison error never is the first panic of a test. One exception is proved: without overflow checks, times(..0) makes a message with a wrong maximum.", "quantifier": "all texts, numbers, states of mocks and operations; all tests for poison errors", "why_tests_cant": "Tests compare a few texts; they do not show that no other failure prints the same text, or that a text is never printed without its cause.", "anchors": ["mockall/src/lib.rs: Times::call (1587-1602), SeqInner (1699-1722), DefaultReturner (1443-1475)", "mockall_derive/src/mock_function.rs: Common (936-1061), desc (632-643), Matcher Display (1742-1754), call of the three Expectations (2028, 2093, 2184)"]}
{"id": "C81", "title": "Single-threaded closures must stay on their thread", "statement": "A test that stays on one thread, or that does not use withf_st, returning_st, return_once_st and return_const_st, is not affected by where their closures are dropped. Any operation that only drops closures of its own thread isn't either. But dropping a mock, a checkpoint or the drop of a context on a thread where some dropped expectation holds a closure set on another thread never succeeds, even if all expectations are satisfied: one such closure panics, two abort the process, and a violated expectation followed by such a closure aborts instead of reporting the violation. A call from another thread that reaches a return_once_st closure aborts. Three consequences are proved by counterexample: drops during a panic can panic again, right call counts don't suffice to drop a mock, and a context that set no expectations can fail because of those of another test.", "quantifier": "all tests, states, orders in which stores are dropped, numbers of closures and threads", "why_tests_cant": "Tests use the _st setters on one thread; the effects depend on the number and order of expectations and on the thread that happens to drop them, and an abort ends the test program.", "anchors": ["mockall_derive/src/mock_function.rs: Rfunc (1842-1900, 1925-2000), Matcher::FuncSt (1712-1732), withf_st (1180), returning_st (2299), return_once_st (2264), return_const_st (2231), Drop for Common (1036-1061), Drop for Context (1632-1648)", "mockall/src/lib.rs 145-180 (the _st setters)"]}
{"id": "C82", "title": "Failures point to the line that set the expectation", "statement": "In any test, whatever operation fails with a message about an expectation (called too often, too few or too many times, called out of sequence, or with no value to return), there is an earlier line of the test that set this expectation, for the very function of the very object that the failing operation calls or validates. The message names the function as the user declared it and shows the arguments and the bound that this line gave; the function was really called at least as often as the message says since that line, and the expectation was not successfully validated in between. 'return_once' failures come from a line that uses return_once and a function called twice. The same is proved of the generated code of mock structs and mock modules, in terms of what the user wrote; if no identifier has a blank, two failures of a mock with the same text are the same failure. The name alone does not always identify the function: two traits with functions of one name share it (proved by counterexample).", "quantifier": "all tests of any length below the maximal count, all mocks, closures, orders of hash maps and positions of the failure", "why_tests_cant": "Tests check a few messages; that no test can produce a message which misattributes a failure depends on all histories of expectations, calls, checkpoints and earlier panics.", "anchors": ["mockall_derive/src/mock_function.rs: Common::call (957-966), Drop for Common (1036-1061), Expectations::call (1230-1245), checkpoint (586-599, 1210-1213), expect (1216-1221)", "mockall/src/lib.rs: Times (1556-1667), SeqHandle (1693-1730)"]}
{"id": "C83", "title": "Mocks are Send and Sync exactly if what they lend is", "statement": "A mock object is Send (Sync) exactly if its type parameters are and if every type is that its methods return by (non-'static) reference, leaving aside generic methods: whatever the arguments, the returned values, the predicates and the closures of its expectations, including the _st ones. In particular a mock without type parameters that lends nothing is always Send and Sync. The documented 'mock objects are always Send' is false for a mock that lends an Rc (proved by counterexample). The statics that hold the expectations of functions without self are Sync, as Rust demands, whatever the types of the function. Expectations of generic methods are Send and Sync wherever the where clause that the macro writes for them holds. Contexts may be moved to other threads; guards returned by their expect may not.", "quantifier": "all mocks (own methods, traits, generics), all user types with any Send and Sync implementations", "why_tests_cant": "Auto traits depend on every field of nested generated types; a test with assert_send checks one mock and one set of types.", "anchors": ["mockall_derive/src/mock_function.rs: Matcher (1684-1718), Rfunc (1778-1785, 1842-1856, 1925-1944), Common (938-942), Expectation (2020-2178), Context (1596-1602), guards (1434-1517), GenericExpectations (2443-2545)", "mockall/src/lib.rs: documentation (149), AnyExpectations (1430)", "mockall_derive/src/mock_item_struct.rs: phantom_fields (30-60), struct (332-452)"]}
{"id": "C84", "title": "Every accepted macro call makes a mock that works", "statement": "If #[automock] of a trait or of an impl block, or mock!, is accepted (and rustc finds no two generated items of one name), then every test that uses the functions the user wrote has, step by step, the results of the mock semantics of properties C01-C35: each written function is one method of that semantics. The method is static exactly if the function has no receiver; it lends exactly if the written return type, or the associated type it names, is a reference that is not 'static; it is generic exactly if the caller chooses a type parameter (or, for a static function, if the mock is generic); its messages name it MockFoo::function. Functions share an expectation list only if they have one name in blocks for one trait. For #[automock] no names clash as long as the functions have different names and none is called like a marker field _tN.", "quantifier": "all traits, impl blocks and mock! declarations that the macros accept; all value types, user states, clocks and sequences of operations on any number of objects and contexts", "why_tests_cant": "A test expands one declaration and runs one scenario; the claim joins parsing, substitution of associated types, code generation and the runtime for all declarations and all scenarios.", "anchors": ["mockall_derive/src/lib.rs: do_mock (1306-1327), do_automock (1353-1380)", "mockall_derive/src/mockable_struct.rs: From (365-471), Parse (473-540)", "mockall_derive/src/automock.rs: Attrs (48-205)", "mockall_derive/src/mock_item_struct.rs", "mockall_derive/src/mock_trait.rs", "mockall_derive/src/mock_function.rs"]}
{"id": "C85", "title": "Predicates may call mocks, but not their own expectation", "statement": "A predicate given to withf or with may itself call mocks. A call whose predicate does so goes on, once these calls have returned, exactly like a call whose predicate gives the same verdict (or panics in the same way) without calling anything; predicates that call nothing behave as in the other properties. The predicate of one expectation never runs twice at a time, neither in two threads nor one inside the other. If closures and predicates call only methods that are lower in some fixed order, all calls in all threads return under every fair scheduler. But a call that a predicate makes, however indirectly, waits for ever as soon as it comes to that predicate's own expectation, and so does a call of a static function or free function from a predicate of the same function; a predicate that always begins with a call of its own method therefore makes the method hang for ever. Two threads whose predicates call each other's methods can deadlock.", "quantifier": "all sets of expectations, all predicates and closures (as trees of calls), all numbers of threads, programs and schedules, all moments", "why_tests_cant": "A test runs a few schedules of a few predicates, and cannot observe that something waits for ever.", "anchors": ["mockall_derive/src/mock_function.rs: Common::matches (985-987), Matcher (1708-1732), find (2352-2355, 2429-2432), call (549-576)", "std::sync::Mutex"]}
{"id": "C86", "title": "What is written in a macro call is what is mocked", "statement": "mock! accepts functions without a body (with attributes and a visibility of their own) and constants between its braces, and nothing but impl blocks after them; anything else (a function with a body or an associated type between the braces, another item after them, a public function without a body in an impl block) makes no mock at all. What it accepts it mocks as written: the attributes, visibility, name, parameters and where clause, the constants, and every function of every block, in order and once. In impl blocks of mock! a body changes nothing. #[automock] puts its code behind the annotated item, which stays unchanged; it accepts traits, impl blocks and inline modules only, with nothing but `type A = T;` in its own parentheses; impl blocks must not have functions without bodies. Types in the parentheses are silently ignored on impl blocks and modules.", "quantifier": "all inputs of both macros, as syn's items; all hash functions", "why_tests_cant": "The input is a tree of unbounded size; tests feed a few.", "anchors": ["mockall_derive/src/mockable_struct.rs: Parse for MockableStruct (473-540), TraitItemVFn (318-332), tif2iif (281-295)", "mockall_derive/src/automock.rs: Attr, Attrs (13-22, 253-272)", "mockall_derive/src/mockable_item.rs 29-41", "mockall_derive/src/lib.rs: do_mock_once, do_automock_once (1306-1315, 1353-1369)"]}
{"id": "C87", "title": "#[automock] is short for mock!", "statement": "For every trait that #[automock] accepts there is a call of mock! that makes exactly the same mock: with the trait's visibility, name, parameters and where clause, its attributes except the ones that are never copied and must_use, #[derive(Debug)], empty braces, and one impl block of the trait, named with its parameters, that repeats the trait's attributes and items with the declared types in the place of the associated ones. Likewise for every impl block: an inherent one is written between the braces, one of a trait behind them, with `pub` and #[derive(Debug)].", "quantifier": "all traits and impl blocks, types and hash functions; methods whose types have no generic associated types, associated types as bounds, or constraints on associated types (C55)", "why_tests_cant": "The claim is an equality of generated code for all inputs; tests compare the behaviour of a few mocks.", "anchors": ["mockall_derive/src/mockable_struct.rs: From<(Attrs, ItemTrait)> (364-391), From<ItemImpl> (393-470), Parse for MockableStruct (473-540)", "mockall/src/lib.rs: documentation of mock! and automock"]}
{"id": "C88", "title": "Expectations of static functions that are set in several statements", "statement": "What ctx.expect() returns may be kept in a variable, and its setters used in several statements.  Until it goes out of scope nobody else gets to the function's expectations: calls, checkpoints, drops of contexts and expect() of all threads wait, and nothing changes but this one expectation.  In the end it is what the same setters in one chain would have made, and the store is poisoned exactly if the scope ended by a panic.  The thread that has it never waits for its setters or for the end of its scope; but if it calls the function, makes a checkpoint, drops a context or calls expect() again before, it waits for ever.  Tests that don't, never deadlock.", "quantifier": "all programs of any number of threads, all interleavings, all setters, all states of the store", "why_tests_cant": "The claim is about all interleavings, and about programs that hang.", "anchors": ["mockall_derive/src/mock_function.rs: ExpectationGuard (1411-1475), GenericExpectationGuard (1478-1545), Context::expect (1621-1625), CommonExpectationMethods (1243-1407)"]}
{"id": "C89", "title": "When Debug and Display implementations of the user run", "statement": "Every call of a mock prints its arguments with Debug before anything else happens: once if no expectation takes the call, and a second time, before the call is counted, if one does, although the text is not needed if nothing fails.  If the first printing panics the call does, with nothing changed; if the second does, a mock object is unchanged, while the store of a static function is poisoned.  Calls that return &mut T also print the predicates of their expectation with Display; so do calls that their expectation refuses, for the message, and if that panics the panic takes the message's place and the expectation is poisoned.  Dropping a mock or a context, and checkpoints, print the predicates of all expectations up to the first unsatisfied one, but nothing if the thread is panicking.  If these implementations return their texts, and the rest of the test doesn't see their effects, then no test behaves differently because of them; otherwise a test that fails nothing can fail because of them.", "quantifier": "all Debug and Display implementations with effects and panics, all stores, all arguments, all tests", "why_tests_cant": "Tests use derived implementations of Debug, whose execution cannot be observed; the claim is about all implementations.", "anchors": ["mockall_derive/src/mock_function.rs: no_match_msg and call (486-488, 539-576), desc (632-644), Common::call (956-968), Drop for Common (1037-1061), Display for Matcher (1742-1754), call (2031-2037, 2097-2101, 2187-2194)", "mockall/src/lib.rs: ArgPrinter (1477-1510)"]}
{"id": "C90", "title": "What is handed to a mock is dropped exactly once", "statement": "Every closure and predicate that a test hands to a mock is destroyed at most once, and until then the mock holds it, whatever panics and whatever the order in which hash maps yield their entries (unless the process aborts).  A setter destroys what it replaces, so a finished chain holds what its last matching setter and its last returning setter were given; a chain that panics has handed over the arguments of the setters up to the one that panics.  A call destroys nothing but the return_once closure that it runs, which its expectation then has no more.  Dropping a mock object destroys all that it holds, also if the drop panics; a successful checkpoint does, and so does dropping a context, unless the store is poisoned and the thread is not unwinding: then the closures outlive the context.  When a test without static functions has dropped all its mock objects, all that it handed over has been destroyed.", "quantifier": "all tests, all stores, all builder chains, all orders of hash maps, any panics", "why_tests_cant": "Tests use closures that own nothing; what is destroyed, and when, cannot be observed with them, and the claim is about all histories.", "anchors": ["mockall_derive/src/mock_function.rs: Common::with, withf (927-932, 1010-1028), Drop for Common (1037-1061), Matcher (1703-1714), Rfunc (1844-1859, 1924-1985), Drop for Context (1632-1648), setters (2041-2046, 2109-2135, 2207-2310), checkpoint (586-599, 1210-1213, 2471-2476)", "mockall_derive/src/mock_item_struct.rs: the mock struct and checkpoint (335-361)"]}
{"id": "C91", "title": "Destructors of closures run in order, and mocks inside closures are checked", "statement": "The destructors of the closures and predicates that a test handed to a mock run when these are dropped, in order, each once; without effects they change nothing.  Dropping a mock (or a context) checks every expectation and then destroys what it holds; the first panic of all this is the panic of the drop, the rest is still done while it unwinds, and only a second failure aborts.  Destructors that do not panic while the thread is panicking never lead to an abort, in no setter, checkpoint or drop, and then a drop on a panicking thread returns.  Mocks are such destructors, so mocks may own mocks to any depth: dropping an outer mock destroys exactly the inner mocks that its closures own, panics if and only if the outer one or one of those is not satisfied, and never aborts.  A setter that replaces a closure whose destructor panics panics with the same message, has stored the new closure nevertheless, and leaves the expectation's lock poisoned unless the thread was panicking; the setters after it in the chain are not run, and for a static method the whole store is poisoned.  A checkpoint goes through the methods in order and stops at the first that panics, whether for a count or in a destructor: that method and those before it have no expectations any more, the others keep theirs, and no store is poisoned.", "quantifier": "all destructors (functions of what is destroyed, of whether the thread is panicking and of the user state), all stores, all builder chains, all orders of hash maps", "why_tests_cant": "mockall's tests do not hand over closures with destructors; which of several panics wins, and that nothing aborts, depends on all combinations of unsatisfied expectations and panicking destructors.", "anchors": ["mockall_derive/src/mock_function.rs: Common::with, withf (927-932, 1010-1028), Drop for Common (1037-1061), Matcher (1703-1714), Rfunc (1844-1859, 1924-1944), Drop for Context (1632-1648), setters (2109-2135, 2207-2310), Expectations (1205), GenericExpectations (2464-2467)", "mockall_derive/src/mock_item_struct.rs: the mock struct and checkpoint (335-361)"]}
{"id": "C92", "title": "Guards of several static functions at once", "statement": "A test may keep what ctx.expect() returned for several functions at the same time, in several threads.  Each guard keeps everybody from its function, and nobody from another: a thread waits only while somebody has a guard of the function that it is about to use, and never for the setters of its own guards or for the end of their scopes.  However the threads interleave, and whatever setters other than in_sequence they use in whatever order, it is as if everything had happened one after the other, with each guard as one builder chain at the end of its scope (with in_sequence it need not be).  Threads that use, while they have guards, only functions that come later in some order of the functions, and drop all guards, can always end; threads each of which needs a function of which one of them has a guard wait for ever, such as two that take two guards in opposite orders.  checkpoint() of a module takes the locks of its functions one after the other.", "quantifier": "all programs of any number of threads, any number of functions, all interleavings, all setters, all initial states, all orders of the functions", "why_tests_cant": "The claim is about all interleavings of guards of several functions, and about programs that hang.", "anchors": ["mockall_derive/src/mock_function.rs: ExpectationGuard (1411-1475), GenericExpectationGuard (1478-1545), Context (1604-1648), calls of static functions (539-562), CommonExpectationMethods (1243-1407)", "mockall_derive/src/mock_item.rs: checkpoint of modules (190-194)"]}
{"id": "C93", "title": "What closures share, and mocks that call other mocks", "statement": "The closures given to mocks may share state, such as a counter, a log, or other mocks.  mockall runs them in calls of mock methods only: setting expectations, checkpoints and the end of mocks leave that state alone.  Whatever all closures respect (never decreasing a counter, appending to a log) is respected by the whole test.  If the closures use other mocks, then those mocks go through exactly the operations that the closures made, in that order, with the results that the closures saw; so whatever holds of mocks in tests holds of mocks in closures, such as that a failure inside a closure is explained by the line that set the expectation (C82).  A method whose closure passes the call on to another mock has the results of the other mock, including its panics; if it returns an owned value then after such a panic it is disabled and the other mock is not called any more, and if it returns a mutable reference it goes on.", "quantifier": "all tests, closures, programs of closures that use mocks, relations on the shared state, targets of calls passed on, numbers of calls below usize::MAX", "why_tests_cant": "The claim is about all closures and all tests; a unit test has one closure and one history.", "anchors": ["mockall_derive/src/mock_function.rs: call_mut of Rfunc (1859-1894, 1947-1986), Expectation::call (2184-2196) and call_mut (2093-2105), matches (1722-1735)", "mockall_derive/src/mock_function.rs: call of Expectations (2387-2400, 2426-2440), checkpoint (1210-1213, 2471-2477), Drop for Common (1037-1061)"]}
