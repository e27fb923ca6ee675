{"id": "C01", "title": "Pull side receives exactly the pushed values, in order", "statement": "For a pull_type whose coroutine-function pushes values through the push_type it was given, every successful get() returns the value of the most recent push made by that coroutine-function; a consumer that repeats { test; get(); operator()() } while the coroutine is true therefore sees exactly the pushed sequence: nothing lost, duplicated or reordered, and it stops exactly when the function returns.", "quantifier": "all coroutine-functions, all value types and values, all lengths (including infinite producers), all consumers and all interleavings with other coroutines", "why_tests_cant": "tests run a few short literal sequences (f4, f5, f16); the claim ranges over every function, every number of pushes and every interleaving of resumptions", "anchors": ["include/boost/coroutine2/detail/pull_control_block_cc.ipp: pull_coroutine<T>::control_block::set/get/resume/valid", "include/boost/coroutine2/detail/push_control_block_cc.ipp: push_coroutine<T>::control_block::resume", "include/boost/coroutine2/detail/pull_coroutine.ipp: operator(), get, operator bool"]}
{"id": "C02", "title": "Push side delivers exactly the pushed values, in order", "statement": "For a push_type, the n-th call operator()(v) makes the n-th value v available through get() of the pull_type given to the coroutine-function, before any later value; the function sees exactly the sequence its owner pushed, in order, without loss or duplication.", "quantifier": "all coroutine-functions, all owners, all pushed sequences of any length, all interleavings", "why_tests_cant": "tests push at most two values (f6-f11, f22); the claim ranges over all sequences and all placements of get()/operator()() in the function", "anchors": ["include/boost/coroutine2/detail/push_control_block_cc.ipp: resume", "include/boost/coroutine2/detail/pull_control_block_cc.ipp: set/get", "include/boost/coroutine2/detail/push_coroutine.ipp: operator()"]}
{"id": "C03", "title": "Eager pull construction, lazy push construction, single entry", "statement": "Constructing a pull_type enters the coroutine-function before the constructor returns; constructing a push_type does not run any part of it, and the first operator() on it does. The coroutine-function of a given coroutine is entered at most once in its whole life.", "quantifier": "all programs, all coroutine-functions, all points in time", "why_tests_cant": "at-most-once over a whole history and 'not entered before the first push' for every program cannot be enumerated by tests", "anchors": ["include/boost/coroutine2/detail/pull_control_block_cc.ipp: control_block constructor lambda", "include/boost/coroutine2/detail/push_control_block_cc.ipp: control_block constructor lambda (first resume before fn)"]}
{"id": "C04", "title": "Suspended execution resumes exactly where it stopped, with its locals intact", "statement": "While a coroutine (or the code that resumed one) is suspended, nothing that any other code does changes its pending computation; when control comes back it continues with the statement after the suspending call and with the local state it had then.", "quantifier": "all programs, all suspension points, arbitrarily many other coroutines running in between", "why_tests_cant": "tests exercise one or two suspension points with nothing else running in between", "anchors": ["include/boost/coroutine2/detail/pull_control_block_cc.ipp: resume", "include/boost/coroutine2/detail/push_control_block_cc.ipp: resume", "doc/asymmetric.qbk: 'The local state of coroutine-function is preserved'"]}
{"id": "C05", "title": "Asymmetric transfer: control always returns to the most recent resumer", "statement": "When a coroutine-function yields (calls its counterpart) or terminates, control goes back to precisely that call (operator() or constructor) by which this coroutine was most recently resumed, even if successive resumptions come from different coroutines and resumptions are nested.", "quantifier": "all programs, all nesting depths, all changes of resumer between resumptions", "why_tests_cant": "only test_chaining touches two resumers; nesting depth and resumer changes are unbounded", "anchors": ["include/boost/coroutine2/detail/pull_control_block_cc.ipp: resume, lambda tail", "include/boost/coroutine2/detail/push_control_block_cc.ipp: resume, lambda tail", "test/test_coroutine.cpp: test_chaining"]}
{"id": "C06", "title": "operator bool tells exactly whether the coroutine can be continued", "statement": "operator bool of a pull_type/push_type object returns false iff the object is not-a-coroutine (moved-from, taken over from such an object, or a pull_type whose function finished inside the constructor) or owns a coroutine whose coroutine-function has terminated; it returns true otherwise. In particular an object that took over the counterpart of a coroutine (by being assigned from it inside the function) tests true even after that function has terminated: the documented 'false if the coroutine-function has terminated' fails for such escaped counterparts.", "quantifier": "all programs and all moments at which user code may evaluate it", "why_tests_cant": "an iff over every reachable state of every program", "anchors": ["include/boost/coroutine2/detail/pull_coroutine.ipp: operator bool", "include/boost/coroutine2/detail/push_coroutine.ipp: operator bool", "include/boost/coroutine2/detail/pull_control_block_cc.ipp: valid", "include/boost/coroutine2/detail/push_control_block_cc.ipp: valid"]}
{"id": "C07", "title": "operator! is exactly the negation of operator bool", "statement": "In every situation in which user code evaluates both on the same object with nothing in between, operator!() and operator bool() return opposite values, for all three parameter kinds (T, T&, void) and both classes.", "quantifier": "all reachable states, both classes, three parameter kinds", "why_tests_cant": "12 separately written function bodies over all reachable states", "anchors": ["include/boost/coroutine2/detail/pull_coroutine.ipp: operator!", "include/boost/coroutine2/detail/push_coroutine.ipp: operator!"]}
{"id": "C08", "title": "Observers have no side effects", "statement": "operator bool, operator!, begin()/end(), iterator comparison and iterator dereference never transfer control, never run coroutine-function code, never construct or destroy a transferred value, and leave the later behaviour of every coroutine unchanged.", "quantifier": "all programs and all moments", "why_tests_cant": "absence of effects on all later behaviour is not observable by finitely many checks", "anchors": ["include/boost/coroutine2/detail/pull_coroutine.ipp: operator bool/operator!", "include/boost/coroutine2/detail/pull_coroutine.hpp: iterator", "include/boost/coroutine2/detail/push_coroutine.hpp: iterator"]}
{"id": "C09", "title": "Inside a coroutine-function the counterpart always tests true", "statement": "The push_type (resp. pull_type) handed to a coroutine-function, evaluated by that function at any time while it runs, is true; for a push_type's function the handed pull_type also always has a value available.", "quantifier": "all coroutine-functions, every point of their execution including during stack unwinding", "why_tests_cant": "ranges over all points of all executions", "anchors": ["include/boost/coroutine2/detail/push_control_block_cc.ipp: valid", "include/boost/coroutine2/detail/pull_control_block_cc.ipp: valid, synthesized constructor"]}
{"id": "C10", "title": "Exception before the first yield leaves the pull constructor and leaks nothing", "statement": "If the coroutine-function of a pull_type throws before its first yield, the pull_type constructor throws that same exception, no object is created, and by then the coroutine's stack has been unwound and given back to the stack allocator exactly once.", "quantifier": "all coroutine-functions, all exceptions, all constructing contexts (main or nested coroutines)", "why_tests_cant": "no test throws out of a pull constructor; exactly-once release must hold on every path", "anchors": ["include/boost/coroutine2/detail/pull_control_block_cc.ipp: control_block constructor (rethrow_exception)", "include/boost/coroutine2/detail/pull_coroutine.ipp: constructor", "doc/asymmetric.qbk: exceptions"]}
{"id": "C11", "title": "Exception after the first yield is re-thrown by the resuming pull call, and only there", "statement": "If the coroutine-function of a pull_type throws after its first yield, the operator()() call (or iterator increment) that had resumed it throws exactly that exception; no other call receives it, and the coroutine is complete afterwards.", "quantifier": "all coroutine-functions, exceptions, resumers and nesting", "why_tests_cant": "which of unboundedly many pending calls receives the exception depends on the whole history", "anchors": ["include/boost/coroutine2/detail/pull_control_block_cc.ipp: resume, lambda catch blocks"]}
{"id": "C12", "title": "Exception of a push coroutine-function is re-thrown by the push call that resumed it", "statement": "If the coroutine-function of a push_type throws, the operator() call (or output-iterator assignment) that resumed it throws exactly that exception, and the coroutine is complete afterwards; the constructor of a push_type never throws an exception of the coroutine-function.", "quantifier": "all coroutine-functions, exceptions, resumers and nesting", "why_tests_cant": "test_exceptions checks one exception at first entry", "anchors": ["include/boost/coroutine2/detail/push_control_block_cc.ipp: resume, lambda catch blocks"]}
{"id": "C13", "title": "Destroying a suspended coroutine unwinds its stack exactly once, innermost first", "statement": "Destroying the owner of a suspended coroutine raises forced unwinding at the suspension point; every automatic object alive on that coroutine's stack is destroyed exactly once in reverse order of construction, and no statement of the coroutine-function after the suspension point runs (other than its clean-up code).", "quantifier": "all coroutine-functions, all suspension points, any number of live locals at any nesting of scopes and try blocks", "why_tests_cant": "tests destroy one coroutine with one local; the set of live locals and suspension points is unbounded", "anchors": ["include/boost/coroutine2/detail/pull_control_block_cc.ipp: destroy, deallocate", "include/boost/coroutine2/detail/push_control_block_cc.ipp: destroy, deallocate", "include/boost/coroutine2/detail/pull_coroutine.ipp: ~pull_coroutine", "include/boost/coroutine2/detail/push_coroutine.ipp: ~push_coroutine"]}
{"id": "C14", "title": "Unwinding is invisible to the destroyer and is never reported as a coroutine exception", "statement": "The forced-unwind exception used to unwind a coroutine never propagates out of the destructor into the destroying code and is never stored or re-thrown by operator(); the destructor returns normally once the coroutine's clean-up has finished.", "quantifier": "all programs whose coroutine-functions let forced_unwind propagate, all suspension points, nested destruction", "why_tests_cant": "all nestings of destruction inside destruction", "anchors": ["include/boost/coroutine2/detail/pull_control_block_cc.ipp: catch(forced_unwind) throw", "include/boost/coroutine2/detail/push_control_block_cc.ipp: catch(forced_unwind) throw"]}
{"id": "C15", "title": "A push coroutine destroyed before its first push never runs its function", "statement": "If a push_type is destroyed without operator() ever having been called on it, no part of its coroutine-function is executed and its stack is released.", "quantifier": "all coroutine-functions and destroying contexts", "why_tests_cant": "absence of any effect for all functions", "anchors": ["include/boost/coroutine2/detail/push_control_block_cc.ipp: constructor lambda, destroy"]}
{"id": "C16", "title": "Destroying a completed coroutine runs no coroutine-function code", "statement": "After the coroutine-function has returned or thrown, destroying the object runs none of its code and only releases the stack (and a left-over transferred value).", "quantifier": "all coroutine-functions, all ways of completing", "why_tests_cant": "absence of any effect for all functions", "anchors": ["include/boost/coroutine2/detail/pull_control_block_cc.ipp: destroy", "include/boost/coroutine2/detail/push_control_block_cc.ipp: destroy"]}
{"id": "C17", "title": "Each coroutine stack is allocated once and released exactly once, at the right time", "statement": "Every successful construction allocates exactly one stack; it is released at most once over the whole program, never while the owning object is alive and not-empty, and it has been released when the destructor of the owner returns (or when a pull constructor throws the function's exception or leaves a not-a-coroutine object).", "quantifier": "all programs, all histories, any number of coroutines", "why_tests_cant": "exactly-once over unbounded histories and all exit paths", "anchors": ["include/boost/coroutine2/detail/create_control_block.ipp", "include/boost/coroutine2/detail/pull_coroutine.ipp: constructor, destructor", "include/boost/coroutine2/detail/push_coroutine.ipp: constructor, destructor"]}
{"id": "C18", "title": "No undefined behaviour for programs that respect the preconditions", "statement": "A program that respects the documented preconditions (does not operate on not-a-coroutine or complete objects, does not resume a running coroutine or use its counterpart from another coroutine, does not swallow forced_unwind, does not use dead objects) never makes the library dereference a null or dangling pointer, resume an empty context, read an uninitialised value, destroy a value twice or release a stack that is still in use.", "quantifier": "all programs using arbitrarily many, arbitrarily nested coroutines; all histories", "why_tests_cant": "memory safety over all programs and histories", "anchors": ["include/boost/coroutine2/detail/pull_control_block_cc.ipp", "include/boost/coroutine2/detail/push_control_block_cc.ipp", "include/boost/coroutine2/detail/pull_coroutine.ipp", "include/boost/coroutine2/detail/push_coroutine.ipp"]}
{"id": "C19", "title": "Move construction transfers the coroutine and nothing else", "statement": "After x(std::move(y)), x denotes the coroutine y denoted (same progress, same pending value, same validity), y is not-a-coroutine, no coroutine code runs and no context switch happens.", "quantifier": "all states of the coroutine (new, suspended, running, complete, empty), both classes, three parameter kinds", "why_tests_cant": "all states of all coroutines at move time", "anchors": ["include/boost/coroutine2/detail/pull_coroutine.ipp: pull_coroutine(pull_coroutine&&)", "include/boost/coroutine2/detail/push_coroutine.ipp: push_coroutine(push_coroutine&&)"]}
{"id": "C20", "title": "Move assignment exchanges the two coroutines", "statement": "After x = std::move(y), x denotes what y denoted and y denotes what x denoted; no code runs, no coroutine is destroyed, and self-move-assignment changes nothing. (doc/asymmetric.qbk says instead that the coroutine x denoted is destroyed and y is not-a-coroutine afterwards; the code does not do that.)", "quantifier": "all states of both objects", "why_tests_cant": "test_move only assigns to an empty object, where exchange and documented behaviour coincide", "anchors": ["include/boost/coroutine2/detail/pull_coroutine.hpp: operator=(pull_coroutine&&)", "include/boost/coroutine2/detail/push_coroutine.hpp: operator=(push_coroutine&&)", "doc/asymmetric.qbk: operator=( pull_type && other)"]}
{"id": "C21", "title": "Unique ownership", "statement": "At every moment at most one live pull_type/push_type object denotes a given coroutine from outside, and every live non-empty owner denotes a coroutine that has not been destroyed.", "quantifier": "all programs, all histories of construction, moves, assignments and destructions", "why_tests_cant": "invariant over unbounded histories", "anchors": ["include/boost/coroutine2/detail/pull_coroutine.hpp", "include/boost/coroutine2/detail/push_coroutine.hpp", "include/boost/coroutine2/detail/pull_coroutine.ipp", "include/boost/coroutine2/detail/push_coroutine.ipp"]}
{"id": "C22", "title": "Not-a-coroutine objects are inert", "statement": "A not-a-coroutine object tests false, and destroying or moving it has no effect on any coroutine.", "quantifier": "all histories producing empty objects", "why_tests_cant": "all histories", "anchors": ["include/boost/coroutine2/detail/pull_coroutine.ipp: ~pull_coroutine, operator bool", "include/boost/coroutine2/detail/push_coroutine.ipp: ~push_coroutine, operator bool"]}
{"id": "C23", "title": "get() of a value coroutine hands out the pushed value once", "statement": "For T by value, the first get() after a push returns the pushed value; further get()s before the next push return what T's move leaves behind (for move-only types: get() is usable once per push); get() does not transfer control.", "quantifier": "all values, any number of get() calls between pushes", "why_tests_cant": "all numbers and placements of get() calls", "anchors": ["include/boost/coroutine2/detail/pull_coroutine.ipp: pull_coroutine<T>::get", "include/boost/coroutine2/detail/pull_control_block_cc.ipp: get"]}
{"id": "C24", "title": "get() of a reference coroutine returns the very object that was pushed", "statement": "For T&, every get() between two pushes returns a reference to exactly the object passed to the last push, any number of times, without copying, moving or destroying it.", "quantifier": "all objects, any number of get() calls", "why_tests_cant": "tests check one address once", "anchors": ["include/boost/coroutine2/detail/pull_control_block_cc.ipp: pull_coroutine<T&>::control_block::set/get", "include/boost/coroutine2/detail/pull_coroutine.ipp: pull_coroutine<T&>::get"]}
{"id": "C25", "title": "Every transferred value object is destroyed exactly once", "statement": "In every program in which no copy/move into an occupied slot throws, each T object the library constructs to hold a pushed value is destroyed exactly once: when the next push replaces it or when the coroutine is destroyed; at most one is alive per coroutine, none is leaked and none is destroyed twice. Without that proviso the claim is false: set() destroys the old value first, and if constructing the new one then throws, the old value is destroyed a second time by the next push or by the destructor.", "quantifier": "all push/get/destroy histories and value types", "why_tests_cant": "exactly-once over unbounded histories, including when T's constructors throw", "anchors": ["include/boost/coroutine2/detail/pull_control_block_cc.ipp: set(T const&), set(T&&), ~control_block"]}
{"id": "C26", "title": "A push whose argument copy/move throws is a non-event for the other side", "statement": "If copying (moving) the argument of a push throws, that exception leaves the push call itself, no context switch takes place, the coroutine is not advanced and does not become complete.", "quantifier": "all values, exceptions and coroutine states", "why_tests_cant": "no test throws from a value's copy constructor", "anchors": ["include/boost/coroutine2/detail/push_control_block_cc.ipp: resume", "include/boost/coroutine2/detail/pull_control_block_cc.ipp: set"]}
{"id": "C27", "title": "Completion is permanent", "statement": "Once a coroutine-function has returned or thrown, its coroutine tests false for ever through whichever object owns it, whatever the program does with any coroutine object.", "quantifier": "all continuations of all histories", "why_tests_cant": "for ever", "anchors": ["include/boost/coroutine2/detail/pull_control_block_cc.ipp: state |= state_t::complete", "include/boost/coroutine2/detail/push_control_block_cc.ipp: state |= state_t::complete"]}
{"id": "C28", "title": "Iterating a pull coroutine visits exactly the pushed sequence", "statement": "for(auto x : source) executes its body once per pushed value, in order, with x the pushed value, and ends exactly when the coroutine-function returns; if the function throws, the exception leaves the loop after the values pushed before it.", "quantifier": "all coroutine-functions producing any finite sequence, all T and T&", "why_tests_cant": "all sequences", "anchors": ["include/boost/coroutine2/detail/pull_coroutine.hpp: iterator, begin, end"]}
{"id": "C29", "title": "Input iterator equals end exactly when the coroutine tests false", "statement": "An iterator just obtained from begin(), or just incremented, compares equal to end() iff the pull_type it iterates over tests false at that moment.", "quantifier": "all reachable states", "why_tests_cant": "iff over all reachable states", "anchors": ["include/boost/coroutine2/detail/pull_coroutine.hpp: iterator::fetch_, increment_, operator=="]}
{"id": "C30", "title": "Output iterator pushes every assigned value and equals end when the coroutine tests false", "statement": "Assigning through a push_type iterator pushes exactly that value; after any assignment the iterator compares equal to end() iff the push_type tests false. An iterator from begin() never compares equal to end(), even if the push_type tests false (doc/asymmetric.qbk says it does).", "quantifier": "all reachable states, all assigned sequences", "why_tests_cant": "tests never take begin() of a completed push coroutine", "anchors": ["include/boost/coroutine2/detail/push_coroutine.hpp: iterator::operator=, begin, end", "doc/asymmetric.qbk: Range iterators"]}
{"id": "C31", "title": "Resuming a complete coroutine, or a coroutine from inside itself, is undefined behaviour", "statement": "The precondition of operator() is real: calling operator() on a coroutine object whose function has terminated, or on the owner from within the coroutine's own function, makes the library run into undefined behaviour in every case.", "quantifier": "all reachable states in which the call is attempted", "why_tests_cant": "undefined behaviour cannot be tested", "anchors": ["include/boost/coroutine2/detail/pull_control_block_cc.ipp: lambda tail, resume", "include/boost/coroutine2/detail/push_control_block_cc.ipp: lambda tail, resume", "doc/coroutine.qbk: warning"]}
{"id": "C32", "title": "Swallowing forced_unwind breaks unwinding", "statement": "If a coroutine-function swallows the forced-unwind exception and terminates in another way, the library runs into undefined behaviour instead of completing the destruction.", "quantifier": "all coroutine-functions that swallow it, at all suspension points", "why_tests_cant": "undefined behaviour cannot be tested", "anchors": ["doc/asymmetric.qbk: important note on forced_unwind", "include/boost/coroutine2/detail/pull_control_block_cc.ipp: lambda tail"]}
{"id": "C33", "title": "Coroutines do not interfere", "statement": "An operation applied to one coroutine never changes the validity, pending value, progress or ownership of any other coroutine, except through what user code itself does.", "quantifier": "all pairs of coroutines in all programs", "why_tests_cant": "all pairs, all histories", "anchors": ["include/boost/coroutine2/detail/pull_control_block_cc.ipp", "include/boost/coroutine2/detail/push_control_block_cc.ipp"]}
{"id": "C34", "title": "The control block always fits its stack, aligned, and never overlaps the usable stack", "statement": "For every stack of at least sizeof(control block)+64 bytes that an allocator returns, at any address, the control block is placed at a 64-byte aligned, non-null address, lies completely inside the allocation, does not overlap the region handed on as coroutine stack, and the recorded remaining size is exact and does not wrap around.", "quantifier": "all stack addresses, stack sizes and control block sizes", "why_tests_cant": "alignment and wrap-around depend on run-time addresses; 2^64 of them", "anchors": ["include/boost/coroutine2/detail/create_control_block.ipp: create_control_block"]}
{"id": "C35", "title": "State flags are independent", "statement": "Setting one of the flags complete, unwind, destroy with |= makes the test with & true for that flag and does not change the others; clearing with &= ~f and toggling with ^= likewise, for all 32-bit values.", "quantifier": "all 32-bit state words and all flags", "why_tests_cant": "2^32 words", "anchors": ["include/boost/coroutine2/detail/state.hpp: operator&, operator|, operator^, operator~, operator|="]}
{"id": "C36", "title": "Both language-level variants behave alike", "statement": "The code compiled with generic lambdas (C++14) and without (C++11, wrap()) has the same observable behaviour for every program that respects the preconditions.", "quantifier": "all programs", "why_tests_cant": "a test run exercises one build only", "anchors": ["include/boost/coroutine2/detail/push_control_block_cc.ipp: BOOST_NO_CXX14_GENERIC_LAMBDAS branches", "include/boost/coroutine2/detail/pull_control_block_cc.ipp", "include/boost/coroutine2/detail/wrap.hpp"]}
{"id": "C37", "title": "When a constructor that throws leaves no stack allocated", "statement": "If constructing a pull_type or push_type throws because the stack allocation throws or because the coroutine-function throws, no stack stays allocated. If it throws because copying/moving the function object into the fiber throws, the stack that was just allocated is never released.", "quantifier": "all constructor exits by exception", "why_tests_cant": "requires fault injection at every throwing point; no test does it", "anchors": ["include/boost/coroutine2/detail/create_control_block.ipp: create_control_block", "include/boost/coroutine2/detail/pull_control_block_cc.ipp: constructor", "include/boost/coroutine2/detail/push_control_block_cc.ipp: constructor"]}
{"id": "C38", "title": "Behaviour is determined by the user code alone", "statement": "Two runs of the same program produce the same sequence of observable events; the library introduces no nondeterminism.", "quantifier": "all programs", "why_tests_cant": "needs all pairs of runs", "anchors": ["include/boost/coroutine2/detail/pull_control_block_cc.ipp", "include/boost/coroutine2/detail/push_control_block_cc.ipp"]}
{"id": "C39", "title": "Same-fringe by two readers", "statement": "The in-order traversal coroutine of example/same_fringe.cpp yields exactly the in-order sequence of node values of any tree, and comparing two such readers with std::equal over their iterators decides equality of the two fringes if these are equally long; it tells whether the first fringe is a prefix of the second if the second is longer, and dereferences an end iterator (undefined behaviour) if the second is a proper prefix of the first.", "quantifier": "all binary trees of any size and shape", "why_tests_cant": "the example checks three small trees", "anchors": ["example/same_fringe.cpp: traverse, main"]}
{"id": "C40", "title": "Inversion of control for the parser", "statement": "For every input text, pulling characters from the coroutine of example/parser.cpp yields exactly the sequence of characters the recursive parser reports through its callback, then ends if the parser accepts and throws parser_error out of the consumer loop if it does not; the characters are an initial part of the text without white space, the parser accepts exactly the texts that begin with an expression of the grammar that no operator continues (text behind the expression is ignored), and the characters are then that expression.", "quantifier": "all input texts", "why_tests_cant": "the example parses one text", "anchors": ["example/parser.cpp: Parser, main"]}
{"id": "C41", "title": "The line-layout writer consumes every word and closes the last line exactly once", "statement": "Copying any list of words into the push coroutine of example/layout.cpp prints the words in order, in rows of num words with a line break between two rows (printed when the next word arrives), leaves the last row open while main goes on, and closes it by exactly one line break when the coroutine is destroyed; with no words the coroutine prints nothing at all.", "quantifier": "all word lists, all num>0", "why_tests_cant": "the example runs one list", "anchors": ["example/layout.cpp: main"]}
{"id": "C42", "title": "push(T const&) leaves the argument unchanged, push(T&&) moves from it", "statement": "Pushing an lvalue leaves the caller's object unchanged; pushing an rvalue leaves it in T's moved-from state; in both cases the transferred value is the value the argument had.", "quantifier": "all values and states", "why_tests_cant": "all values", "anchors": ["include/boost/coroutine2/detail/push_coroutine.ipp: operator()(T const&), operator()(T&&)", "include/boost/coroutine2/detail/push_control_block_cc.ipp: resume(T const&), resume(T&&)"]}
{"id": "C43", "title": "A pull_type whose function returns without yielding is not-a-coroutine with nothing left behind", "statement": "If the coroutine-function returns (without exception) before its first yield, the pull_type constructor succeeds, the object tests false, and the stack has already been released.", "quantifier": "all coroutine-functions that return before yielding", "why_tests_cant": "test_no_result/test_complete check the boolean only for one function", "anchors": ["include/boost/coroutine2/detail/pull_coroutine.ipp: constructor (! cb_->valid())"]}
{"id": "C44", "title": "The counterpart object may be moved or dropped by the coroutine-function without ending the coroutine", "statement": "Inside a coroutine-function, moving the received counterpart to another local object and using that object instead behaves the same as using the original; destroying such an object does not complete, resume or destroy the coroutine.", "quantifier": "all coroutine-functions", "why_tests_cant": "no test moves the counterpart", "anchors": ["include/boost/coroutine2/detail/push_control_block_cc.ipp: deallocate (state without unwind flag)", "include/boost/coroutine2/detail/pull_control_block_cc.ipp: deallocate"]}
{"id": "C45", "title": "The library never hangs", "statement": "Whenever control is inside the library (a resumption, a construction, a destruction, an unwinding), after finitely many steps it is back in user code of some context, or the program has ended; no call blocks, loops or gets stuck by itself, however many coroutines own each other.", "quantifier": "all programs that respect the contract, all moments of their execution", "why_tests_cant": "a hang shows only in the particular ownership and suspension pattern that provokes it; destruction cascades over chains of coroutines of any length", "anchors": ["include/boost/coroutine2/detail/pull_control_block_cc.ipp: deallocate, destroy, resume", "include/boost/coroutine2/detail/push_control_block_cc.ipp: deallocate, destroy, resume"]}
{"id": "C46", "title": "The library computes the abstract coroutine semantics", "statement": "The observable history of every program that respects the contract is exactly that of an abstract machine in which a coroutine is a stored continuation with a one-place slot and an owner (no fibers, control blocks, flags or stacks): every history of the code is the beginning of one of the abstract machine, every one of the abstract machine is reached, and the program ends in one iff it ends in the other, in the same way.", "quantifier": "all programs that respect the contract", "why_tests_cant": "full behavioural equivalence over all interleavings of construction, transfer, exceptions, moves and destruction", "anchors": ["include/boost/coroutine2/detail/pull_control_block_cc.ipp", "include/boost/coroutine2/detail/push_control_block_cc.ipp", "include/boost/coroutine2/detail/pull_coroutine.ipp", "include/boost/coroutine2/detail/push_coroutine.ipp"]}
{"id": "C47", "title": "Generators are lazy and may be infinite", "statement": "A generator function that never returns can be used: a consumer that takes n values by iterating over the pull_type and then leaves the block terminates, sees exactly the first n values, and the generator has executed exactly the part of its body up to the n-th push (each part just before the value it yields is seen); for n = 0 the part up to the first push, because the constructor of pull_type enters the function. In particular example/fibonacci.cpp prints the Fibonacci numbers.", "quantifier": "all n, all generated sequences and all side effects in between, all contents of memory (element type with non-throwing move)", "why_tests_cant": "an infinite generator under a consumer of arbitrary length; a test shows one n", "anchors": ["example/fibonacci.cpp", "include/boost/coroutine2/detail/pull_coroutine.hpp: iterator", "include/boost/coroutine2/detail/pull_control_block_cc.ipp: constructor, deallocate"]}
{"id": "C48", "title": "Well-scoped programs cannot break the contract", "statement": "Code that follows rules visible in the program text never breaks a precondition of the library, so it has no undefined behaviour and all other properties hold for it: every function uses only the coroutine objects it made itself and its counterpart; objects it made are automatic variables (or are destroyed before the function ends), are resumed, pushed to or read only when operator bool, begin() or an iterator has just said that they can be (or a push_type is new), and this is asked again after every transfer into them; forced_unwind is never caught by value handlers; what is pushed is a reference, nothing, or a value whose copy or move (whichever the push makes) does not throw. This holds for range-for over any such generator, for pipelines of generators of any length, for generators without end whose consumer stops.", "quantifier": "all programs built by these rules (also infinite ones, nested coroutines, exceptions), all their executions, all value types", "why_tests_cant": "a guarantee about all programs written in a certain way, not about one program", "anchors": ["include/boost/coroutine2/detail/pull_coroutine.hpp", "include/boost/coroutine2/detail/push_coroutine.hpp", "include/boost/coroutine2/detail/pull_control_block_cc.ipp", "include/boost/coroutine2/detail/push_control_block_cc.ipp", "doc/asymmetric.qbk"]}
{"id": "C49", "title": "Nothing is left behind", "statement": "When main has returned, a coroutine that still exists is owned by a pull_type or push_type object that the program has not destroyed: the library itself loses none. So if no object owns a coroutine any more, nothing is left at all: every stack obtained from the allocator has been given back (except when a constructor threw right after the allocation, C37), every coroutine-function that was entered has been left, so that its automatic variables are destroyed, and as many values have been destroyed as were constructed in the slots - also when generators were abandoned in the middle, nested, or ended by exceptions. Programs that follow the scoping rules of C48 always end that way.", "quantifier": "all programs that respect the contract and their executions that end with the return of main; last sentence: all programs built by the rules of C48, all value types", "why_tests_cant": "absence of leaks on all paths (abandonment, exceptions, nesting) of all programs", "anchors": ["include/boost/coroutine2/detail/pull_control_block_cc.ipp: deallocate, destroy, destructor", "include/boost/coroutine2/detail/push_control_block_cc.ipp: deallocate, destroy", "include/boost/coroutine2/detail/pull_coroutine.ipp: destructor", "include/boost/coroutine2/detail/push_coroutine.ipp: destructor"]}
{"id": "C50", "title": "Generators compose", "statement": "Programs built from generators - functions that yield, write, throw, catch, return, loop for ever and loop over other generators, nested to any depth, the consumer leaving its loops at the end, after a number of rounds, by return or by an exception - do exactly what they would do if each generator were the list of its effects and values: the values of the source are replaced by what the body of the loop does, what the source writes in between is written in between, and when the loop is left the source is not continued. They end when (and only when) this says so, normally or with the uncaught exception, have no undefined behaviour, and those that do not end produce every part of their output and nothing else. They respect the contract of the library and, having ended, leave no coroutine, stack or value behind. In particular map, filter, concatenation, take and flat-map of generators are these operations on lists, a recursive generator with a coroutine for each node of a tree yields its values in order, and the first n values of an infinite generator can be taken.", "quantifier": "all programs of the generator language (any nesting depth, any functions as bodies), all contents of memory; value types whose move does not throw", "why_tests_cant": "all compositions of generators, including recursive and infinite ones and all ways of leaving loops while several coroutines are suspended in each other", "anchors": ["include/boost/coroutine2/detail/pull_coroutine.hpp: iterator, begin, end", "include/boost/coroutine2/detail/pull_control_block_cc.ipp: constructor, resume, deallocate", "include/boost/coroutine2/detail/push_control_block_cc.ipp: synthesised push_coroutine, resume", "example/fibonacci.cpp", "example/parser.cpp"]}
{"id": "C51", "title": "Laws of generators", "statement": "Generators with the same meaning can be exchanged anywhere in a program without any visible difference: same output, same order of output of all stages, same end (return, exception, none). In particular stages of a pipeline (map, filter, take, flat-map, concatenation, passing on) can be merged into the loop that consumes them or split off again, nesting is associative, and a loop without end can be unrolled.", "quantifier": "all programs of the generator language and all places in them; value types whose move does not throw", "why_tests_cant": "equivalence of programs for all contexts and all user functions, including programs that do not terminate", "anchors": ["include/boost/coroutine2/detail/pull_coroutine.hpp: iterator", "include/boost/coroutine2/detail/pull_control_block_cc.ipp: resume, deallocate", "include/boost/coroutine2/detail/push_control_block_cc.ipp: resume", "example/fibonacci.cpp"]}
{"id": "C52", "title": "Consumers compose", "statement": "A chain of push coroutines - main passes values on to the first, each function reads what it is given with get(), writes and passes any number of values on to the next (testing the object first), waits for the next value, returns, or throws, and may catch what later ones throw - does exactly what the composition of the corresponding functions does: everything a value causes in all later consumers has happened, in order, when the push returns; an exception nobody handles on the way ends the functions it passes and arrives where the value was passed on; consumers that are over ignore what comes. The program ends, normally or with the uncaught exception, and has no undefined behaviour. In particular chains of mapping, filtering, truncating and any other stateful consumers write the composition of their list functions applied to the input. Such a program respects the usage rules and leaves nothing behind when it ends normally, whichever consumers are over and whichever still wait for values.", "quantifier": "all chains of any length, all user functions as consumers (with state, early return, exceptions and handlers), all inputs and memories; value types whose move does not throw", "why_tests_cant": "all compositions of consumers with all their interleavings of values, returns and exceptions", "anchors": ["include/boost/coroutine2/detail/push_coroutine.ipp: operator(), operator bool", "include/boost/coroutine2/detail/push_control_block_cc.ipp: constructor, resume, deallocate", "include/boost/coroutine2/detail/pull_control_block_cc.ipp: synthesised pull_coroutine, resume, get", "example/layout.cpp"]}
{"id": "C53", "title": "The contract is exact", "statement": "The usage rules (what may be called when, and how a coroutine-function may be left, as a condition on the observable history) ask for no more than a meaningful run needs: if no push is left by an exception of the copy or move constructor of its argument - in particular if the program only pushes values whose copy or move constructor does not throw - a program respects the rules for ever if and only if the reference semantics never runs into a broken precondition. Rejected programs are exactly the meaningless ones. The condition on failing pushes is needed: a function that never ends while it is unwound hides that its coroutine's slot was spoiled by a failed push. The rules speak about what the library promises; the code, being what it is, happens to survive some programs that break them.", "quantifier": "all programs and memories; histories without a failing push", "why_tests_cant": "the converse direction speaks about all programs that do not break anything, and needs that every single clause of the rules, in every state, guards against a real violation", "anchors": ["doc/asymmetric.qbk", "include/boost/coroutine2/detail/pull_coroutine.ipp", "include/boost/coroutine2/detail/push_coroutine.ipp"]}
{"id": "C54", "title": "Several generators driven at once", "statement": "A program that drives any number of generators (pull coroutines) in any order - testing them, reading their value with get() or through begin(), advancing them, in loops, handlers and nested scopes, inside main or inside another generator - does exactly what the same program does with one list for each generator: every test, every value, every exception and the order of everything written agree, and there is no undefined behaviour. get() takes the value away (a second get() yields a moved-from value), reading through an iterator does not. In particular: two generators in step give the zip of their values, even if one of them is infinite; merging loses nothing and keeps order; comparing two generators (same fringe) decides equality of their values, and a difference is found even if the generators never end or throw later. Generators that give the same values can be exchanged in every such program without a difference. The programs respect the usage rules and leave nothing behind, however many generators are left in the middle.", "quantifier": "all programs of the language (any number of generators, nesting depth, loops with and without end, exceptions), all memories; value types whose move does not throw", "why_tests_cant": "all interleavings of several coroutines in all programs, including programs that do not end", "anchors": ["example/same_fringe.cpp", "include/boost/coroutine2/detail/pull_coroutine.hpp: iterator", "include/boost/coroutine2/detail/pull_coroutine.ipp: operator(), get, operator bool, destructor", "include/boost/coroutine2/detail/pull_control_block_cc.ipp: resume, get, valid, destroy", "include/boost/coroutine2/detail/push_control_block_cc.ipp: resume"]}
{"id": "C55", "title": "Chained generators in one scope", "statement": "Chaining coroutines as in the documentation - all generators are declared in the scope of the consumer, and each coroutine-function uses the one before it by reference (std::ref) - is the same as declaring each generator inside the function that reads from it: whichever of the declarations are moved outwards, through any number of levels, the program does exactly what its meaning with one list for each generator says (every test, value, exception, the order of everything written, ending or not). In particular a chain of loops for( v : source) that write and yield for each value anything - tokenizers, filters, tracers - does, value by value, the composition of the functions; if the first generator throws, the exception comes through all of them to main, after everything that the values before cause. Such programs respect the usage rules and leave nothing behind.", "quantifier": "all programs of the language of C54, all choices of the declarations that are moved outwards, all chains of any length, all memories; value types whose move does not throw", "why_tests_cant": "all programs and all placements of the generators in scopes; coroutines are resumed from contexts other than the one that owns them", "anchors": ["doc/motivation.qbk:440-548", "include/boost/coroutine2/detail/pull_coroutine.ipp: operator(), get, operator bool, destructor", "include/boost/coroutine2/detail/pull_control_block_cc.ipp: constructor, resume, destroy"]}
{"id": "C56", "title": "Coroutines in blocks leave nothing behind", "statement": "If every coroutine object is an automatic object of the block in which it is declared, anywhere in main or in a coroutine-function, and ownership of a coroutine is moved only to objects of main or of coroutines made before it (in particular if coroutine objects are not moved), then at any time each coroutine is owned by an object of main or of an older coroutine, and when main returns, by whatever path, every stack has been released, every coroutine-function that was entered has been left and every value destroyed - however many coroutines are suspended inside each other at that time. The condition on moves is needed: a coroutine that moves the object that owns it into its own frame is never destroyed.", "quantifier": "all programs in the structured language (blocks, exceptions, handlers, moves, arbitrary user decisions) that respect the usage rules, all memories, all executions in which main returns; all value types", "why_tests_cant": "leak freedom for all nestings of suspended coroutines, all ways to leave a block", "anchors": ["include/boost/coroutine2/detail/pull_coroutine.ipp: destructor, move constructor, move assignment", "include/boost/coroutine2/detail/push_coroutine.ipp: destructor, move constructor, move assignment", "include/boost/coroutine2/detail/pull_control_block_cc.ipp: deallocate, destroy", "include/boost/coroutine2/detail/push_control_block_cc.ipp: deallocate, destroy"]}
{"id": "C57", "title": "The API is symmetric: chain functions work with pull and with push coroutines", "statement": "A function that loops over a source and, for each value, writes and passes values on to a sink, and possibly throws, can be used without change in a chain of pull coroutines (each function pulls from the one before) or of push coroutines (each function is pushed to by the one before). For any chain of such functions and any source both programs write the same, in the same order - each value gets to the end of the chain before the source goes on - and end alike, also if the source or one of the functions throws. The chain of push coroutines has no undefined behaviour and leaves nothing behind, although its functions never return. Chains of both kinds can be joined: if main reads from a chain of pull coroutines and pushes into a chain of push coroutines, as in the third block of the documentation's example, the program does the same as either chain of all the functions, wherever the join is, and also has no undefined behaviour and leaves nothing behind. The symmetry has two limits: what follows the loop in a function is executed with pull coroutines only (with push coroutines the function is unwound in the loop), and a function that returns early ends a pull chain but makes the next push undefined in a push chain that does not test the object.", "quantifier": "all chains (any length) of all functions that map a value to a finite sequence of writes and pushes and an optional exception, all places of the join, all finite sources with or without an exception at the end, all value types that are moved without exceptions, all executions", "why_tests_cant": "equality of two programs for all chains and inputs", "anchors": ["doc/motivation.qbk: chaining coroutines", "include/boost/coroutine2/detail/pull_coroutine.hpp: iterator", "include/boost/coroutine2/detail/push_coroutine.ipp: operator()", "include/boost/coroutine2/detail/push_control_block_cc.ipp: resume, deallocate, destroy", "include/boost/coroutine2/detail/pull_control_block_cc.ipp: resume, get"]}
