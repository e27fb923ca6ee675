# Formal model of boostorg/coroutine2: design

## 1. Files (rocq/theories)

What has to be read to know what is proved:

| file | content |
|------|---------|
| Base.v | vocabulary: endpoints, coroutine objects, API operations, user code (`strat`), observable events |
| Model.v | executable model of the code, function by function, on an abstract machine for `boost::context::fiber` |
| Trace.v | functions on histories used in the statements (which object denotes which coroutine, current slot, ...) |
| Contract.v | what a program must respect (`respects`, `well_used`), as a condition on its history |
| Cpp.v | structured C++-like language (scopes with destructors, try/catch) compiled to `strat`, for C13 and the example programs |
| Progs.v | the example programs of /repo/example in that language, and what they are meant to do |
| Spec.v | reference semantics of the API (abstract machine: no fibers, control blocks, pointers, flags); the specification of C46, otherwise a proof device |
| Gens.v | C50, C51: a language of generators, its programs and its meaning as lists |
| Pipes.v | C52: chains of consumers (push coroutines), their programs and their meaning |
| Many.v | C54: programs that drive several generators at once, and their meaning |
| Chain.v | C55: the same programs with declarations moved outwards, and the chain of the documentation |
| Blocks.v | C56: objects of a context, moves to older contexts |
| Sym.v | C57: functions of a chain, used by pull coroutines and by push coroutines |
| Discipline.v, Tidy.v | C48: rules for program texts that guarantee the contract, for any code and for code with blocks |
| Layout.v, StateBits.v | C34 (address arithmetic of create_control_block), C35 (flag operations), self-contained |
| PropsVal.v PropsLife.v PropsObj.v PropsCtl.v PropsRaii.v PropsProg.v PropsUB.v PropsMore.v PropsCore.v PropsDisc.v PropsGen.v PropsPipe.v PropsExact.v PropsMany.v PropsChain.v PropsBlock.v | the property theorems, each followed by `Print Assumptions` and by concrete cases that meet its hypotheses |
| Examples.v | the concrete programs used in those cases |
| Tests.v | test/test_coroutine.cpp replayed on the model by computation (tests of the model, not proofs) |

Proofs:

| file | content |
|------|---------|
| Mono.v Blind.v Code.v | unconditional facts about the model: the history only grows, is never read; what single operations do from any state |
| InvSpec.v Refine.v Sim.v Main.v | simulation of the model by the reference semantics |
| Micro.v Life.v Pend.v Den.v Tgt.v Stack.v Own.v Slot.v Turn.v Events.v Phase.v | invariants linking the history with states of the reference semantics |
| ContractInv.v ContractProof.v | a program that respects the contract never leaves the reference semantics |
| Hist.v Next.v Rules.v RulesProof.v | grammar of histories (`follows`, `answers`), proved for all histories within the contract |
| Progress.v | control comes back from the library (C45) |
| Facts*.v Ctl.v Replay.v | lemmas behind the Props files |
| Misuse.v | misuse runs into undefined behaviour (C31, C32) |
| DiscInv.v DiscStep.v DiscProof.v TidyProg.v FactsFin.v | disciplined programs respect the contract; programs that are tidy; what is left at the end |
| FactsPipe.v | chains of consumers run in the reference semantics (C52) |
| FactsMany.v TidyMany.v LawsMany.v | programs with several generators run in the reference semantics; they keep to the discipline of C48; their meaning as lists (C54) |
| FactsChain.v LawsChain.v | moving declarations outwards keeps what the program does in the reference semantics; the meaning of chains (C55) |
| SafeCpp.v | programs of Chain.v and Pipes.v only push values that are moved, and move no objects |
| FactsBlock.v | ownership in programs of the structured language (C56) |
| FactsSym.v | chains of push coroutines whose functions loop over their sources with iterators (C57) |
| FactsMix.v | chains of pull coroutines that are declared by main, joined to chains of push coroutines by a loop of main (C57) |
| Uses.v Exact.v | C53: a program that stays within the reference semantics respects the contract, if no push of it fails |
| FactsLaws.v TidyGen.v | laws of the meaning (C51); generator programs follow the rules of C48 |
| FactsGen.v | programs of Gens.v do what their meaning says: footprints of coroutines that own coroutines, by induction on the program and on the effects of the source |
| Steps.v | symbolic execution of programs, for Progs.v |

## 2. The model

**User code** is an arbitrary coinductive strategy (`strat`): it performs API operations or
local actions and continues depending on the result or on the exception the operation exits
with. So every theorem quantifies over all user programs, including infinite ones, nested and
dynamically created coroutines, and code that reacts to any exception in any way.

**Library code** is transcribed function by function (Model.v, each definition cites file and
lines) into straight-line code (`M`, a state/exception monad with undefined behaviour and
`std::terminate` as distinct outcomes) and code that switches contexts (`lcode`).

**Machine**: every context has its own stack of frames; `step : cstate -> cres` is a function;
`crun n` runs n steps. Addresses (stacks, coroutine objects) are never reused, so use after free
or after destruction is an outcome (`Undefined r`) instead of silently hitting a new object.

**Observable history** (`hist p u n`, newest event first): calls and returns of API operations in
each context (EvCall, EvRet, EvExn), entry and exit of coroutine-functions (EvEnter, EvLeave),
construction/destruction of transferred values (EvSet, EvDel), allocation and release of stacks
(EvAlloc, EvFree), construction of coroutine objects and the end of the counterpart object
(EvNew, EvGone).

**Parameters**: the value type T with its moved-from function and throwing copy/move, the
exception type E, the C++11/C++14 preprocessor switch. All theorems hold for all of them.

## 3. The contract

The hypothesis of the theorems is `respects p u n` (for the first n steps) or `well_used p u`
(for ever), defined in Contract.v on the observable history alone: every call made by user code
and every exit from a coroutine-function is checked against what happened before. The conditions:

* objects are used while they exist, by operations their class and parameter kind have (the
  latter is a compile-time error in C++); user memory that is read exists;
* operator() only on a coroutine that is suspended (not complete, not running, not empty); a
  running coroutine is not destroyed;
* operator() on the counterpart only by the running coroutine-function it belongs to, and not
  while that function is being unwound;
* get()/dereference only if there is a value; bool, !, begin() not on an object whose coroutine is gone;
* a coroutine-function is left by forced_unwind exactly if it is being unwound; main is not left by it;
* (defect of the code, see C25) no push to and no destruction of a coroutine after a push whose
  copy/move threw *while a value was in the slot*;
* (the lambda's frame holds the counterpart) when a context ends, an object exists at the address of the counterpart, and it
  can be destroyed.

That this is enough to exclude undefined behaviour is C18. That the individual conditions are
needed is shown in C31 and C32; that together they are exactly what the reference semantics needs,
in C53.

The proofs go through the reference semantics Spec.v, which answers `AViol` where a precondition
is broken: contract => no `AViol` (ContractProof.v) => the model follows the reference semantics
(Sim.v). Trace properties are invariants of the reference semantics transferred to histories of
the model. Except in C46 and C53 the reference semantics does not occur in the statements.

## 4. Trusted base

* Coq 8.16.1's kernel (checked additionally with coqchk).
* std++ and Coq's standard library, compiled; no axiom of either is used.
* `Print Assumptions` says "Closed under the global context" for every property theorem. (coqchk
  and vcheck list the module-type parameters of ssreflect's `ssrunder`, loaded by std++; no
  theorem depends on them.)
* The translation from C++ to Model.v was done by reading; nothing connects it to a compiler.
  Tests.v replays the library's test suite on the model.
* The statements: Trace.v, Contract.v, Cpp.v, Progs.v, Gens.v, Pipes.v, Many.v, Chain.v, Sym.v, Blocks.v (Spec.v for C46 and C53, Uses.v for C53 and C56).
* **boost::context::fiber** (a dependency, not in /repo) is modelled by its documented behaviour:
  `resume()` requires a non-empty fiber, empties it, switches, and returns the fiber of the context
  that switched back (empty if that context ended); `~fiber()` of a non-empty fiber unwinds that
  context by throwing forced_unwind at its suspension point and returns when the context has ended;
  move assignment destroys the previous value; the function given to a fiber runs at the first
  resume; when it returns a fiber, or forced_unwind leaves it, the stack is deallocated and control
  goes to the returned fiber, resp. to the destroyer; any other exception leaving it terminates.

Modelled (include/boost/coroutine2): `detail/pull_coroutine.{hpp,ipp}`, `detail/push_coroutine.{hpp,ipp}`
(T, T&, void; iterators), `detail/pull_control_block_cc.{hpp,ipp}`, `detail/push_control_block_cc.{hpp,ipp}`,
`detail/create_control_block.ipp`, `detail/state.hpp`, `detail/forced_unwind.hpp`, the call order of `detail/wrap.hpp`.

Not modelled: threads (the library is used from one thread), pthread cancellation
(`abi::__forced_unwind`), the per-thread stack of caught exceptions when switching inside a catch
block, reuse of addresses, stack overflow, exhaustion of integers, `has_result_` (declared, never
usable), the stack allocators themselves (dependency), the lifetime of the captured function
object, ABI headers, `segmented_stack.hpp`/`protected_fixedsize_stack.hpp`/... (typedefs), `config.hpp`,
`decay_copy.hpp`, `disable_overload.hpp` (compile-time only).
Moving the function object into the local `fn` (pull_control_block_cc.ipp:57,86) may throw; this is
covered because a coroutine-function may throw at its start.

## 5. Properties

All are proved for all programs and all runs; "histories" means a statement about `hist p u n` for every n up to which the contract is respected.

| id | what is modelled / how it is proved |
|----|------|
| C01, C02 | histories: get() returns the current slot; after the n-th return to the consumer exactly n values were pushed; sequence theorems |
| C03 | histories: position of EvEnter relative to EvNew and to pushes; at most one EvEnter per coroutine |
| C04 | the code in control of a context is its own code advanced by the results of its own calls (Replay.v) |
| C05 | histories: the caller of the last resumption is where yields, ends and exceptions go (Ctl.v) |
| C06, C07, C09, C27 | histories: answers of bool/! are determined by denotation and EvLeave events |
| C08 | unconditional on the model: an observer leaves every component except the history unchanged (Code.v, Blind.v) |
| C10-C12, C43 | histories: event sequence after EvLeave k |
| C13 | Cpp.v: structured programs; destruction sequence = reverse construction sequence |
| C14 | histories: no destructor call exits by exception; forced_unwind only inside contexts being destroyed |
| C15, C16 | histories: no event of context k after the destruction starts |
| C17, C37 | histories: alloc/free counting |
| C18 | contract proof + refinement: no `Undefined` outcome |
| C19-C22, C44 | histories + states: denotation |
| C23-C26, C42 | histories + states: slot contents and EvSet/EvDel alternation |
| C28-C30 | histories for single iterator operations; loop programs against arbitrary producers |
| C31, C32 | model: from every reachable state in which the misuse happens the outcome is `Undefined` |
| C33 | histories: internal events concern the coroutine operated on or ones destroyed with it |
| C34, C35 | Layout.v (machine words modulo 2^N), StateBits.v (N bit operations) |
| C36 | corollary of refinement for both values of the switch |
| C38 | `crun` is a function; histories of longer runs extend those of shorter ones (Mono.v) |
| C39-C41 | the example programs, proved for all inputs by symbolic execution (Steps.v) |
| C45 | measure on states of the reference semantics (number of objects and coroutines left), transferred |
| C46 | both directions of the simulation, and of termination |
| C47 | symbolic execution, induction on the number of values taken; the generator is a coinductive program |
| C48 | coinductive typing judgement on programs (`scoped`; `tidy`, with postconditions for the end and for exceptions); the views of all contexts together are an invariant of the reference semantics (DiscInv.v) from which every condition of the contract follows |
| C49 | the end state of main in the reference semantics: an ownership invariant (every coroutine left has an owner); the history then tells what has been released if nothing is owned; with the discipline nothing is owned (FactsFin.v) |
| C50 | generator programs (Gens.v) run in the reference semantics; `acts` says what a context does until it leaves its frames, together with the coroutines and objects that belong to it (a frame rule keeps suspended consumers and sources apart); by induction on the program; a lower bound on the number of steps makes the description exact; transferred to the code by the simulation |
| C51 | equations between meanings (FactsLaws.v), monotone in the number of rounds followed; with C50 they become equivalences of programs |
| C52 | chains of consumers (Pipes.v) run in the reference semantics; passing a value on to n consumers is as `feed n` says, by induction on n, while everything outside these n coroutines is kept; transferred to the code by the simulation. The contract follows by C53 since the reference run ends; at the end no object owns a coroutine, so C49 applies |
| C53 | one direction is ContractProof.v; the other: in every reachable user state that never leads to `AViol` the clause of the contract for the next call or exit holds, read off the reference step by step through the invariants that connect state and history; for destruction, by induction on the number of coroutines not being destroyed yet. Without the condition: refuted by a program. That the code needs the contract is refuted too |
| C54 | Many.v writes programs with any number of named generators in the language of Cpp.v and gives them a meaning with one list for each generator; FactsMany.v: by induction on the program, for all states of its generators, the reference semantics does what the meaning says, each generator owning a footprint of the state that nobody else touches (the same footprints as for C50); transferred to the code by the simulation. Discipline by induction on the program (TidyMany.v). List programs: by induction on the lists; exchanging generators: a simulation between meanings that identifies ending and returning |
| C55 | Chain.v writes a program of Many.v with the selected declarations moved out of the function that begins with them; FactsChain.v: as for C54, but the footprint of a generator contains the coroutines that its function uses by reference; `pdoes` is the meaning of C54, so that all placements agree. Contract: by C53, since the reference run has a meaning and all pushes move values. Chains: by induction on the number of stages and the values (LawsChain.v). Nothing left: C56 |
| C56 | invariant of histories (FactsBlock.v): an owner is an automatic object of an older context, not yet destroyed; from C13 (destructors run in the opposite order of constructors) and the fact that new coroutines get larger numbers. If something were owned at the end, the smallest such coroutine would be owned by a context that is over; contexts that are over have no objects. Then C49 |
| C57 | Sym.v: `stage g` is the function; `gstages` is a program of Gens.v (C57_text: the same `stage g` on a coroutine for what is before), `smain` declares push coroutines from the last to the first and lets main be the source. FactsSym.v follows a value through the suspended functions in the reference semantics, by induction over the chain, as for C52; with C50 for the pull chain both do what `flows` says. C57_contract by the exactness of the contract (C53), C57_clean by C56. `mixed` is the third block of the documentation's example: main declares pull coroutines (`pulls`), then push coroutines (`sinks`), and joins them by a loop. FactsMix.v describes a chain of suspended pull coroutines by what each is still going to do (`rem`), shows by induction over the chain that `it++` on the last one gets the next value (`advances_all`), and then follows main: construction (where the source runs up to its first value), loop, destruction (C57_mixed and its companions). Not covered: functions that keep a state between values or catch exceptions (C52 has them for consumers that use `get` and `operator()`) |

## 6. Results

Every property in MANIFEST.json is proved; there are no partial ones. Some statements of the documentation
(or first versions of the properties) turned out false for the code. The properties state what is
true; the false claim is refuted by a concrete run:

| theorem | what is false |
|---------|---------------|
| C06_escaped_counterpart_refuted | that an object denoting a finished coroutine always tests false: an object that took over the counterpart and outlives the function does not |
| C20_documented_refuted | that move assignment destroys the coroutine of the left side: it swaps |
| C25_throwing_copy_refuted | that every transferred value is destroyed exactly once even if a copy into an occupied slot throws: set() destroys first and constructs then, leaving `bvalid` set |
| C30_documented_refuted | that begin() of a push_type that tests false equals end() |
| C34_small_stack_refuted | that the layout is right for every stack: one smaller than the control block + 64 makes the recorded size wrap around |
| C37_copy_failure_refuted | that a throwing constructor never leaks: if moving the function object into the fiber throws, the stack is leaked |
| C53_failed_push_refuted | that the contract is exact for all programs: a failed push may spoil a slot whose destruction never gets to the end |
| C56_unconditional_refuted | that programs whose objects all live in blocks leave nothing: a coroutine may move its owner into its own frame |
| C57_early_return_refuted | that a function may be used in both kinds of chain if it returns early: the next push is undefined if the object is not tested |
| C57_after_loop_refuted | that a function may be used in both kinds of chain if it does something after its loop: the function of a push coroutine is unwound in the loop |
| C53_code_refuted | that a program the contract rejects reaches undefined behaviour in the code: a push through the counterpart of a coroutine that is waiting for a nested one suspends both without harm, if they are never resumed |

C39: std::equal on two readers is undefined behaviour if the first fringe is longer than the second
(C39_longer). C40: the example parser does not check that the text ends after the expression.
C41: an empty word list prints no line break at all.

seeded/LOG.jsonl records mutation tests: the model (or a definition the statements rest on) edited
as a realistic bug would, and the theorems that no longer prove. `proofs_failed` names the proofs at
which the compiler stopped. In the later entries `theorems_failed` is computed from them (the theorems
that use a failed proof), since what comes after a failure is not compiled. A failed proof by itself does not show that
the statement is false for the edited program; where the edited program was run and differs, or
where it turned out to be harmless, the note says so.
