# Formal model of zycore-c in Rocq (Coq 8.16.1)

This file says what is modelled, how each property of `properties.jsonl` is proved, what is trusted and
which findings the proofs produced.  It was written before the proofs and is kept current.

## 1. Modelling approach

* **Numbers.** `ZyanUSize`/`ZyanU64` are `N`; every C addition, subtraction and multiplication on them is
  written with an explicit `mod 2^64` (`wadd`, `wsub`, `wmul` in `Base.v`).  LP64 (64-bit `size_t`) is assumed.
* **Memory.** A world (`Mem.v`) maps block identifiers to lists of cells; a pointer is a block and an offset.
  Every load/store/`memcpy`/`memmove` is checked against the *real* block: out-of-bounds access, access to a
  released block, null dereference, overlapping `memcpy`, double free and failing `ZYAN_ASSERT` are distinct
  `Fault` outcomes, never silently totalised.  The cell type is a parameter (bytes for strings and bitsets).
* **Allocator.** The allocator callbacks are an oracle carried by the world: each request is answered by the
  oracle with success (fresh block with arbitrary contents) or with an arbitrary error status.  `reallocate`
  always moves the block (so stale pointers are detected).  Theorems quantify over the oracle.
* **Callbacks.** Destructors are arbitrary functions on the bytes of an element plus a log of the calls;
  constructors are arbitrary functions returning a status and new bytes; comparisons are arbitrary functions.
  Re-entrancy (a callback that calls back into the same container) is not modelled.
* **Functions.** Each C function is one Gallina definition that follows the C text statement by statement, with
  the file and lines cited in a comment.  A struct passed by pointer becomes a record passed and returned.
* **Loops** are structural recursion on a count that the C loop bounds as well, or fuel whose exhaustion is a
  `Fault` excluded by the theorems.
* **Specification.** Each area has a `*Spec.v` file that mentions lists, numbers and statuses only, not the model.
* **Properties.** `*Props.v` files contain only theorem statements closed by `exact`, with `Print Assumptions`,
  plus `Example`s that meet the hypotheses.
* **Refutations.** Where the faithful model contradicts a property, a theorem `..._refuted` gives a witness and
  `..._partial` (or a guarded theorem) proves what remains true.

## 2. Per-property plan

| Property | Model | Proof |
|---|---|---|
| C01, C02 | `VectorModel.v`, list machine in `VectorSpec.v` | representation relation, one refinement lemma per operation, induction over operation lists |
| C03 | same, oracle that fails | refutation (capacity is updated before the allocator is asked) + partial theorem on contents |
| C04 | same | capacity is part of the list machine; corollaries for Reserve/ShrinkToFit |
| C05 | destructor log in the world | log equals the list of removed elements, per operation and for sequences |
| C06 | heap frame in every refinement lemma | induction over histories; life-cycle theorem |
| C07, C08 | Find/BinarySearch | loop invariants; refutation for Find on an empty range at the end |
| C09 | Duplicate* | refinement + frame |
| C10 | explicit wrap | refutations with 2^64-1, guarded theorems for sums below 2^64 |
| C11 | Emplace with failing constructor | refutation, partial theorem for emplacing at the end |
| C12 | SwapElements | refinement; refutation for equal indices (memcpy onto itself) |
| C13, C14 | `StringModel.v` on top of the vector model | refinement to lists of characters, induction over histories |
| C15, C16 | views | refinement; refutation of InsideViewEx; views defined by the macro ZYAN_DEFINE_STRING_VIEW in `DefinedModel.v` |
| C17-C19 | search | loop invariants against an occurrence predicate; the case-insensitive functions characterised exactly as comparison up to bit 5 on all bytes; refutation of the `^32` folding for every other pair of bytes |
| C20, C21 | Compare | equality theorem; order for bytes with bit 5 set; refutation of antisymmetry for all strings whose first difference is bit 5 only |
| C22-C24 | case conversion, capacity, duplicate/concat | refinement |
| C25-C28 | `FormatModel.v` | digit generation against positional-notation spec |
| C29 | AppendFormat with the formatter as an oracle | refinement, refutations |
| C30-C33, C63-C65 | `ListModel.v`: nodes as bytes in a heap of blocks, free list threaded through the buffer | doubly-linked-list invariant `lrep` relative to the surrounding memory, refinement to the relational machine `lspecs` for all allocator answers; pointers in memory are read back exactly as stored (`ListWords.v`); refutations |
| C34-C39, C61, C62 | `BitsetModel.v` over the vector model | refinement to list of booleans (`bitsteps`), invariant on stale bits for Count/Any/None, two-vector loop lemma for AND/OR/XOR; refutations |
| C40-C43, C66 | `ArgModel.v`, grammar in `ArgSpec.v` | induction over the derivations of the grammar; it is total and deterministic; argv[0] is not read and argc = 0 is allowed (`ArgNameProofs.v`); words in memory are read back exactly as stored (`ArgWords.v`); refutations (clusters, duplicates, growth failure, GetChar) |
| C44-C46, C53 | `Status.v`, `DefinesModel.v`, `ComparisonModel.v` | arithmetic / bit lemmas |
| C47, C48 | `LibCModel.v`: byte memory, loops of LibC.h | loop invariants, refutations (STRNCMP, STRSTR) |
| C49 | `AtomicModel.v`: interleaving semantics | induction over schedules |
| C50, C51 | `ApiModel.v`: pthread mutex as a transition system, errno mapping | induction over schedules; case analysis |
| C52 | default allocator | wrap refutation, guarded theorem |
| C54 | vector model, PushBack of an own element | refutation (stale pointer), partial theorem without reallocation |
| C55 | pthread keys as a transition system | induction over histories |
| C56-C59 | string model | refinement lemmas reused; refutations with concrete buffers |
| C67, C68 | `WinModel.v`: CRITICAL_SECTION and fiber-local storage as transition systems | induction over schedules / histories; refutations (Leave by others, fibers) |
| C69, C70 | `PagesModel.v`: pages with rights and reservations under the wrappers of both platforms | page arithmetic; refutation (Windows ignores the size) |
| C71 | `WinModel.v`: wrappers with the system as an oracle | case analysis; refutations (IsTTY) |
| C72 | the `checked` flag of the world | one simulation lemma per function (`BuildProofs.v`), induction over loops and histories |
| C73 | the allocator oracle of the world | one simulation lemma per function (`OracleProofs.v`), induction over loops and histories |
| C74 | the vector model with any oracle; `RefuseSpec.v` says when a call makes a request and what a refusal leaves | request count and refusal lemma per call, C73 for calls that make no request, induction over the history |
| C75 | programs (`ProgSpec.v`) over a list of vectors, strings and bitsets in one memory; the meaning of a program is a list of separate contents; steps: Init, all calls of the histories, element and string copies between objects, bitset logic, Duplicate, Concat, number formatting, Destroy | invariant: every object is represented, the blocks of different objects are different, the other blocks are the initial ones; each step preserves it because each call changes only the blocks of its object (frame parts of the refinement lemmas) |
| C76 | the exported functions with nullable pointers (`NullModel.v`), on top of the other models | each check by computation; refutations for the unchecked pointers hold for every object and memory; equality with the other models when all pointers are given |
| C77 | vector, string and list models, pointers into the object itself (`AliasSpec.v`) | case analysis over position, length and capacity; every case is either proved or refuted for all reached objects; for lists the writer lemmas are repeated for a source inside the list |
| C78 | the access macros, bodies as programs over the caller's variables (`ForeachModel.v`); loops over the list machine of C01 (`visits` in `ForeachSpec.v`) | induction over the loop with the refinement of C01 for the calls of a body; particular bodies by induction over `visits` |
| C79 | the wrapped products of the vector model and of `alloc`/`realloc` in `Mem.v`; bytes asked for by Resize (`OverflowSpec.v`) | invariant "the block has m cells" that does not mention the capacity; pushes by induction up to the first that leaves the block; universal refutations |
| C80 | the number of requests of a call (C74) and the capacity after it (`run_cost` in `CostSpec.v`) | potential function g * abs(g * size - capacity); quadratic sums for the other parameters by induction |
| C81 | addresses: each block begins at an arbitrary address `addr b`, a pointer is that address plus its offset (`address` in `AlignSpec.v`) | the slots of C31, the places of nodes and elements in the representation invariants; a full buffer uses slot 1 (pigeonhole) |
| C82 | the string model with any oracle; `StrRefuseSpec.v` says when a string call makes a request (as the vector call of C74 that it makes on its bytes and terminator) and what a refusal leaves | request count, capacity and refusal lemma per call, C73 for calls that make no request, induction over the history |
| C83 | the bitset model with any oracle; `BitRefuseSpec.v` says when a bitset call makes a request (as the vector call of C74 that it makes on its bytes) and what a refusal leaves | request count, capacity and refusal lemma per call, C73 for calls that make no request and for Init, induction over the history; the overrun by following the seven calls of Push that write nowhere |
| C84 | threads as programs of guarded calls, each call a tree of steps on the shared data, over the sections of C50 (POSIX) and C67 (Windows) (`GuardSpec.v`) | invariant over the schedule: the thread inside owns the lock, and finishing its call from the present data gives what the whole call gives after the calls that have ended; the vector by C01; completion by running the thread inside to its end, then each thread in turn |
| C85 | a client program over the vector model (`SortedSpec.v`); a set as a predicate | the order is an invariant (`StronglySorted`), C08 for the index at every state of the history, C01 for Insert and Delete |
| C86 | the string and bitset models with the number of requests and the capacity after each (`StrCostSpec.v`) | the potential function of C80 on the bytes behind the string or the bits; exact sums for the refutations |
| C87 | threads that use the atomic calls of C49 as a lock, in an update loop and as a reference count (`IdiomSpec.v`) | the lock by simulation with a lock that knows its owner, then the invariant of C84; the loop by linearising at the CompareExchange that succeeds; the count equals the sum of the references the threads have |
| C88 | adaptive programs (`ExhaustSpec.v`) over the steps of C75, with any oracle; the meaning keeps a list of spoiled objects with what their destructor will be passed | the invariant of C75 extended by spoiled objects, which are represented but for their capacity; each step either makes no request, has it granted (C75, C73) or refused (C74, C82, C83); number formatting, which may make several requests, as in C94 |
| C89 | slots with destructors, values per thread, the system's rounds at the end of a thread (`TlsDtorModel.v`, on the wrappers of `ApiModel.v` and `WinModel.v`) | the trace of calls and results determines destructor and value of every slot (invariant over histories), hence also what each call answers (`TlsAnswerProofs.v`); the visits of a round form a list without repetition |
| C90 | every function taken apart into single accesses (`ThreadCode.v`, `ThreadCode2.v`), a machine that interleaves the accesses of any number of threads in one memory (`ThreadSpec.v`) | each access is local: its outcome depends only on the thread's own blocks and changes only them (`ThreadProofs.v`); invariant over schedules relating every thread to its solo run; programs by C75 |
| C91 | the searches again with the comparison as an arbitrary program with a state of its own (`CallbackModel.v`) | induction over both loops (`CallbackProofs.v`), building the list of compared indices; the number of calls from the halving of the interval; the model of C07/C08 is the special case of a comparison that only reads |
| C92 | the programs of C75 in two worlds | both runs meet the specification (C75); the specification is a function except for the contents it leaves open, and statuses and sizes are a function of sizes alone (`ReproProofs.v`) |
| C93 | vectors and strings at any reached state, then any calls under any allocator | each function either makes no granted request and keeps the data pointer, or stores a fresh block and the old one is gone for good; freed blocks never come back (`StableProofs.v`, `StableProofs2.v`) |
| C94 | format model at any reached growable string, any oracle | a judgement `outcome` for calls (all granted, or the last one refused, with what the string then shows) that composes along the parts of a number (`FmtRefuseProofs.v`, `FmtRefuseProofs2.v`) |
| C95 | POSIX and Windows wrappers, any system | one table per call (`CodesSpec.v`) with the error numbers as literals; case analysis, and for thread-local storage the invariant that the keys of the process are those in use in the trace |
| C96 | list model, programs over named lists, any oracle | the invariant of a list is independent of the memory outside its blocks (`rep_frame`), so that it survives every call on another list; blocks of different lists are disjoint because new nodes come from unused blocks (`ListsProofs.v`) |
| C97 | string and formatting model | the reader of ReadSpec.v inverts `numeral` by induction over the digits, padding adds zero digits; digits keep their order under the folding of Compare, longer numerals are greater (`ReadProofs.v`) |
| C98 | bitset model | a second refinement whose abstract state is the claimed size and the bits of all bytes, so that no call has to be excluded; induction over the calls (`ExactProofs*.v`) |
| C99 | AppendFormat with both formatter answers as parameters | the two formatter calls are described by one lemma (`print_at`), the rest is case analysis (`AppendProofs.v`) |
| C100 | Compare and LPos of views of which only the characters and one byte behind them, or nothing behind them, is known | the loops of `StringSearch.v` again, with an arbitrary byte instead of the terminator (`ViewProofs.v`) |
| C101 | the words for each kind of option and argument (`WrittenSpec.v`), `ArgModel.v` for the parser | each written item is one step of the grammar of C40, whose answer is unique (`WrittenProofs.v`) |
| C102 | number and answers of the allocator requests made by each list call (`ListModel.v`) | a list call without a request keeps the request counter (lemmas `still_*`); the growing loop by induction (`ListAskProofs.v`) |
| C103 | number and answers of the allocator requests of ZyanArgParse (`ArgModel.v`), entries counted by `entries_made`, requests by `parser_requests` (`ArgSpec.v`) | an account of requests, capacity and size kept by every step of the parser (`account` in `ArgVec.v`, `ArgProofs.v`), counting the entries along the grammar; bounds by induction (`ArgAskProofs.v`) |
| C104 | comparison macros for signed types (`SignedModel.v`), two's complement numbers in `SignedSpec.v` | arithmetic of two's complement; BinarySearch by C08; refutations for the default functions by following the search to the front (`SignedProofs.v`) |
| C105 | calls of ZYAN_STRTOK (`LibCModel.v`) from several files with a static variable each (`TokDriver.v`) | invariant over the turns: what each file has left to split lies in its own string (`TokProofs.v`) |
| C106 | calls and the calls that take them back, as a relation over plain lists (`UndoSpec.v`) | the refinements give the contents after every call; induction over the session, keeping "what was there before fits" (`UndoProofs.v` to `UndoProofs4.v`) |
| C107 | the searches against each other, and a client loop over them (`AgreeDriver.v`) | the results of C07, C08, C17 to C20, and induction over the number of matches; two sorted lists with the same members are equal (`AgreeProofs.v`) |
| C108 | both kinds of functions on texts and on the same texts in lower case (`CaseSpec.v`) | the order of C21 is kept by `to_lower`; an occurrence up to case is an occurrence in lower case; first and last occurrences are unique (`CaseProofs.v`) |
| C109 | the client loop (`ReplaceDriver.v`) and the text with the occurrences replaced, as a relation that is total and functional | induction over the relation; LPosEx finds the same first occurrence; Delete and Insert by their refinements, the views stay what they are because they lie in other blocks (`ReplaceProofs.v`) |
| C110 | the two client loops (`PurgeDriver.v`); the result is `filter` of the contents | induction over the rounds with the contents split into a part already cleaned and a part to go; the argument's block stays untouched over the deletions because it is not the vector's (`PurgeProofs.v`) |
| C111 | the two client loops (`SwapDriver.v`); permutation, order and stability of the result | the loops compute a list function by induction over the rounds, each swap leads from a reachable vector to a reachable vector; the list function is a stable insertion sort (`SwapProofs.v`) |
| C112 | programs over a list of bitsets against a list of the states of C98 (`GateDriver.v`) | all bitsets keep their own blocks, so one call changes one state; the laws are equations between lists of bits (`GateProofs.v`, `GateProofs2.v`) |
| C113 | the two client loops (`SplitDriver.v`); pieces as a relation between a text and a list of texts | induction over the pieces with the result of LPosEx (C17) and of the two view functions; joining by induction over the views (`SplitProofs.v`) |
| C114 | numbers of all kinds formatted into one string with a separator between them, then split (`NumsSpec.v`, `SplitDriver.v`) | every text that reads as a number consists of digits, signs and prefix characters, so that the separator occurs between the numbers only (`NumsProofs.v`); then C113's loop |
| C115 | the vector calls with a destructor that is a program (`OwnModel.v`), a client whose elements name blocks (`OwnDriver.v`) | invariant: the buffer and the blocks named by the elements are distinct, alive and the only new ones; each call shown to keep it (`OwnProofs.v`, `OwnProofs2.v`), for growable vectors and for caller buffers (`OwnBuffer.v`); a refused request of another call leaves the invariant but for the capacity (`OwnKeep.v`, `OwnRefuse.v`); for Duplicate and a refused Resize the destructor meets a released block |
| C116 | the list calls with a destructor that is a program (`OwnListModel.v`), a client whose elements name blocks (`OwnListDriver.v`) | invariant: the nodes of the list as for the other claims about lists and, apart from them, the blocks named by the elements, distinct, alive and the only new ones; each call shown to keep it (`OwnListProofs.v`, `OwnListProofs2.v`) |
| C60 | format model, failing oracle | failure lemma of Resize reused; refutations with a failing second request |

## 3. Trusted base

Trusted:

* Coq's kernel (8.16.1) and what `Print Assumptions` prints for each theorem (section 5: nothing).
* The reading of the C code: every model definition cites the file and lines it transcribes.
* The statements: the `*Spec.v` files (lists, numbers, texts), the `*Driver.v` files (client programs, what a
  caller can observe) and the theorem statements in `*Props.v` / `*Refuted.v`.

Assumptions about the platform that the model makes:

* LP64, `CHAR_BIT` = 8, little-endian where bytes of integers are visible (`ComparisonModel.v`), two's complement.
* Both debug and release builds are covered: a world has a field `checked` that says whether `ZYAN_ASSERT` is compiled
  in, and the theorems hold for both values.  In a debug build a failing assertion is the fault `AssertFailed`; in a
  release build the code goes on.  `mkworld` makes a debug build and `release` turns it into a release build;
  refutations that end in `AssertFailed` also say what a release build does.  C72 relates the two builds.  In a release
  build the condition is not evaluated (NDEBUG; with ZYAN_NO_LIBC it is evaluated and ignored).
* Blocks are separate objects (the LibC model uses flat addresses instead).
* A successful `reallocate` always moves the data and invalidates the old pointer; a failed one keeps the block.
  Releasing a live block always succeeds; a custom allocator whose `deallocate` fails is not modelled.
* The pthread mutex, pthread keys, `sysconf`, `mprotect`, `munmap`, `msync`, `isatty`, `malloc`/`realloc`/`free` and
  `vsnprintf` are the environment, modelled by what POSIX / ISO C say about them (`SyncModel.v`, `ApiModel.v`,
  `AllocatorModel.v`, `FormatModel.v`), with arbitrary answers where the standards leave them open.
* The Windows calls are modelled by their documentation (`WinModel.v`, `PagesModel.v`), with constants of the Windows
  SDK.  A memory call the system refuses is taken to change no page, and one it grants to do what is documented; which
  calls it grants is left open.  The recursion count of a CRITICAL_SECTION is unbounded.
* The compiler builtins behind the atomics are single atomic, sequentially consistent steps.
* Threads with objects of their own (C90, `ThreadSpec.v`) are interleaved access by access.  The descriptors are values of
  the thread and not memory; an access of several bytes is one step (nobody else may use these bytes meanwhile, so splitting
  it changes nothing); the blocks handed to different threads have different names; each thread has its own stream of
  allocator answers.
* Threads are interleaved step by step (`GuardSpec.v`).  For data used only inside a critical section this is what POSIX
  and Windows promise: lock and unlock order all accesses.

| Code | Model | Not modelled |
|---|---|---|
| `src/Vector.c`, `Vector.h` | `VectorModel.v`: every function; `NullModel.v`: the NULL checks; `ForeachModel.v`: `ZYAN_VECTOR_GET`, `_FOREACH`, `_FOREACH_MUTABLE` | kernel-mode build, the `ZYAN_VECTOR_INITIALIZER` macro |
| `src/String.c`, `String.h` | `StringModel.v`: every function; `NullModel.v` | kernel-mode build, macros; fields that a failing Init has written by then; views are passed by value (a view of the destination itself is modelled for Append and Insert (C56, C77)) |
| `src/Format.c`, `Format.h` | `FormatModel.v`: every function; the 32-bit variants with 64-bit sizes | the `Insert*` functions, which are declared but not implemented; `va_list` (its effect is a parameter) |
| `src/Bitset.c`, `Bitset.h` | `BitsetModel.v`: every function; `NullModel.v` | fields that a failing Init has written by then; commented-out declarations |
| `src/List.c`, `List.h` | `ListModel.v`: every function; `NullModel.v`; `ForeachModel.v`: `ZYAN_LIST_GET` | the `Duplicate*` functions, which are declared but not implemented; the `ZYAN_LIST_INITIALIZER` macro |
| `src/ArgParse.c`, `ArgParse.h` | `ArgModel.v`: both functions | `argc` different from the length of `argv`; `error_token` = NULL; the assertions that the configuration and the result vector are not NULL (lines 49-50) |
| `src/Allocator.c`, `Allocator.h` | `AllocatorModel.v` | NULL checks; `ZyanAllocatorDefault` (returns a constant) |
| `src/API/*.c` | `ApiModel.v`, `SyncModel.v`: POSIX branches; `WinModel.v`: Windows user-mode branches; `PagesModel.v`: the pages behind the memory calls; `TlsDtorModel.v`: destructors of thread-local storage | kernel branches; destructors run at the end of a process on Windows; deleting a critical section that is in use |
| `Internal/Atomic*.h`, `Atomic.h` | `AtomicModel.v` | weaker memory orders (the builtins used are full barriers) |
| `LibC.h` (no-libc fallbacks) | `LibCModel.v`: every function | `ZYAN_PRINTF` and friends (they are the C library's) |
| `Status.h`, `Defines.h` (arithmetic macros), `Comparison.h`, `Zycore.h`, `src/Zycore.c` | `Status.v`, `DefinesModel.v`, `ComparisonModel.v`, `SignedModel.v` | compiler and platform detection macros |
| `Object.h`, `Types.h` | typedefs, implicit in the models | |

The code was not compiled or run, so model and code were compared by reading.
As a check of that reading, `RepoTests.v` replays the repository's own tests on the model: all of `tests/Vector.cpp` and
`tests/ArgParse.cpp` and the example program `examples/Vector.c`, every expectation evaluated by `vm_compute`
(random numbers come from a fixed generator; `tests/String.cpp` and `examples/String.c` test nothing).
All of them pass. They are tests, and no claim rests on them.

## 4. Findings

Every item is a theorem `..._refuted` (the model contradicts the property), unless marked *(read)*, which means that it
was seen while transcribing the code.
A refutation is a counterexample, i.e. it shows that the property fails somewhere; only where the text says "every" or
"always" is the theorem a statement about all cases.

Vector (`VectorRefuted.v`)
* A growing operation stores the new capacity before asking the allocator: after a refused request the recorded
  capacity is wrong and the next PushBack writes out of bounds (`c03_growth_failure_refuted`; for every full vector
  `c03_second_push_refuted`); a Delete that
  fails to shrink reports an error although the element is gone (`c03_shrink_failure_refuted`); after a shrinking
  Resize that fails, Destroy destroys elements a second time (`c05_resize_failure_refuted`, for every refused shrinking `c05_resize_every_refuted`).
  What holds with an allocator that refuses requests is C74: a refused deletion or ShrinkToFit leaves a correct (smaller)
  capacity if growth factor <= shrink threshold, a refused PushBack, Insert, Emplace or Reserve never does
  (`c74_refused_extension_unusable`).
* Objects owned by the elements: Duplicate copies the elements byte by byte, so that destroying copy and original releases each
  object twice (`c115_copies_refuted`); after a refused Resize to fewer elements Destroy does (`c115_refused_refuted`).
* `index + count` and `size + count` wrap: DeleteRange and InsertRange accept ranges outside the vector
  (`c10_delete_range_refuted`, `c10_insert_range_refuted`; for every vector and every wrapping range: `c10_delete_range_every_refuted`,
  `c10_insert_range_every_refuted`).
* Find on an empty vector reports OUT_OF_RANGE instead of FALSE (`c07_find_empty_refuted`,
  `c07_find_nothing_refuted`; so does an empty range at the end of any vector: `c07_find_end_refuted`).
* A loop that calls FindEx again behind each match ends with OUT_OF_RANGE, not FALSE, if the last element matches
  (`c107_all_elements_partial`); on empty vectors Find and BinarySearch give different answers (`c107_empty_refuted`).
* EmplaceEx with a failing constructor loses the last element (`c11_emplace_ex_refuted`, every vector:
  `c11_emplace_ex_every_refuted`).
* SwapElements(i, i) is a memcpy onto itself (`c12_swap_same_refuted`).
* SwapElements needs one unused element (documented): a swap before ShrinkToFit cannot be taken back by another
  (`c106_swap_refuted`). ZyanStringTruncate refuses the size the string has (`c106_truncate_refuted`).
* PushBack of an own element reads released storage (`c54_push_back_own_element_refuted`).

String (`StringRefuted.v`; C56 in `StringProps.v`)
* `ZYAN_DEFINE_STRING_VIEW` takes "the C-style string" but uses `sizeof` of it: given a `char*` it defines a view of
  seven characters whatever the text is, which cuts long texts and leaves the memory of short ones
  (`c15_defined_pointer_refuted`). Arrays that end with the text's NUL, such as literals, are right (`c15_defined_view`).
* Created views keep the caller's element size, so GetChar returns a wrong character or fails an assertion
  (`c15_get_char_refuted`, exactly which character: `c15_get_char_scaled_refuted`, `c15_get_char_zero_refuted`; for parsed arguments always, and in release builds always the first character:
  `c66_get_char_refuted`).  InsideViewEx gives a view one character short
  (`c16_inside_view_ex_refuted`).
* A text split with LPosEx and ViewInsideViewEx gives fields of which each is one character short, and a field without characters has no size (`c113_split_views_refuted`); ViewInsideBufferEx refuses empty fields but is right for all others (`c113_split`).
* Ranges wrap (`c17_wrap_refuted`, `c59_delete_wrap_refuted`; all strings: `c17_wrap_every_refuted`, `c59_delete_every_refuted`), Insert accepts a position behind the terminator
  (`c59_insert_past_end_refuted`, `c59_insert_past_end_every_refuted`), capacity 2^64-1 wraps (`c24_capacity_wrap_refuted`,
  `c24_duplicate_every_refuted`).
* The `^ 32` folding identifies characters that are not letters (`c19_case_insensitive_refuted`), namely every two
  characters that differ in bit 5 only, NUL and space apart (`c19_every_character_refuted`); Compare folds case when it
  orders, so "A" > "a" and "a" > "A" (`c21_compare_refuted`), and so every two strings of equal length whose first
  difference is bit 5 (`c21_compare_every_refuted`).
* Reserve(n) gives n-1 characters (`c23_reserve_refuted`, for every string `c23_reserve_short_refuted`) and Append gives a
  reservation of more than the shrink threshold times what it needs back (`c23_append_reallocates_refuted`, for every string
  `c23_given_back_refuted`; exact account: `c23_append_after_reserve`).
* Appending a nonempty string to itself is undefined (`c56_append_self_refuted`).
* Compare orders formatted numbers like the numbers only if they are not negative (`c97_compare_numbers`): of two
  negative numbers the smaller one compares as greater (`c97_compare_negative_refuted`).
* LPos and Compare use bytes behind views that are not terminated (`c57_*_refuted`).
* For every view that is a part of a larger text: Compare of equal texts followed by different bytes is never TRUE (`c100_compare_refuted`), LPos finds the C string at the needle's address instead of the needle (`c100_lpos_ex`, `c100_lpos_continued_refuted`, `c100_lpos_embedded_refuted`), and both read outside memory that ends with the text (`c100_*_outside_refuted`).
* Allocation failure in Append (`c58_append_failure_refuted`); a second attempt overruns the storage, whatever the string
  (`c58_second_append_refuted`).
* A Clear whose request to shrink is refused leaves all characters and capacity 0 (`c82_refused_clear`); with a shrink
  threshold other than 0 every Clear makes that request. A refused Resize to less keeps all characters too, and is an
  error without consequences only if they fit into the capacity asked for (`c82_refused_resize`). Append may ask for
  *less* memory (when the string is much shorter than its capacity), and fails if that is refused although there is
  room (`c82_refused_addition`, `c82_refusals_occur`).

Format (`FormatRefuted.v`)
* DecS/HexS leave sign and prefix when the digits do not fit (`c28_signed_refuted`, `c60_decs_refuted`); HexU can
  resize twice (`c60_hexu_refuted`).
* what a formatting call leaves when a request is refused is known exactly (`c94_number_or_error`): sign and prefix may stay,
  and AppendHexU/S with a padding that is shorter than the number may leave a NUL and bytes that were never written, counted
  by GetSize (`c94_all_or_nothing_refuted`); the capacity field then overstates the memory, so that the next call may write out
  of bounds (`c94_use_after_refusal_refuted`), while Destroy is safe (`c94_destroy_gives_back`)
* AppendFormat overwrites the terminator when it fails (`c29_fixed_buffer_refuted`, `c29_formatter_error_refuted`,
  `c29_allocation_failure_refuted`), fails an assertion with growth factor 1 (`c29_growth_one_refuted`), and reuses
  a consumed `va_list` (`c29_argument_list_reused_refuted`).
* AppendFormat casts the unused room to a 32-bit int: with 2 GiB or more of it a text that fits is taken for one that does not, so a debug build fails an assertion and a release build stores the answer of a second formatter call on the consumed argument list (`c99_large_room_refuted`, every such fixed buffer).
* These failures of AppendFormat occur for every string and every text, not only in the examples: after a formatter error, a short buffer or refused memory the string has no terminator at its size any more unless nothing could be written (`c99_formatter_error`, `c99_fixed_buffer_short`, `c99_memory_refused`), and with growth factor 1 no text that makes the string grow is ever stored (`c99_growth_one_refuted`).
* *(read)* the `Insert*` functions of Format.h have no definition.

Bitset (`BitsetRefuted.v`)
* `ZYAN_BITSET_CEIL` rounds down: Init(n) and Reserve(n) lack the last byte unless n is a multiple of 8
  (`c35_init_refuted`, `c62_reserve_refuted`, `c62_reserve_enough_refuted`), and byte counts are truncated to 32 bits (`c35_init_huge_refuted`).
* The mask of All/Any/None is wrong (`c36_*_refuted`): All is FALSE for every bitset of 1 to 6 mod 8 bits without stale
  bits (`c36_all_unused_refuted`), and for whole bytes the fourth-last bit is ignored (`c36_whole_bytes_partial`); stale bits are counted (`c36_any_stale_refuted`,
  `c37_*_refuted`); AND changes bits behind the source's end, in its last byte (`c38_partial_byte_refuted`).
* Pop on an empty bitset sets the size to 2^64-1 (`c39_pop_empty_refuted`); a failing Push raises the size
  (`c61_*_refuted`).
* A Push that fails for want of memory has counted its bit: seven more calls of Push then fail with "out of range", each
  adding one to the size, and the next one writes behind the storage (`c61_push_after_refusal_refuted`). A Clear whose
  request to shrink is refused leaves size 0 with all bytes (`brefused` in `BitRefuseSpec.v`, `c83_any_allocator`).
* After `ZyanBitsetInit` with a size that is not a multiple of 8 no `ZyanBitsetPush` ever succeeds again: the bitset stays one byte short, each Push returns OUT_OF_RANGE and still raises the size (`c98_pushes_lost_refuted`, `c98_pushes_lost_fixed_refuted`). Popping back to the whole bytes removes the last whole byte, whose 8 bits were usable before (`c98_pops_lose_byte_refuted`). After a Pop on an empty bitset the next Push is lost (`c98_pop_empty_refuted`). The earlier findings on Init, All, Any, None, Count and AND hold for all bitsets (`c98_init_huge_refuted`, `c98_any_none_refuted`, `c98_all_refuted`, `c98_count_pop_refuted`, `c98_and_clears_refuted`).

List (`ListRefuted.v`)
* Remove and RemoveRange are stubs that report success (`c32_remove_refuted`).
* ResizeEx that fails leaves a partially grown list (`c63_*_refuted`).
* This happens for every list: a Resize whose k-th further request is refused leaves k more elements, and one that exceeds a caller's buffer fills it (`c102_resize_refused_refuted`, `c102_resize_full_refuted`).
* Element sizes from 2^64-16 on wrap the node size: every granted EmplaceBack of a growable list faults
  (`c65_wrapping_element_refuted`); every buffer shorter than 16 bytes that accepts such elements is overrun by the first EmplaceBack (`c65_wrapping_buffer_refuted`), and buffers of every length by the first PushBack,
  PushFront or Emplace with a constructor (`c65_wrapping_push_refuted`).
* *(read)* `ZyanListDuplicate*` are declared and not defined; nodes in a buffer are not aligned when the element size
  is not a multiple of 8.

ArgParse (`ArgRefuted.v`)
* A cluster of flags is also an unnamed argument (`c41_clusters_refuted`).
* Hence a flag with a short name in a token of its own makes every command line that already has the maximal number of arguments fail with TOO_MANY_ARGS (`c101_short_flag_refuted`); all other ways to write options are read back exactly (`c101_written_partial`).
* A required definition with the name of an earlier one can never be satisfied (`c42_duplicate_required_refuted`).
* When the vector cannot grow it is leaked, always (`c43_growth_failure_refuted`, `c43_later_refusal_leaks_refuted`). Destroying
  it would release the block, but after a refused first request, which returns the same, that fails an assertion
  (`c43_destroy_refuted`).
* *(read)* `error_token` is not written for TOO_FEW_ARGS; a lone "-" is an unnamed argument; a definition named "--"
  is accepted and then matches the character '-' in clusters.

System (`SysProps.v`), LibC (`LibCProps.v`), macros (`MiscProps.v`)
* Initialize ignores `pthread_mutexattr_settype` (`c50_recursive_refuted`); for an unknown stream IsTTY reaches ZYAN_UNREACHABLE
  (`c51_is_tty_refuted`); a failing sysconf becomes a page size (`c51_page_size_refuted`); pthread_t is dereferenced
  (`c51_thread_id_refuted`).
* Windows (`WinProps.v`): every Leave by a thread that is not inside is passed on, where it is undefined
  (`c67_leave_refuted`; POSIX reports it); thread-local storage is per fiber (`c68_thread_local_refuted`, for every store `c68_other_fiber_refuted`); VirtualFree
  ignores the size and always releases the whole reservation (`c69_windows_refuted`); if `_isatty` leaves errno alone,
  IsTTY trusts an old EBADF (`c71_is_tty_stale_errno_refuted`); an unknown stream is unreachable code
  (`c71_is_tty_refuted`).
* On POSIX a destructor of thread-local storage that stores its value again is always invoked once per round of the
  system, and the value stored last is dropped (`c89_stored_again_refuted`); that is the system's rule, the header does
  not mention it.
* Sizes wrap in the default allocator (`c52_allocate_refuted`, `c52_reallocate_refuted`).
* Pointers without a check (`NullProps.v`): out-parameters of GetSize, GetCapacity, GetData, Get*Node, GetNodeData,
  Compare, Emplace, Find and BinarySearch (NULL is stored through: `c76_vector_refuted`, `c76_string_refuted`,
  `c76_bitset_refuted`, `c76_list_refuted`), comparison functions (`c76_comparison_refuted`), the bitset in Reserve and
  ShrinkToFit (the vector function gets a small non-NULL address); Remove and RemoveRange accept a NULL list.
* InsertRange of a vector's own elements that lie behind the position inserts their predecessors instead: they are
  moved before they are read (`c77_insert_before_refuted`, every vector with room); Insert on strings does the same
  (`c77_string_insert_before_refuted`). With overlap, or when the block is replaced, own elements are undefined
  behaviour (`c77_insert_overlap_refuted`, `c77_insert_full_refuted`, `c77_resize_refuted`, `c77_append_refuted`);
  inserting a string into itself before its end always is (`c77_string_insert_self_refuted`), as are Set and
  SetNodeData of an element to itself and SwapElements with one index.
* A loop ZYAN_VECTOR_FOREACH over two or more elements whose body removes an element at every item always dereferences
  NULL (`c78_foreach_remove_refuted`; `c78_foreach_delete_refuted` for the idiom of deleting the current element).
* Nothing checks the product of number and size of the elements: every Init and Reserve for which it wraps
  succeeds with a block that is too small, and so do Resize and Duplicate when the wrapped number is too little (`c79_init_refuted`, `c79_reserve_refuted`, `c79_resize_refuted`,
  `c79_resize_ex_refuted`, `c79_duplicate_refuted`). Resizing a string with growth factor 2 to 2^63-1 or more
  characters writes the NUL outside of its block (`c79_string_resize_refuted`, `c79_string_resize_max_refuted`), and a
  new string for 2^64-1 characters has room for none (`c79_string_init_refuted`).
* With growth factor 1 every push onto a full vector reallocates (`c80_growth_one_refuted`), and with a shrink threshold
  from 1 to the growth factor every pop does (`c80_shrink_refuted`); all such parameters are accepted by Init.
* ZyanBitsetInit chooses such parameters itself (growth factor 2, shrink threshold 2, src/Bitset.c:34-35; vectors and
  strings have threshold 4): once a default bitset is half empty, every eighth Pop requests a new block. Popping a new one
  of 16*m bits down to its last byte requests m*(m-1) bytes in m-1 blocks (`c86_default_bitset_refuted`).
* A list on a caller's buffer puts its nodes right behind each other. If the element size is not a multiple of 8 the
  second node begins at an address that is not aligned for its pointers; every history that fills the buffer gets
  there (`c81_fixed_list_refuted`). The formula for the capacity in the documentation has no padding either.
* STRNCMP does not stop at NUL (`c48_strncmp_refuted`, `c48_strncmp_overread_refuted`); STRSTR("", "") is NULL
  (`c48_strstr_empty_refuted`); STRCOLL is a stub (`c48_strcoll_refuted`). For all strings and memories:
  `c48_strncmp_behind_refuted`, `c48_strncmp_outside_refuted`, `c48_strstr_every_refuted`, `c48_strcoll_every_refuted`.
* STRTOK has a static variable per source file, so that a split cannot be continued in another file: the call there returns
  NULL (`c105_other_file_refuted`). Files that split strings of their own do not disturb each other (`c105_files_partial`).
* ALIGN_DOWN moves aligned values down (`c45_align_down_refuted`, `c45_align_down_zero_refuted`), ALIGN_UP wraps
  (`c45_align_up_wrap_refuted`) and loses the upper half with a 32-bit alignment (`c45_align_up_mixed_refuted`),
  BITS_TO_REPRESENT stops at 32 (`c45_bits_to_represent_refuted`), DIV64 in the Linux kernel takes the divisor as 32 bits
  (`c45_div64_kernel_zero_refuted`, `c45_div64_kernel_refuted`).
* The default comparison functions for numeric values compare unsigned numbers and there is none for signed numbers: every
  negative number is greater than every other one (`c104_default_mixed_refuted`), and BinarySearch with them does not find
  numbers that are there (`c104_default_search_refuted`). Functions declared for a signed type are right (`c104_signed_search`).

## 5. Assumptions printed

`Print Assumptions` prints "Closed under the global context" for every theorem listed in `MANIFEST.json`: no axiom is
used, not even one of the standard library.  (vcheck also lists the axioms of every library file that is loaded; those
of `Coq.ssr.ssrunder` come with `lia`'s support files and no theorem depends on them.)

## 6. Wrong programs

`seeded/LOG.jsonl` records edits of the model, the claims they break and the theorems that no longer prove;
`seeded/mutate.py` is the script that applies an edit to a scratch copy, rebuilds, and asks with `Print Assumptions`
which theorems rest on a proof that failed.  `seeded/edits*.py` are the edits.

A theorem listed as failed is one whose proof script no longer goes through.  That shows that the theorem depends on the
edited code; that its statement is false of the edited program was not proved separately.  The converse is the useful
direction: a claim none of whose theorems failed (`claims_without_failed_theorem`) points to a theorem that is too weak,
or to an edit that does not change the behaviour; the note of the entry says which.
Entries with the note "repeated" redo edits of an earlier run whose area left out files with theorems of the claim;
`not_checked` lists theorems of an entry whose file could not be rebuilt.

`seeded/automut.py` makes small edits mechanically (another comparison, constant, status, branch or argument) in every
definition of the model files, rebuilds what depends on them with the examples taken out, and stops at the first proof
that fails.  `seeded/autolog.py` writes its results into the log (entries with `"mechanical": true`): the failing proof and
the theorems that rest on it.  Of 1801 edits, 1645 made a proof fail at once.  156 survived: 110 of them fail since the
theorems named under `tightened` were added or strengthened, and 46 remain.  The remaining ones are in the parts that stand
for the operating system (answers the documentation leaves open, constants the library never passes), in fields that no
call reads, and in a branch no string reaches; `seeded/autonotes.json` says
which is which.
