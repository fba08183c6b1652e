#!/usr/bin/env python3
"""Writes properties.jsonl from the table below (one property per entry)."""
import json, os
P = []
def p(title, statement, quantifier, why, anchors):
    P.append(dict(id="C%02d" % (len(P) + 1), title=title, statement=statement,
                  quantifier=quantifier, why_tests_cant=why, anchors=anchors))

V = "src/Vector.c:"; VH = "include/Zycore/Vector.h:"
S = "src/String.c:"; F = "src/Format.c:"; L = "src/List.c:"; B = "src/Bitset.c:"

p("A growable vector behaves as a mathematical sequence",
  "Starting from a successfully initialised vector that owns its storage, after any sequence of PushBack, Insert, InsertRange, Emplace(Ex), Set, SwapElements, Delete, DeleteRange, PopBack, Clear, Resize(Ex), Reserve and ShrinkToFit calls whose allocator requests succeed, every call returns the status that the list-level specification prescribes, the elements read back with Get/GetPointer are exactly those of the list obtained by applying the list-level operation, GetSize is its length, and no call reads or writes outside storage it owns.",
  "all element sizes >= 1, growth factors >= 1, shrink thresholds, initial capacities, all finite operation sequences with all indices/counts/element bytes, all (arbitrary) contents of fresh memory, as long as size arithmetic stays below 2^64",
  "the space of operation histories is infinite and each re-allocation, shift and shrink decision depends on the whole history; tests fix one element type and a few histories",
  [V+"ZyanVectorPushBack", V+"ZyanVectorInsertRange", V+"ZyanVectorEmplaceEx", V+"ZyanVectorSet", V+"ZyanVectorSwapElements", V+"ZyanVectorDeleteRange", V+"ZyanVectorPopBack", V+"ZyanVectorResizeEx", V+"ZyanVectorReserve", V+"ZyanVectorShrinkToFit", V+"ZyanVectorReallocate"])
p("A fixed-buffer vector is a bounded sequence",
  "A vector initialised on a caller-supplied buffer behaves like a list bounded by the buffer capacity: an operation that would exceed the capacity returns INSUFFICIENT_BUFFER_SIZE and changes neither size nor contents, every other operation behaves as for a growable vector, no access ever leaves the caller's buffer, the data pointer never changes, and no allocator function is ever called.",
  "all buffers, capacities, element sizes and finite operation sequences",
  "requires checking every boundary position of every history; an out-of-bounds write by one element is usually invisible to a test",
  [V+"ZyanVectorInitCustomBuffer", V+"ZyanVectorReallocate"])
p("Allocation failure leaves a vector intact",
  "If the allocator refuses a request, the vector operation returns that error and the vector stays fully usable: size, contents and capacity describe the same storage as before the call, so later operations stay in bounds.",
  "all operations, all allocator failure patterns (which request fails)",
  "failures of the allocator at an arbitrary point are practically never exercised by tests",
  [V+"ZyanVectorReallocate", V+"ZyanVectorPushBack", V+"ZyanVectorResizeEx"])
p("Capacity bookkeeping and Reserve",
  "GetCapacity is never smaller than GetSize and always equals the number of elements the current storage can hold; after a successful Reserve(n) capacity is at least n and the following pushes up to n elements perform no allocator call and do not move elements; ShrinkToFit makes capacity equal max(1,size).",
  "all reachable vectors, all n, all push sequences up to n elements",
  "relation between a counter and the allocator history over unbounded histories",
  [V+"ZyanVectorReserve", V+"ZyanVectorShrinkToFit", V+"ZyanVectorGetCapacity"])
p("Element destructors run exactly once per removed element",
  "With a destructor callback set, Delete/DeleteRange/PopBack/Clear/Resize(shrinking)/Set/Destroy invoke it exactly once on each element that leaves the vector, with that element's value, in increasing index order, and no other operation invokes it.",
  "all vectors, all operations and arguments, any destructor function",
  "double or missing destruction only shows for particular index/count combinations and is invisible without instrumentation",
  [V+"ZyanVectorDeleteRange", V+"ZyanVectorPopBack", V+"ZyanVectorResizeEx", V+"ZyanVectorSet", V+"ZyanVectorDestroy"])
p("Vectors do not leak or double free",
  "In every life cycle init / any operations / destroy, each storage block obtained from the allocator is released exactly once and is never accessed after release; blocks not belonging to the vector are never modified.",
  "all operation histories, also those in which allocator requests fail",
  "requires tracking ownership over arbitrary histories",
  [V+"ZyanVectorInitEx", V+"ZyanVectorDestroy", V+"ZyanVectorReallocate"])
p("Linear search finds the first match",
  "Find/FindEx over [index,index+count) returns TRUE with the smallest matching index if one of the elements in the range satisfies the comparison, and FALSE with -1 otherwise; the vector is not modified. An empty range yields FALSE.",
  "all vectors, elements, comparison functions and in-range index/count pairs",
  "arbitrary comparison callbacks and ranges",
  [V+"ZyanVectorFind", V+"ZyanVectorFindEx"])
p("Binary search is a correct lower bound",
  "On a range that is sorted with respect to the comparison, BinarySearch/BinarySearchEx returns TRUE iff some element in the range compares equal, and found_index is the first position whose element is not less than the key (where the key must be inserted to keep order).",
  "all sorted vectors of any length, all keys and consistent comparison functions",
  "off-by-one and duplicate handling errors of binary search depend on length and position; needs induction over the interval",
  [V+"ZyanVectorBinarySearchEx"])
p("Duplicating a vector yields an equal, independent copy",
  "Duplicate/DuplicateEx/DuplicateCustomBuffer produce a vector with the same elements in storage disjoint from the source, with capacity at least max(1, requested capacity, length); the source is unchanged, later operations on one do not affect the other; a too small custom buffer is rejected.",
  "all source vectors, capacities, allocators behaviours and later operations",
  "independence is a statement about every later operation",
  [V+"ZyanVectorDuplicateEx", V+"ZyanVectorDuplicateCustomBuffer"])
p("Out-of-range vector arguments are always rejected",
  "For every 64-bit index and count, an operation whose index/count does not denote a range inside the vector returns an error status and leaves the vector unchanged, without touching memory out of bounds.",
  "all values of index and count in [0,2^64)",
  "the critical values are those where 64-bit sums wrap around; tests use small numbers",
  [V+"ZyanVectorDeleteRange", V+"ZyanVectorInsertRange", V+"ZyanVectorFindEx", V+"ZyanVectorBinarySearchEx"])
p("Emplace is atomic with respect to constructor failure",
  "If the constructor callback passed to Emplace/EmplaceEx fails, its status is returned and the vector has the same elements as before the call.",
  "all vectors, insertion indices and constructors",
  "failing constructors at every index of every vector cannot be enumerated",
  [V+"ZyanVectorEmplaceEx"])
p("Swapping elements",
  "SwapElements(i,j) exchanges exactly the elements i and j of the vector, and fails with a status and no effect when an index is out of range or when there is no spare element slot; swapping twice restores the vector.",
  "all vectors and index pairs",
  "uses hidden scratch storage behind the last element; depends on size/capacity relation",
  [V+"ZyanVectorSwapElements"])
p("A growable string behaves as a sequence of characters and stays NUL-terminated",
  "From a successfully initialised string, after any sequence of Append, Insert, Delete, Truncate, Clear, Resize, SetChar, ToLower/UpperCase(Ex), Reserve, ShrinkToFit (allocations succeeding), GetSize and GetChar/GetData report exactly the character list of the specification, the byte after the last character is 0, and no access is out of bounds.",
  "all strings, all operation sequences, all indices/counts with in-range sums, all source views not overlapping the destination",
  "histories with re-allocations and shifts are unbounded",
  [S+"ZyanStringAppend", S+"ZyanStringInsert", S+"ZyanStringDelete", S+"ZyanStringTruncate", S+"ZyanStringResize", S+"ZyanStringClear", S+"ZyanStringSetChar", S+"ZyanStringToLowerCaseEx", S+"ZyanStringToUpperCaseEx"])
p("A fixed-buffer string is a bounded NUL-terminated sequence",
  "A string on a caller-supplied buffer of n bytes holds at most n-1 characters; growing operations beyond that fail with INSUFFICIENT_BUFFER_SIZE without changing the string; it stays NUL-terminated inside the buffer; no allocator is called.",
  "all buffers, capacities and operation sequences",
  "boundary n-1 must hold at every point of every history",
  [S+"ZyanStringInitCustomBuffer", S+"ZyanStringAppend", S+"ZyanStringInsert", S+"ZyanStringResize"])
p("Views of C strings and buffers",
  "ZyanStringViewInsideBuffer(Ex) yields a view whose size and characters are those of the C string / of the given range of the buffer; GetData points at its first character. The same holds for a view defined by ZYAN_DEFINE_STRING_VIEW from a C string.",
  "all buffers and lengths",
  "all lengths, contents without terminators",
  [S+"ZyanStringViewInsideBuffer", S+"ZyanStringViewInsideBufferEx"])
p("Sub-views of views",
  "ZyanStringViewInsideViewEx(view, source, index, count) yields exactly the characters [index, index+count) of source, and InsideView yields all of source.",
  "all source views, all index/count with index+count <= size",
  "all ranges, including empty ones and those at the end",
  [S+"ZyanStringViewInsideViewEx", S+"ZyanStringViewInsideView"])
p("LPos finds the first occurrence",
  "LPos/LPosEx returns TRUE and the smallest position in the range at which the needle occurs entirely inside the range, or FALSE and -1 when it does not occur.",
  "all haystacks, needles without embedded NUL, and ranges",
  "hand-written pattern matching; needs all overlaps/partial matches at all positions",
  [S+"ZyanStringLPosEx", S+"ZyanStringLPos"])
p("RPos finds the last occurrence",
  "RPos/RPosEx returns TRUE and the largest position at which the needle occurs entirely inside the range, or FALSE and -1 when it does not occur.",
  "all haystacks, needles and ranges",
  "backward scanning has many boundary cases",
  [S+"ZyanStringRPosEx", S+"ZyanStringRPos"])
p("Case-insensitive search and comparison",
  "The I variants (LPosI, RPosI, CompareI) behave like their case-sensitive counterparts applied after mapping ASCII letters to one case; characters that are not letters only match themselves.",
  "all pairs of byte strings",
  "256x256 character pairs at all positions",
  [S+"ZyanStringLPosIEx", S+"ZyanStringRPosIEx", S+"ZyanStringCompareI"])
p("Compare returns 0 exactly for equal strings",
  "ZyanStringCompare succeeds with result 0 iff both strings have the same characters; otherwise returns the non-equal status with -1 or 1.",
  "all pairs of NUL-terminated strings",
  "all pairs of strings",
  [S+"ZyanStringCompare"])
p("Compare is a total order",
  "For s1 <> s2, Compare(s1,s2) = -Compare(s2,s1) (antisymmetry) and Compare is transitive, so it can be used for sorting.",
  "all pairs / triples of strings",
  "order axioms quantify over all pairs and triples",
  [S+"ZyanStringCompare", S+"ZyanStringCompareI"])
p("Case conversion",
  "ToLowerCase(Ex)/ToUpperCase(Ex) map exactly the ASCII letters in the selected range to the requested case, keep every other character and the length, and reject ranges outside the string.",
  "all strings and ranges",
  "all byte values at all positions",
  [S+"ZyanStringToLowerCaseEx", S+"ZyanStringToUpperCaseEx"])
p("String capacity contract",
  "After a successful ZyanStringReserve(n), GetCapacity reports at least n characters, and n characters can be stored without further allocation; GetCapacity is never below GetSize.",
  "all strings and n",
  "off-by-one relative to the hidden terminator",
  [S+"ZyanStringReserve", S+"ZyanStringGetCapacity", S+"ZyanStringShrinkToFit"])
p("String duplication and concatenation",
  "Duplicate produces an independent string with the same characters; Concat produces s1 followed by s2; sources are unchanged; custom-buffer variants fail cleanly when the buffer cannot hold the result plus terminator.",
  "all source views, capacities",
  "all lengths, incl. boundary buffers",
  [S+"ZyanStringDuplicateEx", S+"ZyanStringConcatEx", S+"ZyanStringDuplicateCustomBuffer", S+"ZyanStringConcatCustomBuffer"])
p("Decimal formatting of unsigned integers",
  "ZyanStringAppendDecU appends exactly the canonical decimal representation of the value, left-padded with '0' to padding_length, for every 64-bit value; parsing the digits yields the value, there are no superfluous leading zeros without padding.",
  "all 2^64 values, all padding lengths 0..255, all destination strings",
  "2^64 x 256 inputs",
  [F+"ZyanStringAppendDecU64", F+"ZyanStringAppendDecU32", F+"ZyanStringAppendDecU"])
p("Hexadecimal formatting of unsigned integers",
  "ZyanStringAppendHexU appends exactly the canonical hexadecimal representation of the value in the requested letter case, left-padded with '0' to padding_length, for every 64-bit value.",
  "all 2^64 values, padding lengths, cases and destination strings",
  "2^64 x 256 x 2 inputs",
  [F+"ZyanStringAppendHexU64", F+"ZyanStringAppendHexU32", F+"ZyanStringAppendHexU"])
p("Signed formatting",
  "AppendDecS/AppendHexS append an optional sign ('-' for negative values, '+' for others when force_sign), then the optional prefix, then the (padded) digits of the absolute value, for every 64-bit signed value including INT64_MIN.",
  "all 2^64 signed values, prefixes, flags",
  "extreme values and flag combinations",
  [F+"ZyanStringAppendDecS", F+"ZyanStringAppendHexS", "include/Zycore/Format.h:ZyanAbsI64"])
p("Formatting into a full buffer fails cleanly",
  "When the destination cannot hold the formatted number, the append functions return INSUFFICIENT_BUFFER_SIZE and the destination keeps its previous characters and terminator.",
  "all fixed-buffer strings, values and paddings",
  "every combination of remaining space and digit count",
  [F+"ZyanStringAppendDecU64", F+"ZyanStringAppendHexU64", F+"ZyanStringAppendDecS", F+"ZyanStringAppendHexS"])
p("printf-style append",
  "ZyanStringAppendFormat appends exactly the text produced by the C formatter (for every text length and remaining capacity), keeping the string NUL-terminated, or fails leaving the string unchanged.",
  "all formatter outputs, all growth factors/capacities, fixed and growable strings",
  "the two-pass vsnprintf protocol depends on remaining capacity vs. text length",
  [F+"ZyanStringAppendFormat"])
p("A linked list behaves as a mathematical sequence",
  "After any sequence of PushBack, PushFront, EmplaceBack/Front, PopBack, PopFront, Clear, Resize(Ex), SetNodeData, traversing from head via next yields exactly the specified element list, traversing from tail via prev yields its reverse, and GetSize is its length; pops on an empty list fail without effect.",
  "all operation sequences, element values, allocator behaviours",
  "pointer structure invariants over unbounded histories",
  [L+"ZyanListPushBack", L+"ZyanListPushFront", L+"ZyanListPopBack", L+"ZyanListPopFront", L+"ZyanListResizeEx", L+"ZyanListEmplaceBack", L+"ZyanListEmplaceFront"])
p("A fixed-buffer list never leaves its buffer nor hands out a slot twice",
  "For a list on a caller-supplied buffer of `capacity` bytes, every node handed out lies at a multiple of the node size inside the buffer, live nodes are pairwise distinct, removed nodes are recycled, an insertion fails with INSUFFICIENT_BUFFER_SIZE (list unchanged) exactly when floor(capacity/nodesize) elements are stored.",
  "all capacities, element sizes and operation histories",
  "free-list corruption depends on long push/pop interleavings",
  [L+"ZyanListAllocateNode", L+"ZyanListDeallocateNode", L+"ZyanListInitCustomBuffer"])
p("Removing a node removes it",
  "ZyanListRemove / ZyanListRemoveRange with SUCCESS remove the given node(s) from the list.",
  "all lists and nodes",
  "all positions in all lists",
  [L+"ZyanListRemove", L+"ZyanListRemoveRange"])
p("List destructors and node memory",
  "Every element leaving a list is destroyed exactly once and every node obtained from the allocator is released exactly once over a full life cycle; no node is used after release.",
  "all operation histories",
  "ownership over arbitrary histories",
  [L+"ZyanListDestroy", L+"ZyanListResizeEx", L+"ZyanListPopBack"])
p("A bitset is a sequence of bits",
  "For a bitset built with Push from an empty one, Test(i) returns bit i, Set/Reset/Assign/Toggle change exactly bit i, SetAll/ResetAll/Flip change exactly all bits, Push appends a bit, Pop removes the last bit, indices >= size are rejected without effect.",
  "all operation sequences and indices",
  "bit positions inside bytes over unbounded histories",
  [B+"ZyanBitsetSet", B+"ZyanBitsetReset", B+"ZyanBitsetAssign", B+"ZyanBitsetToggle", B+"ZyanBitsetTest", B+"ZyanBitsetPush", B+"ZyanBitsetPop", B+"ZyanBitsetFlip", B+"ZyanBitsetSetAll", B+"ZyanBitsetResetAll"])
p("Initialising a bitset with n bits",
  "ZyanBitsetInit(n)/InitBuffer(n) yields a bitset of exactly n usable bits, all 0: Test, Set and Reset work for every index < n.",
  "all n",
  "holds only for some residues of n mod 8; a test picks few n",
  [B+"ZyanBitsetInitEx", B+"ZyanBitsetInitBuffer", B+"ZYCORE_BITSET_BITS_TO_BYTES"])
p("All / Any / None",
  "ZyanBitsetAll (Any, None) returns TRUE iff all (at least one, no) bits with index < size are set.",
  "all bitsets of all sizes",
  "partial-last-byte handling depends on size mod 8 and on stale bits",
  [B+"ZyanBitsetAll", B+"ZyanBitsetAny", B+"ZyanBitsetNone"])
p("Counting bits",
  "ZyanBitsetCount returns the number of indices < size whose bit is set.",
  "all bitsets reachable by any operation sequence",
  "stale bits behind the end depend on history",
  [B+"ZyanBitsetCount"])
p("Bitwise operations between bitsets",
  "AND/OR/XOR replace every bit of the destination that both bitsets have by the combination of the two bits, and leave both sizes, the source, and the destination's other bits unchanged.",
  "all pairs of bitsets of all sizes",
  "different lengths and all bit patterns",
  [B+"ZyanBitsetPerformByteOperation", B+"ZyanBitsetAND", B+"ZyanBitsetOR", B+"ZyanBitsetXOR"])
p("Pop on an empty bitset is rejected",
  "ZyanBitsetPop on a bitset of size 0 fails and leaves the bitset unchanged.",
  "all reachable empty bitsets",
  "unsigned underflow appears only on the empty case after arbitrary histories",
  [B+"ZyanBitsetPop"])
p("Argument parsing follows the documented grammar",
  "ZyanArgParse accepts argv iff it conforms to the documented grammar (-- long options with optional value token, clustered single-dash options with attached or following value, -- terminator, unnamed arguments) and then returns, in order, one entry per option/unnamed argument with the right definition and value.",
  "all argv vectors, all option tables, all unnamed-argument bounds",
  "the input space is all argument vectors",
  ["src/ArgParse.c:ZyanArgParseEx", "include/Zycore/ArgParse.h:ZyanArgParseConfig"])
p("Clusters of boolean flags are not unnamed arguments",
  "A token such as -ab consisting only of boolean single-dash options yields exactly its options and is not counted or reported as an unnamed argument.",
  "all tokens made of declared boolean options",
  "all tables and clusters",
  ["src/ArgParse.c:ZyanArgParseEx"])
p("Argument count bounds and required options",
  "On success the number of unnamed arguments lies in [min_unnamed_args, max_unnamed_args] and every required option occurs among the parsed arguments; otherwise the matching error (TOO_FEW, TOO_MANY, REQUIRED_ARG_MISSING with the option's name as error token) is returned.",
  "all inputs",
  "all inputs",
  ["src/ArgParse.c:ZyanArgParseEx"])
p("Argument parser releases its vector on failure",
  "When ZyanArgParse returns an error, it holds no allocated memory: the parsed vector was destroyed (or never allocated).",
  "all inputs and allocator behaviours",
  "error paths x allocation failures",
  ["src/ArgParse.c:ZyanArgParseEx"])
p("Status codes are well formed",
  "ZYAN_MAKE_STATUS is invertible: module and code are recovered by ZYAN_STATUS_MODULE/CODE, the error bit decides ZYAN_SUCCESS/FAILED, and all predefined status values are pairwise distinct with TRUE/FALSE/SUCCESS non-errors.",
  "all 1/11/20 bit field values",
  "2^32 combinations",
  ["include/Zycore/Status.h:ZYAN_MAKE_STATUS", "include/Zycore/Status.h:ZYAN_SUCCESS"])
p("Alignment and arithmetic macros",
  "For a power of two a: ZYAN_ALIGN_UP(x,a) is the least multiple of a >= x and ZYAN_ALIGN_DOWN(x,a) the greatest multiple of a <= x; ZYAN_IS_ALIGNED_TO and ZYAN_IS_POWER_OF_2 decide alignment/powers of two; ZYAN_BITS_TO_REPRESENT(n) is the bit length of n; ZYAN_DIV64(n, d) replaces n by the quotient rounded down.",
  "all unsigned 32/64-bit values and alignments",
  "2^64 inputs",
  ["include/Zycore/Defines.h:ZYAN_ALIGN_UP", "include/Zycore/Defines.h:ZYAN_ALIGN_DOWN", "include/Zycore/Defines.h:ZYAN_IS_POWER_OF_2", "include/Zycore/Defines.h:ZYAN_IS_ALIGNED_TO", "include/Zycore/Defines.h:ZYAN_BITS_TO_REPRESENT", "include/Zycore/Defines.h:ZYAN_DIV64"])
p("Default comparison functions are orders",
  "ZyanEquals* decide equality; ZyanCompare* return -1/0/1 and form a total order consistent with the equality functions, hence usable with BinarySearch.",
  "all values of each width",
  "all pairs/triples of values",
  ["include/Zycore/Comparison.h:ZYAN_DECLARE_COMPARISON", "include/Zycore/Comparison.h:ZYAN_DECLARE_EQUALITY_COMPARISON"])
p("No-libc memory functions meet the C specification",
  "The fallback ZYAN_MEMCPY/MEMMOVE/MEMSET/MEMCMP/MEMCHR have the ISO C meaning: MEMMOVE is correct for arbitrarily overlapping ranges, MEMCPY for non-overlapping ones, bytes outside the destination are unchanged, MEMCMP's sign is the lexicographic order, MEMCHR finds the first match.",
  "all memories, addresses, lengths, overlaps",
  "all overlaps and lengths",
  ["include/Zycore/LibC.h:ZYAN_MEMMOVE", "include/Zycore/LibC.h:ZYAN_MEMCPY", "include/Zycore/LibC.h:ZYAN_MEMSET", "include/Zycore/LibC.h:ZYAN_MEMCMP", "include/Zycore/LibC.h:ZYAN_MEMCHR"])
p("No-libc string functions meet the C specification",
  "The fallback ZYAN_STRLEN/STRCPY/STRCAT/STRNCPY/STRNCAT/STRCMP/STRNCMP/STRCHR/STRRCHR/STRSPN/STRCSPN/STRPBRK/STRSTR/STRTOK return what ISO C prescribes for NUL-terminated strings and read no byte beyond the terminators.",
  "all NUL-terminated strings and counts",
  "all strings",
  ["include/Zycore/LibC.h:ZYAN_STRCMP", "include/Zycore/LibC.h:ZYAN_STRNCMP", "include/Zycore/LibC.h:ZYAN_STRSTR", "include/Zycore/LibC.h:ZYAN_STRTOK"])
p("Atomic counters under concurrency",
  "For any interleaving of ZyanAtomicIncrement/Decrement/CompareExchange calls of any number of threads, no update is lost: the final value equals the initial one plus increments minus decrements (mod width), each increment returns the value it produced, compare-exchange swaps iff the old value equals the comparand and returns the old value.",
  "all numbers of threads, all programs of atomic calls, all interleavings",
  "schedules cannot be enumerated by tests",
  ["include/Zycore/Internal/AtomicGNU.h:ZyanAtomicIncrement32", "include/Zycore/Internal/AtomicGNU.h:ZyanAtomicDecrement32", "include/Zycore/Internal/AtomicGNU.h:ZyanAtomicCompareExchange32"])
p("Critical sections give mutual exclusion",
  "Between a successful Enter (or TryEnter returning TRUE) and the matching Leave of a thread no other thread's Enter/TryEnter succeeds; the section is recursive for its owner; every pthread error is reported as a non-success status.",
  "all threads, all schedules, all error codes",
  "all schedules",
  ["src/API/Synchronization.c:ZyanCriticalSectionEnter", "src/API/Synchronization.c:ZyanCriticalSectionTryEnter", "src/API/Synchronization.c:ZyanCriticalSectionLeave"])
p("System wrappers report failures",
  "Memory, process, thread and terminal wrappers return SUCCESS (TRUE/FALSE) exactly when the underlying system call succeeded, and an error status otherwise; argument validation rejects unknown streams.",
  "all return values / errno values of the underlying calls",
  "most errno values cannot be provoked in tests",
  ["src/API/Memory.c:ZyanMemoryVirtualProtect", "src/API/Process.c:ZyanProcessFlushInstructionCache", "src/API/Thread.c:ZyanThreadTlsAlloc", "src/API/Terminal.c:ZyanTerminalIsTTY"])
p("Default allocator contract",
  "Allocate(element_size, n) and Reallocate return storage for n elements of element_size bytes or fail with NOT_ENOUGH_MEMORY; a failed Reallocate keeps the old block valid.",
  "all element sizes and counts in [0,2^64)",
  "the product element_size*n overflows only for huge values",
  ["src/Allocator.c:ZyanAllocatorDefaultAllocate", "src/Allocator.c:ZyanAllocatorDefaultReallocate"])
p("Version encoding",
  "The MAJOR/MINOR/PATCH/BUILD macros decompose every 64-bit version value losslessly and ZycoreGetVersion decodes to 1.5.0.0.",
  "all 64-bit version values",
  "2^64 values",
  ["include/Zycore/Zycore.h:ZYCORE_VERSION_MAJOR", "src/Zycore.c:ZycoreGetVersion"])
p("Pushing an element of the vector itself",
  "PushBack with a pointer to an element of the same vector (obtained with Get) appends a copy of that element.",
  "all reachable vectors, all element indices, with and without spare capacity",
  "whether the source is still valid depends on whether this very call reallocates and whether realloc moves the block",
  [V+"ZyanVectorPushBack", V+"ZyanVectorReallocate", V+"ZyanVectorGet"])
p("Thread-local storage is per thread",
  "TlsGetValue on an allocated index returns the value the calling thread stored last under that index since TlsAlloc (NULL if none), whatever other threads store under it.",
  "all histories of TlsAlloc/TlsFree/TlsSetValue/TlsGetValue calls of all threads",
  "all schedules and failure points",
  ["src/API/Thread.c:ZyanThreadTlsAlloc", "src/API/Thread.c:ZyanThreadTlsGetValue", "src/API/Thread.c:ZyanThreadTlsSetValue"])
p("Appending a string to itself",
  "ZyanStringAppend(s, view of s) doubles the contents of s.",
  "all reachable strings",
  "whether the copied ranges overlap or dangle depends on the size and on reallocation",
  [S+"ZyanStringAppend"])
p("Views that are not NUL-terminated",
  "Searching, comparing and reading a view only touches the characters of the view, even when the view is part of a larger buffer and is not followed by a NUL character.",
  "all views into all buffers",
  "out-of-bounds reads by one are usually invisible in tests",
  [S+"ZyanStringLPosEx", S+"ZyanStringCompare", S+"ZyanStringRPosEx"])
p("String append under allocation failure",
  "An Append that needs more memory than the allocator gives reports the allocator's error and leaves contents, capacity and memory as they were.",
  "all reachable strings, appended texts and failure points",
  "failure points of the allocator are rarely tested",
  [S+"ZyanStringAppend", "src/Vector.c:ZyanVectorReallocate"])
p("String range checks",
  "Every string call whose position or range is not inside the string reports OUT_OF_RANGE and changes nothing.",
  "all reachable strings, all 64-bit positions and counts",
  "2^128 pairs, including sums that wrap",
  [S+"ZyanStringDelete", S+"ZyanStringInsert", S+"ZyanStringSetChar", S+"ZyanStringToLowerCaseEx"])
p("Number formatting under allocation failure",
  "A formatting append that needs more memory than the allocator gives reports the allocator's error and leaves the string's characters as they were.",
  "all reachable strings, values and failure points",
  "failure points of the allocator are rarely tested",
  [F+"ZyanStringAppendDecU", F+"ZyanStringAppendHexU", F+"ZyanStringAppendDecS"])
p("A failed Push leaves the bitset unchanged",
  "ZyanBitsetPush that fails, because a fixed buffer is full or because the allocation fails, leaves size and bits of the bitset as they were.",
  "all reachable bitsets whose size is a multiple of 8, all failure points",
  "the failing allocation must hit exactly the byte boundary",
  [B+"ZyanBitsetPush"])
p("Reserve of a bitset",
  "After ZyanBitsetReserve(n) succeeds, the capacity of the bitset is at least n bits and its bits are unchanged.",
  "all reachable bitsets and all 64-bit n",
  "the rounding to bytes and the 32-bit byte count go wrong for some n only",
  [B+"ZyanBitsetReserve", B+"ZyanBitsetGetCapacity", B+"ZYCORE_BITSET_BITS_TO_BYTES"])
p("A failed list call leaves the list unchanged",
  "Every list call that reports an error leaves the elements, their order and their nodes as they were.",
  "all reachable lists, all calls, all failure points of the allocator and all buffer sizes",
  "the failure must hit exactly one of the allocations of one call",
  [L+"ZyanListResizeEx", L+"ZyanListPushBack", L+"ZyanListEmplaceFront"])
p("List nodes keep their address",
  "A node obtained from a list stays valid and keeps its element (until SetNodeData) while other elements are added or removed; all nodes of a list are pairwise different.",
  "all reachable lists, all calls",
  "node reuse depends on the history of removals",
  [L+"ZyanListAllocateNode", L+"ZyanListDeallocateNode", L+"ZyanListPopFront"])
p("A list never writes outside its buffer or nodes, whatever the element size",
  "For every element size and buffer capacity that Init accepts, no call touches memory outside the buffer (or the allocated nodes).",
  "all element sizes and capacities in [1,2^64)",
  "the node size wraps for huge element sizes only",
  [L+"ZyanListAllocateNode", L+"ZyanListInitCustomBuffer"])
p("Parsed values are readable strings",
  "Every character of a value returned by the argument parser can be read with ZyanStringGetChar.",
  "all argument vectors, all option tables, all parsed values and indices",
  "the tests compare the raw character pointer only",
  ["src/ArgParse.c:ZyanArgParseEx", S+"ZyanStringViewInsideBuffer", S+"ZyanStringGetChar"])
p("Critical sections on Windows",
  "On Windows, as on POSIX: at most one thread is inside a critical section, it may enter again, TryEnter never blocks and tells whether the section was entered, and Leave by a thread that is not inside is reported and has no effect.",
  "all interleavings of calls of any number of threads",
  "schedules cannot be enumerated; the Windows functions do not report misuse",
  ["src/API/Synchronization.c:ZyanCriticalSectionEnter", "src/API/Synchronization.c:ZyanCriticalSectionTryEnter", "src/API/Synchronization.c:ZyanCriticalSectionLeave"])
p("Thread-local storage on Windows",
  "On Windows, as on POSIX: TlsGetValue returns the value the calling thread stored last under an index in use, or NULL; other threads never change it.",
  "all histories of calls by any number of threads (and fibers), all failures of the system",
  "depends on which thread (and which fiber) stored what in an unbounded history",
  ["src/API/Thread.c:ZyanThreadTlsAlloc", "src/API/Thread.c:ZyanThreadTlsGetValue", "src/API/Thread.c:ZyanThreadTlsSetValue", "src/API/Thread.c:ZyanThreadTlsFree"])
p("VirtualFree releases the given pages only",
  "If ZyanMemoryVirtualFree(address, size) succeeds, the pages that hold bytes of [address, address+size) are released and every other page stays as it was; if it fails nothing changes.",
  "all page layouts, addresses and sizes, on POSIX and on Windows, all answers of the system",
  "a page released by mistake is only noticed when it is used later",
  ["src/API/Memory.c:ZyanMemoryVirtualFree"])
p("VirtualProtect sets the named rights on the given pages only",
  "If ZyanMemoryVirtualProtect(address, size, protection) succeeds, exactly the pages that hold bytes of [address, address+size) have the read/write/execute rights in the name of the protection, and every other page keeps its rights; if it fails nothing changes.",
  "all page layouts, addresses, sizes and protections, on POSIX and on Windows, all answers of the system",
  "wrong rights on some page only show when that page is accessed in that way",
  ["src/API/Memory.c:ZyanMemoryVirtualProtect", "include/Zycore/API/Memory.h:ZyanMemoryPageProtection"])
p("System wrappers on Windows report what the system did",
  "On Windows each wrapper issues its system call with the caller's arguments and reports success exactly if the system did; EnableVT100 changes nothing of the console mode but the VT100 bit; IsTTY answers for valid streams and rejects others.",
  "all arguments, all answers of the system",
  "system failures and left-over error codes cannot be provoked by tests",
  ["src/API/Process.c:ZyanProcessFlushInstructionCache", "src/API/Memory.c:ZyanMemoryGetSystemPageSize", "src/API/Thread.c:ZyanThreadGetCurrentThreadId", "src/API/Terminal.c:ZyanTerminalEnableVT100", "src/API/Terminal.c:ZyanTerminalIsTTY"])
p("Compiling the assertions out changes nothing for correct callers",
  "A call, or a history of calls, that runs without undefined behaviour and without a failing assertion in a build with assertions returns the same statuses and results, makes the same allocator requests and destructor calls and leaves the same memory in a build without assertions.",
  "all containers, strings, formatting calls, bitsets, lists and parser runs; all histories, memories and allocator behaviours",
  "tests run in one build only; an assertion with an effect, or one that hides a missing check, shows in the other build",
  ["include/Zycore/Defines.h:ZYAN_ASSERT", V+"ZyanVectorReallocate", S+"ZyanStringInsert", "src/List.c:ZyanListDestroy", "src/Bitset.c:ZyanBitsetPerformByteOperation"])
p("Calls depend only on the allocator answers they get",
  "What a call, or a history of calls, does and returns depends on the allocator only through the answers to the requests it makes itself: another allocator that answers these requests alike gives the same results, memory and destructor calls; a call that makes no request behaves alike with every allocator.",
  "all containers, strings, formatting calls, bitsets, lists and parser runs; all histories, memories and pairs of allocators",
  "two allocators that differ somewhere in the unbounded future cannot be told apart by any finite set of runs",
  [V+"ZyanVectorReallocate", V+"ZyanVectorInitEx", S+"ZyanStringInitEx", "src/List.c:ZyanListAllocateNode", "src/ArgParse.c:ZyanArgParseEx"])
p("A growable vector keeps working when requests are refused",
  "With an allocator that refuses requests at will, a vector call whose request is refused returns the allocator's error, and every other call does what it does with a working allocator; at every point all elements can be read and Destroy destroys each element once and gives all memory back.",
  "all allocators, all element sizes, growth factors and shrink thresholds, all histories of calls",
  "the requests that are refused can be any set, in any history",
  [V+"ZyanVectorReallocate", V+"ZyanVectorPopBack", V+"ZyanVectorDeleteRange", V+"ZyanVectorShrinkToFit", V+"ZyanVectorDestroy"])
p("Objects do not disturb one another",
  "A program that creates, uses and destroys any number of vectors, strings and bitsets in any interleaving, also copying from one object into another, duplicating and concatenating objects and formatting numbers, gets from each object the statuses and contents it would get by the object's own specification; a call leaves all other objects, and all memory the program does not own, as they were; after everything is destroyed the memory is as before the program.",
  "all programs over any number of vectors, strings and bitsets with a working allocator, all parameters, all initial memories",
  "the number of objects and the interleavings of their calls are unbounded",
  [V+"ZyanVectorPushBack", V+"ZyanVectorDestroy", S+"ZyanStringAppend", S+"ZyanStringInsert", "src/Bitset.c:ZyanBitsetXOR", "src/Allocator.c:ZyanAllocatorDefault"])
p("NULL arguments are refused",
  "A call of a vector, string, formatting, bitset or list function with NULL for the object, or for a pointer the function needs, reports an error (INVALID_ARGUMENT, unless another error comes first) and changes neither the object, nor the memory, nor the out-parameters; no allocator request is made. With all pointers given the checks have no effect.",
  "all functions of the five modules, each pointer parameter, all other arguments, all object states and memories",
  "each pointer parameter has to be combined with all values of the other parameters and all states of the object",
  [V+"ZyanVectorPushBack", V+"ZyanVectorEmplaceEx", V+"ZyanVectorGetSize", S+"ZyanStringDuplicateEx", S+"ZyanStringGetSize", "src/Bitset.c:ZyanBitsetReserve", L+"ZyanListGetHeadNode", F+"ZyanStringAppendDecS"])
p("An element of a container can be passed to a call on the same container",
  "A call that takes a pointer to an element (or a view of characters, or node data) and gets a pointer into its own container behaves as if the caller had passed a copy: Set, InsertRange, ResizeEx and PushBack on vectors, Append and Insert on strings, PushBack, PushFront, SetNodeData and ResizeEx on lists.",
  "all reachable vectors, strings and lists, all positions of the element and of the insertion, all lengths, with and without reallocation",
  "whether the pointer still points to the element when it is read depends on position, length and capacity together",
  [V+"ZyanVectorInsertRange", V+"ZyanVectorSet", V+"ZyanVectorResizeEx", S+"ZyanStringInsert", S+"ZyanStringAppend", L+"ZyanListPushBack", L+"ZyanListSetNodeData"])
p("The loop macros visit every element once",
  "ZYAN_VECTOR_FOREACH and ZYAN_VECTOR_FOREACH_MUTABLE run their body once for every element the vector had at the start, in order, with the element (or a pointer to it), until the body leaves the loop; this also holds when the body adds or removes elements.  ZYAN_VECTOR_GET and ZYAN_LIST_GET yield the element at the index or of the node.",
  "all reachable vectors and lists, all loop bodies that make calls on the vector depending on the items and the statuses so far",
  "the bodies are programs, and each of their calls can change the vector the loop goes through",
  [VH+"ZYAN_VECTOR_GET", VH+"ZYAN_VECTOR_FOREACH", VH+"ZYAN_VECTOR_FOREACH_MUTABLE", "include/Zycore/List.h:ZYAN_LIST_GET", V+"ZyanVectorGet"])
p("Sizes that do not fit are refused",
  "A call that would need more bytes than can be counted (number of elements, times growth factor, times element size, beyond 2^64) reports an error; after a successful Init, Reserve, Resize or Duplicate the vector or string has memory for the capacity and size it reports, so that filling it touches no other memory.",
  "all reachable vectors and strings, all element sizes, growth factors, capacities and sizes, with an allocator that grants every request",
  "the products wrap only for particular combinations of huge sizes, element sizes and growth factors",
  [V+"ZyanVectorInitEx", V+"ZyanVectorReserve", V+"ZyanVectorResizeEx", V+"ZyanVectorDuplicateEx", V+"ZyanVectorReallocate", S+"ZyanStringResize", S+"ZyanStringInitEx", "src/Allocator.c:ZyanAllocatorDefaultReallocate"])
p("The cost of growing and shrinking is amortised",
  "Over any history of calls that insert, remove and resize, the blocks a growable vector asks its allocator for are together at most a constant times the number of elements put in and taken out (plus a constant for the state at the start); pushing n elements makes logarithmically many requests.",
  "all growable vectors, all growth factors and shrink thresholds, all histories of calls other than Reserve and ShrinkToFit",
  "it is a bound over whole histories, of any length, for all parameters",
  [V+"ZyanVectorPushBack", V+"ZyanVectorPopBack", V+"ZyanVectorInsertRange", V+"ZyanVectorDeleteRange", V+"ZyanVectorResizeEx", V+"ZyanVectorReallocate", VH+"ZYAN_VECTOR_DEFAULT_GROWTH_FACTOR", VH+"ZYAN_VECTOR_DEFAULT_SHRINK_THRESHOLD"])
p("Elements and list nodes are aligned",
  "Every node of a list and every element of a list or vector lies at an address suitable for its type, provided the allocator or the caller supplies suitably aligned memory and the element size is a multiple of the alignment of the element.",
  "all lists and vectors, growable or on a buffer, all element sizes, all histories of calls, all alignments and addresses of the memory",
  "the common platforms of a test run tolerate misaligned accesses, and whether one occurs depends on element size and history",
  [L+"ZyanListInitCustomBuffer", L+"ZyanListPushBack", L+"ZyanListAllocateNode", "include/Zycore/List.h:ZyanListGetNodeData", V+"ZyanVectorGet", V+"ZyanVectorInitCustomBuffer"])
p("A growable string keeps working when requests are refused",
  "With an allocator that refuses requests at will, a string call whose request is refused returns the allocator's error, and every other call does what it does with a working allocator; at every point the characters, their terminator and the capacity can be read, and Destroy gives all memory back.",
  "all allocators, capacities, growth factors and shrink thresholds, all histories of string calls",
  "the requests that are refused can be any set, in any history",
  [S+"ZyanStringAppend", S+"ZyanStringInsert", S+"ZyanStringDelete", S+"ZyanStringTruncate", S+"ZyanStringClear", S+"ZyanStringResize", S+"ZyanStringReserve", S+"ZyanStringShrinkToFit", S+"ZyanStringDestroy", V+"ZyanVectorReallocate"])
p("A growable bitset keeps working when requests are refused",
  "With an allocator that refuses requests at will, a bitset call whose request is refused returns the allocator's error, and every other call does what it does with a working allocator; at every point the size, the bits and the capacity can be read, and Destroy gives all memory back.",
  "all allocators that grant the request of Init, all initial sizes that are multiples of 8, growth factors and shrink thresholds, all histories of bitset calls",
  "the requests that are refused can be any set, in any history",
  [B+"ZyanBitsetPush", B+"ZyanBitsetPop", B+"ZyanBitsetClear", B+"ZyanBitsetReserve", B+"ZyanBitsetShrinkToFit", B+"ZyanBitsetTest", B+"ZyanBitsetDestroy", V+"ZyanVectorReallocate"])
p("Calls made between Enter and Leave are atomic",
  "When every thread makes its calls on shared data between ZyanCriticalSectionEnter (or a ZyanCriticalSectionTryEnter that returned true) and ZyanCriticalSectionLeave of one section, the results all threads see and the final data are those of making the calls one after the other, in an order that keeps the order of each thread and of calls that do not overlap. A vector shared like this is always the array that those calls make. Threads cannot deadlock on the section.",
  "all numbers of threads, all programs of guarded calls, all ways to split calls into steps, all schedules, all errors that the system may report, POSIX and Windows",
  "the number of schedules is unbounded and a test sees those the machine happens to choose",
  ["src/API/Synchronization.c:ZyanCriticalSectionEnter", "src/API/Synchronization.c:ZyanCriticalSectionTryEnter", "src/API/Synchronization.c:ZyanCriticalSectionLeave", "src/API/Synchronization.c:ZyanCriticalSectionInitialize", V+"ZyanVectorPushBack"])
p("A vector kept in order with BinarySearch is an ordered set",
  "A client that inserts an element where ZyanVectorBinarySearch did not find it, at the index the search returned, deletes an element where the search found it, and asks the search whether an element is there, gets the answers of a mathematical set, and the vector stays in strictly ascending order. Inserting all elements of a sequence at the index the search returns sorts the sequence.",
  "all comparison functions that are total preorders, all element sizes and vector parameters, all histories of insertions, deletions and queries",
  "the history and the comparison are unbounded; each call is right only if all calls before kept the order",
  [V+"ZyanVectorBinarySearch", V+"ZyanVectorInsert", V+"ZyanVectorDelete", "include/Zycore/Comparison.h:ZyanCompareNumeric32"])
p("Memory traffic of strings and bitsets is amortised",
  "The blocks that a history of calls on a growable string (without Reserve and ShrinkToFit) requests from the allocator are together at most a constant times the number of characters put in and taken out and of Clear calls, plus a constant. The same holds for a growable bitset and the number of bits pushed, popped and cleared. It holds in particular for objects with the default growth factor and shrink threshold.",
  "all histories of calls, all states reached, all sizes, all growth factors and shrink thresholds",
  "the bound is a sum over an unbounded history; a test sees one history, and no test measures the requests",
  [S+"ZyanStringInit", S+"ZyanStringAppend", S+"ZyanStringDelete", S+"ZyanStringClear", B+"ZyanBitsetInit", B+"ZyanBitsetPush", B+"ZyanBitsetPop", "src/Bitset.c:ZYAN_BITSET_SHRINK_THRESHOLD"])
p("Locks, update loops and reference counts built on the atomics work",
  "A lock that threads take by repeating ZyanAtomicCompareExchange until it finds 0 and give up by CompareExchange or Decrement excludes all others: what threads do inside takes effect one call after the other, and there is no deadlock. A value that threads change by computing f(old) and repeating CompareExchange until it still finds old goes through the updates one after the other, none is lost, and an iteration fails only because another thread has made an update meanwhile. An object whose references are counted by Increment and Decrement is destroyed by exactly one thread, after the last reference is given up, and nobody touches the count later.",
  "any number of threads, all programs, all schedules, all update functions, all starting values",
  "a test runs few threads on few schedules; mutual exclusion and no double destruction must hold on all",
  ["include/Zycore/Atomic.h:ZyanAtomicCompareExchange", "include/Zycore/Atomic.h:ZyanAtomicIncrement", "include/Zycore/Atomic.h:ZyanAtomicDecrement", "include/Zycore/Internal/AtomicGNU.h:ZyanAtomicCompareExchange32"])
p("A careful program survives memory exhaustion",
  "A program that uses any number of vectors, strings and bitsets, looks at every status, does not use an object whose Init failed, and only destroys an object one of whose calls was refused memory, is never in danger, whichever requests the allocator refuses. Refused calls return the allocator's error, everything else works as with enough memory, the other objects keep their contents, no other memory is touched. Wherever it stops, destroying what is left, in any order, always succeeds, runs the destructors and gives back all memory.",
  "all careful programs, which may decide by the statuses what to do next, all objects, all allocators that refuse any requests with any errors",
  "tests hardly ever refuse memory, and a program with n requests has 2^n ways to be refused",
  [V+"ZyanVectorInitEx", V+"ZyanVectorReallocate", V+"ZyanVectorDestroy", S+"ZyanStringInitEx", S+"ZyanStringDestroy", B+"ZyanBitsetInitEx", B+"ZyanBitsetDestroy"])
p("Destructors of thread-local storage run as documented",
  "POSIX: when a thread ends, the destructor given to ZyanThreadTlsAlloc is invoked exactly once with the value the thread has stored in the slot, if it is not NULL; releasing the slot and ending the process invoke nothing. Windows: the destructor is invoked exactly once with every stored value when its thread ends or the slot is released. A slot whose number is used again has the new destructor, and no values from before. In between, calls on allocated slots succeed, calls on others fail, and GetValue returns what the thread stored last.",
  "all histories of Alloc, Free, SetValue, GetValue and thread ends of any number of threads and slots, all orders in which the system visits the slots",
  "needs threads that end at chosen points, slots being reused, and every order of the system's visits",
  ["src/API/Thread.c:ZyanThreadTlsAlloc", "src/API/Thread.c:ZyanThreadTlsFree", "src/API/Thread.c:ZyanThreadTlsSetValue", "include/Zycore/API/Thread.h:ZyanThreadTlsCallback"])
p("Threads with objects of their own do not disturb one another",
  "Calls that different threads make at the same time on different objects have the results they would have had alone, whatever the interleaving of their accesses to memory and of their requests to the allocator; each thread's memory is as if it had been alone, and other memory is not touched. Calls that take const objects change nothing, so any number of threads may make them on the same objects at the same time.",
  "all numbers of threads, all programs of calls that are fine alone, all schedules of single memory accesses and allocator requests, all answers of the allocator",
  "tests see a few interleavings of a few programs; hidden shared state (static buffers, writes of a const call) shows only under the right schedule",
  [V+"ZyanVectorPushBack", V+"ZyanVectorFindEx", S+"ZyanStringAppend", S+"ZyanStringLPosEx", F+"ZyanStringAppendDecU64", B+"ZyanBitsetSet", L+"ZyanListPushBack", "src/ArgParse.c:ZyanArgParseEx"])
p("Searches call the comparison function in a fixed order, element first, and not too often",
  "A search calls the client's comparison with pointers to an element (left) and to the key (right), and with nothing else. Find compares the elements of the range in order, each once, and stops at the first that is equal. BinarySearch compares distinct elements of the range, at least floor(log2(n+1)) and at most ceil(log2(n+1)) of them, also when the range is not sorted or the answers contradict one another; its status says whether an answer was 'equal' and its index separates the compared elements that were smaller from the others. A refused range makes no call. The comparison may keep a state of its own.",
  "all vectors, keys, ranges, all comparison functions with any state of their own that leave the vector and the key alone",
  "a comparison with a counter, a cache or a heterogeneous key relies on which calls are made in which order; tests use stateless, symmetric comparisons",
  [V+"ZyanVectorFind", V+"ZyanVectorFindEx", V+"ZyanVectorBinarySearch", V+"ZyanVectorBinarySearchEx", "include/Zycore/Comparison.h:ZyanComparison", "include/Zycore/Comparison.h:ZyanEqualityComparison"])
p("Results do not depend on addresses, unused memory or the build",
  "A program that creates, uses and destroys vectors, strings and bitsets returns the same statuses, shows the same contents and calls destructors for the same elements in the same order wherever it runs: whatever the memory contained before, whichever blocks the allocator hands out and whatever is in them, in debug and in release builds. If the program leaves contents open (an emplaced element without a constructor, Resize to a larger size without an initial value, a logical operation whose source ends inside a byte), statuses, sizes, capacities of vectors and the number of destructor calls are still the same.",
  "all legal programs over any number of objects, all pairs of initial memories and of allocators that grant every request, both builds",
  "a read of uninitialised memory or a dependence on an address shows only when the memory happens to differ; tests run in one process image",
  [V+"ZyanVectorInitEx", V+"ZyanVectorResizeEx", V+"ZyanVectorEmplaceEx", S+"ZyanStringResize", S+"ZyanStringInsert", B+"ZyanBitsetPush", B+"ZyanBitsetAND"])
p("Pointers into vectors and strings stay valid until the storage moves",
  "A pointer obtained with Get from a vector, the data pointer of a string, or a view of a string stays valid through any further calls on the object as long as the allocator has granted no request since. It then still is what Get or GetData returns, and shows what is in that place now. Once a request has been granted, or a growable object destroyed, every access through the pointer is undefined. Which calls make a request follows from size, capacity, growth factor and shrink threshold alone. Objects on a caller-supplied buffer never make one.",
  "all reachable vectors and strings, all further histories of calls, all allocators including ones that refuse requests, all indices",
  "a stale pointer often still shows the old bytes, since realloc may leave the block where it is; whether a call moves the storage depends on the capacity that the whole history has built up",
  [V+"ZyanVectorGet", V+"ZyanVectorPushBack", V+"ZyanVectorPopBack", V+"ZyanVectorShrinkToFit", S+"ZyanStringGetData", S+"ZyanStringViewInsideView", S+"ZyanStringAppend", S+"ZyanStringDelete"])
p("What a refused formatting call leaves behind",
  "A call that appends a number to a growable string never faults, whichever of its requests the allocator refuses. It makes at most one request for an unsigned decimal, two for an unsigned hexadecimal, three for a signed decimal and four for a signed hexadecimal number. If all are granted the number is appended. Otherwise the refused request is the last one, its error is returned, and the string shows the old characters, followed by nothing, the sign, or sign and prefix; only a hexadecimal number longer than its padding may leave more: as many characters as the padding is wide, the first of them NUL. The string stays NUL-terminated and destroying it gives back its memory. A number that fits into the capacity needs no memory.",
  "all reachable growable strings, values, paddings, signs and prefixes, all allocators that refuse any requests with any errors",
  "the number of requests depends on capacity, growth factor and the lengths of the parts, and every one of them may be the one that is refused",
  [F+"ZyanStringAppendDecU", F+"ZyanStringAppendHexU", F+"ZyanStringAppendDecS", F+"ZyanStringAppendHexS"])
p("Each system error has its status",
  "Every call of the system wrappers translates the answer of the operating system by a fixed table: which status EINVAL, EAGAIN, ENOMEM, EPERM, EBUSY or any other error of the call stands for, and plain SUCCESS (no other success code) exactly for success. For thread-local storage this holds after any history of calls: storing under or releasing an index that is not in use is reported (INVALID_ARGUMENT, BAD_SYSTEMCALL), and TlsAlloc returns the index the system handed out exactly if it succeeds.",
  "all answers and error codes of the system, all histories of thread-local storage calls of any threads; POSIX and Windows",
  "a test machine produces only a few of the errors, and callers branch on the exact codes",
  ["src/API/Synchronization.c:ZyanCriticalSectionEnter", "src/API/Synchronization.c:ZyanCriticalSectionInitialize", "src/API/Thread.c:ZyanThreadTlsSetValue", "src/API/Thread.c:ZyanThreadTlsAlloc", "src/API/Memory.c:ZyanMemoryVirtualProtect", "src/API/Terminal.c:ZyanTerminalEnableVT100"])
p("Lists do not disturb each other",
  "A program that creates, uses and destroys any number of lists (growable, or in buffers of the caller that no two living lists share), in any order and whatever requests the allocator refuses, never faults. Every call returns the status, changes the elements and invokes the destructor as if its list were the only one; all other lists keep their elements. Nodes of different lists never share memory, other memory is left alone, and once all lists are destroyed no memory is left allocated.",
  "all programs over any number of lists with any element sizes, destructors and buffers, all refusals of the allocator",
  "interference shows only for particular interleavings of allocation and release between lists",
  [L+"ZyanListInitEx", L+"ZyanListInitCustomBuffer", L+"ZyanListPushBack", L+"ZyanListPopFront", L+"ZyanListDestroy"])
p("Formatted numbers read back and sort",
  "The text appended by AppendDecU, AppendHexU, AppendDecS or AppendHexS is accepted by a reader of integers (optional sign, the prefix, digits of the base) and gives back the number, for every 64-bit value, padding, case, sign option and prefix that is not itself taken for a sign. Compare and CompareI order two strings that differ only in a final non-negative number formatted in the same way like the numbers, and call them equal exactly for equal numbers. (For negative numbers the order is reversed.)",
  "all 64-bit values, paddings, cases, prefixes and preceding texts, after any history of string calls",
  "a round trip over all 64-bit values and paddings, and the order of all pairs, cannot be enumerated",
  [F+"ZyanStringAppendDecU", F+"ZyanStringAppendHexU", F+"ZyanStringAppendDecS", F+"ZyanStringAppendHexS", S+"ZyanStringCompare", S+"ZyanStringCompareI"])
p("Bitset calls in any order",
  "Init with any 64-bit number of bits, followed by any sequence of Set, Reset, Assign, Toggle, SetAll, ResetAll, Flip, Push, Pop, Clear, Reserve and ShrinkToFit, also sequences that make no sense such as Pop on an empty bitset or a Push into a full buffer, never touches memory outside the bitset; the status of every call and the answers of GetSize, GetSizeBytes, Test, TestMSB, TestLSB, Count, All, Any and None are those of one small machine with the claimed size and the bits of the bytes as its state. AND, OR and XOR of two such bitsets combine these bits. Destroy afterwards gives all memory back.",
  "all initial sizes, all sequences of calls (within the address space), growable and in a buffer, and all pairs of such bitsets",
  "the sequences, in particular those mixing errors, cannot be enumerated; tests only use sequences that make sense",
  [B+"ZyanBitsetInitEx", B+"ZyanBitsetInitBuffer", B+"ZyanBitsetPush", B+"ZyanBitsetPop", B+"ZyanBitsetSet", B+"ZyanBitsetSetAll", B+"ZyanBitsetClear", B+"ZyanBitsetReserve", B+"ZyanBitsetCount", B+"ZyanBitsetAll", B+"ZyanBitsetAny", B+"ZyanBitsetNone", B+"ZyanBitsetAND", B+"ZyanBitsetOR", B+"ZyanBitsetXOR", B+"ZyanBitsetDestroy"])
p("AppendFormat under every answer",
  "Whatever the C library's formatter answers in the first and in the second call ZyanStringAppendFormat makes, and whether or not the memory is granted: the status, the reported size and capacity and the bytes at the string's address are determined as follows. A formatter error, a fixed buffer that is too short and a refused allocation leave the size unchanged but write the beginning of the text behind the characters; after growing, the second text is cut at the room the growth factor leaves. Memory outside the string never changes.",
  "all strings reachable by string and formatting calls, all texts whose length is an int, all answers of both formatter calls, debug and release builds",
  "a test sees one formatter, which repeats its text, and an allocator that grants; the failing cases need fault injection and the bytes behind the terminator are not looked at",
  [F+"ZyanStringAppendFormat", F+"ZyanStringAppendDecS", F+"ZyanStringAppendHexS"])
p("Views of parts of larger texts, exactly",
  "For views whose text is not followed by a NUL character the comparing and searching functions behave as follows. ZyanStringCompare and ZyanStringCompareI take the byte behind both texts into account when the texts are alike, so equal texts followed by different bytes are always reported as different, and the call reads outside the memory if it ends with the text. ZyanStringLPosEx and ZyanStringLPosExI search for the characters from the needle's address up to the next NUL character, whatever size the needle has, and read one byte too many when the haystack ends within a possible occurrence.",
  "all views, all bytes behind them, all ranges, all characters",
  "tests compare and search terminated strings; which byte lies behind a part of a text is decided by the program around it",
  [S+"ZyanStringCompare", S+"ZyanStringCompareI", S+"ZyanStringLPosEx", S+"ZyanStringLPosExI", S+"ZyanStringLPos"])
p("Command lines are read back as they were written",
  "Whatever options and arguments a user writes on the command line - flags, options with a value in the next token or attached to the name, several flags in one token, plain arguments, and anything behind \"--\" - ZyanArgParse returns exactly these options, values and arguments in the order in which they were written, provided that the number of arguments and the required options are as configured. If such a command line is accepted, then so is every one with the same options and arguments in another order.",
  "all definition tables, all lists of options and arguments that fit them, all texts, all bounds, all permutations",
  "the ways to write an option multiply with each other; a test suite checks a handful of command lines",
  ["src/ArgParse.c:ZyanArgParse", "src/ArgParse.c:ZyanArgParseEx"])
p("A list makes one memory request per element it adds",
  "Each Push or Emplace on a growable list makes exactly one request to the allocator, whose answer decides about the call: granted means SUCCESS and the element is in the list, refused means the status of the refusal and an unchanged list. Resize to more elements makes one request for each of them in order; it stops at the first refusal, returns its status and keeps the elements added so far. Every other call, and every call on a list in a caller's buffer, makes no request and so cannot fail for lack of memory.",
  "all lists reachable by any calls, all allocator answers, all calls, all sizes",
  "that a call makes no request cannot be seen from its result; which of many requests is refused is a matter of the environment",
  [L+"ZyanListPushBack", L+"ZyanListPushFront", L+"ZyanListEmplaceBack", L+"ZyanListEmplaceFront", L+"ZyanListResizeEx", L+"ZyanListPopBack", L+"ZyanListPopFront", L+"ZyanListClear", L+"ZyanListSetNodeData"])
p("The argument parser makes no more memory requests than its entries need",
  "A call of ArgParse makes one request for as many entries as argv has strings, and one more whenever an entry does not fit, each of them for twice the room needed. If all of these are granted the call gives the verdict of the grammar, whatever the allocator would answer to further requests; if one is refused the call ends there with the status of the refusal. A command line without single-dash arguments, and every one with no more entries than argv has strings, makes only the first request; k further requests need more than 2^(k-1) times as many entries as strings.",
  "all definitions, all command lines, all limits, all allocator answers",
  "the number of requests is invisible in the result of a call, and which one is refused is a matter of the environment",
  ["src/ArgParse.c:ZyanArgParse", "src/ArgParse.c:ZyanArgParseEx", V+"ZyanVectorEmplace"])
p("Comparison functions for signed numbers",
  "The functions declared with ZYAN_DECLARE_COMPARISON, ZYAN_DECLARE_EQUALITY_COMPARISON and their _FOR_FIELD forms for a signed integral type order the numbers of that type and decide their equality, so that BinarySearch in an ascending vector of signed numbers finds a number exactly if it is there, at the number of smaller elements. The default comparison functions for numeric values of 8 to 64 bits do the same for signed numbers.",
  "all widths, all pairs of numbers, all field offsets, all ascending vectors",
  "all pairs of values; tests use small positive numbers",
  ["include/Zycore/Comparison.h:ZYAN_DECLARE_COMPARISON", "include/Zycore/Comparison.h:ZYAN_DECLARE_COMPARISON_FOR_FIELD", "include/Zycore/Comparison.h:ZyanCompareNumeric32", V+"ZyanVectorBinarySearch"])
p("Splitting several strings at a time with the fallback STRTOK",
  "Source files that each split a string of their own with ZYAN_STRTOK get the tokens of their string in order and NULL afterwards, in whatever order the files take their turns and whatever was split before; nothing outside the strings changes. As in ISO C a split begun in one source file can be continued in any other, and within one source file only the latest split is under way.",
  "all numbers of files, all strings and delimiters, all interleavings of the calls",
  "all interleavings; tests of a header live in one source file",
  ["include/Zycore/LibC.h:ZYAN_STRTOK", "include/Zycore/Defines.h:ZYAN_INLINE"])
p("Calls can be taken back",
  "A client that notes, for every successful call on a vector, string, bitset or list, the call that takes it back (PopBack for PushBack, Delete for Insert, Insert of the removed elements for Delete, Set of the old element for Set, Swap for Swap, Truncate for Append, Toggle for Toggle, Flip for Flip, and so on) and later makes the noted calls in reverse order gets its contents back, and none of the noted calls fails; in fixed buffers as well as with an allocator that works.",
  "all reachable containers, all sequences of calls of any length with their inverses, all contents",
  "sequences of any length over all contents; tests try single pairs",
  [V+"ZyanVectorInsertRange", V+"ZyanVectorDeleteRange", V+"ZyanVectorSwapElements", S+"ZyanStringTruncate", S+"ZyanStringInsert", B+"ZyanBitsetPop", B+"ZyanBitsetPush", L+"ZyanListPopBack"])
p("The searches agree with each other",
  "LPos and RPos give the same status and the occurrences lie between the positions they give; the case-insensitive variants find whatever the sensitive ones find; Compare calls two texts equal exactly if their sizes agree and LPos finds one at the start of the other. A loop that searches again behind (before) each position found, until the answer is not TRUE, meets exactly the occurrences, in ascending (descending) order. The same loop over a vector meets exactly the elements the comparison accepts, and ends with FALSE. On a sorted vector BinarySearch and Find give the same answer and the same position.",
  "all texts and needles without NUL, both kinds of comparison, all reachable vectors, all elements sought, all comparisons",
  "all pairs of texts and all vectors; tests compare single answers with literals, not functions with each other",
  [S+"ZyanStringLPosEx", S+"ZyanStringRPosEx", S+"ZyanStringLPosIEx", S+"ZyanStringRPosIEx", S+"ZyanStringCompare", S+"ZyanStringCompareI", V+"ZyanVectorFindEx", V+"ZyanVectorBinarySearch"])
p("Lower case and the case-insensitive functions agree",
  "CompareI, LPosIEx and RPosIEx give exactly the status and the result that Compare, LPosEx and RPosEx give after both texts were converted to lower case. Any sequence of whole-string conversions succeeds, and its effect is that of the last conversion alone.",
  "all texts and needles, all ranges, all sequences of conversions",
  "all pairs of texts and all characters; the conversion and the comparison are written independently of each other in the code",
  [S+"ZyanStringToLowerCase", S+"ZyanStringToUpperCase", S+"ZyanStringCompareI", S+"ZyanStringLPosIEx", S+"ZyanStringRPosIEx"])
p("Replacing all occurrences of a text",
  "A client loop that finds the next occurrence of a text with LPosEx, deletes it, inserts a replacement (unless that is empty) and goes on behind the replacement ends, and leaves exactly the text in which the occurrences, taken from the left, are replaced, also if the replacement contains the text sought. This holds for strings that grow, and in a fixed buffer whenever the result fits; if it does not fit, the loop ends with INSUFFICIENT_BUFFER_SIZE, with the next occurrence deleted and the rest of the text in place.",
  "all reachable strings, all contents, all texts sought and replacements of any length that lie in other memory, all buffer sizes",
  "the number of rounds, reallocations and moved ranges depends on the texts; tests try a few literals",
  [S+"ZyanStringLPosEx", S+"ZyanStringDelete", S+"ZyanStringInsert", S+"ZyanStringGetSize"])
p("Removing all matching elements of a vector",
  "A client loop that calls FindEx, deletes the element found and goes on at the same index until the answer is not TRUE ends, and leaves exactly the elements that do not match, in their order; so does a loop that walks from the last index down to the first and deletes what a predicate accepts. The destructor runs exactly once for each removed element, in the order of removal, and no memory outside the vector changes. The last answer of FindEx is FALSE, or OUT_OF_RANGE if nothing is left behind the last match.",
  "all reachable vectors (with an allocator or in a caller's buffer), all contents, all comparison functions, all patterns of matches",
  "the number of rounds, shrinking reallocations and moved ranges depends on the pattern of matches; tests try a few",
  [V+"ZyanVectorFindEx", V+"ZyanVectorDelete", V+"ZyanVectorGet", V+"ZyanVectorGetSize"])
p("Sorting and reversing a vector in place",
  "A client that sorts a vector with Get, a comparison function and SwapElements of neighbours (insertion sort), or reverses it with SwapElements, gets exactly that if the vector has room for one more element: the same elements in ascending order, with elements that compare equal in their old order, or in reverse order, in the same storage, with no destructor call and no other memory changed; BinarySearch then finds exactly the elements that were there. A vector in order is not touched. Without room for one more element, the first swap needed is refused with INSUFFICIENT_BUFFER_SIZE and nothing changes.",
  "all reachable vectors (with an allocator or in a caller's buffer), all contents, all comparison functions that are total preorders",
  "the number and positions of the swaps depend on the contents; tests try a few permutations",
  [V+"ZyanVectorSwapElements", V+"ZyanVectorGet", V+"ZyanVectorBinarySearch", V+"ZyanVectorGetSize"])
p("Programs over several bitsets",
  "A program that creates any number of bitsets with an allocator, changes them with the calls of the API in any order and combines any two of them (also one with itself) with AND, OR and XOR gets the statuses and, on every bitset, the answers that follow from the bits alone: no call changes a bitset it is not given as destination, and destroying all of them gives back all memory. Hence the laws of Boolean algebra hold for bitsets of any, also different, sizes: De Morgan, XOR twice restores, AND and OR are idempotent, the order of combining does not matter, the difference by Flip and AND is the one by OR and XOR; three XORs exchange the bits of two bitsets of equal byte size, and ResetAll and OR copy.",
  "all programs of legal calls with any number of bitsets of any size, any contents, all growth factors and shrink thresholds, all indices",
  "interference between containers and laws over all pairs of sizes need unboundedly many programs and contents",
  [B+"ZyanBitsetAND", B+"ZyanBitsetOR", B+"ZyanBitsetXOR", B+"ZyanBitsetFlip", B+"ZyanBitsetResetAll", B+"ZyanBitsetInitEx", B+"ZyanBitsetDestroy"])
p("Splitting a text at a separator and joining the parts",
  "A client that looks for a separator with LPosEx and takes the characters between two occurrences as a view (ViewInsideBufferEx or ViewInsideViewEx) gets views of exactly the pieces of the text, in order, without any memory being changed; inserting the views at the end of a string, with the separator between them, gives the text back.",
  "all texts, all non-empty separators, all previous contents of the view structs, all reachable growable strings that receive the parts",
  "where the pieces begin and end depends on overlapping and adjacent occurrences; tests try a few texts",
  [S+"ZyanStringLPosEx", S+"ZyanStringViewInsideBufferEx", S+"ZyanStringViewInsideViewEx", S+"ZyanStringViewGetSize", S+"ZyanStringViewGetData", S+"ZyanStringInsert"])
p("Lists of numbers in a string read back",
  "Numbers written one after the other into a string with the formatting functions (AppendDecU, AppendDecS, AppendHexU, AppendHexS, with any padding, sign option and prefix), with a separator appended between them, can be read back: if the separator begins with a character that is no digit, no sign and no part of the prefixes, splitting the string at the separator with LPosEx and ViewInsideBufferEx gives as many fields as numbers were written, and each field reads as its number, in order. In a growable string all calls succeed, in a fixed buffer they do when there is room for the longest numerals; whenever all calls succeed the numbers read back.",
  "all lists of numbers and options, all separators, all strings, 32- and 64-bit builds",
  "tests check single numbers against literal texts; that every list of numbers can be recovered depends on every numeral and on every boundary between them",
  [F+"ZyanStringAppendDecU", F+"ZyanStringAppendDecS", F+"ZyanStringAppendHexU", F+"ZyanStringAppendHexS", S+"ZyanStringAppend", S+"ZyanStringLPosEx", S+"ZyanStringViewInsideBufferEx"])
p("Elements that own memory are released exactly once",
  "A vector may hold objects that own memory (strings, allocated pointers) with a destructor that releases it. For growable vectors as long as the allocator grants its requests, and for vectors in a buffer of the caller always, after every sequence of PushBack, Insert, EmplaceEx, SwapElements (after a Reserve), Set, Delete, PopBack, Clear, Resize to fewer elements, Reserve and ShrinkToFit every object that is still in the vector is alive with its contents, every object that left it was released once, and Destroy leaves no memory behind; an object for which a caller's buffer has no room is refused and stays with the client. When the allocator refuses the request of a call other than Resize and Clear, the error is reported, the objects the vector had stay alive in it (those a deletion took out are released), the client keeps the object it offered, and Destroy leaves no memory behind. Two situations break this, each time they occur: a copy made by Duplicate shares the objects with the original, so that destroying both releases them twice; and if a Resize to fewer elements is refused its smaller block, the released objects stay in the vector and Destroy releases them again.",
  "all sequences of calls, all object contents, all element sizes, growth factors and shrink thresholds, all caller buffers",
  "a test sees a leak or a double release only in the histories it runs; here all histories and both failing situations are decided",
  [V+"ZyanVectorPushBack", V+"ZyanVectorInsert", V+"ZyanVectorEmplaceEx", V+"ZyanVectorSwapElements", V+"ZyanVectorSet", V+"ZyanVectorDeleteRange", V+"ZyanVectorPopBack", V+"ZyanVectorClear", V+"ZyanVectorResize", V+"ZyanVectorDestroy", V+"ZyanVectorDuplicateEx"])
p("Elements of a list that own memory are released exactly once",
  "A list may hold objects that own memory with a destructor that releases it. For growable lists, whatever the allocator answers, and for lists in a buffer of the caller: after every sequence of PushBack, PushFront, EmplaceBack, EmplaceFront, PopBack, PopFront, SetNodeData, Resize to fewer elements and Clear, where the caller stores the element after an Emplace and releases objects that were refused, every object that is still in the list is alive with its contents, every object that left it was released once, there is one node for each element, and Destroy leaves no memory behind.",
  "all sequences of calls, all object contents, all element sizes, all answers of the allocator, all buffers",
  "a test sees a leak or a double release only in the histories and allocator failures it runs; here all of them are decided",
  [L+"ZyanListPushBack", L+"ZyanListPushFront", L+"ZyanListEmplaceBack", L+"ZyanListEmplaceFront", L+"ZyanListPopBack", L+"ZyanListPopFront", L+"ZyanListSetNodeData", L+"ZyanListResize", L+"ZyanListClear", L+"ZyanListDestroy"])
out = os.path.join(os.path.dirname(__file__), "..", "properties.jsonl")
with open(out, "w") as f:
    for x in P: f.write(json.dumps(x) + "\n")
print(len(P))
