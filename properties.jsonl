{"id": "C01", "title": "A growable vector behaves as a mathematical sequence", "statement": "Starting from a successfully initialised vector that owns its storage, after any sequence of PushBack, Insert, InsertRange, Emplace(Ex), Set, SwapElements, Delete, DeleteRange, PopBack, Clear, Resize(Ex), Reserve and ShrinkToFit calls whose allocator requests succeed, every call returns the status that the list-level specification prescribes, the elements read back with Get/GetPointer are exactly those of the list obtained by applying the list-level operation, GetSize is its length, and no call reads or writes outside storage it owns.", "quantifier": "all element sizes >= 1, growth factors >= 1, shrink thresholds, initial capacities, all finite operation sequences with all indices/counts/element bytes, all (arbitrary) contents of fresh memory, as long as size arithmetic stays below 2^64", "why_tests_cant": "the space of operation histories is infinite and each re-allocation, shift and shrink decision depends on the whole history; tests fix one element type and a few histories", "anchors": ["src/Vector.c:ZyanVectorPushBack", "src/Vector.c:ZyanVectorInsertRange", "src/Vector.c:ZyanVectorEmplaceEx", "src/Vector.c:ZyanVectorSet", "src/Vector.c:ZyanVectorSwapElements", "src/Vector.c:ZyanVectorDeleteRange", "src/Vector.c:ZyanVectorPopBack", "src/Vector.c:ZyanVectorResizeEx", "src/Vector.c:ZyanVectorReserve", "src/Vector.c:ZyanVectorShrinkToFit", "src/Vector.c:ZyanVectorReallocate"]}
{"id": "C02", "title": "A fixed-buffer vector is a bounded sequence", "statement": "A vector initialised on a caller-supplied buffer behaves like a list bounded by the buffer capacity: an operation that would exceed the capacity returns INSUFFICIENT_BUFFER_SIZE and changes neither size nor contents, every other operation behaves as for a growable vector, no access ever leaves the caller's buffer, the data pointer never changes, and no allocator function is ever called.", "quantifier": "all buffers, capacities, element sizes and finite operation sequences", "why_tests_cant": "requires checking every boundary position of every history; an out-of-bounds write by one element is usually invisible to a test", "anchors": ["src/Vector.c:ZyanVectorInitCustomBuffer", "src/Vector.c:ZyanVectorReallocate"]}
{"id": "C03", "title": "Allocation failure leaves a vector intact", "statement": "If the allocator refuses a request, the vector operation returns that error and the vector stays fully usable: size, contents and capacity describe the same storage as before the call, so later operations stay in bounds.", "quantifier": "all operations, all allocator failure patterns (which request fails)", "why_tests_cant": "failures of the allocator at an arbitrary point are practically never exercised by tests", "anchors": ["src/Vector.c:ZyanVectorReallocate", "src/Vector.c:ZyanVectorPushBack", "src/Vector.c:ZyanVectorResizeEx"]}
{"id": "C04", "title": "Capacity bookkeeping and Reserve", "statement": "GetCapacity is never smaller than GetSize and always equals the number of elements the current storage can hold; after a successful Reserve(n) capacity is at least n and the following pushes up to n elements perform no allocator call and do not move elements; ShrinkToFit makes capacity equal max(1,size).", "quantifier": "all reachable vectors, all n, all push sequences up to n elements", "why_tests_cant": "relation between a counter and the allocator history over unbounded histories", "anchors": ["src/Vector.c:ZyanVectorReserve", "src/Vector.c:ZyanVectorShrinkToFit", "src/Vector.c:ZyanVectorGetCapacity"]}
{"id": "C05", "title": "Element destructors run exactly once per removed element", "statement": "With a destructor callback set, Delete/DeleteRange/PopBack/Clear/Resize(shrinking)/Set/Destroy invoke it exactly once on each element that leaves the vector, with that element's value, in increasing index order, and no other operation invokes it.", "quantifier": "all vectors, all operations and arguments, any destructor function", "why_tests_cant": "double or missing destruction only shows for particular index/count combinations and is invisible without instrumentation", "anchors": ["src/Vector.c:ZyanVectorDeleteRange", "src/Vector.c:ZyanVectorPopBack", "src/Vector.c:ZyanVectorResizeEx", "src/Vector.c:ZyanVectorSet", "src/Vector.c:ZyanVectorDestroy"]}
{"id": "C06", "title": "Vectors do not leak or double free", "statement": "In every life cycle init / any operations / destroy, each storage block obtained from the allocator is released exactly once and is never accessed after release; blocks not belonging to the vector are never modified.", "quantifier": "all operation histories, also those in which allocator requests fail", "why_tests_cant": "requires tracking ownership over arbitrary histories", "anchors": ["src/Vector.c:ZyanVectorInitEx", "src/Vector.c:ZyanVectorDestroy", "src/Vector.c:ZyanVectorReallocate"]}
{"id": "C07", "title": "Linear search finds the first match", "statement": "Find/FindEx over [index,index+count) returns TRUE with the smallest matching index if one of the elements in the range satisfies the comparison, and FALSE with -1 otherwise; the vector is not modified. An empty range yields FALSE.", "quantifier": "all vectors, elements, comparison functions and in-range index/count pairs", "why_tests_cant": "arbitrary comparison callbacks and ranges", "anchors": ["src/Vector.c:ZyanVectorFind", "src/Vector.c:ZyanVectorFindEx"]}
{"id": "C08", "title": "Binary search is a correct lower bound", "statement": "On a range that is sorted with respect to the comparison, BinarySearch/BinarySearchEx returns TRUE iff some element in the range compares equal, and found_index is the first position whose element is not less than the key (where the key must be inserted to keep order).", "quantifier": "all sorted vectors of any length, all keys and consistent comparison functions", "why_tests_cant": "off-by-one and duplicate handling errors of binary search depend on length and position; needs induction over the interval", "anchors": ["src/Vector.c:ZyanVectorBinarySearchEx"]}
{"id": "C09", "title": "Duplicating a vector yields an equal, independent copy", "statement": "Duplicate/DuplicateEx/DuplicateCustomBuffer produce a vector with the same elements in storage disjoint from the source, with capacity at least max(1, requested capacity, length); the source is unchanged, later operations on one do not affect the other; a too small custom buffer is rejected.", "quantifier": "all source vectors, capacities, allocators behaviours and later operations", "why_tests_cant": "independence is a statement about every later operation", "anchors": ["src/Vector.c:ZyanVectorDuplicateEx", "src/Vector.c:ZyanVectorDuplicateCustomBuffer"]}
{"id": "C10", "title": "Out-of-range vector arguments are always rejected", "statement": "For every 64-bit index and count, an operation whose index/count does not denote a range inside the vector returns an error status and leaves the vector unchanged, without touching memory out of bounds.", "quantifier": "all values of index and count in [0,2^64)", "why_tests_cant": "the critical values are those where 64-bit sums wrap around; tests use small numbers", "anchors": ["src/Vector.c:ZyanVectorDeleteRange", "src/Vector.c:ZyanVectorInsertRange", "src/Vector.c:ZyanVectorFindEx", "src/Vector.c:ZyanVectorBinarySearchEx"]}
{"id": "C11", "title": "Emplace is atomic with respect to constructor failure", "statement": "If the constructor callback passed to Emplace/EmplaceEx fails, its status is returned and the vector has the same elements as before the call.", "quantifier": "all vectors, insertion indices and constructors", "why_tests_cant": "failing constructors at every index of every vector cannot be enumerated", "anchors": ["src/Vector.c:ZyanVectorEmplaceEx"]}
{"id": "C12", "title": "Swapping elements", "statement": "SwapElements(i,j) exchanges exactly the elements i and j of the vector, and fails with a status and no effect when an index is out of range or when there is no spare element slot; swapping twice restores the vector.", "quantifier": "all vectors and index pairs", "why_tests_cant": "uses hidden scratch storage behind the last element; depends on size/capacity relation", "anchors": ["src/Vector.c:ZyanVectorSwapElements"]}
{"id": "C13", "title": "A growable string behaves as a sequence of characters and stays NUL-terminated", "statement": "From a successfully initialised string, after any sequence of Append, Insert, Delete, Truncate, Clear, Resize, SetChar, ToLower/UpperCase(Ex), Reserve, ShrinkToFit (allocations succeeding), GetSize and GetChar/GetData report exactly the character list of the specification, the byte after the last character is 0, and no access is out of bounds.", "quantifier": "all strings, all operation sequences, all indices/counts with in-range sums, all source views not overlapping the destination", "why_tests_cant": "histories with re-allocations and shifts are unbounded", "anchors": ["src/String.c:ZyanStringAppend", "src/String.c:ZyanStringInsert", "src/String.c:ZyanStringDelete", "src/String.c:ZyanStringTruncate", "src/String.c:ZyanStringResize", "src/String.c:ZyanStringClear", "src/String.c:ZyanStringSetChar", "src/String.c:ZyanStringToLowerCaseEx", "src/String.c:ZyanStringToUpperCaseEx"]}
{"id": "C14", "title": "A fixed-buffer string is a bounded NUL-terminated sequence", "statement": "A string on a caller-supplied buffer of n bytes holds at most n-1 characters; growing operations beyond that fail with INSUFFICIENT_BUFFER_SIZE without changing the string; it stays NUL-terminated inside the buffer; no allocator is called.", "quantifier": "all buffers, capacities and operation sequences", "why_tests_cant": "boundary n-1 must hold at every point of every history", "anchors": ["src/String.c:ZyanStringInitCustomBuffer", "src/String.c:ZyanStringAppend", "src/String.c:ZyanStringInsert", "src/String.c:ZyanStringResize"]}
{"id": "C15", "title": "Views of C strings and buffers", "statement": "ZyanStringViewInsideBuffer(Ex) yields a view whose size and characters are those of the C string / of the given range of the buffer; GetData points at its first character. The same holds for a view defined by ZYAN_DEFINE_STRING_VIEW from a C string.", "quantifier": "all buffers and lengths", "why_tests_cant": "all lengths, contents without terminators", "anchors": ["src/String.c:ZyanStringViewInsideBuffer", "src/String.c:ZyanStringViewInsideBufferEx"]}
{"id": "C16", "title": "Sub-views of views", "statement": "ZyanStringViewInsideViewEx(view, source, index, count) yields exactly the characters [index, index+count) of source, and InsideView yields all of source.", "quantifier": "all source views, all index/count with index+count <= size", "why_tests_cant": "all ranges, including empty ones and those at the end", "anchors": ["src/String.c:ZyanStringViewInsideViewEx", "src/String.c:ZyanStringViewInsideView"]}
{"id": "C17", "title": "LPos finds the first occurrence", "statement": "LPos/LPosEx returns TRUE and the smallest position in the range at which the needle occurs entirely inside the range, or FALSE and -1 when it does not occur.", "quantifier": "all haystacks, needles without embedded NUL, and ranges", "why_tests_cant": "hand-written pattern matching; needs all overlaps/partial matches at all positions", "anchors": ["src/String.c:ZyanStringLPosEx", "src/String.c:ZyanStringLPos"]}
{"id": "C18", "title": "RPos finds the last occurrence", "statement": "RPos/RPosEx returns TRUE and the largest position at which the needle occurs entirely inside the range, or FALSE and -1 when it does not occur.", "quantifier": "all haystacks, needles and ranges", "why_tests_cant": "backward scanning has many boundary cases", "anchors": ["src/String.c:ZyanStringRPosEx", "src/String.c:ZyanStringRPos"]}
{"id": "C19", "title": "Case-insensitive search and comparison", "statement": "The I variants (LPosI, RPosI, CompareI) behave like their case-sensitive counterparts applied after mapping ASCII letters to one case; characters that are not letters only match themselves.", "quantifier": "all pairs of byte strings", "why_tests_cant": "256x256 character pairs at all positions", "anchors": ["src/String.c:ZyanStringLPosIEx", "src/String.c:ZyanStringRPosIEx", "src/String.c:ZyanStringCompareI"]}
{"id": "C20", "title": "Compare returns 0 exactly for equal strings", "statement": "ZyanStringCompare succeeds with result 0 iff both strings have the same characters; otherwise returns the non-equal status with -1 or 1.", "quantifier": "all pairs of NUL-terminated strings", "why_tests_cant": "all pairs of strings", "anchors": ["src/String.c:ZyanStringCompare"]}
{"id": "C21", "title": "Compare is a total order", "statement": "For s1 <> s2, Compare(s1,s2) = -Compare(s2,s1) (antisymmetry) and Compare is transitive, so it can be used for sorting.", "quantifier": "all pairs / triples of strings", "why_tests_cant": "order axioms quantify over all pairs and triples", "anchors": ["src/String.c:ZyanStringCompare", "src/String.c:ZyanStringCompareI"]}
{"id": "C22", "title": "Case conversion", "statement": "ToLowerCase(Ex)/ToUpperCase(Ex) map exactly the ASCII letters in the selected range to the requested case, keep every other character and the length, and reject ranges outside the string.", "quantifier": "all strings and ranges", "why_tests_cant": "all byte values at all positions", "anchors": ["src/String.c:ZyanStringToLowerCaseEx", "src/String.c:ZyanStringToUpperCaseEx"]}
{"id": "C23", "title": "String capacity contract", "statement": "After a successful ZyanStringReserve(n), GetCapacity reports at least n characters, and n characters can be stored without further allocation; GetCapacity is never below GetSize.", "quantifier": "all strings and n", "why_tests_cant": "off-by-one relative to the hidden terminator", "anchors": ["src/String.c:ZyanStringReserve", "src/String.c:ZyanStringGetCapacity", "src/String.c:ZyanStringShrinkToFit"]}
{"id": "C24", "title": "String duplication and concatenation", "statement": "Duplicate produces an independent string with the same characters; Concat produces s1 followed by s2; sources are unchanged; custom-buffer variants fail cleanly when the buffer cannot hold the result plus terminator.", "quantifier": "all source views, capacities", "why_tests_cant": "all lengths, incl. boundary buffers", "anchors": ["src/String.c:ZyanStringDuplicateEx", "src/String.c:ZyanStringConcatEx", "src/String.c:ZyanStringDuplicateCustomBuffer", "src/String.c:ZyanStringConcatCustomBuffer"]}
{"id": "C25", "title": "Decimal formatting of unsigned integers", "statement": "ZyanStringAppendDecU appends exactly the canonical decimal representation of the value, left-padded with '0' to padding_length, for every 64-bit value; parsing the digits yields the value, there are no superfluous leading zeros without padding.", "quantifier": "all 2^64 values, all padding lengths 0..255, all destination strings", "why_tests_cant": "2^64 x 256 inputs", "anchors": ["src/Format.c:ZyanStringAppendDecU64", "src/Format.c:ZyanStringAppendDecU32", "src/Format.c:ZyanStringAppendDecU"]}
{"id": "C26", "title": "Hexadecimal formatting of unsigned integers", "statement": "ZyanStringAppendHexU appends exactly the canonical hexadecimal representation of the value in the requested letter case, left-padded with '0' to padding_length, for every 64-bit value.", "quantifier": "all 2^64 values, padding lengths, cases and destination strings", "why_tests_cant": "2^64 x 256 x 2 inputs", "anchors": ["src/Format.c:ZyanStringAppendHexU64", "src/Format.c:ZyanStringAppendHexU32", "src/Format.c:ZyanStringAppendHexU"]}
{"id": "C27", "title": "Signed formatting", "statement": "AppendDecS/AppendHexS append an optional sign ('-' for negative values, '+' for others when force_sign), then the optional prefix, then the (padded) digits of the absolute value, for every 64-bit signed value including INT64_MIN.", "quantifier": "all 2^64 signed values, prefixes, flags", "why_tests_cant": "extreme values and flag combinations", "anchors": ["src/Format.c:ZyanStringAppendDecS", "src/Format.c:ZyanStringAppendHexS", "include/Zycore/Format.h:ZyanAbsI64"]}
{"id": "C28", "title": "Formatting into a full buffer fails cleanly", "statement": "When the destination cannot hold the formatted number, the append functions return INSUFFICIENT_BUFFER_SIZE and the destination keeps its previous characters and terminator.", "quantifier": "all fixed-buffer strings, values and paddings", "why_tests_cant": "every combination of remaining space and digit count", "anchors": ["src/Format.c:ZyanStringAppendDecU64", "src/Format.c:ZyanStringAppendHexU64", "src/Format.c:ZyanStringAppendDecS", "src/Format.c:ZyanStringAppendHexS"]}
{"id": "C29", "title": "printf-style append", "statement": "ZyanStringAppendFormat appends exactly the text produced by the C formatter (for every text length and remaining capacity), keeping the string NUL-terminated, or fails leaving the string unchanged.", "quantifier": "all formatter outputs, all growth factors/capacities, fixed and growable strings", "why_tests_cant": "the two-pass vsnprintf protocol depends on remaining capacity vs. text length", "anchors": ["src/Format.c:ZyanStringAppendFormat"]}
{"id": "C30", "title": "A linked list behaves as a mathematical sequence", "statement": "After any sequence of PushBack, PushFront, EmplaceBack/Front, PopBack, PopFront, Clear, Resize(Ex), SetNodeData, traversing from head via next yields exactly the specified element list, traversing from tail via prev yields its reverse, and GetSize is its length; pops on an empty list fail without effect.", "quantifier": "all operation sequences, element values, allocator behaviours", "why_tests_cant": "pointer structure invariants over unbounded histories", "anchors": ["src/List.c:ZyanListPushBack", "src/List.c:ZyanListPushFront", "src/List.c:ZyanListPopBack", "src/List.c:ZyanListPopFront", "src/List.c:ZyanListResizeEx", "src/List.c:ZyanListEmplaceBack", "src/List.c:ZyanListEmplaceFront"]}
{"id": "C31", "title": "A fixed-buffer list never leaves its buffer nor hands out a slot twice", "statement": "For a list on a caller-supplied buffer of `capacity` bytes, every node handed out lies at a multiple of the node size inside the buffer, live nodes are pairwise distinct, removed nodes are recycled, an insertion fails with INSUFFICIENT_BUFFER_SIZE (list unchanged) exactly when floor(capacity/nodesize) elements are stored.", "quantifier": "all capacities, element sizes and operation histories", "why_tests_cant": "free-list corruption depends on long push/pop interleavings", "anchors": ["src/List.c:ZyanListAllocateNode", "src/List.c:ZyanListDeallocateNode", "src/List.c:ZyanListInitCustomBuffer"]}
{"id": "C32", "title": "Removing a node removes it", "statement": "ZyanListRemove / ZyanListRemoveRange with SUCCESS remove the given node(s) from the list.", "quantifier": "all lists and nodes", "why_tests_cant": "all positions in all lists", "anchors": ["src/List.c:ZyanListRemove", "src/List.c:ZyanListRemoveRange"]}
{"id": "C33", "title": "List destructors and node memory", "statement": "Every element leaving a list is destroyed exactly once and every node obtained from the allocator is released exactly once over a full life cycle; no node is used after release.", "quantifier": "all operation histories", "why_tests_cant": "ownership over arbitrary histories", "anchors": ["src/List.c:ZyanListDestroy", "src/List.c:ZyanListResizeEx", "src/List.c:ZyanListPopBack"]}
{"id": "C34", "title": "A bitset is a sequence of bits", "statement": "For a bitset built with Push from an empty one, Test(i) returns bit i, Set/Reset/Assign/Toggle change exactly bit i, SetAll/ResetAll/Flip change exactly all bits, Push appends a bit, Pop removes the last bit, indices >= size are rejected without effect.", "quantifier": "all operation sequences and indices", "why_tests_cant": "bit positions inside bytes over unbounded histories", "anchors": ["src/Bitset.c:ZyanBitsetSet", "src/Bitset.c:ZyanBitsetReset", "src/Bitset.c:ZyanBitsetAssign", "src/Bitset.c:ZyanBitsetToggle", "src/Bitset.c:ZyanBitsetTest", "src/Bitset.c:ZyanBitsetPush", "src/Bitset.c:ZyanBitsetPop", "src/Bitset.c:ZyanBitsetFlip", "src/Bitset.c:ZyanBitsetSetAll", "src/Bitset.c:ZyanBitsetResetAll"]}
{"id": "C35", "title": "Initialising a bitset with n bits", "statement": "ZyanBitsetInit(n)/InitBuffer(n) yields a bitset of exactly n usable bits, all 0: Test, Set and Reset work for every index < n.", "quantifier": "all n", "why_tests_cant": "holds only for some residues of n mod 8; a test picks few n", "anchors": ["src/Bitset.c:ZyanBitsetInitEx", "src/Bitset.c:ZyanBitsetInitBuffer", "src/Bitset.c:ZYCORE_BITSET_BITS_TO_BYTES"]}
{"id": "C36", "title": "All / Any / None", "statement": "ZyanBitsetAll (Any, None) returns TRUE iff all (at least one, no) bits with index < size are set.", "quantifier": "all bitsets of all sizes", "why_tests_cant": "partial-last-byte handling depends on size mod 8 and on stale bits", "anchors": ["src/Bitset.c:ZyanBitsetAll", "src/Bitset.c:ZyanBitsetAny", "src/Bitset.c:ZyanBitsetNone"]}
{"id": "C37", "title": "Counting bits", "statement": "ZyanBitsetCount returns the number of indices < size whose bit is set.", "quantifier": "all bitsets reachable by any operation sequence", "why_tests_cant": "stale bits behind the end depend on history", "anchors": ["src/Bitset.c:ZyanBitsetCount"]}
{"id": "C38", "title": "Bitwise operations between bitsets", "statement": "AND/OR/XOR replace every bit of the destination that both bitsets have by the combination of the two bits, and leave both sizes, the source, and the destination's other bits unchanged.", "quantifier": "all pairs of bitsets of all sizes", "why_tests_cant": "different lengths and all bit patterns", "anchors": ["src/Bitset.c:ZyanBitsetPerformByteOperation", "src/Bitset.c:ZyanBitsetAND", "src/Bitset.c:ZyanBitsetOR", "src/Bitset.c:ZyanBitsetXOR"]}
{"id": "C39", "title": "Pop on an empty bitset is rejected", "statement": "ZyanBitsetPop on a bitset of size 0 fails and leaves the bitset unchanged.", "quantifier": "all reachable empty bitsets", "why_tests_cant": "unsigned underflow appears only on the empty case after arbitrary histories", "anchors": ["src/Bitset.c:ZyanBitsetPop"]}
{"id": "C40", "title": "Argument parsing follows the documented grammar", "statement": "ZyanArgParse accepts argv iff it conforms to the documented grammar (-- long options with optional value token, clustered single-dash options with attached or following value, -- terminator, unnamed arguments) and then returns, in order, one entry per option/unnamed argument with the right definition and value.", "quantifier": "all argv vectors, all option tables, all unnamed-argument bounds", "why_tests_cant": "the input space is all argument vectors", "anchors": ["src/ArgParse.c:ZyanArgParseEx", "include/Zycore/ArgParse.h:ZyanArgParseConfig"]}
{"id": "C41", "title": "Clusters of boolean flags are not unnamed arguments", "statement": "A token such as -ab consisting only of boolean single-dash options yields exactly its options and is not counted or reported as an unnamed argument.", "quantifier": "all tokens made of declared boolean options", "why_tests_cant": "all tables and clusters", "anchors": ["src/ArgParse.c:ZyanArgParseEx"]}
{"id": "C42", "title": "Argument count bounds and required options", "statement": "On success the number of unnamed arguments lies in [min_unnamed_args, max_unnamed_args] and every required option occurs among the parsed arguments; otherwise the matching error (TOO_FEW, TOO_MANY, REQUIRED_ARG_MISSING with the option's name as error token) is returned.", "quantifier": "all inputs", "why_tests_cant": "all inputs", "anchors": ["src/ArgParse.c:ZyanArgParseEx"]}
{"id": "C43", "title": "Argument parser releases its vector on failure", "statement": "When ZyanArgParse returns an error, it holds no allocated memory: the parsed vector was destroyed (or never allocated).", "quantifier": "all inputs and allocator behaviours", "why_tests_cant": "error paths x allocation failures", "anchors": ["src/ArgParse.c:ZyanArgParseEx"]}
{"id": "C44", "title": "Status codes are well formed", "statement": "ZYAN_MAKE_STATUS is invertible: module and code are recovered by ZYAN_STATUS_MODULE/CODE, the error bit decides ZYAN_SUCCESS/FAILED, and all predefined status values are pairwise distinct with TRUE/FALSE/SUCCESS non-errors.", "quantifier": "all 1/11/20 bit field values", "why_tests_cant": "2^32 combinations", "anchors": ["include/Zycore/Status.h:ZYAN_MAKE_STATUS", "include/Zycore/Status.h:ZYAN_SUCCESS"]}
{"id": "C45", "title": "Alignment and arithmetic macros", "statement": "For a power of two a: ZYAN_ALIGN_UP(x,a) is the least multiple of a >= x and ZYAN_ALIGN_DOWN(x,a) the greatest multiple of a <= x; ZYAN_IS_ALIGNED_TO and ZYAN_IS_POWER_OF_2 decide alignment/powers of two; ZYAN_BITS_TO_REPRESENT(n) is the bit length of n; ZYAN_DIV64(n, d) replaces n by the quotient rounded down.", "quantifier": "all unsigned 32/64-bit values and alignments", "why_tests_cant": "2^64 inputs", "anchors": ["include/Zycore/Defines.h:ZYAN_ALIGN_UP", "include/Zycore/Defines.h:ZYAN_ALIGN_DOWN", "include/Zycore/Defines.h:ZYAN_IS_POWER_OF_2", "include/Zycore/Defines.h:ZYAN_IS_ALIGNED_TO", "include/Zycore/Defines.h:ZYAN_BITS_TO_REPRESENT", "include/Zycore/Defines.h:ZYAN_DIV64"]}
{"id": "C46", "title": "Default comparison functions are orders", "statement": "ZyanEquals* decide equality; ZyanCompare* return -1/0/1 and form a total order consistent with the equality functions, hence usable with BinarySearch.", "quantifier": "all values of each width", "why_tests_cant": "all pairs/triples of values", "anchors": ["include/Zycore/Comparison.h:ZYAN_DECLARE_COMPARISON", "include/Zycore/Comparison.h:ZYAN_DECLARE_EQUALITY_COMPARISON"]}
{"id": "C47", "title": "No-libc memory functions meet the C specification", "statement": "The fallback ZYAN_MEMCPY/MEMMOVE/MEMSET/MEMCMP/MEMCHR have the ISO C meaning: MEMMOVE is correct for arbitrarily overlapping ranges, MEMCPY for non-overlapping ones, bytes outside the destination are unchanged, MEMCMP's sign is the lexicographic order, MEMCHR finds the first match.", "quantifier": "all memories, addresses, lengths, overlaps", "why_tests_cant": "all overlaps and lengths", "anchors": ["include/Zycore/LibC.h:ZYAN_MEMMOVE", "include/Zycore/LibC.h:ZYAN_MEMCPY", "include/Zycore/LibC.h:ZYAN_MEMSET", "include/Zycore/LibC.h:ZYAN_MEMCMP", "include/Zycore/LibC.h:ZYAN_MEMCHR"]}
{"id": "C48", "title": "No-libc string functions meet the C specification", "statement": "The fallback ZYAN_STRLEN/STRCPY/STRCAT/STRNCPY/STRNCAT/STRCMP/STRNCMP/STRCHR/STRRCHR/STRSPN/STRCSPN/STRPBRK/STRSTR/STRTOK return what ISO C prescribes for NUL-terminated strings and read no byte beyond the terminators.", "quantifier": "all NUL-terminated strings and counts", "why_tests_cant": "all strings", "anchors": ["include/Zycore/LibC.h:ZYAN_STRCMP", "include/Zycore/LibC.h:ZYAN_STRNCMP", "include/Zycore/LibC.h:ZYAN_STRSTR", "include/Zycore/LibC.h:ZYAN_STRTOK"]}
{"id": "C49", "title": "Atomic counters under concurrency", "statement": "For any interleaving of ZyanAtomicIncrement/Decrement/CompareExchange calls of any number of threads, no update is lost: the final value equals the initial one plus increments minus decrements (mod width), each increment returns the value it produced, compare-exchange swaps iff the old value equals the comparand and returns the old value.", "quantifier": "all numbers of threads, all programs of atomic calls, all interleavings", "why_tests_cant": "schedules cannot be enumerated by tests", "anchors": ["include/Zycore/Internal/AtomicGNU.h:ZyanAtomicIncrement32", "include/Zycore/Internal/AtomicGNU.h:ZyanAtomicDecrement32", "include/Zycore/Internal/AtomicGNU.h:ZyanAtomicCompareExchange32"]}
{"id": "C50", "title": "Critical sections give mutual exclusion", "statement": "Between a successful Enter (or TryEnter returning TRUE) and the matching Leave of a thread no other thread's Enter/TryEnter succeeds; the section is recursive for its owner; every pthread error is reported as a non-success status.", "quantifier": "all threads, all schedules, all error codes", "why_tests_cant": "all schedules", "anchors": ["src/API/Synchronization.c:ZyanCriticalSectionEnter", "src/API/Synchronization.c:ZyanCriticalSectionTryEnter", "src/API/Synchronization.c:ZyanCriticalSectionLeave"]}
{"id": "C51", "title": "System wrappers report failures", "statement": "Memory, process, thread and terminal wrappers return SUCCESS (TRUE/FALSE) exactly when the underlying system call succeeded, and an error status otherwise; argument validation rejects unknown streams.", "quantifier": "all return values / errno values of the underlying calls", "why_tests_cant": "most errno values cannot be provoked in tests", "anchors": ["src/API/Memory.c:ZyanMemoryVirtualProtect", "src/API/Process.c:ZyanProcessFlushInstructionCache", "src/API/Thread.c:ZyanThreadTlsAlloc", "src/API/Terminal.c:ZyanTerminalIsTTY"]}
{"id": "C52", "title": "Default allocator contract", "statement": "Allocate(element_size, n) and Reallocate return storage for n elements of element_size bytes or fail with NOT_ENOUGH_MEMORY; a failed Reallocate keeps the old block valid.", "quantifier": "all element sizes and counts in [0,2^64)", "why_tests_cant": "the product element_size*n overflows only for huge values", "anchors": ["src/Allocator.c:ZyanAllocatorDefaultAllocate", "src/Allocator.c:ZyanAllocatorDefaultReallocate"]}
{"id": "C53", "title": "Version encoding", "statement": "The MAJOR/MINOR/PATCH/BUILD macros decompose every 64-bit version value losslessly and ZycoreGetVersion decodes to 1.5.0.0.", "quantifier": "all 64-bit version values", "why_tests_cant": "2^64 values", "anchors": ["include/Zycore/Zycore.h:ZYCORE_VERSION_MAJOR", "src/Zycore.c:ZycoreGetVersion"]}
{"id": "C54", "title": "Pushing an element of the vector itself", "statement": "PushBack with a pointer to an element of the same vector (obtained with Get) appends a copy of that element.", "quantifier": "all reachable vectors, all element indices, with and without spare capacity", "why_tests_cant": "whether the source is still valid depends on whether this very call reallocates and whether realloc moves the block", "anchors": ["src/Vector.c:ZyanVectorPushBack", "src/Vector.c:ZyanVectorReallocate", "src/Vector.c:ZyanVectorGet"]}
{"id": "C55", "title": "Thread-local storage is per thread", "statement": "TlsGetValue on an allocated index returns the value the calling thread stored last under that index since TlsAlloc (NULL if none), whatever other threads store under it.", "quantifier": "all histories of TlsAlloc/TlsFree/TlsSetValue/TlsGetValue calls of all threads", "why_tests_cant": "all schedules and failure points", "anchors": ["src/API/Thread.c:ZyanThreadTlsAlloc", "src/API/Thread.c:ZyanThreadTlsGetValue", "src/API/Thread.c:ZyanThreadTlsSetValue"]}
{"id": "C56", "title": "Appending a string to itself", "statement": "ZyanStringAppend(s, view of s) doubles the contents of s.", "quantifier": "all reachable strings", "why_tests_cant": "whether the copied ranges overlap or dangle depends on the size and on reallocation", "anchors": ["src/String.c:ZyanStringAppend"]}
{"id": "C57", "title": "Views that are not NUL-terminated", "statement": "Searching, comparing and reading a view only touches the characters of the view, even when the view is part of a larger buffer and is not followed by a NUL character.", "quantifier": "all views into all buffers", "why_tests_cant": "out-of-bounds reads by one are usually invisible in tests", "anchors": ["src/String.c:ZyanStringLPosEx", "src/String.c:ZyanStringCompare", "src/String.c:ZyanStringRPosEx"]}
{"id": "C58", "title": "String append under allocation failure", "statement": "An Append that needs more memory than the allocator gives reports the allocator's error and leaves contents, capacity and memory as they were.", "quantifier": "all reachable strings, appended texts and failure points", "why_tests_cant": "failure points of the allocator are rarely tested", "anchors": ["src/String.c:ZyanStringAppend", "src/Vector.c:ZyanVectorReallocate"]}
{"id": "C59", "title": "String range checks", "statement": "Every string call whose position or range is not inside the string reports OUT_OF_RANGE and changes nothing.", "quantifier": "all reachable strings, all 64-bit positions and counts", "why_tests_cant": "2^128 pairs, including sums that wrap", "anchors": ["src/String.c:ZyanStringDelete", "src/String.c:ZyanStringInsert", "src/String.c:ZyanStringSetChar", "src/String.c:ZyanStringToLowerCaseEx"]}
{"id": "C60", "title": "Number formatting under allocation failure", "statement": "A formatting append that needs more memory than the allocator gives reports the allocator's error and leaves the string's characters as they were.", "quantifier": "all reachable strings, values and failure points", "why_tests_cant": "failure points of the allocator are rarely tested", "anchors": ["src/Format.c:ZyanStringAppendDecU", "src/Format.c:ZyanStringAppendHexU", "src/Format.c:ZyanStringAppendDecS"]}
{"id": "C61", "title": "A failed Push leaves the bitset unchanged", "statement": "ZyanBitsetPush that fails, because a fixed buffer is full or because the allocation fails, leaves size and bits of the bitset as they were.", "quantifier": "all reachable bitsets whose size is a multiple of 8, all failure points", "why_tests_cant": "the failing allocation must hit exactly the byte boundary", "anchors": ["src/Bitset.c:ZyanBitsetPush"]}
{"id": "C62", "title": "Reserve of a bitset", "statement": "After ZyanBitsetReserve(n) succeeds, the capacity of the bitset is at least n bits and its bits are unchanged.", "quantifier": "all reachable bitsets and all 64-bit n", "why_tests_cant": "the rounding to bytes and the 32-bit byte count go wrong for some n only", "anchors": ["src/Bitset.c:ZyanBitsetReserve", "src/Bitset.c:ZyanBitsetGetCapacity", "src/Bitset.c:ZYCORE_BITSET_BITS_TO_BYTES"]}
{"id": "C63", "title": "A failed list call leaves the list unchanged", "statement": "Every list call that reports an error leaves the elements, their order and their nodes as they were.", "quantifier": "all reachable lists, all calls, all failure points of the allocator and all buffer sizes", "why_tests_cant": "the failure must hit exactly one of the allocations of one call", "anchors": ["src/List.c:ZyanListResizeEx", "src/List.c:ZyanListPushBack", "src/List.c:ZyanListEmplaceFront"]}
{"id": "C64", "title": "List nodes keep their address", "statement": "A node obtained from a list stays valid and keeps its element (until SetNodeData) while other elements are added or removed; all nodes of a list are pairwise different.", "quantifier": "all reachable lists, all calls", "why_tests_cant": "node reuse depends on the history of removals", "anchors": ["src/List.c:ZyanListAllocateNode", "src/List.c:ZyanListDeallocateNode", "src/List.c:ZyanListPopFront"]}
{"id": "C65", "title": "A list never writes outside its buffer or nodes, whatever the element size", "statement": "For every element size and buffer capacity that Init accepts, no call touches memory outside the buffer (or the allocated nodes).", "quantifier": "all element sizes and capacities in [1,2^64)", "why_tests_cant": "the node size wraps for huge element sizes only", "anchors": ["src/List.c:ZyanListAllocateNode", "src/List.c:ZyanListInitCustomBuffer"]}
{"id": "C66", "title": "Parsed values are readable strings", "statement": "Every character of a value returned by the argument parser can be read with ZyanStringGetChar.", "quantifier": "all argument vectors, all option tables, all parsed values and indices", "why_tests_cant": "the tests compare the raw character pointer only", "anchors": ["src/ArgParse.c:ZyanArgParseEx", "src/String.c:ZyanStringViewInsideBuffer", "src/String.c:ZyanStringGetChar"]}
{"id": "C67", "title": "Critical sections on Windows", "statement": "On Windows, as on POSIX: at most one thread is inside a critical section, it may enter again, TryEnter never blocks and tells whether the section was entered, and Leave by a thread that is not inside is reported and has no effect.", "quantifier": "all interleavings of calls of any number of threads", "why_tests_cant": "schedules cannot be enumerated; the Windows functions do not report misuse", "anchors": ["src/API/Synchronization.c:ZyanCriticalSectionEnter", "src/API/Synchronization.c:ZyanCriticalSectionTryEnter", "src/API/Synchronization.c:ZyanCriticalSectionLeave"]}
{"id": "C68", "title": "Thread-local storage on Windows", "statement": "On Windows, as on POSIX: TlsGetValue returns the value the calling thread stored last under an index in use, or NULL; other threads never change it.", "quantifier": "all histories of calls by any number of threads (and fibers), all failures of the system", "why_tests_cant": "depends on which thread (and which fiber) stored what in an unbounded history", "anchors": ["src/API/Thread.c:ZyanThreadTlsAlloc", "src/API/Thread.c:ZyanThreadTlsGetValue", "src/API/Thread.c:ZyanThreadTlsSetValue", "src/API/Thread.c:ZyanThreadTlsFree"]}
{"id": "C69", "title": "VirtualFree releases the given pages only", "statement": "If ZyanMemoryVirtualFree(address, size) succeeds, the pages that hold bytes of [address, address+size) are released and every other page stays as it was; if it fails nothing changes.", "quantifier": "all page layouts, addresses and sizes, on POSIX and on Windows, all answers of the system", "why_tests_cant": "a page released by mistake is only noticed when it is used later", "anchors": ["src/API/Memory.c:ZyanMemoryVirtualFree"]}
{"id": "C70", "title": "VirtualProtect sets the named rights on the given pages only", "statement": "If ZyanMemoryVirtualProtect(address, size, protection) succeeds, exactly the pages that hold bytes of [address, address+size) have the read/write/execute rights in the name of the protection, and every other page keeps its rights; if it fails nothing changes.", "quantifier": "all page layouts, addresses, sizes and protections, on POSIX and on Windows, all answers of the system", "why_tests_cant": "wrong rights on some page only show when that page is accessed in that way", "anchors": ["src/API/Memory.c:ZyanMemoryVirtualProtect", "include/Zycore/API/Memory.h:ZyanMemoryPageProtection"]}
{"id": "C71", "title": "System wrappers on Windows report what the system did", "statement": "On Windows each wrapper issues its system call with the caller's arguments and reports success exactly if the system did; EnableVT100 changes nothing of the console mode but the VT100 bit; IsTTY answers for valid streams and rejects others.", "quantifier": "all arguments, all answers of the system", "why_tests_cant": "system failures and left-over error codes cannot be provoked by tests", "anchors": ["src/API/Process.c:ZyanProcessFlushInstructionCache", "src/API/Memory.c:ZyanMemoryGetSystemPageSize", "src/API/Thread.c:ZyanThreadGetCurrentThreadId", "src/API/Terminal.c:ZyanTerminalEnableVT100", "src/API/Terminal.c:ZyanTerminalIsTTY"]}
{"id": "C72", "title": "Compiling the assertions out changes nothing for correct callers", "statement": "A call, or a history of calls, that runs without undefined behaviour and without a failing assertion in a build with assertions returns the same statuses and results, makes the same allocator requests and destructor calls and leaves the same memory in a build without assertions.", "quantifier": "all containers, strings, formatting calls, bitsets, lists and parser runs; all histories, memories and allocator behaviours", "why_tests_cant": "tests run in one build only; an assertion with an effect, or one that hides a missing check, shows in the other build", "anchors": ["include/Zycore/Defines.h:ZYAN_ASSERT", "src/Vector.c:ZyanVectorReallocate", "src/String.c:ZyanStringInsert", "src/List.c:ZyanListDestroy", "src/Bitset.c:ZyanBitsetPerformByteOperation"]}
{"id": "C73", "title": "Calls depend only on the allocator answers they get", "statement": "What a call, or a history of calls, does and returns depends on the allocator only through the answers to the requests it makes itself: another allocator that answers these requests alike gives the same results, memory and destructor calls; a call that makes no request behaves alike with every allocator.", "quantifier": "all containers, strings, formatting calls, bitsets, lists and parser runs; all histories, memories and pairs of allocators", "why_tests_cant": "two allocators that differ somewhere in the unbounded future cannot be told apart by any finite set of runs", "anchors": ["src/Vector.c:ZyanVectorReallocate", "src/Vector.c:ZyanVectorInitEx", "src/String.c:ZyanStringInitEx", "src/List.c:ZyanListAllocateNode", "src/ArgParse.c:ZyanArgParseEx"]}
{"id": "C74", "title": "A growable vector keeps working when requests are refused", "statement": "With an allocator that refuses requests at will, a vector call whose request is refused returns the allocator's error, and every other call does what it does with a working allocator; at every point all elements can be read and Destroy destroys each element once and gives all memory back.", "quantifier": "all allocators, all element sizes, growth factors and shrink thresholds, all histories of calls", "why_tests_cant": "the requests that are refused can be any set, in any history", "anchors": ["src/Vector.c:ZyanVectorReallocate", "src/Vector.c:ZyanVectorPopBack", "src/Vector.c:ZyanVectorDeleteRange", "src/Vector.c:ZyanVectorShrinkToFit", "src/Vector.c:ZyanVectorDestroy"]}
{"id": "C75", "title": "Objects do not disturb one another", "statement": "A program that creates, uses and destroys any number of vectors, strings and bitsets in any interleaving, also copying from one object into another, duplicating and concatenating objects and formatting numbers, gets from each object the statuses and contents it would get by the object's own specification; a call leaves all other objects, and all memory the program does not own, as they were; after everything is destroyed the memory is as before the program.", "quantifier": "all programs over any number of vectors, strings and bitsets with a working allocator, all parameters, all initial memories", "why_tests_cant": "the number of objects and the interleavings of their calls are unbounded", "anchors": ["src/Vector.c:ZyanVectorPushBack", "src/Vector.c:ZyanVectorDestroy", "src/String.c:ZyanStringAppend", "src/String.c:ZyanStringInsert", "src/Bitset.c:ZyanBitsetXOR", "src/Allocator.c:ZyanAllocatorDefault"]}
{"id": "C76", "title": "NULL arguments are refused", "statement": "A call of a vector, string, formatting, bitset or list function with NULL for the object, or for a pointer the function needs, reports an error (INVALID_ARGUMENT, unless another error comes first) and changes neither the object, nor the memory, nor the out-parameters; no allocator request is made. With all pointers given the checks have no effect.", "quantifier": "all functions of the five modules, each pointer parameter, all other arguments, all object states and memories", "why_tests_cant": "each pointer parameter has to be combined with all values of the other parameters and all states of the object", "anchors": ["src/Vector.c:ZyanVectorPushBack", "src/Vector.c:ZyanVectorEmplaceEx", "src/Vector.c:ZyanVectorGetSize", "src/String.c:ZyanStringDuplicateEx", "src/String.c:ZyanStringGetSize", "src/Bitset.c:ZyanBitsetReserve", "src/List.c:ZyanListGetHeadNode", "src/Format.c:ZyanStringAppendDecS"]}
{"id": "C77", "title": "An element of a container can be passed to a call on the same container", "statement": "A call that takes a pointer to an element (or a view of characters, or node data) and gets a pointer into its own container behaves as if the caller had passed a copy: Set, InsertRange, ResizeEx and PushBack on vectors, Append and Insert on strings, PushBack, PushFront, SetNodeData and ResizeEx on lists.", "quantifier": "all reachable vectors, strings and lists, all positions of the element and of the insertion, all lengths, with and without reallocation", "why_tests_cant": "whether the pointer still points to the element when it is read depends on position, length and capacity together", "anchors": ["src/Vector.c:ZyanVectorInsertRange", "src/Vector.c:ZyanVectorSet", "src/Vector.c:ZyanVectorResizeEx", "src/String.c:ZyanStringInsert", "src/String.c:ZyanStringAppend", "src/List.c:ZyanListPushBack", "src/List.c:ZyanListSetNodeData"]}
{"id": "C78", "title": "The loop macros visit every element once", "statement": "ZYAN_VECTOR_FOREACH and ZYAN_VECTOR_FOREACH_MUTABLE run their body once for every element the vector had at the start, in order, with the element (or a pointer to it), until the body leaves the loop; this also holds when the body adds or removes elements.  ZYAN_VECTOR_GET and ZYAN_LIST_GET yield the element at the index or of the node.", "quantifier": "all reachable vectors and lists, all loop bodies that make calls on the vector depending on the items and the statuses so far", "why_tests_cant": "the bodies are programs, and each of their calls can change the vector the loop goes through", "anchors": ["include/Zycore/Vector.h:ZYAN_VECTOR_GET", "include/Zycore/Vector.h:ZYAN_VECTOR_FOREACH", "include/Zycore/Vector.h:ZYAN_VECTOR_FOREACH_MUTABLE", "include/Zycore/List.h:ZYAN_LIST_GET", "src/Vector.c:ZyanVectorGet"]}
{"id": "C79", "title": "Sizes that do not fit are refused", "statement": "A call that would need more bytes than can be counted (number of elements, times growth factor, times element size, beyond 2^64) reports an error; after a successful Init, Reserve, Resize or Duplicate the vector or string has memory for the capacity and size it reports, so that filling it touches no other memory.", "quantifier": "all reachable vectors and strings, all element sizes, growth factors, capacities and sizes, with an allocator that grants every request", "why_tests_cant": "the products wrap only for particular combinations of huge sizes, element sizes and growth factors", "anchors": ["src/Vector.c:ZyanVectorInitEx", "src/Vector.c:ZyanVectorReserve", "src/Vector.c:ZyanVectorResizeEx", "src/Vector.c:ZyanVectorDuplicateEx", "src/Vector.c:ZyanVectorReallocate", "src/String.c:ZyanStringResize", "src/String.c:ZyanStringInitEx", "src/Allocator.c:ZyanAllocatorDefaultReallocate"]}
{"id": "C80", "title": "The cost of growing and shrinking is amortised", "statement": "Over any history of calls that insert, remove and resize, the blocks a growable vector asks its allocator for are together at most a constant times the number of elements put in and taken out (plus a constant for the state at the start); pushing n elements makes logarithmically many requests.", "quantifier": "all growable vectors, all growth factors and shrink thresholds, all histories of calls other than Reserve and ShrinkToFit", "why_tests_cant": "it is a bound over whole histories, of any length, for all parameters", "anchors": ["src/Vector.c:ZyanVectorPushBack", "src/Vector.c:ZyanVectorPopBack", "src/Vector.c:ZyanVectorInsertRange", "src/Vector.c:ZyanVectorDeleteRange", "src/Vector.c:ZyanVectorResizeEx", "src/Vector.c:ZyanVectorReallocate", "include/Zycore/Vector.h:ZYAN_VECTOR_DEFAULT_GROWTH_FACTOR", "include/Zycore/Vector.h:ZYAN_VECTOR_DEFAULT_SHRINK_THRESHOLD"]}
{"id": "C81", "title": "Elements and list nodes are aligned", "statement": "Every node of a list and every element of a list or vector lies at an address suitable for its type, provided the allocator or the caller supplies suitably aligned memory and the element size is a multiple of the alignment of the element.", "quantifier": "all lists and vectors, growable or on a buffer, all element sizes, all histories of calls, all alignments and addresses of the memory", "why_tests_cant": "the common platforms of a test run tolerate misaligned accesses, and whether one occurs depends on element size and history", "anchors": ["src/List.c:ZyanListInitCustomBuffer", "src/List.c:ZyanListPushBack", "src/List.c:ZyanListAllocateNode", "include/Zycore/List.h:ZyanListGetNodeData", "src/Vector.c:ZyanVectorGet", "src/Vector.c:ZyanVectorInitCustomBuffer"]}
{"id": "C82", "title": "A growable string keeps working when requests are refused", "statement": "With an allocator that refuses requests at will, a string call whose request is refused returns the allocator's error, and every other call does what it does with a working allocator; at every point the characters, their terminator and the capacity can be read, and Destroy gives all memory back.", "quantifier": "all allocators, capacities, growth factors and shrink thresholds, all histories of string calls", "why_tests_cant": "the requests that are refused can be any set, in any history", "anchors": ["src/String.c:ZyanStringAppend", "src/String.c:ZyanStringInsert", "src/String.c:ZyanStringDelete", "src/String.c:ZyanStringTruncate", "src/String.c:ZyanStringClear", "src/String.c:ZyanStringResize", "src/String.c:ZyanStringReserve", "src/String.c:ZyanStringShrinkToFit", "src/String.c:ZyanStringDestroy", "src/Vector.c:ZyanVectorReallocate"]}
{"id": "C83", "title": "A growable bitset keeps working when requests are refused", "statement": "With an allocator that refuses requests at will, a bitset call whose request is refused returns the allocator's error, and every other call does what it does with a working allocator; at every point the size, the bits and the capacity can be read, and Destroy gives all memory back.", "quantifier": "all allocators that grant the request of Init, all initial sizes that are multiples of 8, growth factors and shrink thresholds, all histories of bitset calls", "why_tests_cant": "the requests that are refused can be any set, in any history", "anchors": ["src/Bitset.c:ZyanBitsetPush", "src/Bitset.c:ZyanBitsetPop", "src/Bitset.c:ZyanBitsetClear", "src/Bitset.c:ZyanBitsetReserve", "src/Bitset.c:ZyanBitsetShrinkToFit", "src/Bitset.c:ZyanBitsetTest", "src/Bitset.c:ZyanBitsetDestroy", "src/Vector.c:ZyanVectorReallocate"]}
{"id": "C84", "title": "Calls made between Enter and Leave are atomic", "statement": "When every thread makes its calls on shared data between ZyanCriticalSectionEnter (or a ZyanCriticalSectionTryEnter that returned true) and ZyanCriticalSectionLeave of one section, the results all threads see and the final data are those of making the calls one after the other, in an order that keeps the order of each thread and of calls that do not overlap. A vector shared like this is always the array that those calls make. Threads cannot deadlock on the section.", "quantifier": "all numbers of threads, all programs of guarded calls, all ways to split calls into steps, all schedules, all errors that the system may report, POSIX and Windows", "why_tests_cant": "the number of schedules is unbounded and a test sees those the machine happens to choose", "anchors": ["src/API/Synchronization.c:ZyanCriticalSectionEnter", "src/API/Synchronization.c:ZyanCriticalSectionTryEnter", "src/API/Synchronization.c:ZyanCriticalSectionLeave", "src/API/Synchronization.c:ZyanCriticalSectionInitialize", "src/Vector.c:ZyanVectorPushBack"]}
{"id": "C85", "title": "A vector kept in order with BinarySearch is an ordered set", "statement": "A client that inserts an element where ZyanVectorBinarySearch did not find it, at the index the search returned, deletes an element where the search found it, and asks the search whether an element is there, gets the answers of a mathematical set, and the vector stays in strictly ascending order. Inserting all elements of a sequence at the index the search returns sorts the sequence.", "quantifier": "all comparison functions that are total preorders, all element sizes and vector parameters, all histories of insertions, deletions and queries", "why_tests_cant": "the history and the comparison are unbounded; each call is right only if all calls before kept the order", "anchors": ["src/Vector.c:ZyanVectorBinarySearch", "src/Vector.c:ZyanVectorInsert", "src/Vector.c:ZyanVectorDelete", "include/Zycore/Comparison.h:ZyanCompareNumeric32"]}
{"id": "C86", "title": "Memory traffic of strings and bitsets is amortised", "statement": "The blocks that a history of calls on a growable string (without Reserve and ShrinkToFit) requests from the allocator are together at most a constant times the number of characters put in and taken out and of Clear calls, plus a constant. The same holds for a growable bitset and the number of bits pushed, popped and cleared. It holds in particular for objects with the default growth factor and shrink threshold.", "quantifier": "all histories of calls, all states reached, all sizes, all growth factors and shrink thresholds", "why_tests_cant": "the bound is a sum over an unbounded history; a test sees one history, and no test measures the requests", "anchors": ["src/String.c:ZyanStringInit", "src/String.c:ZyanStringAppend", "src/String.c:ZyanStringDelete", "src/String.c:ZyanStringClear", "src/Bitset.c:ZyanBitsetInit", "src/Bitset.c:ZyanBitsetPush", "src/Bitset.c:ZyanBitsetPop", "src/Bitset.c:ZYAN_BITSET_SHRINK_THRESHOLD"]}
{"id": "C87", "title": "Locks, update loops and reference counts built on the atomics work", "statement": "A lock that threads take by repeating ZyanAtomicCompareExchange until it finds 0 and give up by CompareExchange or Decrement excludes all others: what threads do inside takes effect one call after the other, and there is no deadlock. A value that threads change by computing f(old) and repeating CompareExchange until it still finds old goes through the updates one after the other, none is lost, and an iteration fails only because another thread has made an update meanwhile. An object whose references are counted by Increment and Decrement is destroyed by exactly one thread, after the last reference is given up, and nobody touches the count later.", "quantifier": "any number of threads, all programs, all schedules, all update functions, all starting values", "why_tests_cant": "a test runs few threads on few schedules; mutual exclusion and no double destruction must hold on all", "anchors": ["include/Zycore/Atomic.h:ZyanAtomicCompareExchange", "include/Zycore/Atomic.h:ZyanAtomicIncrement", "include/Zycore/Atomic.h:ZyanAtomicDecrement", "include/Zycore/Internal/AtomicGNU.h:ZyanAtomicCompareExchange32"]}
{"id": "C88", "title": "A careful program survives memory exhaustion", "statement": "A program that uses any number of vectors, strings and bitsets, looks at every status, does not use an object whose Init failed, and only destroys an object one of whose calls was refused memory, is never in danger, whichever requests the allocator refuses. Refused calls return the allocator's error, everything else works as with enough memory, the other objects keep their contents, no other memory is touched. Wherever it stops, destroying what is left, in any order, always succeeds, runs the destructors and gives back all memory.", "quantifier": "all careful programs, which may decide by the statuses what to do next, all objects, all allocators that refuse any requests with any errors", "why_tests_cant": "tests hardly ever refuse memory, and a program with n requests has 2^n ways to be refused", "anchors": ["src/Vector.c:ZyanVectorInitEx", "src/Vector.c:ZyanVectorReallocate", "src/Vector.c:ZyanVectorDestroy", "src/String.c:ZyanStringInitEx", "src/String.c:ZyanStringDestroy", "src/Bitset.c:ZyanBitsetInitEx", "src/Bitset.c:ZyanBitsetDestroy"]}
{"id": "C89", "title": "Destructors of thread-local storage run as documented", "statement": "POSIX: when a thread ends, the destructor given to ZyanThreadTlsAlloc is invoked exactly once with the value the thread has stored in the slot, if it is not NULL; releasing the slot and ending the process invoke nothing. Windows: the destructor is invoked exactly once with every stored value when its thread ends or the slot is released. A slot whose number is used again has the new destructor, and no values from before. In between, calls on allocated slots succeed, calls on others fail, and GetValue returns what the thread stored last.", "quantifier": "all histories of Alloc, Free, SetValue, GetValue and thread ends of any number of threads and slots, all orders in which the system visits the slots", "why_tests_cant": "needs threads that end at chosen points, slots being reused, and every order of the system's visits", "anchors": ["src/API/Thread.c:ZyanThreadTlsAlloc", "src/API/Thread.c:ZyanThreadTlsFree", "src/API/Thread.c:ZyanThreadTlsSetValue", "include/Zycore/API/Thread.h:ZyanThreadTlsCallback"]}
{"id": "C90", "title": "Threads with objects of their own do not disturb one another", "statement": "Calls that different threads make at the same time on different objects have the results they would have had alone, whatever the interleaving of their accesses to memory and of their requests to the allocator; each thread's memory is as if it had been alone, and other memory is not touched. Calls that take const objects change nothing, so any number of threads may make them on the same objects at the same time.", "quantifier": "all numbers of threads, all programs of calls that are fine alone, all schedules of single memory accesses and allocator requests, all answers of the allocator", "why_tests_cant": "tests see a few interleavings of a few programs; hidden shared state (static buffers, writes of a const call) shows only under the right schedule", "anchors": ["src/Vector.c:ZyanVectorPushBack", "src/Vector.c:ZyanVectorFindEx", "src/String.c:ZyanStringAppend", "src/String.c:ZyanStringLPosEx", "src/Format.c:ZyanStringAppendDecU64", "src/Bitset.c:ZyanBitsetSet", "src/List.c:ZyanListPushBack", "src/ArgParse.c:ZyanArgParseEx"]}
{"id": "C91", "title": "Searches call the comparison function in a fixed order, element first, and not too often", "statement": "A search calls the client's comparison with pointers to an element (left) and to the key (right), and with nothing else. Find compares the elements of the range in order, each once, and stops at the first that is equal. BinarySearch compares distinct elements of the range, at least floor(log2(n+1)) and at most ceil(log2(n+1)) of them, also when the range is not sorted or the answers contradict one another; its status says whether an answer was 'equal' and its index separates the compared elements that were smaller from the others. A refused range makes no call. The comparison may keep a state of its own.", "quantifier": "all vectors, keys, ranges, all comparison functions with any state of their own that leave the vector and the key alone", "why_tests_cant": "a comparison with a counter, a cache or a heterogeneous key relies on which calls are made in which order; tests use stateless, symmetric comparisons", "anchors": ["src/Vector.c:ZyanVectorFind", "src/Vector.c:ZyanVectorFindEx", "src/Vector.c:ZyanVectorBinarySearch", "src/Vector.c:ZyanVectorBinarySearchEx", "include/Zycore/Comparison.h:ZyanComparison", "include/Zycore/Comparison.h:ZyanEqualityComparison"]}
{"id": "C92", "title": "Results do not depend on addresses, unused memory or the build", "statement": "A program that creates, uses and destroys vectors, strings and bitsets returns the same statuses, shows the same contents and calls destructors for the same elements in the same order wherever it runs: whatever the memory contained before, whichever blocks the allocator hands out and whatever is in them, in debug and in release builds. If the program leaves contents open (an emplaced element without a constructor, Resize to a larger size without an initial value, a logical operation whose source ends inside a byte), statuses, sizes, capacities of vectors and the number of destructor calls are still the same.", "quantifier": "all legal programs over any number of objects, all pairs of initial memories and of allocators that grant every request, both builds", "why_tests_cant": "a read of uninitialised memory or a dependence on an address shows only when the memory happens to differ; tests run in one process image", "anchors": ["src/Vector.c:ZyanVectorInitEx", "src/Vector.c:ZyanVectorResizeEx", "src/Vector.c:ZyanVectorEmplaceEx", "src/String.c:ZyanStringResize", "src/String.c:ZyanStringInsert", "src/Bitset.c:ZyanBitsetPush", "src/Bitset.c:ZyanBitsetAND"]}
{"id": "C93", "title": "Pointers into vectors and strings stay valid until the storage moves", "statement": "A pointer obtained with Get from a vector, the data pointer of a string, or a view of a string stays valid through any further calls on the object as long as the allocator has granted no request since. It then still is what Get or GetData returns, and shows what is in that place now. Once a request has been granted, or a growable object destroyed, every access through the pointer is undefined. Which calls make a request follows from size, capacity, growth factor and shrink threshold alone. Objects on a caller-supplied buffer never make one.", "quantifier": "all reachable vectors and strings, all further histories of calls, all allocators including ones that refuse requests, all indices", "why_tests_cant": "a stale pointer often still shows the old bytes, since realloc may leave the block where it is; whether a call moves the storage depends on the capacity that the whole history has built up", "anchors": ["src/Vector.c:ZyanVectorGet", "src/Vector.c:ZyanVectorPushBack", "src/Vector.c:ZyanVectorPopBack", "src/Vector.c:ZyanVectorShrinkToFit", "src/String.c:ZyanStringGetData", "src/String.c:ZyanStringViewInsideView", "src/String.c:ZyanStringAppend", "src/String.c:ZyanStringDelete"]}
{"id": "C94", "title": "What a refused formatting call leaves behind", "statement": "A call that appends a number to a growable string never faults, whichever of its requests the allocator refuses. It makes at most one request for an unsigned decimal, two for an unsigned hexadecimal, three for a signed decimal and four for a signed hexadecimal number. If all are granted the number is appended. Otherwise the refused request is the last one, its error is returned, and the string shows the old characters, followed by nothing, the sign, or sign and prefix; only a hexadecimal number longer than its padding may leave more: as many characters as the padding is wide, the first of them NUL. The string stays NUL-terminated and destroying it gives back its memory. A number that fits into the capacity needs no memory.", "quantifier": "all reachable growable strings, values, paddings, signs and prefixes, all allocators that refuse any requests with any errors", "why_tests_cant": "the number of requests depends on capacity, growth factor and the lengths of the parts, and every one of them may be the one that is refused", "anchors": ["src/Format.c:ZyanStringAppendDecU", "src/Format.c:ZyanStringAppendHexU", "src/Format.c:ZyanStringAppendDecS", "src/Format.c:ZyanStringAppendHexS"]}
{"id": "C95", "title": "Each system error has its status", "statement": "Every call of the system wrappers translates the answer of the operating system by a fixed table: which status EINVAL, EAGAIN, ENOMEM, EPERM, EBUSY or any other error of the call stands for, and plain SUCCESS (no other success code) exactly for success. For thread-local storage this holds after any history of calls: storing under or releasing an index that is not in use is reported (INVALID_ARGUMENT, BAD_SYSTEMCALL), and TlsAlloc returns the index the system handed out exactly if it succeeds.", "quantifier": "all answers and error codes of the system, all histories of thread-local storage calls of any threads; POSIX and Windows", "why_tests_cant": "a test machine produces only a few of the errors, and callers branch on the exact codes", "anchors": ["src/API/Synchronization.c:ZyanCriticalSectionEnter", "src/API/Synchronization.c:ZyanCriticalSectionInitialize", "src/API/Thread.c:ZyanThreadTlsSetValue", "src/API/Thread.c:ZyanThreadTlsAlloc", "src/API/Memory.c:ZyanMemoryVirtualProtect", "src/API/Terminal.c:ZyanTerminalEnableVT100"]}
{"id": "C96", "title": "Lists do not disturb each other", "statement": "A program that creates, uses and destroys any number of lists (growable, or in buffers of the caller that no two living lists share), in any order and whatever requests the allocator refuses, never faults. Every call returns the status, changes the elements and invokes the destructor as if its list were the only one; all other lists keep their elements. Nodes of different lists never share memory, other memory is left alone, and once all lists are destroyed no memory is left allocated.", "quantifier": "all programs over any number of lists with any element sizes, destructors and buffers, all refusals of the allocator", "why_tests_cant": "interference shows only for particular interleavings of allocation and release between lists", "anchors": ["src/List.c:ZyanListInitEx", "src/List.c:ZyanListInitCustomBuffer", "src/List.c:ZyanListPushBack", "src/List.c:ZyanListPopFront", "src/List.c:ZyanListDestroy"]}
{"id": "C97", "title": "Formatted numbers read back and sort", "statement": "The text appended by AppendDecU, AppendHexU, AppendDecS or AppendHexS is accepted by a reader of integers (optional sign, the prefix, digits of the base) and gives back the number, for every 64-bit value, padding, case, sign option and prefix that is not itself taken for a sign. Compare and CompareI order two strings that differ only in a final non-negative number formatted in the same way like the numbers, and call them equal exactly for equal numbers. (For negative numbers the order is reversed.)", "quantifier": "all 64-bit values, paddings, cases, prefixes and preceding texts, after any history of string calls", "why_tests_cant": "a round trip over all 64-bit values and paddings, and the order of all pairs, cannot be enumerated", "anchors": ["src/Format.c:ZyanStringAppendDecU", "src/Format.c:ZyanStringAppendHexU", "src/Format.c:ZyanStringAppendDecS", "src/Format.c:ZyanStringAppendHexS", "src/String.c:ZyanStringCompare", "src/String.c:ZyanStringCompareI"]}
{"id": "C98", "title": "Bitset calls in any order", "statement": "Init with any 64-bit number of bits, followed by any sequence of Set, Reset, Assign, Toggle, SetAll, ResetAll, Flip, Push, Pop, Clear, Reserve and ShrinkToFit, also sequences that make no sense such as Pop on an empty bitset or a Push into a full buffer, never touches memory outside the bitset; the status of every call and the answers of GetSize, GetSizeBytes, Test, TestMSB, TestLSB, Count, All, Any and None are those of one small machine with the claimed size and the bits of the bytes as its state. AND, OR and XOR of two such bitsets combine these bits. Destroy afterwards gives all memory back.", "quantifier": "all initial sizes, all sequences of calls (within the address space), growable and in a buffer, and all pairs of such bitsets", "why_tests_cant": "the sequences, in particular those mixing errors, cannot be enumerated; tests only use sequences that make sense", "anchors": ["src/Bitset.c:ZyanBitsetInitEx", "src/Bitset.c:ZyanBitsetInitBuffer", "src/Bitset.c:ZyanBitsetPush", "src/Bitset.c:ZyanBitsetPop", "src/Bitset.c:ZyanBitsetSet", "src/Bitset.c:ZyanBitsetSetAll", "src/Bitset.c:ZyanBitsetClear", "src/Bitset.c:ZyanBitsetReserve", "src/Bitset.c:ZyanBitsetCount", "src/Bitset.c:ZyanBitsetAll", "src/Bitset.c:ZyanBitsetAny", "src/Bitset.c:ZyanBitsetNone", "src/Bitset.c:ZyanBitsetAND", "src/Bitset.c:ZyanBitsetOR", "src/Bitset.c:ZyanBitsetXOR", "src/Bitset.c:ZyanBitsetDestroy"]}
{"id": "C99", "title": "AppendFormat under every answer", "statement": "Whatever the C library's formatter answers in the first and in the second call ZyanStringAppendFormat makes, and whether or not the memory is granted: the status, the reported size and capacity and the bytes at the string's address are determined as follows. A formatter error, a fixed buffer that is too short and a refused allocation leave the size unchanged but write the beginning of the text behind the characters; after growing, the second text is cut at the room the growth factor leaves. Memory outside the string never changes.", "quantifier": "all strings reachable by string and formatting calls, all texts whose length is an int, all answers of both formatter calls, debug and release builds", "why_tests_cant": "a test sees one formatter, which repeats its text, and an allocator that grants; the failing cases need fault injection and the bytes behind the terminator are not looked at", "anchors": ["src/Format.c:ZyanStringAppendFormat", "src/Format.c:ZyanStringAppendDecS", "src/Format.c:ZyanStringAppendHexS"]}
{"id": "C100", "title": "Views of parts of larger texts, exactly", "statement": "For views whose text is not followed by a NUL character the comparing and searching functions behave as follows. ZyanStringCompare and ZyanStringCompareI take the byte behind both texts into account when the texts are alike, so equal texts followed by different bytes are always reported as different, and the call reads outside the memory if it ends with the text. ZyanStringLPosEx and ZyanStringLPosExI search for the characters from the needle's address up to the next NUL character, whatever size the needle has, and read one byte too many when the haystack ends within a possible occurrence.", "quantifier": "all views, all bytes behind them, all ranges, all characters", "why_tests_cant": "tests compare and search terminated strings; which byte lies behind a part of a text is decided by the program around it", "anchors": ["src/String.c:ZyanStringCompare", "src/String.c:ZyanStringCompareI", "src/String.c:ZyanStringLPosEx", "src/String.c:ZyanStringLPosExI", "src/String.c:ZyanStringLPos"]}
{"id": "C101", "title": "Command lines are read back as they were written", "statement": "Whatever options and arguments a user writes on the command line - flags, options with a value in the next token or attached to the name, several flags in one token, plain arguments, and anything behind \"--\" - ZyanArgParse returns exactly these options, values and arguments in the order in which they were written, provided that the number of arguments and the required options are as configured. If such a command line is accepted, then so is every one with the same options and arguments in another order.", "quantifier": "all definition tables, all lists of options and arguments that fit them, all texts, all bounds, all permutations", "why_tests_cant": "the ways to write an option multiply with each other; a test suite checks a handful of command lines", "anchors": ["src/ArgParse.c:ZyanArgParse", "src/ArgParse.c:ZyanArgParseEx"]}
{"id": "C102", "title": "A list makes one memory request per element it adds", "statement": "Each Push or Emplace on a growable list makes exactly one request to the allocator, whose answer decides about the call: granted means SUCCESS and the element is in the list, refused means the status of the refusal and an unchanged list. Resize to more elements makes one request for each of them in order; it stops at the first refusal, returns its status and keeps the elements added so far. Every other call, and every call on a list in a caller's buffer, makes no request and so cannot fail for lack of memory.", "quantifier": "all lists reachable by any calls, all allocator answers, all calls, all sizes", "why_tests_cant": "that a call makes no request cannot be seen from its result; which of many requests is refused is a matter of the environment", "anchors": ["src/List.c:ZyanListPushBack", "src/List.c:ZyanListPushFront", "src/List.c:ZyanListEmplaceBack", "src/List.c:ZyanListEmplaceFront", "src/List.c:ZyanListResizeEx", "src/List.c:ZyanListPopBack", "src/List.c:ZyanListPopFront", "src/List.c:ZyanListClear", "src/List.c:ZyanListSetNodeData"]}
{"id": "C103", "title": "The argument parser makes no more memory requests than its entries need", "statement": "A call of ArgParse makes one request for as many entries as argv has strings, and one more whenever an entry does not fit, each of them for twice the room needed. If all of these are granted the call gives the verdict of the grammar, whatever the allocator would answer to further requests; if one is refused the call ends there with the status of the refusal. A command line without single-dash arguments, and every one with no more entries than argv has strings, makes only the first request; k further requests need more than 2^(k-1) times as many entries as strings.", "quantifier": "all definitions, all command lines, all limits, all allocator answers", "why_tests_cant": "the number of requests is invisible in the result of a call, and which one is refused is a matter of the environment", "anchors": ["src/ArgParse.c:ZyanArgParse", "src/ArgParse.c:ZyanArgParseEx", "src/Vector.c:ZyanVectorEmplace"]}
{"id": "C104", "title": "Comparison functions for signed numbers", "statement": "The functions declared with ZYAN_DECLARE_COMPARISON, ZYAN_DECLARE_EQUALITY_COMPARISON and their _FOR_FIELD forms for a signed integral type order the numbers of that type and decide their equality, so that BinarySearch in an ascending vector of signed numbers finds a number exactly if it is there, at the number of smaller elements. The default comparison functions for numeric values of 8 to 64 bits do the same for signed numbers.", "quantifier": "all widths, all pairs of numbers, all field offsets, all ascending vectors", "why_tests_cant": "all pairs of values; tests use small positive numbers", "anchors": ["include/Zycore/Comparison.h:ZYAN_DECLARE_COMPARISON", "include/Zycore/Comparison.h:ZYAN_DECLARE_COMPARISON_FOR_FIELD", "include/Zycore/Comparison.h:ZyanCompareNumeric32", "src/Vector.c:ZyanVectorBinarySearch"]}
{"id": "C105", "title": "Splitting several strings at a time with the fallback STRTOK", "statement": "Source files that each split a string of their own with ZYAN_STRTOK get the tokens of their string in order and NULL afterwards, in whatever order the files take their turns and whatever was split before; nothing outside the strings changes. As in ISO C a split begun in one source file can be continued in any other, and within one source file only the latest split is under way.", "quantifier": "all numbers of files, all strings and delimiters, all interleavings of the calls", "why_tests_cant": "all interleavings; tests of a header live in one source file", "anchors": ["include/Zycore/LibC.h:ZYAN_STRTOK", "include/Zycore/Defines.h:ZYAN_INLINE"]}
{"id": "C106", "title": "Calls can be taken back", "statement": "A client that notes, for every successful call on a vector, string, bitset or list, the call that takes it back (PopBack for PushBack, Delete for Insert, Insert of the removed elements for Delete, Set of the old element for Set, Swap for Swap, Truncate for Append, Toggle for Toggle, Flip for Flip, and so on) and later makes the noted calls in reverse order gets its contents back, and none of the noted calls fails; in fixed buffers as well as with an allocator that works.", "quantifier": "all reachable containers, all sequences of calls of any length with their inverses, all contents", "why_tests_cant": "sequences of any length over all contents; tests try single pairs", "anchors": ["src/Vector.c:ZyanVectorInsertRange", "src/Vector.c:ZyanVectorDeleteRange", "src/Vector.c:ZyanVectorSwapElements", "src/String.c:ZyanStringTruncate", "src/String.c:ZyanStringInsert", "src/Bitset.c:ZyanBitsetPop", "src/Bitset.c:ZyanBitsetPush", "src/List.c:ZyanListPopBack"]}
{"id": "C107", "title": "The searches agree with each other", "statement": "LPos and RPos give the same status and the occurrences lie between the positions they give; the case-insensitive variants find whatever the sensitive ones find; Compare calls two texts equal exactly if their sizes agree and LPos finds one at the start of the other. A loop that searches again behind (before) each position found, until the answer is not TRUE, meets exactly the occurrences, in ascending (descending) order. The same loop over a vector meets exactly the elements the comparison accepts, and ends with FALSE. On a sorted vector BinarySearch and Find give the same answer and the same position.", "quantifier": "all texts and needles without NUL, both kinds of comparison, all reachable vectors, all elements sought, all comparisons", "why_tests_cant": "all pairs of texts and all vectors; tests compare single answers with literals, not functions with each other", "anchors": ["src/String.c:ZyanStringLPosEx", "src/String.c:ZyanStringRPosEx", "src/String.c:ZyanStringLPosIEx", "src/String.c:ZyanStringRPosIEx", "src/String.c:ZyanStringCompare", "src/String.c:ZyanStringCompareI", "src/Vector.c:ZyanVectorFindEx", "src/Vector.c:ZyanVectorBinarySearch"]}
{"id": "C108", "title": "Lower case and the case-insensitive functions agree", "statement": "CompareI, LPosIEx and RPosIEx give exactly the status and the result that Compare, LPosEx and RPosEx give after both texts were converted to lower case. Any sequence of whole-string conversions succeeds, and its effect is that of the last conversion alone.", "quantifier": "all texts and needles, all ranges, all sequences of conversions", "why_tests_cant": "all pairs of texts and all characters; the conversion and the comparison are written independently of each other in the code", "anchors": ["src/String.c:ZyanStringToLowerCase", "src/String.c:ZyanStringToUpperCase", "src/String.c:ZyanStringCompareI", "src/String.c:ZyanStringLPosIEx", "src/String.c:ZyanStringRPosIEx"]}
{"id": "C109", "title": "Replacing all occurrences of a text", "statement": "A client loop that finds the next occurrence of a text with LPosEx, deletes it, inserts a replacement (unless that is empty) and goes on behind the replacement ends, and leaves exactly the text in which the occurrences, taken from the left, are replaced, also if the replacement contains the text sought. This holds for strings that grow, and in a fixed buffer whenever the result fits; if it does not fit, the loop ends with INSUFFICIENT_BUFFER_SIZE, with the next occurrence deleted and the rest of the text in place.", "quantifier": "all reachable strings, all contents, all texts sought and replacements of any length that lie in other memory, all buffer sizes", "why_tests_cant": "the number of rounds, reallocations and moved ranges depends on the texts; tests try a few literals", "anchors": ["src/String.c:ZyanStringLPosEx", "src/String.c:ZyanStringDelete", "src/String.c:ZyanStringInsert", "src/String.c:ZyanStringGetSize"]}
{"id": "C110", "title": "Removing all matching elements of a vector", "statement": "A client loop that calls FindEx, deletes the element found and goes on at the same index until the answer is not TRUE ends, and leaves exactly the elements that do not match, in their order; so does a loop that walks from the last index down to the first and deletes what a predicate accepts. The destructor runs exactly once for each removed element, in the order of removal, and no memory outside the vector changes. The last answer of FindEx is FALSE, or OUT_OF_RANGE if nothing is left behind the last match.", "quantifier": "all reachable vectors (with an allocator or in a caller's buffer), all contents, all comparison functions, all patterns of matches", "why_tests_cant": "the number of rounds, shrinking reallocations and moved ranges depends on the pattern of matches; tests try a few", "anchors": ["src/Vector.c:ZyanVectorFindEx", "src/Vector.c:ZyanVectorDelete", "src/Vector.c:ZyanVectorGet", "src/Vector.c:ZyanVectorGetSize"]}
{"id": "C111", "title": "Sorting and reversing a vector in place", "statement": "A client that sorts a vector with Get, a comparison function and SwapElements of neighbours (insertion sort), or reverses it with SwapElements, gets exactly that if the vector has room for one more element: the same elements in ascending order, with elements that compare equal in their old order, or in reverse order, in the same storage, with no destructor call and no other memory changed; BinarySearch then finds exactly the elements that were there. A vector in order is not touched. Without room for one more element, the first swap needed is refused with INSUFFICIENT_BUFFER_SIZE and nothing changes.", "quantifier": "all reachable vectors (with an allocator or in a caller's buffer), all contents, all comparison functions that are total preorders", "why_tests_cant": "the number and positions of the swaps depend on the contents; tests try a few permutations", "anchors": ["src/Vector.c:ZyanVectorSwapElements", "src/Vector.c:ZyanVectorGet", "src/Vector.c:ZyanVectorBinarySearch", "src/Vector.c:ZyanVectorGetSize"]}
{"id": "C112", "title": "Programs over several bitsets", "statement": "A program that creates any number of bitsets with an allocator, changes them with the calls of the API in any order and combines any two of them (also one with itself) with AND, OR and XOR gets the statuses and, on every bitset, the answers that follow from the bits alone: no call changes a bitset it is not given as destination, and destroying all of them gives back all memory. Hence the laws of Boolean algebra hold for bitsets of any, also different, sizes: De Morgan, XOR twice restores, AND and OR are idempotent, the order of combining does not matter, the difference by Flip and AND is the one by OR and XOR; three XORs exchange the bits of two bitsets of equal byte size, and ResetAll and OR copy.", "quantifier": "all programs of legal calls with any number of bitsets of any size, any contents, all growth factors and shrink thresholds, all indices", "why_tests_cant": "interference between containers and laws over all pairs of sizes need unboundedly many programs and contents", "anchors": ["src/Bitset.c:ZyanBitsetAND", "src/Bitset.c:ZyanBitsetOR", "src/Bitset.c:ZyanBitsetXOR", "src/Bitset.c:ZyanBitsetFlip", "src/Bitset.c:ZyanBitsetResetAll", "src/Bitset.c:ZyanBitsetInitEx", "src/Bitset.c:ZyanBitsetDestroy"]}
{"id": "C113", "title": "Splitting a text at a separator and joining the parts", "statement": "A client that looks for a separator with LPosEx and takes the characters between two occurrences as a view (ViewInsideBufferEx or ViewInsideViewEx) gets views of exactly the pieces of the text, in order, without any memory being changed; inserting the views at the end of a string, with the separator between them, gives the text back.", "quantifier": "all texts, all non-empty separators, all previous contents of the view structs, all reachable growable strings that receive the parts", "why_tests_cant": "where the pieces begin and end depends on overlapping and adjacent occurrences; tests try a few texts", "anchors": ["src/String.c:ZyanStringLPosEx", "src/String.c:ZyanStringViewInsideBufferEx", "src/String.c:ZyanStringViewInsideViewEx", "src/String.c:ZyanStringViewGetSize", "src/String.c:ZyanStringViewGetData", "src/String.c:ZyanStringInsert"]}
{"id": "C114", "title": "Lists of numbers in a string read back", "statement": "Numbers written one after the other into a string with the formatting functions (AppendDecU, AppendDecS, AppendHexU, AppendHexS, with any padding, sign option and prefix), with a separator appended between them, can be read back: if the separator begins with a character that is no digit, no sign and no part of the prefixes, splitting the string at the separator with LPosEx and ViewInsideBufferEx gives as many fields as numbers were written, and each field reads as its number, in order. In a growable string all calls succeed, in a fixed buffer they do when there is room for the longest numerals; whenever all calls succeed the numbers read back.", "quantifier": "all lists of numbers and options, all separators, all strings, 32- and 64-bit builds", "why_tests_cant": "tests check single numbers against literal texts; that every list of numbers can be recovered depends on every numeral and on every boundary between them", "anchors": ["src/Format.c:ZyanStringAppendDecU", "src/Format.c:ZyanStringAppendDecS", "src/Format.c:ZyanStringAppendHexU", "src/Format.c:ZyanStringAppendHexS", "src/String.c:ZyanStringAppend", "src/String.c:ZyanStringLPosEx", "src/String.c:ZyanStringViewInsideBufferEx"]}
{"id": "C115", "title": "Elements that own memory are released exactly once", "statement": "A vector may hold objects that own memory (strings, allocated pointers) with a destructor that releases it. For growable vectors as long as the allocator grants its requests, and for vectors in a buffer of the caller always, after every sequence of PushBack, Insert, EmplaceEx, SwapElements (after a Reserve), Set, Delete, PopBack, Clear, Resize to fewer elements, Reserve and ShrinkToFit every object that is still in the vector is alive with its contents, every object that left it was released once, and Destroy leaves no memory behind; an object for which a caller's buffer has no room is refused and stays with the client. When the allocator refuses the request of a call other than Resize and Clear, the error is reported, the objects the vector had stay alive in it (those a deletion took out are released), the client keeps the object it offered, and Destroy leaves no memory behind. Two situations break this, each time they occur: a copy made by Duplicate shares the objects with the original, so that destroying both releases them twice; and if a Resize to fewer elements is refused its smaller block, the released objects stay in the vector and Destroy releases them again.", "quantifier": "all sequences of calls, all object contents, all element sizes, growth factors and shrink thresholds, all caller buffers", "why_tests_cant": "a test sees a leak or a double release only in the histories it runs; here all histories and both failing situations are decided", "anchors": ["src/Vector.c:ZyanVectorPushBack", "src/Vector.c:ZyanVectorInsert", "src/Vector.c:ZyanVectorEmplaceEx", "src/Vector.c:ZyanVectorSwapElements", "src/Vector.c:ZyanVectorSet", "src/Vector.c:ZyanVectorDeleteRange", "src/Vector.c:ZyanVectorPopBack", "src/Vector.c:ZyanVectorClear", "src/Vector.c:ZyanVectorResize", "src/Vector.c:ZyanVectorDestroy", "src/Vector.c:ZyanVectorDuplicateEx"]}
{"id": "C116", "title": "Elements of a list that own memory are released exactly once", "statement": "A list may hold objects that own memory with a destructor that releases it. For growable lists, whatever the allocator answers, and for lists in a buffer of the caller: after every sequence of PushBack, PushFront, EmplaceBack, EmplaceFront, PopBack, PopFront, SetNodeData, Resize to fewer elements and Clear, where the caller stores the element after an Emplace and releases objects that were refused, every object that is still in the list is alive with its contents, every object that left it was released once, there is one node for each element, and Destroy leaves no memory behind.", "quantifier": "all sequences of calls, all object contents, all element sizes, all answers of the allocator, all buffers", "why_tests_cant": "a test sees a leak or a double release only in the histories and allocator failures it runs; here all of them are decided", "anchors": ["src/List.c:ZyanListPushBack", "src/List.c:ZyanListPushFront", "src/List.c:ZyanListEmplaceBack", "src/List.c:ZyanListEmplaceFront", "src/List.c:ZyanListPopBack", "src/List.c:ZyanListPopFront", "src/List.c:ZyanListSetNodeData", "src/List.c:ZyanListResize", "src/List.c:ZyanListClear", "src/List.c:ZyanListDestroy"]}
