# Vector
claim("C01", "proved", "c01_growable_vector", "all histories of calls, working allocator, sums and sizes below 2^64")
claim("C02", "proved", "c02_fixed_buffer_vector", "all histories of calls on a caller-supplied buffer")
claim("C03", "partial", "c03_allocation_failure_partial c03_init_failure c03_growth_failure_refuted c03_second_push_refuted c03_shrink_failure_refuted",
      "contents, size and memory are kept; capacity is not (refuted: on every full vector the PushBack after a failed one overruns the storage), failing shrinks report an error although applied (refuted)")
claim("C04", "proved", "c04_capacity c04_reserve c04_shrink_to_fit", "")
claim("C05", "partial", "c05_destructors_partial c05_resize_failure_refuted c05_resize_every_refuted", "proved for working allocators; refuted for every shrinking Resize whose request for a smaller block is refused")
claim("C06", "partial", "c06_no_leak_partial c06_failed_growth_no_leak_partial c74_any_allocator c03_growth_failure_refuted",
      "proved for working allocators, for one refused growth before Destroy, and for every allocator up to and including the first refused request that leaves a capacity the storage does not have (c74_any_allocator)")
claim("C07", "partial", "c07_find_ex_partial c07_find_partial c07_find_empty_refuted c07_find_end_refuted c07_find_nothing_refuted", "empty range at the end is rejected (refuted)")
claim("C08", "proved", "c08_binary_search_ex c08_binary_search", "")
claim("C09", "proved", "c09_duplicate c09_duplicate_custom_buffer", "")
claim("C10", "partial", "c10_out_of_range_partial c10_get_any_index c10_null_arguments c10_delete_range_refuted c10_insert_range_refuted c10_delete_range_every_refuted c10_insert_range_every_refuted",
      "proved when index + count does not wrap; refuted when it does")
claim("C11", "partial", "c11_emplace_failure_partial c11_emplace_ex_refuted c11_emplace_ex_every_refuted", "proved at the end of the vector, refuted inside")
claim("C12", "partial", "c12_swap_partial c12_swap_same_refuted c12_swap_same_always_refuted", "proved for different indices; equal indices always copy memory onto itself (refuted)")
claim("C54", "partial", "c54_push_back_own_element_partial c54_push_back_own_element_refuted c54_push_back_full_refuted", "proved without reallocation, refuted for every full growable vector")
claim("C44", "proved", "c44_status_fields c44_status_onto c44_predefined", "")
claim("C45", "partial", "c45_align_up_partial c45_align_down_below_partial c45_align_down_partial c45_align_down_refuted c45_align_down_zero_refuted c45_align_up_wrap_refuted c45_align_up_mixed_refuted c45_is_aligned c45_is_power_of_2 c45_bits_to_represent_partial c45_bits_to_represent_refuted c45_min_max c45_abs_partial c45_abs_refuted c45_div64 c45_div64_kernel_partial c45_div64_kernel_zero_refuted c45_div64_kernel_refuted",
      "ALIGN_DOWN is wrong for aligned values (refuted), ALIGN_UP wraps at the top, BITS_TO_REPRESENT stops at 32 bits, DIV64 in the Linux kernel takes divisors of 32 bits only; proved otherwise")
claim("C46", "proved", "c46_equals c46_compare_values c46_compare_equals c46_compare_order c46_field_equals c46_field_compare c46_field_order c46_instances", "")
claim("C53", "proved", "c53_version_lossless c53_version_encode c53_get_version", "")
claim("C47", "proved", "c47_memcpy c47_memmove c47_memset c47_memcmp c47_memchr", "")
claim("C48", "partial", "c48_strlen c48_strcpy c48_strcat c48_strncpy c48_strncat c48_strcmp c48_strncmp_partial c48_strncmp_refuted c48_strncmp_overread_refuted c48_strchr c48_strrchr c48_strspn c48_strcspn c48_strpbrk c48_strstr_partial c48_strstr_empty_refuted c48_strtok c48_strxfrm c48_strcoll_refuted c48_strncmp_behind_refuted c48_strncmp_outside_refuted c48_strstr_every_refuted c48_strcoll_every_refuted",
      "all functions proved except STRNCMP on equal strings longer than the terminators, STRSTR on two empty strings and the STRCOLL stub (refuted)")
claim("C49", "proved", "c49_linearizable c49_real_time c49_no_lost_update c49_increments", "all threads, programs and interleavings; compiler builtins are atomic steps")
claim("C50", "partial", "c50_mutual_exclusion c50_one_holder c50_recursive c50_others_wait c50_too_deep c50_delete c50_enter_error c50_leave_error c50_try_enter_error c50_delete_error c50_initialize_error c50_initialize c50_recursive_refuted",
      "on POSIX mutex semantics; the result of pthread_mutexattr_settype is ignored (refuted)")
claim("C51", "partial", "c51_virtual_protect c51_protection_bits c51_virtual_free c51_flush_instruction_cache c51_page_size_partial c51_tls_alloc c51_tls_free c51_tls_set_value c51_tls_get_value c51_enable_vt100 c51_is_tty_partial c51_current_thread_partial c51_is_tty_refuted c51_page_size_refuted c51_thread_id_refuted",
      "POSIX versions; IsTTY on unknown streams, a failing sysconf and GetCurrentThreadId are refuted")
claim("C52", "partial", "c52_allocate_partial c52_allocate_failure c52_reallocate_partial c52_reallocate_failure_partial c52_deallocate c52_allocate_refuted c52_reallocate_refuted c52_models_agree_allocate c52_models_agree_reallocate_partial c52_models_agree_deallocate c52_allocator_init",
      "proved when element_size * n < 2^64, refuted when the product wraps")
claim("C55", "proved", "c55_thread_local", "POSIX versions, on pthread key semantics")
claim("C13", "proved", "c13_growable_string c13_destroy", "all histories; index + count sums must not wrap (see C59)")
claim("C14", "proved", "c14_fixed_string c14_destroy", "all histories; index + count sums must not wrap (see C59)")
claim("C15", "partial", "c15_inside_buffer c15_inside_buffer_ex c15_get_char_partial c15_get_char_refuted c15_get_char_scaled_refuted c15_get_char_zero_refuted c15_defined_view c15_defined_pointer_refuted",
      "GetChar reads the element size that the view constructors leave unset (refuted for uninitialised structs); ZYAN_DEFINE_STRING_VIEW is right for arrays and string literals and refuted for pointers to C strings")
claim("C16", "partial", "c16_inside_view c16_inside_view_ex_partial c16_inside_view_ex_refuted", "InsideViewEx makes a view one character too short (refuted)")
claim("C17", "partial", "c17_lpos_ex c17_lpos c17_string_as_view c17_wrap_refuted c17_wrap_every_refuted", "proved when index + count does not wrap, refuted when it does")
claim("C18", "proved", "c18_rpos_ex c18_rpos", "")
claim("C19", "partial", "c19_lpos_ex_partial c19_rpos_ex_partial c19_compare_partial c19_lpos_ex_bit5_partial c19_rpos_ex_bit5_partial c19_compare_bit5_partial c19_case_insensitive_refuted c19_every_character_refuted",
      "proved for letters, digits, space and punctuation below '@'; on all characters the functions compare up to bit 5, so that the property fails for every pair of other characters that differ in bit 5 only (NUL and space apart)")
claim("C20", "proved", "c20_compare", "")
claim("C21", "partial", "c21_compare_i_antisymmetric c21_compare_i_transitive c21_compare_antisymmetric_partial c21_compare_transitive_partial c21_compare_refuted c21_compare_every_refuted",
      "CompareI proved; Compare proved for bytes with bit 5 set; refuted for all strings of equal length whose first different characters differ in bit 5 only")
claim("C22", "proved", "c22_to_lower_ex c22_to_upper_ex c22_to_lower c22_to_upper", "")
claim("C23", "partial", "c23_capacity c23_reserve_partial c23_reserve_exact c23_no_allocation_partial c23_append_after_reserve c23_reserve_refuted c23_reserve_short_refuted c23_append_reallocates_refuted c23_given_back_refuted",
      "Reserve counts the terminator (refuted by one for every string and capacity); the capacity after Reserve and what an Append after it requests are described exactly; with shrinking on it gives large reservations back and may fail (refuted for every string)")
claim("C24", "partial", "c24_duplicate c24_duplicate_custom_buffer c24_concat c24_concat_custom_buffer c24_capacity_wrap_refuted c24_duplicate_every_refuted", "proved for capacities below 2^64-1")
claim("C56", "partial", "c56_append_self_empty_partial c56_append_self_refuted", "refuted for every nonempty growable string")
claim("C57", "partial", "c18_rpos_ex c18_rpos c15_get_char_partial c57_lpos_haystack_refuted c57_lpos_needle_refuted c57_compare_refuted c100_compare_refuted c100_compare_outside_refuted c100_lpos_ex c100_lpos_continued_refuted c100_lpos_outside_refuted", "RPos and GetChar proved; LPos and Compare read past the view (refuted)")
claim("C58", "partial", "c58_append_failure_partial c58_append_failure_refuted c58_second_append_refuted", "contents and memory are kept; the capacity is not (refuted: a second attempt overruns the storage, for every string)")
claim("C59", "partial", "c59_range_checks_partial c59_delete_wrap_refuted c59_insert_past_end_refuted c59_delete_every_refuted c59_insert_past_end_every_refuted", "proved for sums that do not wrap; Insert at size+1 is accepted (refuted)")
claim("C25", "proved", "c25_numeral_unique c25_append_decu c25_growable_histories", "all values, paddings and histories; 32- and 64-bit variants")
claim("C26", "proved", "c26_append_hexu c25_growable_histories", "all values, paddings, cases and histories; 32- and 64-bit variants")
claim("C27", "proved", "c27_append_signed c25_growable_histories", "all values including INT64_MIN")
claim("C28", "partial", "c28_fixed_histories c28_unsigned_full_partial c28_signed_refuted c99_signed_refuted", "DecU and HexU proved; DecS and HexS keep sign and prefix (refuted)")
claim("C29", "partial", "c29_fits_partial c29_grows_partial c29_full_partial c29_fixed_buffer_refuted c29_formatter_error_refuted c29_growth_one_refuted c29_argument_list_reused_refuted c29_allocation_failure_refuted c99_growth_one_refuted",
      "proved when the text fits, when the string grows by at least 2 and the formatter repeats its text, and on a full fixed buffer; refuted otherwise")
claim("C60", "partial", "c60_decu_partial c60_hexu_refuted c60_decs_refuted", "DecU proved; HexU and DecS refuted")
claim("C34", "proved", "c34_growable_bitset c34_fixed_bitset c34_destroy c34_destroy_buffer",
      "all histories from an empty bitset (or a multiple of 8 zero bits), without Pop on empty (C39), Push into a full buffer (C61) and Reserve of 2^35 bits (C62)")
claim("C35", "partial", "c35_init_partial c35_init_buffer_partial c35_init_refuted c35_init_huge_refuted c98_init_huge_refuted c98_pushes_lost_refuted c98_pushes_lost_fixed_refuted c98_pops_lose_byte_refuted", "proved for multiples of 8; refuted for every other size and for every size from 2^35 on; the calls that follow are described by the c98 theorems")
claim("C36", "partial", "c36_queries_partial c36_any_none_partial c36_whole_bytes_partial c36_any_none_refuted c36_all_refuted c36_all_one_bit_refuted c36_all_unused_refuted c36_any_stale_refuted c98_any_none_refuted c98_all_refuted",
      "proved for sizes 7 mod 8; Any and None without stale bits unless the size is a multiple of 8; exact answers for multiples of 8 (the fourth-last bit is ignored) and of All for 1 to 6 mod 8 without stale bits (always FALSE)")
claim("C37", "partial", "c37_count_whole_bytes_partial c37_count_tidy_partial c37_count_bounds_partial c37_count_pop_refuted c37_count_set_all_refuted c98_count_pop_refuted",
      "proved for multiples of 8 and without stale bits; bounds in general; refuted with stale bits")
claim("C38", "partial", "c38_and_partial c38_or_partial c38_xor_partial c38_apart c38_self c38_partial_byte_refuted c98_and_clears_refuted",
      "proved except for the destination's bits behind the source's end inside the source's last byte (refuted)")
claim("C39", "partial", "c39_pop_partial c39_pop_empty_refuted c98_pop_empty_refuted", "refuted for every empty bitset; Pop of nonempty bitsets proved")
claim("C61", "partial", "c61_push_full_refuted c61_push_allocation_refuted c61_push_after_refusal_refuted", "refuted for every full buffer (status and old bits are right, the size is not)")
claim("C62", "partial", "c62_reserve_partial c62_reserve_exact c62_reserve_refuted c62_reserve_short_refuted c62_reserve_enough_refuted", "the capacity after Reserve is described exactly for every count; for growable bitsets it suffices exactly for multiples of 8 below 2^35 (or if it did before)")

claim("C30", "proved", "c30_growable_list c30_fixed_list c30_links", "all histories, all behaviours of the allocator (releasing memory always succeeds)")
claim("C31", "proved", "c31_fixed_slots c64_stable_nodes", "")
claim("C32", "partial", "c32_remove_refuted", "refuted for every list and node: Remove and RemoveRange are stubs that report success")
claim("C33", "proved", "c33_growable_life c33_fixed_life", "use of released memory is a fault of the model, so its absence is part of the statements")
claim("C63", "partial", "c63_failed_call_partial c63_resize_allocation_refuted c63_resize_buffer_refuted c102_resize_refused_refuted c102_resize_full_refuted", "proved for every call but ResizeEx, refuted for ResizeEx")
claim("C64", "proved", "c64_stable_nodes", "")
claim("C65", "partial", "c30_fixed_list c31_fixed_slots c65_huge_element_refuted c65_huge_element_out_of_bounds_refuted c65_huge_element_allocation_refuted c65_wrapping_element_refuted c65_wrapping_buffer_refuted c65_wrapping_push_refuted",
      "proved when the node size does not wrap; growable lists fault for every element size from 2^64 - 16 on, so do fixed buffers of every length with the first call that writes or constructs an element; an EmplaceBack without constructor overwrites the memory behind every buffer shorter than a node")

claim("C40", "partial", "c40_grammar_actual_partial c40_grammar_function c40_words c40_documented_partial c40_invalid_config c40_program_name c40_no_program_name c40_any_program_name_partial c41_clusters_refuted",
      "exact for the actual grammar; the documented one when no token consists of flags only, refuted otherwise")
claim("C41", "partial", "c41_clusters_refuted", "refuted for every token of flags only")
claim("C42", "partial", "c42_bounds_required_partial c42_matching_error_partial c42_duplicate_required_refuted",
      "flags-only tokens count as unnamed; duplicate required definitions can never be satisfied (refuted)")
claim("C43", "partial", "c43_release_partial c43_errors c43_growth_failure_refuted c43_later_refusal_leaks_refuted c43_destroy_refuted", "proved for all errors of the grammar and a failing first request; every later failing request leaves a block (refuted), which destroying the vector releases; but a caller cannot tell the two failures apart, and destroying after the first is a failed assertion")
claim("C66", "partial", "c66_get_char_refuted", "refuted for every value and index")

claim("C67", "partial", "c67_mutual_exclusion c67_one_holder c67_recursive c67_others_wait c67_initialize c67_leave_refuted",
      "on CRITICAL_SECTION semantics with an unbounded recursion count; Leave by a thread that is not inside is always handed on and undefined (refuted)")
claim("C68", "partial", "c68_fiber_local c68_thread_local_refuted c68_other_fiber_refuted", "proved per fiber, which is per thread when threads do not switch fibers; refuted for every store of a fiber that shares its thread with another")
claim("C69", "partial", "c69_posix c69_windows_partial c69_windows_refuted", "POSIX proved; Windows proved for whole reservations, for other sizes always the whole reservation is released (refuted)")
claim("C70", "proved", "c70_posix c70_windows", "what a successful system call does to the pages, and that a failed one does nothing, is part of the model of the system")
claim("C71", "partial", "c71_flush_instruction_cache c71_system_sizes c71_current_thread c71_tls_alloc c71_tls_free c71_tls_set_value c71_enable_vt100 c71_is_tty_partial c71_is_tty_stale_errno_refuted c71_is_tty_refuted",
      "IsTTY: refuted for every unknown stream, and for a left-over errno when _isatty does not set it")
claim("C72", "proved", "c72_vector c72_string c72_format c72_bitset c72_list c72_argparse c72_no_new_faults", "release: NDEBUG, in which the condition of an assertion is not evaluated")
claim("C73", "proved", "c73_vector c73_string c73_format c73_bitset c73_list c73_argparse", "for runs without undefined behaviour")
claim("C74", "partial", "c74_any_allocator c74_refused_trim_usable c74_refused_extension_unusable c03_growth_failure_refuted",
      "up to and including the first refused request that leaves a capacity the storage does not have; after that the code may write behind its storage (C03); refused growth always ends there, a refused deletion or ShrinkToFit does not when growth factor <= shrink threshold")
claim("C75", "proved", "c75_independent_objects c75_others_unchanged",
      "objects with allocator memory; arguments of one call are different objects (Concat may be given the same string twice), bitsets are created with a multiple of 8 bits (C98 says what other sizes do)")
claim("C76", "partial", "c76_vector_partial c76_string_partial c76_format c76_bitset_partial c76_list_partial c76_vector_given c76_vector_queries_given c76_string_given c76_string_queries_given c76_bitset_given c76_list_given c76_defaults_given c76_vector_refuted c76_comparison_refuted c76_string_refuted c76_bitset_refuted c76_list_refuted",
      "proved for every checked pointer; refuted for the unchecked ones: out-parameters of size, capacity, data and node getters, of Emplace, Find, BinarySearch and Compare, comparison functions, a NULL bitset in Reserve and ShrinkToFit; Remove and RemoveRange of a NULL list succeed. Fields an Init call writes before it fails are not shown")
claim("C77", "partial", "c77_insert_partial c77_insert_before_refuted c77_insert_overlap_refuted c77_insert_full_refuted c77_set_partial c77_set_same_refuted c77_resize_partial c77_resize_refuted c77_append_partial c77_append_refuted c77_string_insert_partial c77_string_insert_before_refuted c77_string_insert_overlap_refuted c77_string_insert_full_refuted c77_string_insert_self_refuted c77_list_push_back c77_list_push_front c77_list_resize c77_list_set_partial c77_list_set_same_refuted",
      "lists proved except SetNodeData of a node's own data; vectors and strings proved while the block stays and the elements lie before the insertion; refuted for every other case: elements behind the position are replaced by their predecessors, overlapping ones and reallocation are undefined")
claim("C78", "partial", "c78_get c78_foreach_look c78_foreach_mutable c78_foreach c78_foreach_safe_partial c78_foreach_push c78_foreach_remove_refuted c78_foreach_pop_refuted c78_foreach_clear_refuted c78_foreach_delete_refuted c78_list_get c78_list_get_null",
      "exact for every body of ZYAN_VECTOR_FOREACH that makes vector calls; a body that removes an element at every item always ends in a NULL dereference (refuted); FOREACH_MUTABLE for bodies that change the item in place")
claim("C79", "partial", "c79_reserve_partial c79_reserve_refuted c79_init_refuted c79_resize_refuted c79_resize_ex_refuted c79_duplicate_refuted c79_string_resize_refuted c79_string_resize_max_refuted c79_string_init_refuted",
      "Reserve proved when the bytes fit; refuted for every request whose bytes wrap: the call succeeds and the memory is too small. With the default allocator, which multiplies; Init, Resize and Duplicate that fit are C01, C04 and C09")
claim("C80", "partial", "c80_amortised_partial c80_default c80_push_requests c80_growth_one_refuted c80_shrink_refuted",
      "proved for growth factors from 2 on with a threshold of 0 or above the growth factor, so also for the default parameters; refuted for all others: growth factor 1, and thresholds from 1 to the growth factor, make every push or pop reallocate")
claim("C81", "partial", "c81_growable_list c81_fixed_list_partial c81_fixed_list_refuted c81_growable_vector c81_fixed_buffer_vector",
      "proved for vectors, for growable lists and for lists on a buffer whose element size is a multiple of the alignment of a pointer; refuted for lists on a buffer with every other element size: each full list with room for two nodes has a misaligned node")
claim("C82", "partial", "c82_init_refused c82_any_allocator c82_refused_trim_usable c82_refused_addition c82_refused_resize c82_refused_clear c82_refused_reserve c58_append_failure_refuted",
      "proved up to the first refused request that leaves a capacity the storage does not have or characters beyond the capacity, with an exact account of which requests those are; after such a request later calls overrun the storage (refuted)")
claim("C83", "partial", "c83_init_refused c83_any_allocator c83_refused_usable c61_push_after_refusal_refuted",
      "proved up to the first refused request that leaves the bitset out of order; those are exactly the refused requests of Push, Clear and Reserve, if the growth factor is at most the shrink threshold; after a refused Push every later Push up to the next multiple of 8 fails and the one after that overruns the storage (refuted)")
claim("C84", "proved", "c84_guarded_calls_are_atomic c84_order_of_calls c84_no_deadlock c84_shared_vector c84_unguarded_refuted",
      "steps of the threads are interleaved one at a time (sequential consistency; the lock and unlock calls of the system give it to data used only inside the section); c84_unguarded_refuted is the contrast: without a section two calls of PushBack that both report success can leave one element")
claim("C85", "proved", "c85_ordered_set c85_insertion_sort",
      "for growable vectors and an allocator that grants requests; the comparison functions of the library are orders by C46")
claim("C86", "partial", "c86_string_partial c86_default_string c86_bitset_partial c86_default_bitset_refuted c86_bitset_pops_refuted",
      "true for growth factors from 2 and larger shrink thresholds (or 0), which the default strings have; the default bitset has threshold 2 = growth factor, and popping the bits of any new default bitset takes requests whose total size is quadratic")
claim("C87", "proved", "c87_spin_lock c87_spin_lock_no_deadlock c87_update_loop c87_update_alone c87_reference_count c87_borrowed_reference_refuted",
      "for 32 and 64 bits and any other width; the borrowed reference shows that the threads must own what they copy")
claim("C88", "proved", "c88_memory_exhaustion c88_always_cleared_up c88_careless_refuted",
      "the clients use all steps of C75; the discipline is needed: c88_careless_refuted is a client that calls PushBack again after a refused PushBack and writes out of bounds")
claim("C89", "partial", "c89_posix c89_posix_never_null c89_windows_partial c89_stored_again_refuted c89_posix_answers c89_windows_answers",
      "POSIX proved for destructors that do not use the storage themselves (one that stores its value again is invoked as often as the system makes rounds, and the last value is dropped, always: refuted); Windows without the end of the process, which the header mentions and the model of the system does not have")
claim("C90", "proved", "c90_threads_apart c90_readers c90_programs c90_vector_calls c90_string_calls c90_bitset_calls c90_list_calls c90_arg_calls c90_driver_calls c90_vector_queries c90_string_queries c90_bitset_queries c90_list_queries c90_shared_object_refuted",
      "a step is one memory access or allocator request of the model (a block copy reads once and writes once); the fields of a descriptor are the thread's own; blocks handed to different threads have different names; a thread that destroys an object while another reads it goes wrong in some order (refuted: the hypothesis is needed; C84 is about shared objects)")
claim("C91", "proved", "c91_find_calls c91_find_all_calls c91_binary_search_calls c91_binary_search_all_calls c91_refused_ranges c91_models_agree",
      "the comparison is a program that gets two pointers and a state; assumed of it only that its answer and new state depend on the two elements and its old state (looks); a comparison that changes the vector it searches is outside the statement; a search from the end is refused without a call (see C07)")
claim("C92", "proved", "c92_same_results c92_same_statuses c92_open_contents_refuted",
      "programs and their legality as in C75 (one object per step changes, allocator grants every request); c92_open_contents_refuted shows that the condition on open contents is needed; lists and ArgParse are not part of these programs")
claim("C93", "proved", "c93_pointers_stay c93_pointers_end c93_call c93_buffer c93_destroy c93_data_stays c93_data_ends c93_view_stays c93_view_ends c93_string_call c93_fixed_string",
      "granting reallocate always moves in the model (in C the old pointer is indeterminate after a successful realloc even if the block stays); [granted] counts granted requests of the world, and the history makes calls on the one object only; c93_view_stays covers views whose string has not become shorter than the view")
claim("C94", "proved", "c94_number_or_error c94_destroy_gives_back c94_room_suffices c94_all_or_nothing_refuted c94_use_after_refusal_refuted",
      "the refuted theorems show that neither more can be said nor the string used again: the extra characters of a hexadecimal number are bytes that were never written, and a second call after a refused one writes out of bounds")
claim("C95", "proved", "c95_critical_sections c95_initialize c95_posix c95_windows c95_enable_vt100 c95_tls_posix c95_tls_index_posix c95_tls_windows c95_tls_index_windows",
      "the error numbers are those of Linux; IsTTY is in C51 and C71")
claim("C96", "proved", "c96_many_lists",
      "buffers are blocks of the initial memory; two living lists do not use parts of the same block")
claim("C97", "proved", "c97_read_back c97_compare_numbers c97_compare_negative_refuted",
      "the reader is part of the specification (ReadSpec.v); the remark about negative numbers is the third theorem")
claim("C98", "proved", "c98_growable c98_fixed c98_fixed_too_small c98_and c98_or c98_xor c98_self c98_reached_behaves c98_pushes_lost_refuted c98_pushes_lost_fixed_refuted c98_pops_lose_byte_refuted c98_init_huge_refuted c98_pop_empty_refuted c98_any_none_refuted c98_all_refuted c98_count_pop_refuted c98_and_clears_refuted",
      "the machine is ExactSpec.v; unlike C34 there is no condition on the calls. The _refuted theorems are consequences which contradict C35-C39, for all bitsets. The allocator grants every request here (C83 has refusals)")
claim("C99", "proved", "c99_formatter_error c99_fixed_buffer_short c99_memory_refused c99_second_call c99_growth_one_refuted c99_signed_refuted c29_fits_partial c99_large_room_refuted",
      "the case that fits is c29_fits_partial. The unused room must be below 2 GiB (the code casts it to int); c99_large_room_refuted says what happens to texts that fit when it is larger, for fixed buffers. The _refuted theorems are the universal versions of c29_growth_one_refuted and c28_signed_refuted")
claim("C100", "proved", "c100_compare c100_compare_i c100_compare_refuted c100_compare_outside_refuted c100_compare_i_outside_refuted c100_lpos_ex c100_lpos_ex_i c100_lpos_continued_refuted c100_lpos_embedded_refuted c100_lpos_outside_refuted",
      "needles whose first character is NUL are left out. The _refuted theorems are the universal versions of the c57_*_refuted ones")
claim("C101", "partial", "c101_written_partial c101_any_order_partial c101_short_flag_refuted",
      "flags with short names are covered only when an option with a value follows in the same token; a flag or cluster of flags in a token of its own adds an argument the user did not write (c101_short_flag_refuted, c41_clusters_refuted)")
claim("C102", "proved", "c102_add c102_no_request c102_resize_granted c102_resize_refused_refuted c102_resize_full_refuted",
      "the _refuted theorems are the universal versions of c63_resize_allocation_refuted and c63_resize_buffer_refuted")
claim("C103", "proved", "c103_granted c103_refused c103_one_request c103_one_block c103_few_requests",
      "that a refused request behind the first one leaves the block of the entries allocated is part of out_of_memory and of C43")
claim("C104", "partial", "c104_signed c104_signed_field c104_signed_order c104_signed_search c104_default_same_sign c104_default_mixed_refuted c104_default_search_refuted",
      "proved for functions declared for a signed type; the default functions compare unsigned numbers: right for numbers of the same sign, wrong for all others (refuted)")
claim("C105", "partial", "c105_files_partial c105_other_file_refuted c105_one_at_a_time",
      "missing: continuing in another file, which is refuted for every string: the static variable belongs to the file (compilers other than MSVC)")
claim("C106", "partial", "c106_vector_partial c106_vector_growable c106_swap_refuted c106_string_partial c106_string_growable c106_truncate_refuted c106_bitset_partial c106_list c106_list_growable",
      "missing: SwapElements, which a full vector refuses even if the swap to be taken back succeeded (c106_swap_refuted), Truncate after appending nothing (c106_truncate_refuted), and pushes and pops of bitsets that C35 to C37 leave out")
claim("C107", "partial", "c107_left_right c107_all_occurrences c107_insensitive_finds_more c107_compare_search c107_all_elements_partial c107_binary_linear_partial c107_empty_refuted",
      "missing: for an empty rest FindEx answers OUT_OF_RANGE, so a loop over a vector ends with that if the last element matches, and Find and BinarySearch disagree on empty vectors (c107_empty_refuted); the case-insensitive variants compare up to bit 5, as C19 says")
claim("C108", "partial", "c108_compare_partial c108_lpos_partial c108_rpos_partial c108_not_letters_refuted c108_conversions",
      "missing: characters other than digits, spaces, most punctuation and ASCII letters; the I variants ignore bit 5 of every character, ToLowerCase changes letters only (c108_not_letters_refuted)")
claim("C109", "proved", "c109_replaced_total c109_replaced_unique c109_growable c109_fixed", "")
claim("C110", "proved", "c110_find_delete c110_downwards", "")
claim("C111", "proved", "c111_sort c111_sort_then_search c111_reverse c111_in_order c111_sort_full c111_reverse_full", "")
claim("C112", "proved", "c112_programs c112_bitsets_show c112_de_morgan_or c112_de_morgan_and c112_xor_twice c112_difference c112_again c112_any_order c112_xor_swap c112_copy", "Bitsets with an allocator that grants every request; bitsets in caller's buffers are combined in C98.")
claim("C113", "partial", "c113_pieces_total c113_pieces_unique c113_pieces_joined c113_split c113_split_views_refuted c113_join c113_split_join", "With ViewInsideBufferEx the fields are right, but pieces without characters are refused and so left out (c113_split); with ViewInsideViewEx every field of every text is one character short and a piece without characters becomes a view without size (c113_split_views_refuted). Joining is proved for growable strings and non-empty parts (Insert refuses empty texts).")
claim("C114", "proved", "c114_growable c114_fixed",
      "reading is specified in ReadSpec.v independently of the formatting functions; the fields are views of parts of the string, so they are read by size, not up to a NUL character")
claim("C115", "proved", "c115_owners c115_owners_buffer c115_same_calls c115_copies_refuted c115_refused_refuted c115_refused_kept",
      "the destructor is a program that reads its element and releases the block it names; c115_same_calls: for destructors that only change bytes the calls agree with the model of the other claims. Not covered: Resize to more elements (it leaves elements that name nothing)")
claim("C116", "proved", "c116_owners_growable c116_owners_buffer c116_same_calls",
      "the destructor is a program that reads its element and releases the block it names; c116_same_calls: for destructors that only change bytes the calls agree with the model of the other claims. Not covered: Resize to more elements (it leaves elements that name nothing)")
