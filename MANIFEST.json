{
 "claims": [
  {
   "property": "C01",
   "status": "proved",
   "theorems": [
    "c01_growable_vector"
   ],
   "note": "all histories of calls, working allocator, sums and sizes below 2^64"
  },
  {
   "property": "C02",
   "status": "proved",
   "theorems": [
    "c02_fixed_buffer_vector"
   ],
   "note": "all histories of calls on a caller-supplied buffer"
  },
  {
   "property": "C03",
   "status": "partial",
   "theorems": [
    "c03_allocation_failure_partial",
    "c03_init_failure",
    "c03_growth_failure_refuted",
    "c03_second_push_refuted",
    "c03_shrink_failure_refuted"
   ],
   "note": "contents, size and memory are kept; capacity is not (refuted: on every full vector the PushBack after a failed one overruns the storage), failing shrinks report an error although applied (refuted)"
  },
  {
   "property": "C04",
   "status": "proved",
   "theorems": [
    "c04_capacity",
    "c04_reserve",
    "c04_shrink_to_fit"
   ],
   "note": ""
  },
  {
   "property": "C05",
   "status": "partial",
   "theorems": [
    "c05_destructors_partial",
    "c05_resize_failure_refuted",
    "c05_resize_every_refuted"
   ],
   "note": "proved for working allocators; refuted for every shrinking Resize whose request for a smaller block is refused"
  },
  {
   "property": "C06",
   "status": "partial",
   "theorems": [
    "c06_no_leak_partial",
    "c06_failed_growth_no_leak_partial",
    "c74_any_allocator",
    "c03_growth_failure_refuted"
   ],
   "note": "proved for working allocators, for one refused growth before Destroy, and for every allocator up to and including the first refused request that leaves a capacity the storage does not have (c74_any_allocator)"
  },
  {
   "property": "C07",
   "status": "partial",
   "theorems": [
    "c07_find_ex_partial",
    "c07_find_partial",
    "c07_find_empty_refuted",
    "c07_find_end_refuted",
    "c07_find_nothing_refuted"
   ],
   "note": "empty range at the end is rejected (refuted)"
  },
  {
   "property": "C08",
   "status": "proved",
   "theorems": [
    "c08_binary_search_ex",
    "c08_binary_search"
   ],
   "note": ""
  },
  {
   "property": "C09",
   "status": "proved",
   "theorems": [
    "c09_duplicate",
    "c09_duplicate_custom_buffer"
   ],
   "note": ""
  },
  {
   "property": "C10",
   "status": "partial",
   "theorems": [
    "c10_out_of_range_partial",
    "c10_get_any_index",
    "c10_null_arguments",
    "c10_delete_range_refuted",
    "c10_insert_range_refuted",
    "c10_delete_range_every_refuted",
    "c10_insert_range_every_refuted"
   ],
   "note": "proved when index + count does not wrap; refuted when it does"
  },
  {
   "property": "C11",
   "status": "partial",
   "theorems": [
    "c11_emplace_failure_partial",
    "c11_emplace_ex_refuted",
    "c11_emplace_ex_every_refuted"
   ],
   "note": "proved at the end of the vector, refuted inside"
  },
  {
   "property": "C12",
   "status": "partial",
   "theorems": [
    "c12_swap_partial",
    "c12_swap_same_refuted",
    "c12_swap_same_always_refuted"
   ],
   "note": "proved for different indices; equal indices always copy memory onto itself (refuted)"
  },
  {
   "property": "C54",
   "status": "partial",
   "theorems": [
    "c54_push_back_own_element_partial",
    "c54_push_back_own_element_refuted",
    "c54_push_back_full_refuted"
   ],
   "note": "proved without reallocation, refuted for every full growable vector"
  },
  {
   "property": "C44",
   "status": "proved",
   "theorems": [
    "c44_status_fields",
    "c44_status_onto",
    "c44_predefined"
   ],
   "note": ""
  },
  {
   "property": "C45",
   "status": "partial",
   "theorems": [
    "c45_align_up_partial",
    "c45_align_down_below_partial",
    "c45_align_down_partial",
    "c45_align_down_refuted",
    "c45_align_down_zero_refuted",
    "c45_align_up_wrap_refuted",
    "c45_align_up_mixed_refuted",
    "c45_is_aligned",
    "c45_is_power_of_2",
    "c45_bits_to_represent_partial",
    "c45_bits_to_represent_refuted",
    "c45_min_max",
    "c45_abs_partial",
    "c45_abs_refuted",
    "c45_div64",
    "c45_div64_kernel_partial",
    "c45_div64_kernel_zero_refuted",
    "c45_div64_kernel_refuted"
   ],
   "note": "ALIGN_DOWN is wrong for aligned values (refuted), ALIGN_UP wraps at the top, BITS_TO_REPRESENT stops at 32 bits, DIV64 in the Linux kernel takes divisors of 32 bits only; proved otherwise"
  },
  {
   "property": "C46",
   "status": "proved",
   "theorems": [
    "c46_equals",
    "c46_compare_values",
    "c46_compare_equals",
    "c46_compare_order",
    "c46_field_equals",
    "c46_field_compare",
    "c46_field_order",
    "c46_instances"
   ],
   "note": ""
  },
  {
   "property": "C53",
   "status": "proved",
   "theorems": [
    "c53_version_lossless",
    "c53_version_encode",
    "c53_get_version"
   ],
   "note": ""
  },
  {
   "property": "C47",
   "status": "proved",
   "theorems": [
    "c47_memcpy",
    "c47_memmove",
    "c47_memset",
    "c47_memcmp",
    "c47_memchr"
   ],
   "note": ""
  },
  {
   "property": "C48",
   "status": "partial",
   "theorems": [
    "c48_strlen",
    "c48_strcpy",
    "c48_strcat",
    "c48_strncpy",
    "c48_strncat",
    "c48_strcmp",
    "c48_strncmp_partial",
    "c48_strncmp_refuted",
    "c48_strncmp_overread_refuted",
    "c48_strchr",
    "c48_strrchr",
    "c48_strspn",
    "c48_strcspn",
    "c48_strpbrk",
    "c48_strstr_partial",
    "c48_strstr_empty_refuted",
    "c48_strtok",
    "c48_strxfrm",
    "c48_strcoll_refuted",
    "c48_strncmp_behind_refuted",
    "c48_strncmp_outside_refuted",
    "c48_strstr_every_refuted",
    "c48_strcoll_every_refuted"
   ],
   "note": "all functions proved except STRNCMP on equal strings longer than the terminators, STRSTR on two empty strings and the STRCOLL stub (refuted)"
  },
  {
   "property": "C49",
   "status": "proved",
   "theorems": [
    "c49_linearizable",
    "c49_real_time",
    "c49_no_lost_update",
    "c49_increments"
   ],
   "note": "all threads, programs and interleavings; compiler builtins are atomic steps"
  },
  {
   "property": "C50",
   "status": "partial",
   "theorems": [
    "c50_mutual_exclusion",
    "c50_one_holder",
    "c50_recursive",
    "c50_others_wait",
    "c50_too_deep",
    "c50_delete",
    "c50_enter_error",
    "c50_leave_error",
    "c50_try_enter_error",
    "c50_delete_error",
    "c50_initialize_error",
    "c50_initialize",
    "c50_recursive_refuted"
   ],
   "note": "on POSIX mutex semantics; the result of pthread_mutexattr_settype is ignored (refuted)"
  },
  {
   "property": "C51",
   "status": "partial",
   "theorems": [
    "c51_virtual_protect",
    "c51_protection_bits",
    "c51_virtual_free",
    "c51_flush_instruction_cache",
    "c51_page_size_partial",
    "c51_tls_alloc",
    "c51_tls_free",
    "c51_tls_set_value",
    "c51_tls_get_value",
    "c51_enable_vt100",
    "c51_is_tty_partial",
    "c51_current_thread_partial",
    "c51_is_tty_refuted",
    "c51_page_size_refuted",
    "c51_thread_id_refuted"
   ],
   "note": "POSIX versions; IsTTY on unknown streams, a failing sysconf and GetCurrentThreadId are refuted"
  },
  {
   "property": "C52",
   "status": "partial",
   "theorems": [
    "c52_allocate_partial",
    "c52_allocate_failure",
    "c52_reallocate_partial",
    "c52_reallocate_failure_partial",
    "c52_deallocate",
    "c52_allocate_refuted",
    "c52_reallocate_refuted",
    "c52_models_agree_allocate",
    "c52_models_agree_reallocate_partial",
    "c52_models_agree_deallocate",
    "c52_allocator_init"
   ],
   "note": "proved when element_size * n < 2^64, refuted when the product wraps"
  },
  {
   "property": "C55",
   "status": "proved",
   "theorems": [
    "c55_thread_local"
   ],
   "note": "POSIX versions, on pthread key semantics"
  },
  {
   "property": "C13",
   "status": "proved",
   "theorems": [
    "c13_growable_string",
    "c13_destroy"
   ],
   "note": "all histories; index + count sums must not wrap (see C59)"
  },
  {
   "property": "C14",
   "status": "proved",
   "theorems": [
    "c14_fixed_string",
    "c14_destroy"
   ],
   "note": "all histories; index + count sums must not wrap (see C59)"
  },
  {
   "property": "C15",
   "status": "partial",
   "theorems": [
    "c15_inside_buffer",
    "c15_inside_buffer_ex",
    "c15_get_char_partial",
    "c15_get_char_refuted",
    "c15_get_char_scaled_refuted",
    "c15_get_char_zero_refuted",
    "c15_defined_view",
    "c15_defined_pointer_refuted"
   ],
   "note": "GetChar reads the element size that the view constructors leave unset (refuted for uninitialised structs); ZYAN_DEFINE_STRING_VIEW is right for arrays and string literals and refuted for pointers to C strings"
  },
  {
   "property": "C16",
   "status": "partial",
   "theorems": [
    "c16_inside_view",
    "c16_inside_view_ex_partial",
    "c16_inside_view_ex_refuted"
   ],
   "note": "InsideViewEx makes a view one character too short (refuted)"
  },
  {
   "property": "C17",
   "status": "partial",
   "theorems": [
    "c17_lpos_ex",
    "c17_lpos",
    "c17_string_as_view",
    "c17_wrap_refuted",
    "c17_wrap_every_refuted"
   ],
   "note": "proved when index + count does not wrap, refuted when it does"
  },
  {
   "property": "C18",
   "status": "proved",
   "theorems": [
    "c18_rpos_ex",
    "c18_rpos"
   ],
   "note": ""
  },
  {
   "property": "C19",
   "status": "partial",
   "theorems": [
    "c19_lpos_ex_partial",
    "c19_rpos_ex_partial",
    "c19_compare_partial",
    "c19_lpos_ex_bit5_partial",
    "c19_rpos_ex_bit5_partial",
    "c19_compare_bit5_partial",
    "c19_case_insensitive_refuted",
    "c19_every_character_refuted"
   ],
   "note": "proved for letters, digits, space and punctuation below '@'; on all characters the functions compare up to bit 5, so that the property fails for every pair of other characters that differ in bit 5 only (NUL and space apart)"
  },
  {
   "property": "C20",
   "status": "proved",
   "theorems": [
    "c20_compare"
   ],
   "note": ""
  },
  {
   "property": "C21",
   "status": "partial",
   "theorems": [
    "c21_compare_i_antisymmetric",
    "c21_compare_i_transitive",
    "c21_compare_antisymmetric_partial",
    "c21_compare_transitive_partial",
    "c21_compare_refuted",
    "c21_compare_every_refuted"
   ],
   "note": "CompareI proved; Compare proved for bytes with bit 5 set; refuted for all strings of equal length whose first different characters differ in bit 5 only"
  },
  {
   "property": "C22",
   "status": "proved",
   "theorems": [
    "c22_to_lower_ex",
    "c22_to_upper_ex",
    "c22_to_lower",
    "c22_to_upper"
   ],
   "note": ""
  },
  {
   "property": "C23",
   "status": "partial",
   "theorems": [
    "c23_capacity",
    "c23_reserve_partial",
    "c23_reserve_exact",
    "c23_no_allocation_partial",
    "c23_append_after_reserve",
    "c23_reserve_refuted",
    "c23_reserve_short_refuted",
    "c23_append_reallocates_refuted",
    "c23_given_back_refuted"
   ],
   "note": "Reserve counts the terminator (refuted by one for every string and capacity); the capacity after Reserve and what an Append after it requests are described exactly; with shrinking on it gives large reservations back and may fail (refuted for every string)"
  },
  {
   "property": "C24",
   "status": "partial",
   "theorems": [
    "c24_duplicate",
    "c24_duplicate_custom_buffer",
    "c24_concat",
    "c24_concat_custom_buffer",
    "c24_capacity_wrap_refuted",
    "c24_duplicate_every_refuted"
   ],
   "note": "proved for capacities below 2^64-1"
  },
  {
   "property": "C56",
   "status": "partial",
   "theorems": [
    "c56_append_self_empty_partial",
    "c56_append_self_refuted"
   ],
   "note": "refuted for every nonempty growable string"
  },
  {
   "property": "C57",
   "status": "partial",
   "theorems": [
    "c18_rpos_ex",
    "c18_rpos",
    "c15_get_char_partial",
    "c57_lpos_haystack_refuted",
    "c57_lpos_needle_refuted",
    "c57_compare_refuted",
    "c100_compare_refuted",
    "c100_compare_outside_refuted",
    "c100_lpos_ex",
    "c100_lpos_continued_refuted",
    "c100_lpos_outside_refuted"
   ],
   "note": "RPos and GetChar proved; LPos and Compare read past the view (refuted)"
  },
  {
   "property": "C58",
   "status": "partial",
   "theorems": [
    "c58_append_failure_partial",
    "c58_append_failure_refuted",
    "c58_second_append_refuted"
   ],
   "note": "contents and memory are kept; the capacity is not (refuted: a second attempt overruns the storage, for every string)"
  },
  {
   "property": "C59",
   "status": "partial",
   "theorems": [
    "c59_range_checks_partial",
    "c59_delete_wrap_refuted",
    "c59_insert_past_end_refuted",
    "c59_delete_every_refuted",
    "c59_insert_past_end_every_refuted"
   ],
   "note": "proved for sums that do not wrap; Insert at size+1 is accepted (refuted)"
  },
  {
   "property": "C25",
   "status": "proved",
   "theorems": [
    "c25_numeral_unique",
    "c25_append_decu",
    "c25_growable_histories"
   ],
   "note": "all values, paddings and histories; 32- and 64-bit variants"
  },
  {
   "property": "C26",
   "status": "proved",
   "theorems": [
    "c26_append_hexu",
    "c25_growable_histories"
   ],
   "note": "all values, paddings, cases and histories; 32- and 64-bit variants"
  },
  {
   "property": "C27",
   "status": "proved",
   "theorems": [
    "c27_append_signed",
    "c25_growable_histories"
   ],
   "note": "all values including INT64_MIN"
  },
  {
   "property": "C28",
   "status": "partial",
   "theorems": [
    "c28_fixed_histories",
    "c28_unsigned_full_partial",
    "c28_signed_refuted",
    "c99_signed_refuted"
   ],
   "note": "DecU and HexU proved; DecS and HexS keep sign and prefix (refuted)"
  },
  {
   "property": "C29",
   "status": "partial",
   "theorems": [
    "c29_fits_partial",
    "c29_grows_partial",
    "c29_full_partial",
    "c29_fixed_buffer_refuted",
    "c29_formatter_error_refuted",
    "c29_growth_one_refuted",
    "c29_argument_list_reused_refuted",
    "c29_allocation_failure_refuted",
    "c99_growth_one_refuted"
   ],
   "note": "proved when the text fits, when the string grows by at least 2 and the formatter repeats its text, and on a full fixed buffer; refuted otherwise"
  },
  {
   "property": "C60",
   "status": "partial",
   "theorems": [
    "c60_decu_partial",
    "c60_hexu_refuted",
    "c60_decs_refuted"
   ],
   "note": "DecU proved; HexU and DecS refuted"
  },
  {
   "property": "C34",
   "status": "proved",
   "theorems": [
    "c34_growable_bitset",
    "c34_fixed_bitset",
    "c34_destroy",
    "c34_destroy_buffer"
   ],
   "note": "all histories from an empty bitset (or a multiple of 8 zero bits), without Pop on empty (C39), Push into a full buffer (C61) and Reserve of 2^35 bits (C62)"
  },
  {
   "property": "C35",
   "status": "partial",
   "theorems": [
    "c35_init_partial",
    "c35_init_buffer_partial",
    "c35_init_refuted",
    "c35_init_huge_refuted",
    "c98_init_huge_refuted",
    "c98_pushes_lost_refuted",
    "c98_pushes_lost_fixed_refuted",
    "c98_pops_lose_byte_refuted"
   ],
   "note": "proved for multiples of 8; refuted for every other size and for every size from 2^35 on; the calls that follow are described by the c98 theorems"
  },
  {
   "property": "C36",
   "status": "partial",
   "theorems": [
    "c36_queries_partial",
    "c36_any_none_partial",
    "c36_whole_bytes_partial",
    "c36_any_none_refuted",
    "c36_all_refuted",
    "c36_all_one_bit_refuted",
    "c36_all_unused_refuted",
    "c36_any_stale_refuted",
    "c98_any_none_refuted",
    "c98_all_refuted"
   ],
   "note": "proved for sizes 7 mod 8; Any and None without stale bits unless the size is a multiple of 8; exact answers for multiples of 8 (the fourth-last bit is ignored) and of All for 1 to 6 mod 8 without stale bits (always FALSE)"
  },
  {
   "property": "C37",
   "status": "partial",
   "theorems": [
    "c37_count_whole_bytes_partial",
    "c37_count_tidy_partial",
    "c37_count_bounds_partial",
    "c37_count_pop_refuted",
    "c37_count_set_all_refuted",
    "c98_count_pop_refuted"
   ],
   "note": "proved for multiples of 8 and without stale bits; bounds in general; refuted with stale bits"
  },
  {
   "property": "C38",
   "status": "partial",
   "theorems": [
    "c38_and_partial",
    "c38_or_partial",
    "c38_xor_partial",
    "c38_apart",
    "c38_self",
    "c38_partial_byte_refuted",
    "c98_and_clears_refuted"
   ],
   "note": "proved except for the destination's bits behind the source's end inside the source's last byte (refuted)"
  },
  {
   "property": "C39",
   "status": "partial",
   "theorems": [
    "c39_pop_partial",
    "c39_pop_empty_refuted",
    "c98_pop_empty_refuted"
   ],
   "note": "refuted for every empty bitset; Pop of nonempty bitsets proved"
  },
  {
   "property": "C61",
   "status": "partial",
   "theorems": [
    "c61_push_full_refuted",
    "c61_push_allocation_refuted",
    "c61_push_after_refusal_refuted"
   ],
   "note": "refuted for every full buffer (status and old bits are right, the size is not)"
  },
  {
   "property": "C62",
   "status": "partial",
   "theorems": [
    "c62_reserve_partial",
    "c62_reserve_exact",
    "c62_reserve_refuted",
    "c62_reserve_short_refuted",
    "c62_reserve_enough_refuted"
   ],
   "note": "the capacity after Reserve is described exactly for every count; for growable bitsets it suffices exactly for multiples of 8 below 2^35 (or if it did before)"
  },
  {
   "property": "C30",
   "status": "proved",
   "theorems": [
    "c30_growable_list",
    "c30_fixed_list",
    "c30_links"
   ],
   "note": "all histories, all behaviours of the allocator (releasing memory always succeeds)"
  },
  {
   "property": "C31",
   "status": "proved",
   "theorems": [
    "c31_fixed_slots",
    "c64_stable_nodes"
   ],
   "note": ""
  },
  {
   "property": "C32",
   "status": "partial",
   "theorems": [
    "c32_remove_refuted"
   ],
   "note": "refuted for every list and node: Remove and RemoveRange are stubs that report success"
  },
  {
   "property": "C33",
   "status": "proved",
   "theorems": [
    "c33_growable_life",
    "c33_fixed_life"
   ],
   "note": "use of released memory is a fault of the model, so its absence is part of the statements"
  },
  {
   "property": "C63",
   "status": "partial",
   "theorems": [
    "c63_failed_call_partial",
    "c63_resize_allocation_refuted",
    "c63_resize_buffer_refuted",
    "c102_resize_refused_refuted",
    "c102_resize_full_refuted"
   ],
   "note": "proved for every call but ResizeEx, refuted for ResizeEx"
  },
  {
   "property": "C64",
   "status": "proved",
   "theorems": [
    "c64_stable_nodes"
   ],
   "note": ""
  },
  {
   "property": "C65",
   "status": "partial",
   "theorems": [
    "c30_fixed_list",
    "c31_fixed_slots",
    "c65_huge_element_refuted",
    "c65_huge_element_out_of_bounds_refuted",
    "c65_huge_element_allocation_refuted",
    "c65_wrapping_element_refuted",
    "c65_wrapping_buffer_refuted",
    "c65_wrapping_push_refuted"
   ],
   "note": "proved when the node size does not wrap; growable lists fault for every element size from 2^64 - 16 on, so do fixed buffers of every length with the first call that writes or constructs an element; an EmplaceBack without constructor overwrites the memory behind every buffer shorter than a node"
  },
  {
   "property": "C40",
   "status": "partial",
   "theorems": [
    "c40_grammar_actual_partial",
    "c40_grammar_function",
    "c40_words",
    "c40_documented_partial",
    "c40_invalid_config",
    "c40_program_name",
    "c40_no_program_name",
    "c40_any_program_name_partial",
    "c41_clusters_refuted"
   ],
   "note": "exact for the actual grammar; the documented one when no token consists of flags only, refuted otherwise"
  },
  {
   "property": "C41",
   "status": "partial",
   "theorems": [
    "c41_clusters_refuted"
   ],
   "note": "refuted for every token of flags only"
  },
  {
   "property": "C42",
   "status": "partial",
   "theorems": [
    "c42_bounds_required_partial",
    "c42_matching_error_partial",
    "c42_duplicate_required_refuted"
   ],
   "note": "flags-only tokens count as unnamed; duplicate required definitions can never be satisfied (refuted)"
  },
  {
   "property": "C43",
   "status": "partial",
   "theorems": [
    "c43_release_partial",
    "c43_errors",
    "c43_growth_failure_refuted",
    "c43_later_refusal_leaks_refuted",
    "c43_destroy_refuted"
   ],
   "note": "proved for all errors of the grammar and a failing first request; every later failing request leaves a block (refuted), which destroying the vector releases; but a caller cannot tell the two failures apart, and destroying after the first is a failed assertion"
  },
  {
   "property": "C66",
   "status": "partial",
   "theorems": [
    "c66_get_char_refuted"
   ],
   "note": "refuted for every value and index"
  },
  {
   "property": "C67",
   "status": "partial",
   "theorems": [
    "c67_mutual_exclusion",
    "c67_one_holder",
    "c67_recursive",
    "c67_others_wait",
    "c67_initialize",
    "c67_leave_refuted"
   ],
   "note": "on CRITICAL_SECTION semantics with an unbounded recursion count; Leave by a thread that is not inside is always handed on and undefined (refuted)"
  },
  {
   "property": "C68",
   "status": "partial",
   "theorems": [
    "c68_fiber_local",
    "c68_thread_local_refuted",
    "c68_other_fiber_refuted"
   ],
   "note": "proved per fiber, which is per thread when threads do not switch fibers; refuted for every store of a fiber that shares its thread with another"
  },
  {
   "property": "C69",
   "status": "partial",
   "theorems": [
    "c69_posix",
    "c69_windows_partial",
    "c69_windows_refuted"
   ],
   "note": "POSIX proved; Windows proved for whole reservations, for other sizes always the whole reservation is released (refuted)"
  },
  {
   "property": "C70",
   "status": "proved",
   "theorems": [
    "c70_posix",
    "c70_windows"
   ],
   "note": "what a successful system call does to the pages, and that a failed one does nothing, is part of the model of the system"
  },
  {
   "property": "C71",
   "status": "partial",
   "theorems": [
    "c71_flush_instruction_cache",
    "c71_system_sizes",
    "c71_current_thread",
    "c71_tls_alloc",
    "c71_tls_free",
    "c71_tls_set_value",
    "c71_enable_vt100",
    "c71_is_tty_partial",
    "c71_is_tty_stale_errno_refuted",
    "c71_is_tty_refuted"
   ],
   "note": "IsTTY: refuted for every unknown stream, and for a left-over errno when _isatty does not set it"
  },
  {
   "property": "C72",
   "status": "proved",
   "theorems": [
    "c72_vector",
    "c72_string",
    "c72_format",
    "c72_bitset",
    "c72_list",
    "c72_argparse",
    "c72_no_new_faults"
   ],
   "note": "release: NDEBUG, in which the condition of an assertion is not evaluated"
  },
  {
   "property": "C73",
   "status": "proved",
   "theorems": [
    "c73_vector",
    "c73_string",
    "c73_format",
    "c73_bitset",
    "c73_list",
    "c73_argparse"
   ],
   "note": "for runs without undefined behaviour"
  },
  {
   "property": "C74",
   "status": "partial",
   "theorems": [
    "c74_any_allocator",
    "c74_refused_trim_usable",
    "c74_refused_extension_unusable",
    "c03_growth_failure_refuted"
   ],
   "note": "up to and including the first refused request that leaves a capacity the storage does not have; after that the code may write behind its storage (C03); refused growth always ends there, a refused deletion or ShrinkToFit does not when growth factor <= shrink threshold"
  },
  {
   "property": "C75",
   "status": "proved",
   "theorems": [
    "c75_independent_objects",
    "c75_others_unchanged"
   ],
   "note": "objects with allocator memory; arguments of one call are different objects (Concat may be given the same string twice), bitsets are created with a multiple of 8 bits (C98 says what other sizes do)"
  },
  {
   "property": "C76",
   "status": "partial",
   "theorems": [
    "c76_vector_partial",
    "c76_string_partial",
    "c76_format",
    "c76_bitset_partial",
    "c76_list_partial",
    "c76_vector_given",
    "c76_vector_queries_given",
    "c76_string_given",
    "c76_string_queries_given",
    "c76_bitset_given",
    "c76_list_given",
    "c76_defaults_given",
    "c76_vector_refuted",
    "c76_comparison_refuted",
    "c76_string_refuted",
    "c76_bitset_refuted",
    "c76_list_refuted"
   ],
   "note": "proved for every checked pointer; refuted for the unchecked ones: out-parameters of size, capacity, data and node getters, of Emplace, Find, BinarySearch and Compare, comparison functions, a NULL bitset in Reserve and ShrinkToFit; Remove and RemoveRange of a NULL list succeed. Fields an Init call writes before it fails are not shown"
  },
  {
   "property": "C77",
   "status": "partial",
   "theorems": [
    "c77_insert_partial",
    "c77_insert_before_refuted",
    "c77_insert_overlap_refuted",
    "c77_insert_full_refuted",
    "c77_set_partial",
    "c77_set_same_refuted",
    "c77_resize_partial",
    "c77_resize_refuted",
    "c77_append_partial",
    "c77_append_refuted",
    "c77_string_insert_partial",
    "c77_string_insert_before_refuted",
    "c77_string_insert_overlap_refuted",
    "c77_string_insert_full_refuted",
    "c77_string_insert_self_refuted",
    "c77_list_push_back",
    "c77_list_push_front",
    "c77_list_resize",
    "c77_list_set_partial",
    "c77_list_set_same_refuted"
   ],
   "note": "lists proved except SetNodeData of a node's own data; vectors and strings proved while the block stays and the elements lie before the insertion; refuted for every other case: elements behind the position are replaced by their predecessors, overlapping ones and reallocation are undefined"
  },
  {
   "property": "C78",
   "status": "partial",
   "theorems": [
    "c78_get",
    "c78_foreach_look",
    "c78_foreach_mutable",
    "c78_foreach",
    "c78_foreach_safe_partial",
    "c78_foreach_push",
    "c78_foreach_remove_refuted",
    "c78_foreach_pop_refuted",
    "c78_foreach_clear_refuted",
    "c78_foreach_delete_refuted",
    "c78_list_get",
    "c78_list_get_null"
   ],
   "note": "exact for every body of ZYAN_VECTOR_FOREACH that makes vector calls; a body that removes an element at every item always ends in a NULL dereference (refuted); FOREACH_MUTABLE for bodies that change the item in place"
  },
  {
   "property": "C79",
   "status": "partial",
   "theorems": [
    "c79_reserve_partial",
    "c79_reserve_refuted",
    "c79_init_refuted",
    "c79_resize_refuted",
    "c79_resize_ex_refuted",
    "c79_duplicate_refuted",
    "c79_string_resize_refuted",
    "c79_string_resize_max_refuted",
    "c79_string_init_refuted"
   ],
   "note": "Reserve proved when the bytes fit; refuted for every request whose bytes wrap: the call succeeds and the memory is too small. With the default allocator, which multiplies; Init, Resize and Duplicate that fit are C01, C04 and C09"
  },
  {
   "property": "C80",
   "status": "partial",
   "theorems": [
    "c80_amortised_partial",
    "c80_default",
    "c80_push_requests",
    "c80_growth_one_refuted",
    "c80_shrink_refuted"
   ],
   "note": "proved for growth factors from 2 on with a threshold of 0 or above the growth factor, so also for the default parameters; refuted for all others: growth factor 1, and thresholds from 1 to the growth factor, make every push or pop reallocate"
  },
  {
   "property": "C81",
   "status": "partial",
   "theorems": [
    "c81_growable_list",
    "c81_fixed_list_partial",
    "c81_fixed_list_refuted",
    "c81_growable_vector",
    "c81_fixed_buffer_vector"
   ],
   "note": "proved for vectors, for growable lists and for lists on a buffer whose element size is a multiple of the alignment of a pointer; refuted for lists on a buffer with every other element size: each full list with room for two nodes has a misaligned node"
  },
  {
   "property": "C82",
   "status": "partial",
   "theorems": [
    "c82_init_refused",
    "c82_any_allocator",
    "c82_refused_trim_usable",
    "c82_refused_addition",
    "c82_refused_resize",
    "c82_refused_clear",
    "c82_refused_reserve",
    "c58_append_failure_refuted"
   ],
   "note": "proved up to the first refused request that leaves a capacity the storage does not have or characters beyond the capacity, with an exact account of which requests those are; after such a request later calls overrun the storage (refuted)"
  },
  {
   "property": "C83",
   "status": "partial",
   "theorems": [
    "c83_init_refused",
    "c83_any_allocator",
    "c83_refused_usable",
    "c61_push_after_refusal_refuted"
   ],
   "note": "proved up to the first refused request that leaves the bitset out of order; those are exactly the refused requests of Push, Clear and Reserve, if the growth factor is at most the shrink threshold; after a refused Push every later Push up to the next multiple of 8 fails and the one after that overruns the storage (refuted)"
  },
  {
   "property": "C84",
   "status": "proved",
   "theorems": [
    "c84_guarded_calls_are_atomic",
    "c84_order_of_calls",
    "c84_no_deadlock",
    "c84_shared_vector",
    "c84_unguarded_refuted"
   ],
   "note": "steps of the threads are interleaved one at a time (sequential consistency; the lock and unlock calls of the system give it to data used only inside the section); c84_unguarded_refuted is the contrast: without a section two calls of PushBack that both report success can leave one element"
  },
  {
   "property": "C85",
   "status": "proved",
   "theorems": [
    "c85_ordered_set",
    "c85_insertion_sort"
   ],
   "note": "for growable vectors and an allocator that grants requests; the comparison functions of the library are orders by C46"
  },
  {
   "property": "C86",
   "status": "partial",
   "theorems": [
    "c86_string_partial",
    "c86_default_string",
    "c86_bitset_partial",
    "c86_default_bitset_refuted",
    "c86_bitset_pops_refuted"
   ],
   "note": "true for growth factors from 2 and larger shrink thresholds (or 0), which the default strings have; the default bitset has threshold 2 = growth factor, and popping the bits of any new default bitset takes requests whose total size is quadratic"
  },
  {
   "property": "C87",
   "status": "proved",
   "theorems": [
    "c87_spin_lock",
    "c87_spin_lock_no_deadlock",
    "c87_update_loop",
    "c87_update_alone",
    "c87_reference_count",
    "c87_borrowed_reference_refuted"
   ],
   "note": "for 32 and 64 bits and any other width; the borrowed reference shows that the threads must own what they copy"
  },
  {
   "property": "C88",
   "status": "proved",
   "theorems": [
    "c88_memory_exhaustion",
    "c88_always_cleared_up",
    "c88_careless_refuted"
   ],
   "note": "the clients use all steps of C75; the discipline is needed: c88_careless_refuted is a client that calls PushBack again after a refused PushBack and writes out of bounds"
  },
  {
   "property": "C89",
   "status": "partial",
   "theorems": [
    "c89_posix",
    "c89_posix_never_null",
    "c89_windows_partial",
    "c89_stored_again_refuted",
    "c89_posix_answers",
    "c89_windows_answers"
   ],
   "note": "POSIX proved for destructors that do not use the storage themselves (one that stores its value again is invoked as often as the system makes rounds, and the last value is dropped, always: refuted); Windows without the end of the process, which the header mentions and the model of the system does not have"
  },
  {
   "property": "C90",
   "status": "proved",
   "theorems": [
    "c90_threads_apart",
    "c90_readers",
    "c90_programs",
    "c90_vector_calls",
    "c90_string_calls",
    "c90_bitset_calls",
    "c90_list_calls",
    "c90_arg_calls",
    "c90_driver_calls",
    "c90_vector_queries",
    "c90_string_queries",
    "c90_bitset_queries",
    "c90_list_queries",
    "c90_shared_object_refuted"
   ],
   "note": "a step is one memory access or allocator request of the model (a block copy reads once and writes once); the fields of a descriptor are the thread's own; blocks handed to different threads have different names; a thread that destroys an object while another reads it goes wrong in some order (refuted: the hypothesis is needed; C84 is about shared objects)"
  },
  {
   "property": "C91",
   "status": "proved",
   "theorems": [
    "c91_find_calls",
    "c91_find_all_calls",
    "c91_binary_search_calls",
    "c91_binary_search_all_calls",
    "c91_refused_ranges",
    "c91_models_agree"
   ],
   "note": "the comparison is a program that gets two pointers and a state; assumed of it only that its answer and new state depend on the two elements and its old state (looks); a comparison that changes the vector it searches is outside the statement; a search from the end is refused without a call (see C07)"
  },
  {
   "property": "C92",
   "status": "proved",
   "theorems": [
    "c92_same_results",
    "c92_same_statuses",
    "c92_open_contents_refuted"
   ],
   "note": "programs and their legality as in C75 (one object per step changes, allocator grants every request); c92_open_contents_refuted shows that the condition on open contents is needed; lists and ArgParse are not part of these programs"
  },
  {
   "property": "C93",
   "status": "proved",
   "theorems": [
    "c93_pointers_stay",
    "c93_pointers_end",
    "c93_call",
    "c93_buffer",
    "c93_destroy",
    "c93_data_stays",
    "c93_data_ends",
    "c93_view_stays",
    "c93_view_ends",
    "c93_string_call",
    "c93_fixed_string"
   ],
   "note": "granting reallocate always moves in the model (in C the old pointer is indeterminate after a successful realloc even if the block stays); [granted] counts granted requests of the world, and the history makes calls on the one object only; c93_view_stays covers views whose string has not become shorter than the view"
  },
  {
   "property": "C94",
   "status": "proved",
   "theorems": [
    "c94_number_or_error",
    "c94_destroy_gives_back",
    "c94_room_suffices",
    "c94_all_or_nothing_refuted",
    "c94_use_after_refusal_refuted"
   ],
   "note": "the refuted theorems show that neither more can be said nor the string used again: the extra characters of a hexadecimal number are bytes that were never written, and a second call after a refused one writes out of bounds"
  },
  {
   "property": "C95",
   "status": "proved",
   "theorems": [
    "c95_critical_sections",
    "c95_initialize",
    "c95_posix",
    "c95_windows",
    "c95_enable_vt100",
    "c95_tls_posix",
    "c95_tls_index_posix",
    "c95_tls_windows",
    "c95_tls_index_windows"
   ],
   "note": "the error numbers are those of Linux; IsTTY is in C51 and C71"
  },
  {
   "property": "C96",
   "status": "proved",
   "theorems": [
    "c96_many_lists"
   ],
   "note": "buffers are blocks of the initial memory; two living lists do not use parts of the same block"
  },
  {
   "property": "C97",
   "status": "proved",
   "theorems": [
    "c97_read_back",
    "c97_compare_numbers",
    "c97_compare_negative_refuted"
   ],
   "note": "the reader is part of the specification (ReadSpec.v); the remark about negative numbers is the third theorem"
  },
  {
   "property": "C98",
   "status": "proved",
   "theorems": [
    "c98_growable",
    "c98_fixed",
    "c98_fixed_too_small",
    "c98_and",
    "c98_or",
    "c98_xor",
    "c98_self",
    "c98_reached_behaves",
    "c98_pushes_lost_refuted",
    "c98_pushes_lost_fixed_refuted",
    "c98_pops_lose_byte_refuted",
    "c98_init_huge_refuted",
    "c98_pop_empty_refuted",
    "c98_any_none_refuted",
    "c98_all_refuted",
    "c98_count_pop_refuted",
    "c98_and_clears_refuted"
   ],
   "note": "the machine is ExactSpec.v; unlike C34 there is no condition on the calls. The _refuted theorems are consequences which contradict C35-C39, for all bitsets. The allocator grants every request here (C83 has refusals)"
  },
  {
   "property": "C99",
   "status": "proved",
   "theorems": [
    "c99_formatter_error",
    "c99_fixed_buffer_short",
    "c99_memory_refused",
    "c99_second_call",
    "c99_growth_one_refuted",
    "c99_signed_refuted",
    "c29_fits_partial",
    "c99_large_room_refuted"
   ],
   "note": "the case that fits is c29_fits_partial. The unused room must be below 2 GiB (the code casts it to int); c99_large_room_refuted says what happens to texts that fit when it is larger, for fixed buffers. The _refuted theorems are the universal versions of c29_growth_one_refuted and c28_signed_refuted"
  },
  {
   "property": "C100",
   "status": "proved",
   "theorems": [
    "c100_compare",
    "c100_compare_i",
    "c100_compare_refuted",
    "c100_compare_outside_refuted",
    "c100_compare_i_outside_refuted",
    "c100_lpos_ex",
    "c100_lpos_ex_i",
    "c100_lpos_continued_refuted",
    "c100_lpos_embedded_refuted",
    "c100_lpos_outside_refuted"
   ],
   "note": "needles whose first character is NUL are left out. The _refuted theorems are the universal versions of the c57_*_refuted ones"
  },
  {
   "property": "C101",
   "status": "partial",
   "theorems": [
    "c101_written_partial",
    "c101_any_order_partial",
    "c101_short_flag_refuted"
   ],
   "note": "flags with short names are covered only when an option with a value follows in the same token; a flag or cluster of flags in a token of its own adds an argument the user did not write (c101_short_flag_refuted, c41_clusters_refuted)"
  },
  {
   "property": "C102",
   "status": "proved",
   "theorems": [
    "c102_add",
    "c102_no_request",
    "c102_resize_granted",
    "c102_resize_refused_refuted",
    "c102_resize_full_refuted"
   ],
   "note": "the _refuted theorems are the universal versions of c63_resize_allocation_refuted and c63_resize_buffer_refuted"
  },
  {
   "property": "C103",
   "status": "proved",
   "theorems": [
    "c103_granted",
    "c103_refused",
    "c103_one_request",
    "c103_one_block",
    "c103_few_requests"
   ],
   "note": "that a refused request behind the first one leaves the block of the entries allocated is part of out_of_memory and of C43"
  },
  {
   "property": "C104",
   "status": "partial",
   "theorems": [
    "c104_signed",
    "c104_signed_field",
    "c104_signed_order",
    "c104_signed_search",
    "c104_default_same_sign",
    "c104_default_mixed_refuted",
    "c104_default_search_refuted"
   ],
   "note": "proved for functions declared for a signed type; the default functions compare unsigned numbers: right for numbers of the same sign, wrong for all others (refuted)"
  },
  {
   "property": "C105",
   "status": "partial",
   "theorems": [
    "c105_files_partial",
    "c105_other_file_refuted",
    "c105_one_at_a_time"
   ],
   "note": "missing: continuing in another file, which is refuted for every string: the static variable belongs to the file (compilers other than MSVC)"
  },
  {
   "property": "C106",
   "status": "partial",
   "theorems": [
    "c106_vector_partial",
    "c106_vector_growable",
    "c106_swap_refuted",
    "c106_string_partial",
    "c106_string_growable",
    "c106_truncate_refuted",
    "c106_bitset_partial",
    "c106_list",
    "c106_list_growable"
   ],
   "note": "missing: SwapElements, which a full vector refuses even if the swap to be taken back succeeded (c106_swap_refuted), Truncate after appending nothing (c106_truncate_refuted), and pushes and pops of bitsets that C35 to C37 leave out"
  },
  {
   "property": "C107",
   "status": "partial",
   "theorems": [
    "c107_left_right",
    "c107_all_occurrences",
    "c107_insensitive_finds_more",
    "c107_compare_search",
    "c107_all_elements_partial",
    "c107_binary_linear_partial",
    "c107_empty_refuted"
   ],
   "note": "missing: for an empty rest FindEx answers OUT_OF_RANGE, so a loop over a vector ends with that if the last element matches, and Find and BinarySearch disagree on empty vectors (c107_empty_refuted); the case-insensitive variants compare up to bit 5, as C19 says"
  },
  {
   "property": "C108",
   "status": "partial",
   "theorems": [
    "c108_compare_partial",
    "c108_lpos_partial",
    "c108_rpos_partial",
    "c108_not_letters_refuted",
    "c108_conversions"
   ],
   "note": "missing: characters other than digits, spaces, most punctuation and ASCII letters; the I variants ignore bit 5 of every character, ToLowerCase changes letters only (c108_not_letters_refuted)"
  },
  {
   "property": "C109",
   "status": "proved",
   "theorems": [
    "c109_replaced_total",
    "c109_replaced_unique",
    "c109_growable",
    "c109_fixed"
   ],
   "note": ""
  },
  {
   "property": "C110",
   "status": "proved",
   "theorems": [
    "c110_find_delete",
    "c110_downwards"
   ],
   "note": ""
  },
  {
   "property": "C111",
   "status": "proved",
   "theorems": [
    "c111_sort",
    "c111_sort_then_search",
    "c111_reverse",
    "c111_in_order",
    "c111_sort_full",
    "c111_reverse_full"
   ],
   "note": ""
  },
  {
   "property": "C112",
   "status": "proved",
   "theorems": [
    "c112_programs",
    "c112_bitsets_show",
    "c112_de_morgan_or",
    "c112_de_morgan_and",
    "c112_xor_twice",
    "c112_difference",
    "c112_again",
    "c112_any_order",
    "c112_xor_swap",
    "c112_copy"
   ],
   "note": "Bitsets with an allocator that grants every request; bitsets in caller's buffers are combined in C98."
  },
  {
   "property": "C113",
   "status": "partial",
   "theorems": [
    "c113_pieces_total",
    "c113_pieces_unique",
    "c113_pieces_joined",
    "c113_split",
    "c113_split_views_refuted",
    "c113_join",
    "c113_split_join"
   ],
   "note": "With ViewInsideBufferEx the fields are right, but pieces without characters are refused and so left out (c113_split); with ViewInsideViewEx every field of every text is one character short and a piece without characters becomes a view without size (c113_split_views_refuted). Joining is proved for growable strings and non-empty parts (Insert refuses empty texts)."
  },
  {
   "property": "C114",
   "status": "proved",
   "theorems": [
    "c114_growable",
    "c114_fixed"
   ],
   "note": "reading is specified in ReadSpec.v independently of the formatting functions; the fields are views of parts of the string, so they are read by size, not up to a NUL character"
  },
  {
   "property": "C115",
   "status": "proved",
   "theorems": [
    "c115_owners",
    "c115_owners_buffer",
    "c115_same_calls",
    "c115_copies_refuted",
    "c115_refused_refuted",
    "c115_refused_kept"
   ],
   "note": "the destructor is a program that reads its element and releases the block it names; c115_same_calls: for destructors that only change bytes the calls agree with the model of the other claims. Not covered: Resize to more elements (it leaves elements that name nothing)"
  },
  {
   "property": "C116",
   "status": "proved",
   "theorems": [
    "c116_owners_growable",
    "c116_owners_buffer",
    "c116_same_calls"
   ],
   "note": "the destructor is a program that reads its element and releases the block it names; c116_same_calls: for destructors that only change bytes the calls agree with the model of the other claims. Not covered: Resize to more elements (it leaves elements that name nothing)"
  }
 ]
}