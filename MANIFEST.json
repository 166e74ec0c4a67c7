{
 "claims": [
  {
   "property": "C01",
   "status": "proved",
   "theorems": [
    "base64_encode_rfc",
    "base64_roundtrip"
   ],
   "note": ""
  },
  {
   "property": "C02",
   "status": "proved",
   "theorems": [
    "base64_decode_total",
    "base64_decode_rejects_iff"
   ],
   "note": ""
  },
  {
   "property": "C03",
   "status": "proved",
   "theorems": [
    "base32_encode_rfc",
    "base32_roundtrip",
    "base32_decode_total"
   ],
   "note": ""
  },
  {
   "property": "C04",
   "status": "partial",
   "theorems": [
    "ascii85_roundtrip_partial",
    "ascii85_roundtrip_refuted",
    "ascii85_decode_memory_safe",
    "ascii85_decode_alphabet"
   ],
   "note": "False of the code for buffers containing an aligned all-zero group (refuted with witnesses); proved for all others."
  },
  {
   "property": "C05",
   "status": "proved",
   "theorems": [
    "bin2bcd_correct",
    "bcd2bin_correct",
    "bcd_roundtrip",
    "bcd_tables_flag_invalid"
   ],
   "note": ""
  },
  {
   "property": "C06",
   "status": "proved",
   "theorems": [
    "arc4_is_rc4",
    "arc4_decrypt_inverts"
   ],
   "note": ""
  },
  {
   "property": "C07",
   "status": "proved",
   "theorems": [
    "arc4_state_permutation",
    "arc4_never_out_of_bounds"
   ],
   "note": ""
  },
  {
   "property": "C08",
   "status": "proved",
   "theorems": [
    "C08_fifo_is_bounded_queue",
    "C08_fresh",
    "C08_fifo_order"
   ],
   "note": ""
  },
  {
   "property": "C09",
   "status": "partial",
   "theorems": [
    "C09_record_roundtrip_partial",
    "C09_record_roundtrip_refuted",
    "C09_second_record_refuted"
   ],
   "note": "False of the code: header stored at the read position and in the opposite byte order. Proved for one-byte headers, one-byte elements, empty FIFO."
  },
  {
   "property": "C10",
   "status": "proved",
   "theorems": [
    "C10_ringbuf_keeps_newest",
    "C10_in_suffix"
   ],
   "note": ""
  },
  {
   "property": "C11",
   "status": "proved",
   "theorems": [
    "C11_dynamic_alloc"
   ],
   "note": ""
  },
  {
   "property": "C12",
   "status": "proved",
   "theorems": [
    "C12_find_first_last",
    "C12_find_zero"
   ],
   "note": ""
  },
  {
   "property": "C13",
   "status": "partial",
   "theorems": [
    "C13_ffnsp",
    "C13_ffnsp_full",
    "C13_ffnsp_full_refuted",
    "C13_flnsp_partial",
    "C13_flnsp_refuted",
    "C13_ffnzp_partial"
   ],
   "note": "Proved for every word except the all-ones word, for which flnsp (and the exhausted case of ffnsp) is refuted."
  },
  {
   "property": "C14",
   "status": "proved",
   "theorems": [
    "C14_rotations"
   ],
   "note": ""
  },
  {
   "property": "C15",
   "status": "partial",
   "theorems": [
    "C15_swab",
    "C15_swab_involutive",
    "C15_swah",
    "C15_bitrev_dynamic",
    "C15_bitrev_const_partial",
    "C15_bitrev_const_refuted",
    "C15_bitrev_const_other_bits"
   ],
   "note": "Everything proved except the 32- and 64-bit constant-expression bit reversals, which are wrong (refuted)."
  },
  {
   "property": "C16",
   "status": "proved",
   "theorems": [
    "C16_popcount",
    "C16_popparity"
   ],
   "note": ""
  },
  {
   "property": "C17",
   "status": "proved",
   "theorems": [
    "C17_ilog2",
    "C17_roundup",
    "C17_roundup_domain",
    "C17_rounddown",
    "C17_check"
   ],
   "note": ""
  },
  {
   "property": "C18",
   "status": "partial",
   "theorems": [
    "C18_and",
    "C18_andnot",
    "C18_or",
    "C18_xor",
    "C18_complement",
    "C18_replace",
    "C18_equal",
    "C18_or_equal",
    "C18_intersects",
    "C18_small_partial",
    "C18_small_equal_refuted",
    "C18_small_equal_inverted"
   ],
   "note": "All out-of-line functions and all inline constant-length versions proved, except the inline equal / or_equal which answer the opposite (refuted, and shown inverted on every input)."
  },
  {
   "property": "C19",
   "status": "partial",
   "theorems": [
    "C19_shl",
    "C19_shr_partial",
    "C19_shr_refuted",
    "C19_small"
   ],
   "note": "Left shift and inline versions proved for all inputs; right shift only for lengths that are a multiple of 64, false otherwise (refuted)."
  },
  {
   "property": "C20",
   "status": "partial",
   "theorems": [
    "C20_set_partial",
    "C20_clr_partial",
    "C20_unaligned_end_out_of_bounds",
    "C20_set_refuted"
   ],
   "note": "Proved for ranges that end on a word boundary; every other range runs out of bounds (proved)."
  },
  {
   "property": "C21",
   "status": "partial",
   "theorems": [
    "C21_find_next",
    "C21_find_prev",
    "C21_find_first",
    "C21_find_last",
    "C21_for_each",
    "C21_small_partial",
    "C21_small_refuted",
    "C21_small_64_always_none"
   ],
   "note": "Out-of-line searches and iteration macros proved for all lengths up to 2^32-64; the inline zero searches are false for a constant length of 64 (refuted)."
  },
  {
   "property": "C22",
   "status": "proved",
   "theorems": [
    "C22_add_sub",
    "C22_mul",
    "C22_qrnnd",
    "C22_udiv"
   ],
   "note": ""
  },
  {
   "property": "C23",
   "status": "partial",
   "theorems": [
    "C23_udivd_partial",
    "C23_udivd_word_partial",
    "C23_udivd_refuted",
    "C23_udivd_wrong",
    "C23_rem_stale_refuted"
   ],
   "note": "False of the code when the divisor's top bit is set, the dividend is smaller and its low word is not (wrong quotient, shown on every such input), and the high remainder word is not written for one-word divisors; proved otherwise."
  },
  {
   "property": "C24",
   "status": "partial",
   "theorems": [
    "C24_add_partial",
    "C24_sub_partial",
    "C24_addi_partial",
    "C24_subi_partial",
    "C24_add_carry_refuted",
    "C24_sub_borrow_refuted",
    "C24_inplace_refuted",
    "C24_stale_refuted",
    "C24_addi_negative_refuted",
    "C24_subi_zero_refuted"
   ],
   "note": "False of the code. Proved exactly when the result is right (iff a computable carry / borrow loss condition is false) for all operands and aliasings that do not read freed storage; each defect refuted with a witness."
  },
  {
   "property": "C25",
   "status": "partial",
   "theorems": [
    "C25_muli",
    "C25_mul_partial",
    "C25_mul_carry_refuted",
    "C25_mul_inplace_refuted"
   ],
   "note": "Word multiplication proved; long multiplication proved when no multiplier limb takes the defective addition and the product does not overwrite one of two operands; the rest is false (refuted)."
  },
  {
   "property": "C26",
   "status": "proved",
   "theorems": [
    "C26_divi",
    "C26_modi",
    "C26_zero_divisor",
    "C26_zero_by_zero_refuted"
   ],
   "note": "Exact for every non-zero word divisor; 0/0 answering 1 is recorded separately."
  },
  {
   "property": "C27",
   "status": "partial",
   "theorems": [
    "C27_div_partial",
    "C27_long_div_partial",
    "C27_long_mod_partial",
    "C27_zero_divisor",
    "C27_div_refuted",
    "C27_rem_refuted",
    "C27_norm_refuted"
   ],
   "note": "Quotient and remainder (Knuth's algorithm, digit estimate, add-back) proved for dividends of any length and every divisor of one limb, or with its top bit set and no all-ones limb beyond the lowest; also for dividends not larger than the divisor. For other divisors the code is wrong: it never normalises the divisor, and its additions lose carries (refuted, also for normalised divisors)."
  },
  {
   "property": "C28",
   "status": "partial",
   "theorems": [
    "C28_cmp",
    "C28_cmpi",
    "C28_negative_zero_refuted"
   ],
   "note": "Proved for canonical integers; the library itself produces negative zeros, which compare wrongly (refuted)."
  },
  {
   "property": "C29",
   "status": "partial",
   "theorems": [
    "C29_add",
    "C29_sub",
    "C29_mul",
    "C29_errors",
    "C29_trans_writes_nothing",
    "C29_trans_refuted"
   ],
   "note": "Sum, difference and product proved for all dimensions whose cell count fits 32 bits and all aliasings; transposition is false (source and destination pointers are swapped)."
  },
  {
   "property": "C30",
   "status": "proved",
   "theorems": [
    "C30_table_driven",
    "C30_remainder",
    "C30_remainder_reflected",
    "C30_compose",
    "C30_crc4"
   ],
   "note": "Table generator and byte-wise functions (built without BFDEV_CRC_EXTEND) equal bit-serial polynomial division for the nine generated algorithms, and crc4 with its bit length. The default extended build is C31."
  },
  {
   "property": "C31",
   "status": "partial",
   "theorems": [
    "C31_slice_by_8_partial",
    "C31_crc64_refuted",
    "C31_rocksoft_refuted"
   ],
   "note": "Proved for the seven algorithms with registers of at most 32 bits, every address and length; false for the two 64-bit algorithms (refuted)."
  },
  {
   "property": "C32",
   "status": "proved",
   "theorems": [
    "C32_md5",
    "C32_sha1",
    "C32_sha224",
    "C32_sha256"
   ],
   "note": "Streaming frame (buffering, padding, length field) and all four compression functions proved equal to RFC 1321 / FIPS 180-4; the constants of the standards are computed from their definitions (sine series, square and cube roots of primes)."
  },
  {
   "property": "C33",
   "status": "proved",
   "theorems": [
    "C33_mix_reversible",
    "C33_value",
    "C33_no_collision"
   ],
   "note": "Mix and final are bijections of the 96-bit states; the function equals lookup3's hashlittle of the bytes, length and seed and reads nothing else; keys of equal length that differ inside one block never reach the same internal state."
  },
  {
   "property": "C34",
   "status": "proved",
   "theorems": [
    "C34_healthy",
    "C34_injective",
    "C34_range"
   ],
   "note": "Any seed or the default state, any sequence of value/u64/reseed calls; the step is also injective on the relevant bits."
  },
  {
   "property": "C35",
   "status": "proved",
   "theorems": [
    "C35_sort",
    "C35_short",
    "C35_huge_elements_refuted"
   ],
   "note": "Any element size that is not a multiple of 2^32 (the swap length is an unsigned int; for such a multiple the swap moves nothing, refuted), any comparator that is a total preorder."
  },
  {
   "property": "C36",
   "status": "proved",
   "theorems": [
    "C36_bsearch"
   ],
   "note": "Arrays and comparators for which the comparison against the key is monotone; the index arithmetic does not overflow."
  },
  {
   "property": "C37",
   "status": "proved",
   "theorems": [
    "C37_list_sort",
    "C37_unique"
   ],
   "note": "Pointer-level model of the bottom-up merge sort: any list and any total preorder; the 32-bit counter may wrap."
  },
  {
   "property": "C38",
   "status": "proved",
   "theorems": [
    "C38_first",
    "C38_enumerates",
    "C38_linear",
    "C38_empty_refuted"
   ],
   "note": "Any block source, any start, with and without case folding (toupper a parameter; its values on the pattern must be chars again). Texts below 2^32 and patterns below 2^30 bytes. The empty pattern, outside the claim, reads beside the table."
  },
  {
   "property": "C39",
   "status": "partial",
   "theorems": [
    "C39_sunday_partial",
    "C39_sunday_255_refuted",
    "C39_sunday_end_refuted",
    "C39_bm_sound_partial",
    "C39_bm_partial",
    "C39_bm_misses_refuted",
    "C39_bm_255_refuted",
    "C39_next_refuted"
   ],
   "note": "False as stated: byte 255 indexes one past both tables, sunday reads the byte after the text, bm misses occurrences (aa in baa), and neither advances the search offset, so bfdev_textsearch_next reports the first match for ever. Proved (with and without case folding): sunday finds the leftmost match when a readable byte follows and no byte is 255; bm finds the leftmost match for patterns whose last byte occurs nowhere else in the pattern and only reports occurrences for every pattern."
  },
  {
   "property": "C40",
   "status": "partial",
   "theorems": [
    "C40_cheapest_partial",
    "C40_right_cell",
    "C40_cheapest_refuted",
    "C40_in_bounds",
    "C40_no_memory"
   ],
   "note": "False as stated: one cell of the fresh memory is read before it is written; with zeros there the distance of abc and x is 1. Proved: the result is the cost of the cheapest alignment whenever that cell does not undercut (exact condition), for all strings and weights without overflow of unsigned int; no access is out of bounds."
  },
  {
   "property": "C41",
   "status": "partial",
   "theorems": [
    "C41_split_partial",
    "C41_huge_refuted"
   ],
   "note": "Proved for all strings below 2^30 - 4 bytes: count, words, terminators, layout of the block. With 2^29 - 1 words the 32-bit size of the vector wraps to 0 (refuted)."
  },
  {
   "property": "C42",
   "status": "partial",
   "theorems": [
    "C42_count_partial",
    "C42_failure_refuted"
   ],
   "note": "Proved for every size and every formatted text; the C library's vsnprintf is taken at its specification. When the formatter fails the function reports size - 1 characters (refuted)."
  },
  {
   "property": "C43",
   "status": "proved",
   "theorems": [
    "C43_blocks",
    "C43_align_refuted"
   ],
   "note": "Any history of malloc/free/realloc/stores on any pool with the three policies; requests up to 2^64 - 32. Blocks are at multiples of 8 from the start of the pool; BFDEV_MEMALLOC_ALIGN is not honoured for addresses (refuted, beyond the claim)."
  },
  {
   "property": "C44",
   "status": "proved",
   "theorems": [
    "C44_conserves"
   ],
   "note": "Any history; of a pool of odd size the last byte is not used."
  },
  {
   "property": "C45",
   "status": "partial",
   "theorems": [
    "C45_huge_partial",
    "C45_huge_refuted"
   ],
   "note": "Proved for malloc and realloc of sizes up to 2^64 - 32; above that the rounding wraps and a block of size 0 is handed out (refuted)."
  },
  {
   "property": "C46",
   "status": "partial",
   "theorems": [
    "C46_blocks_partial",
    "C46_first_position",
    "C46_wrap_refuted"
   ],
   "note": "Any history of requests that stay clear of 2^64; blocks are also placed at the first possible position. A size near 2^64 makes the offset wrap and later blocks overlap (refuted)."
  },
  {
   "property": "C47",
   "status": "partial",
   "theorems": [
    "C47_sequence_partial",
    "C47_accessors_partial",
    "C47_failure_partial",
    "C47_abort_refuted",
    "C47_wrap_refuted",
    "C47_dangling_refuted"
   ],
   "note": "Any history, any answers of the allocator, below 2^31 elements and 2^63 bytes. From 2^31 elements on the program aborts (count is truncated to int in bfdev_max); wrapping products give blocks that are too small or a dangling pointer (refuted)."
  },
  {
   "property": "C48",
   "status": "proved",
   "theorems": [
    "C48_malloc",
    "C48_zalloc",
    "C48_free",
    "C48_realloc",
    "C48_array_partial",
    "C48_array_refuted"
   ],
   "note": "Front end over arbitrary back ends. Beyond the claim: the array variants multiply without overflow check (refuted for products of 2^64 and more)."
  },
  {
   "property": "C49",
   "status": "proved",
   "theorems": [
    "C49_windows",
    "C49_total",
    "C49_span",
    "C49_disabled",
    "C49_sliding_refuted",
    "C49_zero_refuted"
   ],
   "note": "Exact answers for any history with resets (times other than 0): the first burst calls of every window are admitted; at most 2*burst admissions in any span of one interval; refused calls are counted. The sharper reading (at most burst in every sliding span) and clocks that start at 0 are refuted."
  },
  {
   "property": "C50",
   "status": "partial",
   "theorems": [
    "C50_range",
    "C50_rate",
    "C50_exact_partial",
    "C50_exact_refuted",
    "C50_zero_refuted",
    "C50_backwards_refuted"
   ],
   "note": "Range and rate bound hold for every history with a positive non-decreasing clock; equality with an ideal bucket only while waits stay below about 2^32 intervals (beyond: refuted, the 32-bit truncation loses tokens). A clock at 0 or running backwards breaks the bound (refuted)."
  },
  {
   "property": "C51",
   "status": "partial",
   "theorems": [
    "C51_no_false_negative",
    "C51_exact",
    "C51_push_result",
    "C51_flush_partial",
    "C51_flush_refuted",
    "C51_capacity_refuted"
   ],
   "note": "No false negatives after any history, for every hash function; exact answer without flush; push returns what peek would have returned. Flush clears only the first eighth of the bits, so the part about flush is refuted."
  },
  {
   "property": "C52",
   "status": "proved",
   "theorems": [
    "C52_step",
    "C52_history"
   ],
   "note": "For every lawful set of user operations (hash, equal and find agree on a key), every grow/shrink policy, every allocator including one that refuses: any adaptive client sees a finite (multi)map; a refusal happens only when the next table cannot be allocated and leaves memory and map unchanged. Iteration visits every node once."
  },
  {
   "property": "C53",
   "status": "proved",
   "theorems": [
    "C53_ranges",
    "C53_zero_bits",
    "C53_injective",
    "C53_index",
    "C53_index_one"
   ],
   "note": "Also: the multiplication loses nothing (injective at full width); table indices are in bounds for tables of two or more entries; 0 bits / one entry is an undefined shift."
  },
  {
   "property": "C54",
   "status": "proved",
   "theorems": [
    "C54_step",
    "C54_history",
    "C54_sorted",
    "C54_height",
    "C54_destroy",
    "C54_refuted"
   ],
   "note": "For every order with ties, every sequence of drawn heights (all of 1..levels are possible), every allocator: an adaptive client sees a sorted list of nodes, the newest first among equals; search and deletion pick a tallest match; each level is the nodes of greater height, a sublist of the level below. Exception, refuted as C54_refuted: after an insertion refused for lack of memory at a new height a search reads an uninitialised variable, so searches are allowed only while no such refusal happened since the last reset."
  },
  {
   "property": "C55",
   "status": "proved",
   "theorems": [
    "C55_history",
    "C55_drain"
   ],
   "note": "Any history of insert/delete from the initialised root, every comparison that is a total preorder: complete tree, heap order, exact node set, count, least root, client fields untouched; repeatedly deleting the root yields the nodes sorted."
  },
  {
   "property": "C56",
   "status": "proved",
   "theorems": [
    "C56_history"
   ],
   "note": "Any history of insert/delete/replace on plain and cached trees from the empty root; equal keys refused; replies, red-black shape, links, order, iteration and the cached first node. Duplicate-allowing callers of insert_node are covered by the lemma link_fixup at any gap."
  },
  {
   "property": "C57",
   "status": "partial",
   "theorems": [
    "C57_query",
    "C57_delete",
    "C57_insert_partial",
    "C57_insert_longest",
    "C57_history_partial",
    "C57_refuted"
   ],
   "note": "False as stated: insert overwrites the new node's subtree maximum after rotations (C57_refuted: the query misses a stored interval). Proved: on any tree with right maxima first/next enumerate exactly the overlapping intervals in start order; delete keeps the maxima of every tree; insert keeps the tree and all maxima but perhaps the new node's, and all of them when no stored interval ends after the new one; histories of such operations answer every query exactly."
  },
  {
   "property": "C58",
   "status": "partial",
   "theorems": [
    "C58_rotate",
    "C58_init",
    "C58_add",
    "C58_add_inside",
    "C58_del",
    "C58_splice",
    "C58_replace",
    "C58_move",
    "C58_move_across",
    "C58_swap_partial",
    "C58_queries",
    "C58_for_each",
    "C58_for_each_safe",
    "C58_swap_self_refuted",
    "C58_replace_empty_refuted"
   ],
   "note": "Proved for all lists and positions; swapping or moving a node relative to itself faults and replacing the head of an empty list corrupts it (refuted)."
  },
  {
   "property": "C59",
   "status": "partial",
   "theorems": [
    "C59_init",
    "C59_head_add",
    "C59_del",
    "C59_replace",
    "C59_head_replace",
    "C59_traverse",
    "C59_for_each_safe",
    "C59_next_add_partial",
    "C59_next_add_refuted",
    "C59_prev_add_refuted",
    "C59_prev_add_cycle"
   ],
   "note": "next_add is right only behind the last node and prev_add never is (refuted); all other operations proved at every position."
  },
  {
   "property": "C60",
   "status": "proved",
   "theorems": [
    "C60_init",
    "C60_add",
    "C60_del",
    "C60_replace",
    "C60_queries",
    "C60_for_each",
    "C60_for_each_safe"
   ],
   "note": "All lists and positions; the search for the predecessor is bounded by the length of the list."
  },
  {
   "property": "C61",
   "status": "partial",
   "theorems": [
    "C61_history_partial",
    "C61_distinct_keys",
    "C61_adds",
    "C61_refuted"
   ],
   "note": "Pointer-level model. True for every history that never deletes the oldest of several equal nodes while other keys are present; false otherwise (refuted: keys come out 5, 7, 6)."
  },
  {
   "property": "C62",
   "status": "proved",
   "theorems": [
    "C62_linearizable",
    "C62_exactly_once",
    "C62_exclusive",
    "C62_del_refuted"
   ],
   "note": "Interleaving model at the granularity of single memory accesses (sequential consistency), any number of threads, any schedule, adds of linked batches and destroys; also with one consumer using del. The refutation shows that del with two consumers (not promised by the claim) hands one node to both."
  },
  {
   "property": "C63",
   "status": "partial",
   "theorems": [
    "C63_counts",
    "C63_one_zero",
    "C63_addnz_alone_partial",
    "C63_addnz_zero",
    "C63_addnz_lost_refuted",
    "C63_addnz_twice_refuted",
    "C63_addnz_zero_loops"
   ],
   "note": "Interleaving model, any number of threads: get/put fully proved. The conditional increment is right alone and never raises a zero count, but under contention it reports success without adding, or adds twice (refuted): the loop repeats on success instead of on failure."
  },
  {
   "property": "C64",
   "status": "partial",
   "theorems": [
    "C64_session_partial",
    "C64_victim_partial",
    "C64_reset_refuted"
   ],
   "note": "For every adaptive client that releases, renames and deletes only nodes it holds, gives no tag twice by renaming, and clears the cache only when no node is pending or in use: every session refines the abstract cache, holds at most its size, each tag once, takes only nodes nobody holds and among them the one released first. With a reset while a node is in use the statement is false: the reference count survives the reset and the node is never given back (C64_reset_refuted)."
  },
  {
   "property": "C65",
   "status": "proved",
   "theorems": [
    "C65_session",
    "C65_victim"
   ],
   "note": "Over every session of a rule-keeping client the node taken from another tag is held by nobody and has a minimal 64-bit use count among those; the heap is the C55 model."
  },
  {
   "property": "C66",
   "status": "partial",
   "theorems": [
    "C66_handle",
    "C66_unchanged",
    "C66_finished",
    "C66_total",
    "C66_track",
    "C66_failure_refuted",
    "C66_pop_refuted",
    "C66_nochange_refuted",
    "C66_exit_refuted"
   ],
   "note": "For every graph, every answer of the callbacks: first accepting transition of the nearest reacting ancestor, exit/action/enter in order until the first failure, exact new state, history, stack and reply (relation handles); ignored events change nothing; handling terminates on acyclic graphs. False readings are refuted: a failed action does not enter the error state, a failure after a pop loses the stack entry, NOCHANGE after a crossing transition, and the exit function of the state left is not run when an ancestor's transition fires."
  },
  {
   "property": "C67",
   "status": "partial",
   "theorems": [
    "C67_chain",
    "C67_call",
    "C67_history",
    "C67_refuted"
   ],
   "note": "every history of register/unregister/call from raw memory refines the abstract chain: ascending priorities, stop and remove bits, count bound, reply and count of calls. Among equal priorities the newest node is called first, so the claim of registration order is refuted (C67_refuted). Callbacks that themselves change the chain: see C113"
  },
  {
   "property": "C68",
   "status": "proved",
   "theorems": [
    "C68_history",
    "C68_release_all",
    "C68_find",
    "C68_once",
    "C68_empty_refuted"
   ],
   "note": "Any history of insert/remove/release/find_remove/find_release/(release_all + init), release functions that free their node or not: replies, the order of releases, and for each node insertions = removals + releases + still held. release_all alone does not empty the pool (C68_empty_refuted)."
  },
  {
   "property": "C69",
   "status": "partial",
   "theorems": [
    "C69_session_partial",
    "C69_find_after_alloc",
    "C69_gone_after_free",
    "C69_release",
    "C69_alias_refuted",
    "C69_overread_refuted",
    "C69_free_refuted",
    "C69_high_refuted"
   ],
   "note": "Every history of alloc/free/find/charge/release/stores/loads/iteration by a polite client (offsets below 2^63; searched offsets below some live one or of a bit length the capacity test gets right), with any allocator that may fail. The statement for all offsets is false: aliasing, out-of-bounds read, freeing another cell, and shift counts above 63 (the _refuted theorems)."
  },
  {
   "property": "C70",
   "status": "partial",
   "theorems": [
    "C70_session_partial",
    "C70_sorted",
    "C70_forward",
    "C70_backward",
    "C70_release",
    "C70_odd_refuted",
    "C70_remove_zero_refuted",
    "C70_update_zero_refuted",
    "C70_prev_zero_refuted",
    "C70_next_absent_refuted",
    "C70_remove_absent_refuted",
    "C70_last_empty_refuted"
   ],
   "note": "Every history of insert/lookup/update/remove/first/last/next/prev/release by any adaptive client, any allocator (which may fail), any clash and remove callbacks, any even node size from 4 (the stock layouts have 8), against an ordered map; tree of any height, splits, merges, key pointers into changing nodes and node addresses as in the code. Walks forwards and backwards are complete and ordered; release returns every node. Restricted to what BtreeSpec.ballowed says; outside it the statement is false: with the stock layout removing the absent key 0 loses another entry, updating it succeeds, and removing an absent key can write outside the node; seven refutations. Keys of one word with the stock comparison."
  },
  {
   "property": "C71",
   "status": "proved",
   "theorems": [
    "C71_roundtrip",
    "C71_is_err",
    "C71_zero_forms"
   ],
   "note": "All 2^64 pointers and all ints, including the forms for NULL."
  },
  {
   "property": "C72",
   "status": "partial",
   "theorems": [
    "C72_count_space",
    "C72_count_end_partial",
    "C72_count_end_refuted"
   ],
   "note": "Count and space are exact for free-running wrapping counters; count-to-end only for counters inside the ring (refuted otherwise). SPACE_END does not compile and is not modelled."
  },
  {
   "property": "C73",
   "status": "partial",
   "theorems": [
    "C73_nibble",
    "C73_local",
    "C73_short_partial",
    "C73_refuted",
    "C73_signed_refuted"
   ],
   "note": "The bound is false: 7-bit strings and single non-ASCII characters reach 2^32 and more (refuted). Proved for all strings: bits 28..31 are clear; for up to six 7-bit characters the exact value, below 2^28."
  },
  {
   "property": "C74",
   "status": "proved",
   "theorems": [
    "C74_memdiff",
    "C74_strdiff"
   ],
   "note": "All strings and blocks."
  },
  {
   "property": "C75",
   "status": "partial",
   "theorems": [
    "C75_alloc_buffer_partial",
    "C75_alloc_overflow_refuted"
   ],
   "note": "False of the code when the byte size exceeds 2^64; proved below that."
  },
  {
   "property": "C76",
   "status": "partial",
   "theorems": [
    "C76_ringbuf_record_refuted"
   ],
   "note": "False of the code (refuted)."
  },
  {
   "property": "C77",
   "status": "proved",
   "theorems": [
    "C77_bit_ops"
   ],
   "note": ""
  },
  {
   "property": "C78",
   "status": "partial",
   "theorems": [
    "C78_import",
    "C78_import_refuted",
    "C78_data_partial",
    "C78_data_refuted"
   ],
   "note": "Import proved below 2^32 cells and refuted above; the accessor is false (refuted), with an exact characterisation of when it is right."
  },
  {
   "property": "C79",
   "status": "proved",
   "theorems": [
    "C79_contents"
   ],
   "note": "Any history with the three policies."
  },
  {
   "property": "C80",
   "status": "partial",
   "theorems": [
    "C80_policies",
    "C80_worst_refuted"
   ],
   "note": "Completeness and optimality of the three policies in every reachable state; worst fit misses a free chunk of size 0 for an empty request (refuted)."
  },
  {
   "property": "C81",
   "status": "proved",
   "theorems": [
    "inorder_visit",
    "reverse_visit",
    "preorder_visit",
    "postorder_visit",
    "C56_orders"
   ],
   "note": "Loops over any linked tree; level order is not covered here."
  },
  {
   "property": "C82",
   "status": "proved",
   "theorems": [
    "C56_find",
    "C56_find_last",
    "rb_parent_ok"
   ],
   "note": "All trees and all search functions monotone along the tree."
  },
  {
   "property": "C83",
   "status": "partial",
   "theorems": [
    "C83_find_partial",
    "C83_refuted"
   ],
   "note": "False: the depth is taken from the number of nodes instead of the index (C83_refuted: with seven nodes find(1) is not the root). Proved for positions of the last level."
  },
  {
   "property": "C84",
   "status": "proved",
   "theorems": [
    "C55_history",
    "level_ok",
    "level_perm"
   ],
   "note": "After any history the loop visits the nodes at positions 1, 2, ..., count, a permutation of the contents."
  },
  {
   "property": "C85",
   "status": "partial",
   "theorems": [
    "C85_iteration_partial",
    "C69_session_partial",
    "C85_first_refuted",
    "C85_prev_refuted",
    "C85_next_refuted"
   ],
   "note": "After every polite history: which cell is reported (as long as no allocation failed), with the right offset inside an aligned range of 2^13. False in general: first misses cells beyond block 0, previous invents a cell, next reports wrong offsets across subtrees."
  },
  {
   "property": "C86",
   "status": "partial",
   "theorems": [
    "C86_charge_partial",
    "C69_session_partial",
    "C86_charge_refuted"
   ],
   "note": "One cell every 256 offsets from the start exists afterwards; the last block of an unaligned range may be missed."
  },
  {
   "property": "C87",
   "status": "partial",
   "theorems": [
    "C87_cells",
    "C87_index_partial",
    "C87_index_refuted"
   ],
   "note": "Disjointness for all sizes; the inverse for powers of two only, refuted for other sizes."
  },
  {
   "property": "C88",
   "status": "partial",
   "theorems": [
    "C88_strdup",
    "C88_null",
    "C88_strndup_exact",
    "C88_strndup_overflow",
    "C88_strndup_open",
    "C88_strndup_refuted",
    "C88_strndup_open_refuted"
   ],
   "note": "strdup: proved. strndup: false for every length except strlen + 1 (both directions proved): a smaller length leaves the copy unterminated, a greater one makes strncpy pad beyond the block."
  },
  {
   "property": "C89",
   "status": "proved",
   "theorems": [
    "C89_errname",
    "C89_unique",
    "C89_min_refuted"
   ],
   "note": "For every int but INT_MIN, whose negation is undefined (refutation). Uses C36 for the binary search."
  },
  {
   "property": "C90",
   "status": "proved",
   "theorems": [
    "C90_history"
   ],
   "note": "Any sequence of operations on any objects, the list at pointer level (model of C58). Names and callbacks of an object do not change."
  },
  {
   "property": "C91",
   "status": "partial",
   "theorems": [
    "C91_dynamic",
    "C91_classes",
    "C91_xdigit_blank_partial",
    "C91_xdigit_refuted",
    "C91_blank_refuted",
    "C91_const",
    "C91_const_right",
    "C91_known_refuted",
    "C91_known_partial",
    "C91_case",
    "C91_eof_refuted",
    "C91_toascii"
   ],
   "note": "The run-time predicates are exactly their classes for every int, except isxdigit ('0' lacks the flag) and isblank (the flag of HT sits on VT), refuted. The compile-time versions subtract in signed int, so every smaller code belongs to the class (isdigit(' ') is true when the compiler knows the argument): exact extension proved, agreement refuted for eleven macros and proved for ASCII arguments not below the class. tolower/toupper are right on 0..255 in the C locale and turn EOF into 255."
  },
  {
   "property": "C92",
   "status": "partial",
   "theorems": [
    "C92_align_check",
    "C92_align_low",
    "C92_align_low_refuted",
    "C92_align_high",
    "C92_align_high_refuted",
    "C92_align_ptr",
    "C92_round_down",
    "C92_round_down_refuted",
    "C92_round_up",
    "C92_round_up_refuted",
    "C92_div_round_up",
    "C92_div_round_up_refuted"
   ],
   "note": "Right for all type combinations where ~(align-1) reaches the width of the common type and the result is representable; an unsigned 32-bit alignment truncates a 64-bit value, tops wrap to 0, DIV_ROUND_UP overflows near the top and truncates negative dividends the wrong way: refuted with witnesses. BFDEV_DIV_ROUND_CLOSEST applies bfdev_is_unsigned, which expects a type, to expressions and does not compile."
  },
  {
   "property": "C93",
   "status": "partial",
   "theorems": [
    "C93_minmax",
    "C93_clamp",
    "C93_minmax_refuted",
    "C93_adj_refuted",
    "C93_adj_partial"
   ],
   "note": "Right whenever the type of the first argument can hold the others; refuted otherwise. bfdev_min_adj/max_adj enforce the opposite of the documented bound."
  },
  {
   "property": "C94",
   "status": "partial",
   "theorems": [
    "C94_masks",
    "C94_range",
    "C94_shift",
    "C94_shift_refuted",
    "C94_field",
    "C94_roundtrip",
    "C94_update",
    "C94_fit_partial",
    "C94_fit_refuted"
   ],
   "note": "Everything but FIELD_FIT (which accepts values whose upper bits the shift pushes out) and BIT_SHIFT on int values (undefined from 32 on, although documented as a long), both refuted."
  },
  {
   "property": "C95",
   "status": "partial",
   "theorems": [
    "C95_check",
    "C95_saturate",
    "C95_saturate_refuted",
    "C95_exact"
   ],
   "note": "The checks are exact (the compiler's builtins are taken to be correct); unsigned addition and multiplication saturate; subtraction and signed operations do not, refuted with the exact outcome proved."
  },
  {
   "property": "C96",
   "status": "partial",
   "theorems": [
    "C96_and_partial",
    "C96_or_partial",
    "C96_xor_partial",
    "C96_negative_refuted"
   ],
   "note": "For operands of which the shorter has fewer than 2^26 limbs (the bitmap functions count bits in an unsigned int); the assertion in mpi_or never fires on normalised operands. The sign of the operands is ignored: refuted as an operation on integers."
  },
  {
   "property": "C97",
   "status": "partial",
   "theorems": [
    "C97_shli_partial",
    "C97_shri_partial",
    "C97_roundtrip_partial",
    "C97_shri_refuted",
    "C97_shli_refuted",
    "C97_negative_zero_refuted"
   ],
   "note": "For results below 2^26 limbs (left) and counts below 2^32 (right). Beyond: shri by 2^32 returns the operand unchanged, shli by 2^64-1 returns zero with success; shri of -1 leaves a negative zero. All refuted with witnesses."
  },
  {
   "property": "C98",
   "status": "partial",
   "theorems": [
    "C98_btesti_partial",
    "C98_bseti_partial",
    "C98_bclri_partial",
    "C98_restore_partial",
    "C98_bseti_refuted"
   ],
   "note": "For bit numbers below 2^32; bseti of bit 2^32 sets bit 0 and leaves the number with zero limbs on top, refuted."
  },
  {
   "property": "C99",
   "status": "partial",
   "theorems": [
    "C99_vscnprintf",
    "C99_empty",
    "C99_error",
    "C99_error_refuted"
   ],
   "note": "Right whenever the C library formats the text; when it reports an error, the caller is told the buffer was filled although nothing was stored (int compared with size_t), refuted."
  },
  {
   "property": "C100",
   "status": "partial",
   "theorems": [
    "C100_level",
    "C100_log",
    "C100_endptr_refuted",
    "C100_reset_refuted",
    "C100_error_refuted",
    "C100_default_refuted"
   ],
   "note": "Exact text, length, terminator, filter and destination for every call whose text can be formatted. Refuted: bfdev_log_level leaves a null-initialised end pointer alone (tests *endptr); a message filling the buffer loses the colour reset; a formatting error writes out uninitialised memory; a default level above 8 is read beyond the tables."
  },
  {
   "property": "C101",
   "status": "partial",
   "theorems": [
    "C101_store",
    "C101_load",
    "C101_load_defined",
    "C101_roundtrip",
    "C101_native",
    "C101_generic_refuted"
   ],
   "note": "Full for builds whose header matches the processor. asm-generic/byteorder.h always includes little-endian.h, so a build without an architecture header writes the wrong order on a big-endian processor: refuted."
  },
  {
   "property": "C102",
   "status": "partial",
   "theorems": [
    "C102_swab_array",
    "C102_order_array",
    "C102_overlap_refuted"
   ],
   "note": "Swapping in full; conversion when the destination does not start inside the source (in place included), refuted otherwise. The cpu_to_be array macros of byteorder.h name functions that do not exist."
  },
  {
   "property": "C103",
   "status": "partial",
   "theorems": [
    "C103_le",
    "C103_be",
    "C103_generic_refuted"
   ],
   "note": "All non-atomic operations, for builds whose header matches the processor; refuted for the generic header on a big-endian processor."
  },
  {
   "property": "C104",
   "status": "partial",
   "theorems": [
    "C104_empty",
    "C104_full",
    "C104_intersects",
    "C104_equal_exact",
    "C104_equal_partial",
    "C104_or_equal_exact",
    "C104_equal_refuted"
   ],
   "note": "empty, full and intersects in full. equal and or_equal give the opposite answer whenever the compiler knows the length to be at most 64, and equal also whenever it knows it to be a multiple of 8 (memcmp result used as a truth value): exact characterisation and refutation."
  },
  {
   "property": "C105",
   "status": "partial",
   "theorems": [
    "C105_and",
    "C105_andnot",
    "C105_or",
    "C105_xor",
    "C105_complement",
    "C105_shl",
    "C105_shr_partial"
   ],
   "note": "All expansions. Out-of-line shr only for lengths that are a multiple of 64 (C19_shr_refuted); inline shifts by 64 or more are undefined in C and excluded."
  },
  {
   "property": "C106",
   "status": "partial",
   "theorems": [
    "C106_zero_fill",
    "C106_copy",
    "C106_set_clr_partial",
    "C106_set_refuted",
    "C106_wrap_refuted"
   ],
   "note": "zero, fill, copy for lengths up to 2^32-64; a length within 7 of 2^32 rounds to zero bytes and nothing happens (refuted). set and clr in full where the range is known to be one bit or byte aligned; out of line only for ranges ending on a word boundary, the same call runs out of bounds otherwise (refuted)."
  },
  {
   "property": "C107",
   "status": "proved",
   "theorems": [
    "C107_linearizable"
   ],
   "note": "Sequentially consistent memory; the __sync builtins are taken to be atomic."
  },
  {
   "property": "C108",
   "status": "proved",
   "theorems": [
    "C108_mutual_exclusion",
    "C108_progress"
   ],
   "note": "Same memory model as C107."
  },
  {
   "property": "C109",
   "status": "proved",
   "theorems": [
    "C109_counter",
    "C109_tickets",
    "C109_exchange"
   ],
   "note": "Same memory model as C107; tickets are distinct for fewer than 2^64 draws."
  },
  {
   "property": "C110",
   "status": "proved",
   "theorems": [
    "C110_list_add",
    "C110_list_del",
    "C110_list_move",
    "C110_list_swap",
    "C110_list_del_poisoned",
    "C110_list_double_add",
    "C110_list_damaged",
    "C110_elsewhere_refuted",
    "C110_slist_add",
    "C110_slist_del",
    "C110_slist_plain_faults",
    "C110_hlist_head_add",
    "C110_hlist_insert",
    "C110_hlist_double_add",
    "C110_hlist_del"
   ],
   "note": "Assumes that no list object lies at a poison address. hlist next_add and prev_add are shown equal to the plain functions, whose defects are those of C59. The logged message is not modelled."
  },
  {
   "property": "C111",
   "status": "proved",
   "theorems": [
    "C111_create",
    "C111_destroy",
    "C111_huge_refuted"
   ],
   "note": "Blocks are pairwise apart in an unbounded address space; allocator adversarial. Sizes above 2^63 are undefined in bfdev_pow2_roundup (refuted)."
  },
  {
   "property": "C112",
   "status": "proved",
   "theorems": [
    "C112_spsc",
    "C112_no_race",
    "C112_real_time",
    "C112_stream",
    "C112_sequential",
    "C112_linearizable_refuted",
    "C112_merges"
   ],
   "note": "Sequentially consistent memory and program order are assumed: the code has no barriers. Flat FIFOs only. That partial transfers are atomic as well is refuted."
  },
  {
   "property": "C113",
   "status": "partial",
   "theorems": [
    "C113_history",
    "C113_round",
    "C113_refuted"
   ],
   "note": "Proved for all histories in which no callback unregisters the node whose turn is next (unless the round ends with that call); for that case the unlimited statement is refuted for every number of calls. Callbacks do not call the chain again from inside."
  },
  {
   "property": "C114",
   "status": "proved",
   "theorems": [
    "C114_heap_history",
    "C114_heap_double_link",
    "C114_heap_insert_refuted",
    "C114_heap_plain_refuted",
    "C114_rb_history",
    "C114_rb_double_link",
    "C114_rb_replaced_refuted"
   ],
   "note": "Assumes that no node lies at a poison address. A refused link of a tree node with a red parent is not covered: the fixup that follows it may rotate. The logged message is not modelled."
  },
  {
   "property": "C115",
   "status": "proved",
   "theorems": [
    "C115_stream",
    "C115_no_race",
    "C115_bytes",
    "C115_weak_refuted",
    "C115_late_refuted"
   ],
   "note": "Loads are in program order; compiler reorderings are not modelled (the counters are not volatile). The last two theorems show what the property says does not hold."
  },
  {
   "property": "C116",
   "status": "partial",
   "theorems": [
    "C116_destroy",
    "C116_rb_destroy",
    "C116_heap_destroy",
    "C116_free",
    "C116_hashmap_still",
    "C116_hashmap_any",
    "C116_rb_delete_refuted",
    "C116_heap_delete_refuted",
    "C116_hashmap_shrink_refuted"
   ],
   "note": "All proved except the last sentence, which is false: a body that calls bfdev_rb_delete or bfdev_heap_delete on the node rebalances the tree under the iterator and nodes are never visited (four keys suffice), and bfdev_hashmap_del under the stock policy rehashes and reverses the chains during the loop, so deleting every node leaves one behind (all three refuted). Keys of the hash map are distinct in the positive theorems, since deletion is by key."
  },
  {
   "property": "C117",
   "status": "partial",
   "theorems": [
    "C117_sequential",
    "C117_threads",
    "C117_once_per_thread",
    "C117_threads_refuted",
    "C117_flag"
   ],
   "note": "All proved except \"once by all threads together\", which is false: two threads can both find the flag down (C117_threads_refuted). The positive theorem bounds it: all calls of one function overlap."
  },
  {
   "property": "C118",
   "status": "proved",
   "theorems": [
    "C118_ownership",
    "C118_locks",
    "C118_plain_unlock_refuted",
    "C118_plain_unlock_bits_refuted"
   ],
   "note": "Loads happen in program order and the __sync builtins are full barriers, also in the buffers of C118's machine; compiler reorderings are not modelled. The last two theorems show the last sentence."
  },
  {
   "property": "C119",
   "status": "proved",
   "theorems": [
    "C119_last_sees",
    "C119_plain_drop_refuted"
   ],
   "note": "Same machine as C118. Every word but the counter has one thread that may touch it while it has references (data that several threads read at the same time is not covered); the last one may touch all. C119_plain_drop_refuted: giving a reference back with a plain load and store makes the last one miss data."
  },
  {
   "property": "C120",
   "status": "partial",
   "theorems": [
    "C120_exact",
    "C120_silent",
    "C120_no_false_alarm",
    "C120_addnz_alone",
    "C120_overflow_never",
    "C120_overflow_refuted",
    "C120_addnz_zero_refuted"
   ],
   "note": "All proved except the last two parts, which are false: the overflow check of a take comes after a signed sum that is undefined when it overflows, so no take of a positive number is ever reported as overflow (C120_overflow_never, C120_overflow_refuted); and a guarded take on a count of 0, which rightly does nothing, is always reported as overflow (C120_addnz_zero_refuted). Guarded takes interleaved with other calls are covered by C63 only."
  },
  {
   "property": "C121",
   "status": "proved",
   "theorems": [
    "C121_loops",
    "C121_still",
    "C121_common",
    "C121_common_small"
   ],
   "note": "Loops with the out-of-line searches (lengths not known at compile time to be at most 64; for those see C21). The body does not assign the index."
  },
  {
   "property": "C122",
   "status": "partial",
   "theorems": [
    "C122_walk",
    "C122_walk_answers",
    "C122_add",
    "C122_del",
    "C122_history",
    "C122_refuse_refuted",
    "C122_blind_refuted"
   ],
   "note": "All proved except two parts that are false: ilist_head_check drops the result of the walk over the index list, so a call on a head with a damaged index list is logged and carried out (C122_refuse_refuted; a damaged node list is refused, C122_add, C122_del); and the checks look at links only, so the unsorted lists of C61_refuted pass them all (C122_blind_refuted). Links to memory that is not there make the check itself fault and are outside C122_add and C122_del."
  },
  {
   "property": "C123",
   "status": "partial",
   "theorems": [
    "C123_history",
    "C123_insert",
    "C123_delete",
    "C123_insert_augmented_refuted",
    "C123_propagate_refuted",
    "C123_height_refuted"
   ],
   "note": "Proved for every associative join, every value, order and history, plain and cached: C123_history gives all node summaries and the root's, C123_insert and C123_delete the single calls with the frame. Refuted: bfdev_rb_insert_augmented itself never propagates, so summaries above the new node stay stale even if the new node brings its own right one; propagating from the new node instead of its parent stops early when the uninitialised member happens to be right; a summary that depends on the shape (height) is lost by the rotations, so associativity is needed."
  },
  {
   "property": "C124",
   "status": "proved",
   "theorems": [
    "C124_list",
    "C124_data_seen"
   ],
   "note": "llist.c as the accesses it makes, on the store-buffer machine of FenceModel (TSO and out of order per word; the __sync builtins are full barriers, loads happen in program order). Same side condition as C62: nobody calls del, or one thread does all the taking."
  },
  {
   "property": "C125",
   "status": "partial",
   "theorems": [
    "C125_ownership",
    "C125_locks",
    "C125_data_exact",
    "C125_last_sees",
    "C125_list",
    "C125_del_refuted"
   ],
   "note": "The machine of C118 with loads that the processor may perform before earlier accesses of the same thread, but not before an earlier __sync builtin or an earlier own store to the same word. Locks, last references and lists emptied with destroy are proved; plain loads of the lock word, the counter or the list head may report an old value, which lex bounds to the time since the last barrier of the thread. Refuted for bfdev_llist_del if the processor does not keep dependent loads in order (C125_del_refuted). Loads that are delayed after later accesses, and compiler reorderings, are not modelled."
  },
  {
   "property": "C126",
   "status": "partial",
   "theorems": [
    "C126_lock_free",
    "C126_somebody",
    "C126_alone",
    "C126_atomic_lock_free",
    "C126_atomic_wait_free",
    "C126_wait_free_refuted",
    "C126_xchg_wait_free_refuted"
   ],
   "note": "Interleaving models of C62 and C107 (sequentially consistent memory, atomic __sync builtins that do not fail spuriously). List calls under the rules of C62: no del, or one consumer. The two refuted theorems show the last sentence: bfdev_xchg and the list calls are lock-free but not wait-free."
  },
  {
   "property": "C127",
   "status": "proved",
   "theorems": [
    "C127_sort_any",
    "C127_sort_same",
    "C127_bsearch_any",
    "C127_bsearch_same",
    "C127_list_sort_any",
    "C127_list_sort_same"
   ],
   "note": "The comparison function is an arbitrary function of all calls made before and of the two elements; it does not change the data it compares. The *_same theorems show that with an ordinary function the models are those of C35-C37."
  },
  {
   "property": "C128",
   "status": "proved",
   "theorems": [
    "C128_cost",
    "C128_all_cost",
    "C128_stream"
   ],
   "note": "KmpCostModel counts comparisons and records requests; projected to the model of C38 by prepare_same, loop_same and all_same."
  },
  {
   "property": "C129",
   "status": "proved",
   "theorems": [
    "C129_any",
    "C129_find_last_any",
    "C129_same"
   ],
   "note": "RbCallsModel records the calls; for a fixed function it is the model of C56 (C129_same). Deletion and replacement reuse C56 with the order given by the positions."
  },
  {
   "property": "C130",
   "status": "proved",
   "theorems": [
    "C130_any",
    "C130_same",
    "C130_tight"
   ],
   "note": "Adaptive comparison over the recorded calls; C130_same erases the recording to the functions of C55; C130_tight shows that both bounds are met."
  },
  {
   "property": "C131",
   "status": "proved",
   "theorems": [
    "C131_lifecycle",
    "C131_large_refuted",
    "C131_empty_refuted"
   ],
   "note": "Byte-addressed memory with the struct layout of a 64-bit little-endian target; an access outside of the block is Fault. The two refuted theorems are the last sentence of the statement: the first one for every such pattern and every block, the second with a witness. The search results come from C38 by refinement."
  },
  {
   "property": "C132",
   "status": "proved",
   "theorems": [
    "C132_step",
    "C132_any",
    "C132_shape",
    "C132_same"
   ],
   "note": "SkipCallsModel records all calls of cmp and find and answers them by an arbitrary function of the calls before; C132_same: with ordinary functions it is the model of C54. Searches after an insertion that ran out of memory at a new height are excluded by callowed (C54_refuted shows why)."
  },
  {
   "property": "C133",
   "status": "proved",
   "theorems": [
    "C133_step",
    "C133_any",
    "C133_same"
   ],
   "note": "HashCallsModel records all calls of the user's five functions and answers them by an arbitrary function of the calls before; C133_same: with ordinary functions it is the model of C52. The functions are assumed to return and to leave the map alone. A client must not insert a node that is in the map (with ADD, an equality that denies a node itself would link it twice)."
  },
  {
   "property": "C134",
   "status": "partial",
   "theorems": [
    "C134_lifecycle_partial",
    "C134_long",
    "C134_null",
    "C134_short_refuted",
    "C134_overwritten_refuted",
    "C134_text_refuted",
    "C134_hang_refuted"
   ],
   "note": "The context is one block of bytes with the offsets of the struct; every load and store is checked. Missing from the lifecycle: byte 255 in pattern or text and a text that fills its memory; both are false of the code (refutations here and in C39)."
  },
  {
   "property": "C135",
   "status": "proved",
   "theorems": [
    "C135_lifecycle",
    "C135_null",
    "C135_large_refuted",
    "C135_empty_refuted"
   ],
   "note": "Every load and store is checked against the block; entry 255 of bad_shift is entry 0 of good_shift, which is 1, so byte 255 is harmless here. The exceptions named in the statement are refuted. Completeness of the search is C136."
  },
  {
   "property": "C136",
   "status": "partial",
   "theorems": [
    "C136_first_partial",
    "C136_misses_refuted"
   ],
   "note": "Proved on the byte-level model, byte 255 included, when the last byte of the pattern stands nowhere else in it. Missing: other patterns, where the search misses occurrences."
  },
  {
   "property": "C137",
   "status": "partial",
   "theorems": [
    "C137_in_place_partial",
    "C137_hook_refuted",
    "C137_twice",
    "C137_pointer",
    "C137_compose32",
    "C137_compose64",
    "C137_array"
   ],
   "note": "Proved for both byte orders, any memory and address, and also with a correct bfdev_arch_swahw64s hook, except for bfdev_swahl64s with that hook: swab.h:505 tests and calls bfdev_arch_swahw64s there, so a correct word swap hook makes the long swap wrong (C137_hook_refuted). No header of the repository defines a hook. The other hooks are not modelled."
  },
  {
   "property": "C138",
   "status": "partial",
   "theorems": [
    "C138_history_partial",
    "C138_largest",
    "C138_largest_refuted"
   ],
   "note": "The history theorem covers everything but the last sentence, which is false for the 63 largest sizes: the sum in BFDEV_BITS_TO_LONG wraps, the size becomes 0 and NULL is returned without asking the allocator (C138_largest, C138_largest_refuted). For all other sizes the history theorem includes it. Cells are 8-byte words."
  },
  {
   "property": "C139",
   "status": "partial",
   "theorems": [
    "C139_history_partial",
    "C139_negative_zero_refuted"
   ],
   "note": "Proved for all histories in which zero is not imported with the negative sign. Such an import stores a negative zero, which stands for 0 but compares as less than 0 (C139_negative_zero_refuted). The buffer of an import lies outside the object; capacities are left out, so every resize may fail."
  }
 ]
}