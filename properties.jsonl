{"id": "C01", "title": "base64 decode inverts encode", "statement": "Encoding any byte buffer with bfdev_base64_encode and decoding the produced text with bfdev_base64_decode returns exactly the original bytes; the produced text has length ceil(n/3)*4 as promised by the length helper and contains only alphabet characters followed by at most two '='.", "quantifier": "all byte strings of any length", "why_tests_cant": "The input space is infinite; length residue and bit-packing bugs hide in particular byte combinations.", "anchors": ["src/crypto/base64.c: bfdev_base64_encode, bfdev_base64_decode", "include/bfdev/base64.h: bfdev_base64_encode_length, bfdev_base64_decode_length"]}
{"id": "C02", "title": "base64 decode rejects exactly the texts holding a foreign character before the first '='", "statement": "bfdev_base64_decode returns -EINVAL if and only if some character located before the first '=' (or before the end) is neither in the alphabet nor '='; otherwise it returns success.", "quantifier": "all input texts", "why_tests_cant": "256^n inputs; a table with one wrong entry or a wrong stop test only shows on specific characters.", "anchors": ["src/crypto/base64.c: bfdev_base64_decode, decode_table"]}
{"id": "C03", "title": "base32 decode inverts encode", "statement": "Encoding any byte buffer with bfdev_base32_encode and decoding it with bfdev_base32_decode returns the original bytes; the text has length ceil(n/5)*8, with the RFC 4648 number of '=' characters.", "quantifier": "all byte strings of any length", "why_tests_cant": "Infinite input space; five length residues each with their own bit packing.", "anchors": ["src/crypto/base32.c: bfdev_base32_encode, bfdev_base32_decode", "include/bfdev/base32.h"]}
{"id": "C04", "title": "ascii85 round trip", "statement": "Encoding any byte buffer with bfdev_ascii85_encode and decoding with bfdev_ascii85_decode succeeds and returns the original bytes (zero padded to a multiple of four).", "quantifier": "all byte strings", "why_tests_cant": "Only buffers with an all-zero aligned group take the 'z' path; random tests never generate one.", "anchors": ["src/crypto/ascii85.c: bfdev_ascii85_encode, bfdev_ascii85_decode"]}
{"id": "C05", "title": "BCD conversions are mutually inverse on their domain and flag everything else", "statement": "For every value below 100 bfdev_bcd2bin(bfdev_bin2bcd(v)) = v and the BCD has tens in the high nibble and units in the low one; for every byte the table and the compile-time macro agree wherever the byte is valid BCD.", "quantifier": "all 8-bit values in both directions, both implementations (table and macro)", "why_tests_cant": "Table typos are only visible at the wrong entry.", "anchors": ["src/bcd.c: bfdev_bcd2bin_table, bfdev_bin2bcd_table", "include/bfdev/bcd.h"]}
{"id": "C06", "title": "ARC4 decryption inverts encryption and chunking is invisible", "statement": "With the same key, applying bfdev_arc4_trans to the output of bfdev_arc4_trans (each from a fresh key schedule) returns the plaintext; splitting a message into consecutive trans calls yields the same bytes as one call.", "quantifier": "all keys, all messages, all ways of splitting a message into chunks", "why_tests_cant": "Unbounded combinations of key, message and chunk boundaries.", "anchors": ["src/crypto/arc4.c: bfdev_arc4_setkey, bfdev_arc4_trans"]}
{"id": "C07", "title": "ARC4 state is always a permutation", "statement": "After key setup with any key and any number of transformed bytes, the 256-entry cipher state remains a permutation of 0..255 and both indices stay below 256, so no table access is out of bounds.", "quantifier": "all keys and all histories of trans calls", "why_tests_cant": "Invariant over unbounded histories.", "anchors": ["src/crypto/arc4.c"]}
{"id": "C08", "title": "FIFO behaves as a bounded queue", "statement": "With power-of-two capacity, any sequence of flat in/out/peek/put/get calls observes exactly a first-in-first-out queue with capacity bound: in accepts min(len, free) elements, out returns the oldest min(len, used) elements in order, peek does not change the contents; no byte outside the buffer is touched.", "quantifier": "all operation sequences, all element values, all power-of-two sizes, all counter values including wrap of the 64-bit counters", "why_tests_cant": "Wrap of the free-running counters happens after 2^64 operations; tests cannot reach it.", "anchors": ["src/fifo.c: fifo_in_flat, fifo_out_flat, fifo_peek_flat, fifo_in_copy, fifo_out_copy", "include/bfdev/fifo.h"]}
{"id": "C09", "title": "FIFO record mode round trip", "statement": "A record written with the record-mode in call is returned unchanged, with its length, by the next record-mode out call on a previously empty FIFO.", "quantifier": "all records, all fill states", "why_tests_cant": "Failure depends on the relation of in and out positions and on the record length encoding.", "anchors": ["src/fifo.c: fifo_record_poke, fifo_record_peek, fifo_in_record, fifo_out_record"]}
{"id": "C10", "title": "Ring buffer keeps exactly the newest elements", "statement": "After any sequence of flat in/out calls, the ring buffer contains the last min(size, pending) elements written and not yet read, in order: in never fails and drops the oldest elements on overflow.", "quantifier": "all operation sequences, all sizes that are powers of two, all counter values including wrap", "why_tests_cant": "Unbounded histories and counter wrap.", "anchors": ["src/ringbuf.c: ringbuf_in_flat, ringbuf_out_flat, ringbuf_peek_flat"]}
{"id": "C11", "title": "Dynamic FIFO allocation gives at least the requested capacity, as a power of two", "statement": "bfdev_fifo_dynamic_alloc succeeds only with a capacity that is a power of two at least the requested size (and below twice that), and rejects requests that round up to less than two elements.", "quantifier": "all requested sizes up to 2^63", "why_tests_cant": "Rounding at every boundary.", "anchors": ["src/fifo.c: bfdev_fifo_dynamic_alloc", "include/bfdev/log2.h: bfdev_pow2_roundup_dynamic"]}
{"id": "C12", "title": "Find-first/last set bit on words", "statement": "ffsuf/flsuf return the index of the least/most significant one bit of any non-zero word; ffs/fls return that plus one and 0 for zero; ffz/flz, clz and ctz agree with their definitions; the portable binary-search implementation agrees with the specification.", "quantifier": "all 2^64 words", "why_tests_cant": "2^64 inputs.", "anchors": ["include/bfdev/asm-generic/bitops.h", "include/bfdev/bitops.h"]}
{"id": "C13", "title": "n-th set bit search", "statement": "ffnsp(w, n) (flnsp) returns the position of the n-th set bit counted from the low (high) end, and the documented sentinel when the word has fewer set bits.", "quantifier": "all words, all n", "why_tests_cant": "2^64 * 64 inputs.", "anchors": ["include/bfdev/asm-generic/bitops.h: bfdev_arch_ffnsp, bfdev_arch_flnsp"]}
{"id": "C14", "title": "Rotations are inverse bit permutations", "statement": "For every width and every amount below the width, ror undoes rol and bit i of the input moves to bit (i+n) mod width.", "quantifier": "all words, all rotation counts, widths 8, 16, 32, 64", "why_tests_cant": "2^64*64 inputs; the amount-0 case shifts by the width.", "anchors": ["include/bfdev/bitops.h: bfdev_rol*, bfdev_ror*"]}
{"id": "C15", "title": "Byte swapping and bit reversal are the mathematical permutations", "statement": "bfdev_swab16/32/64 reverse the byte order and are involutive; bitrev8/16/32/64 (table version and constant-expression version) map bit i to bit width-1-i.", "quantifier": "all words of each width, both implementations", "why_tests_cant": "2^32 and 2^64 inputs.", "anchors": ["include/bfdev/swab.h", "include/bfdev/bitrev.h", "src/bitrev.c"]}
{"id": "C16", "title": "Population count", "statement": "bfdev_popcount8/16/32/64 (table version and constant-expression version) return the number of one bits.", "quantifier": "all words of each width, both implementations", "why_tests_cant": "2^64 inputs.", "anchors": ["include/bfdev/popcount.h", "src/popcount.c"]}
{"id": "C17", "title": "Power-of-two and log2 helpers", "statement": "ilog2 returns floor(log2 v) for v>=1, pow2_roundup the least power of two >= v for 1<=v<=2^63, pow2_rounddown the greatest power of two <= v, pow2_check holds exactly of powers of two.", "quantifier": "all 64-bit values in the domain", "why_tests_cant": "2^64 inputs.", "anchors": ["include/bfdev/log2.h"]}
{"id": "C18", "title": "Bitmap logical operations are bitwise on the declared bits", "statement": "and/andnot/or/xor/complement/replace set each of the first nbits bits of the destination to the stated function of the corresponding source bits; equal/or_equal/intersects/subset decide the stated relation on exactly the first nbits bits.", "quantifier": "all bitmaps of all lengths including lengths that are not a multiple of the word size", "why_tests_cant": "Unbounded lengths; tail-bit contamination depends on garbage above nbits.", "anchors": ["src/bitmap.c: bfdev_bitmap_comp_*", "include/bfdev/bitmap.h", "include/bfdev/bitmap-comp.h"]}
{"id": "C19", "title": "Bitmap shift moves every bit by the distance", "statement": "bfdev_bitmap_shl/shr move bit i to bit i+n / i-n within the first nbits bits and fill with zero.", "quantifier": "all bitmaps, shift distances and lengths", "why_tests_cant": "Unbounded lengths and distances; word-boundary carries.", "anchors": ["src/bitmap.c: bfdev_bitmap_comp_shl, bfdev_bitmap_comp_shr"]}
{"id": "C20", "title": "Bitmap range set/clear changes exactly the range", "statement": "bfdev_bitmap_set(map, start, n) sets bits start..start+n-1 and changes no other bit; clr dually.", "quantifier": "all maps, starts and lengths", "why_tests_cant": "Partial first and last word cases; the loop bound depends on both.", "anchors": ["src/bitmap.c: bfdev_bitmap_comp_set, bfdev_bitmap_comp_clr"]}
{"id": "C21", "title": "Bitmap search returns the extremal matching bit", "statement": "find_first/find_next return the smallest index >= start below nbits whose (possibly inverted) bit is set in addr1 & addr2, find_last/find_prev the largest one, and nbits when there is none.", "quantifier": "all bitmaps, all lengths and start positions", "why_tests_cant": "Unbounded lengths; first/last word masking.", "anchors": ["src/bitwalk.c: bfdev_bitwalk_comp_find_*", "include/bfdev/bitwalk.h"]}
{"id": "C22", "title": "Double-word multiply and divide are exact", "statement": "The double-word helpers compute exact results: umul gives the full 128-bit product, add/sub carry correctly, udiv of a 128-bit dividend by a 64-bit divisor (with quotient fitting) returns the exact quotient and remainder.", "quantifier": "all operands in the domain (2^192 combinations)", "why_tests_cant": "The Knuth digit-correction steps fire with probability about 2^-32.", "anchors": ["src/dword.c", "include/bfdev/asm-generic/dword.h"]}
{"id": "C23", "title": "Double-word by double-word division", "statement": "udivd(n, d) returns quotient and remainder of 128-bit by 128-bit division for every non-zero divisor.", "quantifier": "all operands", "why_tests_cant": "Corner cases with top-bit-set divisor.", "anchors": ["src/dword.c: bfdev_udivd / generic_udivd"]}
{"id": "C24", "title": "Multi-precision addition and subtraction are exact", "statement": "bfdev_mpi_add / sub compute the integer sum / difference for all operand magnitudes and signs.", "quantifier": "all integers of any size and sign, all aliasing of the arguments", "why_tests_cant": "Carry chains through all-ones limbs have probability 2^-64 in random tests.", "anchors": ["src/mpi.c: mpa_add, mpa_sub, mpi_add, mpi_sub, bfdev_mpi_add, bfdev_mpi_sub"]}
{"id": "C25", "title": "Multi-precision multiplication is exact", "statement": "bfdev_mpi_mul computes the integer product for all operands.", "quantifier": "all integers of any size and sign", "why_tests_cant": "Same as above.", "anchors": ["src/mpi.c: mpa_muli, mpa_maci, mpa_mul, bfdev_mpi_mul"]}
{"id": "C26", "title": "Multi-precision division by a word is exact", "statement": "bfdev_mpi_divi/modi return the exact quotient and remainder for every non-zero single-word divisor.", "quantifier": "all magnitudes", "why_tests_cant": "Unbounded lengths.", "anchors": ["src/mpi.c: mpa_divmodi, bfdev_mpi_divi"]}
{"id": "C27", "title": "Multi-precision division", "statement": "bfdev_mpi_div returns q and r with a = q*b + r and |r| < |b| for all non-zero b.", "quantifier": "all integers", "why_tests_cant": "Quotient digit estimates; normalisation.", "anchors": ["src/mpi.c: mpa_divmod, bfdev_mpi_div, bfdev_mpi_mod"]}
{"id": "C28", "title": "Multi-precision comparison is integer comparison", "statement": "bfdev_mpi_cmp / cmpi return equal / less / greater exactly as integer comparison of the represented values.", "quantifier": "all integers in normal form", "why_tests_cant": "Sign and length combinations.", "anchors": ["src/mpi.c: bfdev_mpi_cmp, bfdev_mpi_cmpi, mpa_cmp"]}
{"id": "C29", "title": "Matrix arithmetic follows the algebra modulo 2^64", "statement": "bfdev_matrix_add/sub/mul compute the matrix sum, difference and product (dimensions checked, also when the destination aliases an operand); transposition yields the transposed matrix.", "quantifier": "all matrices of all dimensions, all aliasing", "why_tests_cant": "Unbounded dimensions, aliasing.", "anchors": ["src/matrix.c"]}
{"id": "C30", "title": "Table-driven CRC equals the polynomial definition and composes over chunks", "statement": "For every algorithm (crc4/7/8/16/32/64/ccitt/itut/rocksoft/t10dif) the table-driven function equals bit-at-a-time polynomial division, and processing a message in pieces equals processing it at once.", "quantifier": "all messages, all initial values, all splits", "why_tests_cant": "A single wrong table entry or dropped half of a state only shows on particular data.", "anchors": ["include/bfdev/crypto/crc-inline.h", "src/crypto/crc*.c", "scripts/gen-crc.c"]}
{"id": "C31", "title": "Slice-by-8 CRC equals byte-at-a-time CRC", "statement": "The extended (eight bytes per step) build of the CRC functions returns the same value as the byte-at-a-time build.", "quantifier": "all messages and initial values, all CRC widths", "why_tests_cant": "Requires relating two builds on unbounded messages.", "anchors": ["include/bfdev/crypto/crc-inline.h"]}
{"id": "C32", "title": "MD5/SHA-1/SHA-224/SHA-256 equal the standard on every message and split", "statement": "init + any sequence of updates + finish yields the digest the standard (RFC 1321 / FIPS 180) defines of the concatenated message.", "quantifier": "all messages below 2^61 bytes, all ways to cut them into update calls", "why_tests_cant": "Padding depends on length mod 64; buffering on the cut positions.", "anchors": ["include/bfdev/crypto/*-base.h", "include/bfdev/crypto/{md5,sha1,sha2}.h", "src/crypto/{md5,sha1,sha2}.c"]}
{"id": "C33", "title": "Jenkins hash mixing loses no information", "statement": "The internal 96-bit mixing steps are bijections (as documented 'reversibly'), so for a fixed length two word-keys differing only inside the last block's first mixed words never collide before the final projection; the hash of a byte string depends only on the bytes, length and seed.", "quantifier": "all 2^96 mix states", "why_tests_cant": "2^96 states.", "anchors": ["include/bfdev/jhash.h", "src/jhash.c"]}
{"id": "C34", "title": "PRNG state never degenerates", "statement": "After seeding with any seed, each of the four Tausworthe components stays above its minimum forever, so the generator never collapses to the all-zero cycle.", "quantifier": "all seeds, any number of steps", "why_tests_cant": "Unbounded steps and 2^64 seeds.", "anchors": ["src/prandom.c", "include/bfdev/prandom.h"]}
{"id": "C35", "title": "Heap sort sorts", "statement": "bfdev_sort leaves the array a sorted permutation of its input for every comparison that is a total preorder, or reports an error without touching it; every access is inside the array.", "quantifier": "all arrays of elements whose size is not a multiple of 2^32 bytes (the swap length is an unsigned int), all total preorders", "why_tests_cant": "Unbounded arrays.", "anchors": ["src/sort.c: bfdev_sort"]}
{"id": "C36", "title": "Binary search is sound and complete on sorted arrays", "statement": "On a sorted array bsearch returns a matching element if and only if one exists, and terminates on every array.", "quantifier": "all arrays and keys", "why_tests_cant": "Off-by-one at the ends; unbounded lengths.", "anchors": ["include/bfdev/bsearch.h", "src/bsearch.c"]}
{"id": "C37", "title": "List sort is a stable sort", "statement": "bfdev_list_sort returns a sorted permutation in which elements that compare equal keep their original relative order.", "quantifier": "all lists, all total preorders", "why_tests_cant": "Bottom-up merge structure depends on the binary representation of the length.", "anchors": ["src/list-sort.c: bfdev_list_sort"]}
{"id": "C38", "title": "KMP search reports exactly the occurrences", "statement": "The kmp algorithm's first match is the leftmost occurrence of the pattern at or after the resume point, and none is reported iff there is none; repeated next calls enumerate successive non-overlapping matches.", "quantifier": "all texts, all non-empty patterns", "why_tests_cant": "Border structure of the pattern.", "anchors": ["src/textsearch/kmp.c", "include/bfdev/textsearch.h"]}
{"id": "C39", "title": "Boyer-Moore and Sunday search report exactly the occurrences", "statement": "The bm and sunday algorithms find the leftmost occurrence of the pattern iff there is one and access no memory outside text, pattern and tables.", "quantifier": "all texts and non-empty patterns", "why_tests_cant": "Out-of-bounds reads and table indices depend on byte value 255 and text ends.", "anchors": ["src/textsearch/bm.c", "src/textsearch/sunday.c"]}
{"id": "C40", "title": "Levenshtein distance is the optimal edit cost", "statement": "bfdev_levenshtein returns the value of the weighted optimal-string-alignment recurrence for both strings and reads only initialised memory.", "quantifier": "all pairs of strings, all weights", "why_tests_cant": "The uninitialised cell matters only when it wins the minimum.", "anchors": ["src/levenshtein.c"]}
{"id": "C41", "title": "Argument splitting", "statement": "bfdev_argv_split splits a string into its maximal runs of non-blank characters in order, the reported count equals the number of runs, and the vector is NULL-terminated and within its allocation.", "quantifier": "all strings", "why_tests_cant": "Unbounded strings; first pass and second pass must agree.", "anchors": ["src/argv.c"]}
{"id": "C42", "title": "scnprintf never exceeds the buffer", "statement": "The returned count is the number of characters actually stored without the terminator: at most size-1 for non-zero size and 0 for size 0, whatever the formatted length or a formatting failure.", "quantifier": "all sizes and all results of the underlying formatter", "why_tests_cant": "Return-value conversions between signed and unsigned.", "anchors": ["src/scnprintf.c"]}
{"id": "C43", "title": "Pool allocator blocks are disjoint, aligned, inside the pool and sized", "statement": "Over any history of malloc/free/realloc on a pool, live blocks never overlap each other or the bookkeeping headers, lie inside the pool, and are at least as large as requested.", "quantifier": "all histories, all request sizes below the pool size, all fit policies", "why_tests_cant": "Unbounded histories of splits and merges.", "anchors": ["src/memalloc.c", "include/bfdev/memalloc.h"]}
{"id": "C44", "title": "Pool allocator conserves memory and coalesces", "statement": "After any history, the blocks tile the pool exactly, no two free blocks are adjacent, and once all blocks are freed the pool is a single free block again.", "quantifier": "all histories", "why_tests_cant": "Unbounded histories.", "anchors": ["src/memalloc.c: memalloc_free, memalloc_alloc"]}
{"id": "C45", "title": "Pool allocator handles huge requests", "statement": "A request larger than the pool returns NULL.", "quantifier": "all request sizes up to SIZE_MAX", "why_tests_cant": "Only sizes within a few bytes of 2^64 misbehave.", "anchors": ["src/memalloc.c"]}
{"id": "C46", "title": "Bump allocator", "statement": "bfdev_allocpool_alloc returns aligned, pairwise disjoint blocks inside the pool until everything is freed, for power-of-two alignments.", "quantifier": "all histories of requests", "why_tests_cant": "Unbounded histories; offset arithmetic.", "anchors": ["src/allocpool.c", "include/bfdev/allocpool.h"]}
{"id": "C47", "title": "Dynamic array behaves as a stack", "statement": "push/pop/peek/append/resize/reserve behave as operations on a sequence; elements survive growth; a failed allocation leaves contents unchanged.", "quantifier": "all histories including allocation failures", "why_tests_cant": "Unbounded histories and failure points.", "anchors": ["src/array.c", "include/bfdev/array.h"]}
{"id": "C48", "title": "Allocator front end", "statement": "Size zero yields NULL without calling the back end, realloc(NULL) allocates, resize to zero frees, and each call reaches exactly one back-end operation with the same arguments.", "quantifier": "all sizes, blocks and back ends", "why_tests_cant": "Case analysis over back-end configurations.", "anchors": ["src/allocator.c"]}
{"id": "C49", "title": "Rate limiter admits at most burst events per interval", "statement": "In any window in which the limiter does not restart, at most burst calls succeed, and every interval of successful calls respects the limit; an interval of zero disables limiting.", "quantifier": "all call histories with monotone clock", "why_tests_cant": "Unbounded histories.", "anchors": ["src/ratelimit.c"]}
{"id": "C50", "title": "Token bucket never exceeds capacity and conserves tokens", "statement": "The number of tokens stays within 0..capacity, an acceptance consumes exactly the tokens requested, and accepted tokens over any period never exceed capacity plus rate times elapsed time.", "quantifier": "all call histories", "why_tests_cant": "Unbounded histories; arithmetic truncation.", "anchors": ["src/tokenbucket.c"]}
{"id": "C51", "title": "Bloom filter has no false negatives", "statement": "After pushing an item, peek on the same item answers true until flush, whatever else is pushed; after flush every query answers false.", "quantifier": "all histories and hash functions", "why_tests_cant": "All hash functions and histories.", "anchors": ["src/bloom.c"]}
{"id": "C52", "title": "Hash map is a finite map", "statement": "add/set/update/append/find/delete on the hash map refine a finite map (multimap for append) under every history of growth and shrink; failed allocation changes nothing.", "quantifier": "all histories, all hash functions, all allocation failures", "why_tests_cant": "Rehash interplay over unbounded histories.", "anchors": ["src/hashmap.c", "include/bfdev/hashmap.h"]}
{"id": "C53", "title": "Hash function ranges", "statement": "bfdev_hash32/hash64(value,bits) is below 2^bits for every value and 1<=bits<=width, so table indexing is in bounds.", "quantifier": "all values, all bit counts", "why_tests_cant": "2^64*64.", "anchors": ["include/bfdev/hash.h"]}
{"id": "C54", "title": "Skip list is an ordered set", "statement": "insert/delete/find on the skip list refine an ordered multiset for every random level sequence; each level stays a sublist of the level below.", "quantifier": "all histories and all random level outcomes", "why_tests_cant": "Random levels make histories unbounded.", "anchors": ["src/skiplist.c"]}
{"id": "C55", "title": "Binary heap", "statement": "insert/delete/erase maintain a complete binary tree with the heap order; the root is a minimum; the element multiset is exact.", "quantifier": "all histories", "why_tests_cant": "Pointer swaps between arbitrary positions.", "anchors": ["src/heap.c", "include/bfdev/heap.h"]}
{"id": "C56", "title": "Red-black tree balance and order", "statement": "After any history of insertions and erasures, in-order iteration yields the elements in order, no red node has a red child, all paths have equal black height, and parent pointers agree with child pointers; the cached leftmost is the minimum.", "quantifier": "all histories", "why_tests_cant": "Fix-up cases need specific multi-level shapes.", "anchors": ["src/rbtree.c", "include/bfdev/rbtree.h"]}
{"id": "C57", "title": "Interval tree stabbing queries", "statement": "first/next enumerate exactly the stored intervals overlapping the query in start order.", "quantifier": "all sets of intervals and queries", "why_tests_cant": "Depends on augmentation being exact after every rotation.", "anchors": ["include/bfdev/segtree.h"]}
{"id": "C58", "title": "Intrusive list operations", "statement": "add/add_prev/del/splice/move/swap/replace on circular doubly linked lists act as the corresponding sequence operations and keep forward and backward links consistent.", "quantifier": "all lists, all positions including adjacent and equal nodes", "why_tests_cant": "Aliasing between neighbouring nodes.", "anchors": ["include/bfdev/list.h"]}
{"id": "C59", "title": "Hash-list operations", "statement": "head_add/next_add/prev_add/del/replace on hlists act as the corresponding sequence operations and keep every back pointer exact.", "quantifier": "all lists and positions", "why_tests_cant": "A wrong back pointer shows only after a later delete.", "anchors": ["include/bfdev/hlist.h"]}
{"id": "C60", "title": "Singly linked list operations", "statement": "slist add/del/replace act as the corresponding sequence operations.", "quantifier": "all lists and positions", "why_tests_cant": "Unbounded.", "anchors": ["include/bfdev/slist.h"]}
{"id": "C61", "title": "Index list stays sorted", "statement": "After any history of adds and dels the index list enumerates its nodes in key order, equal keys in insertion order.", "quantifier": "all histories", "why_tests_cant": "Defect needs equal keys, a delete of the first, then an insertion in between.", "anchors": ["src/ilist.c"]}
{"id": "C62", "title": "Lock-free list loses and duplicates nothing", "statement": "With any number of threads concurrently adding batches and destroying (taking all), every node added is taken exactly once or still present, and adders report 'was empty' exactly when it was.", "quantifier": "all interleavings of any number of threads", "why_tests_cant": "Schedules are unbounded.", "anchors": ["src/llist.c", "include/bfdev/llist.h"]}
{"id": "C63", "title": "Reference counting under concurrency", "statement": "Over any interleaving of get and put by any number of threads, exactly one put observes the drop to zero; the conditional increment either adds and reports success or leaves a zero count untouched and reports failure.", "quantifier": "all interleavings", "why_tests_cant": "Schedules are unbounded; contention window.", "anchors": ["include/bfdev/refcount.h", "src/refcount.c"]}
{"id": "C64", "title": "Cache: bounded, consistent, LRU order", "statement": "Over any history of obtain/put/commit/del/reset the cache holds at most its size in elements, each tag at most once, never evicts an element in use, and evicts the least recently used element.", "quantifier": "all histories", "why_tests_cant": "Unbounded histories.", "anchors": ["src/cache/cache.c", "src/cache/lru.c"]}
{"id": "C65", "title": "Cache: LFU evicts a least frequently used element", "statement": "The LFU algorithm's victim is a managed element with minimal use count.", "quantifier": "all histories", "why_tests_cant": "Unbounded histories.", "anchors": ["src/cache/lfu.c"]}
{"id": "C66", "title": "Finite state machine dispatch", "statement": "An event takes the first matching transition (walking up the parent states), runs exit/active/entry actions in order, and leaves the state unchanged when no transition matches; a failed action moves to the error state.", "quantifier": "all state graphs, events and callback results", "why_tests_cant": "All graphs.", "anchors": ["src/fsm.c", "include/bfdev/fsm.h"]}
{"id": "C67", "title": "Notifier chain order", "statement": "Notifiers are called in priority order, equal priorities in registration order; stop and remove bits act as documented; the count bound is respected.", "quantifier": "all registration histories and callback results", "why_tests_cant": "Unbounded histories.", "anchors": ["src/notifier.c"]}
{"id": "C68", "title": "Resource pool releases in reverse order exactly once", "statement": "release_all runs each added resource's release once in reverse order of insertion; find/remove/release act on the first match.", "quantifier": "all histories", "why_tests_cant": "Unbounded histories.", "anchors": ["src/respool.c"]}
{"id": "C69", "title": "Radix array is a sparse map", "statement": "alloc/free/find on the radix array behave as a sparse map from offsets to cells: distinct offsets get disjoint cells, find after alloc returns the same cell, find after free returns nothing.", "quantifier": "all 64-bit offsets and histories", "why_tests_cant": "Aliasing at level boundaries only for specific offsets.", "anchors": ["src/radix.c"]}
{"id": "C70", "title": "B+tree is an ordered map", "statement": "insert/lookup/remove/iteration refine an ordered map.", "quantifier": "all histories and keys", "why_tests_cant": "Splits and merges.", "anchors": ["src/btree.c", "src/btree-utils.c"]}
{"id": "C71", "title": "Error pointers", "statement": "Encoding an error number in a pointer and decoding returns it; a pointer is recognised as an error exactly when it encodes one of the reserved error numbers.", "quantifier": "all pointers and error numbers", "why_tests_cant": "2^64 values.", "anchors": ["include/bfdev/errptr.h"]}
{"id": "C72", "title": "Circular buffer arithmetic", "statement": "count, space and count-to-end computed from head and tail of a power-of-two ring are exact for all counter values.", "quantifier": "all head, tail and sizes", "why_tests_cant": "Unsigned wrap.", "anchors": ["include/bfdev/circle.h"]}
{"id": "C73", "title": "String hash stays within 32 bits", "statement": "The PJW hash of any string is deterministic and its value never exceeds 32 bits.", "quantifier": "all strings", "why_tests_cant": "Overflow needs particular strings.", "anchors": ["src/stringhash.c"]}
{"id": "C74", "title": "String difference", "statement": "bfdev_strdiff/bfdev_memdiff return the position of the first character of a string (byte of a block) that differs from the given character, or NULL exactly when there is none.", "quantifier": "all strings", "why_tests_cant": "Unbounded.", "anchors": ["src/libc/string.c"]}
{"id": "C75", "title": "Dynamic FIFO buffer is as large as its capacity", "statement": "When dynamic allocation succeeds with an allocator that returns objects of the requested size, every later flat operation stays inside the allocated buffer.", "quantifier": "all element sizes, all requested counts, all allocators", "why_tests_cant": "The failure needs requests whose byte size exceeds 2^64.", "anchors": ["src/fifo.c: bfdev_fifo_dynamic_alloc", "include/bfdev/allocator.h: bfdev_malloc_array"]}
{"id": "C76", "title": "Ring buffer record mode", "statement": "After writing records in record mode, the next record read is one of the records written, unchanged.", "quantifier": "all record sequences", "why_tests_cant": "Depends on the relation of the read and write positions.", "anchors": ["src/ringbuf.c: bfdev_ringbuf_in_record, ringbuf_record_poke"]}
{"id": "C77", "title": "Single-bit array operations touch exactly the addressed bit", "statement": "bit_set/clr/flip/change on a word array changes exactly the addressed bit of the array and nothing else, bit_test reads it, and the test_* variants return its previous value.", "quantifier": "all word arrays, all bit numbers within the array", "why_tests_cant": "Unbounded arrays; the frame condition (no other bit changes) is quantified over all other positions.", "anchors": ["include/bfdev/asm-generic/bitops.h:17-123"]}
{"id": "C78", "title": "Matrix cells are stored and fetched where they belong", "statement": "bfdev_matrix_import stores row*col cells; bfdev_matrix_data(row, col) returns the address of exactly that cell, and NULL exactly for positions outside the matrix.", "quantifier": "all matrices of all dimensions, all positions", "why_tests_cant": "Addressing must hold for every dimension, including products that do not fit an unsigned int.", "anchors": ["src/matrix.c: bfdev_matrix_import, bfdev_matrix_data"]}
{"id": "C79", "title": "Pool allocator keeps the contents of blocks", "statement": "Whatever a client stores in a live block is still there until it frees the block or shrinks it, through any calls on this and other blocks, including realloc growing in place and moving.", "quantifier": "all histories of malloc/free/realloc/stores, all policies", "why_tests_cant": "Unbounded histories of splits, merges and moves.", "anchors": ["src/memalloc.c: bfdev_memalloc_realloc"]}
{"id": "C80", "title": "Fit policies find what they promise", "statement": "first_fit returns the first free chunk that is large enough, best_fit a smallest one, worst_fit a largest one, and each returns NULL only if there is none.", "quantifier": "all reachable states, all sizes", "why_tests_cant": "Minimality is quantified over all free chunks of all states.", "anchors": ["src/memalloc.c: bfdev_memalloc_first_fit, bfdev_memalloc_best_fit, bfdev_memalloc_worst_fit"]}
{"id": "C81", "title": "Tree iterators visit every node once, in their order", "statement": "On any binary tree linked by parent and child pointers, the in-order, reverse in-order, pre-order and post-order first/next functions visit exactly the nodes, each once, in the order the name says, and end with NULL.", "quantifier": "all trees of all shapes and sizes", "why_tests_cant": "All shapes, including long one-sided chains.", "anchors": ["include/bfdev/titer.h: BFDEV_GENERIC_TITER_* macros", "src/rbtree.c, src/heap.c: iterator instances"]}
{"id": "C82", "title": "Red-black tree searches", "statement": "bfdev_rb_find returns a node that matches, and NULL only if no node matches; bfdev_rb_find_last in addition returns the link holding the match, or the free link between the smaller and the larger nodes, and whether it is the leftmost place.", "quantifier": "all trees, all search functions monotone along the tree", "why_tests_cant": "Every tree shape and every search key.", "anchors": ["src/rbtree.c: bfdev_rb_find, bfdev_rb_find_last, bfdev_rb_parent"]}
{"id": "C83", "title": "Heap lookup by position", "statement": "bfdev_heap_find(root, index) returns the node at position index, numbering the nodes level by level from 1.", "quantifier": "all heaps, all positions up to the number of nodes", "why_tests_cant": "All sizes: the depth computation must match every level.", "anchors": ["src/heap.c: bfdev_heap_find, heap_find"]}
{"id": "C84", "title": "Heap level-order loop", "statement": "bfdev_heap_for_each visits every node exactly once, level by level from left to right.", "quantifier": "all heaps after any history", "why_tests_cant": "Every number of nodes.", "anchors": ["include/bfdev/heap.h: bfdev_heap_for_each", "src/heap.c: bfdev_heap_first, bfdev_heap_next"]}
{"id": "C85", "title": "Radix array iteration", "statement": "first, last, next and previous on the radix array report the cells in the order of their offsets, with the right offset, and nothing exactly when there is no such cell.", "quantifier": "all reachable arrays, all starting offsets", "why_tests_cant": "All shapes of the tree, including blocks that are kept although empty and steps that cross subtrees.", "anchors": ["src/radix.c: bfdev_radix_root_first, bfdev_radix_root_last, bfdev_radix_root_next, bfdev_radix_root_prev"]}
{"id": "C86", "title": "Charging a radix array range", "statement": "After bfdev_radix_root_charge(offset, size) succeeds, every block that overlaps the range exists.", "quantifier": "all ranges, all reachable arrays", "why_tests_cant": "All alignments of the range against the blocks.", "anchors": ["src/radix.c: bfdev_radix_root_charge"]}
{"id": "C87", "title": "Cells of a typed radix array do not overlap", "statement": "bfdev_radix_offset maps different indices to disjoint byte ranges that do not cross blocks; bfdev_radix_index is its inverse.", "quantifier": "all cell sizes up to a block, all indices", "why_tests_cant": "Arithmetic over all indices and all cell sizes.", "anchors": ["include/bfdev/radix.h: bfdev_radix_offset, bfdev_radix_index"]}
{"id": "C88", "title": "String duplication", "statement": "bfdev_strdup returns a block holding exactly the string and its terminator, NULL for a null string or without memory; bfdev_strndup returns the first len characters at most, with a terminator, and writes only inside its block.", "quantifier": "all strings, all lengths, all allocation outcomes", "why_tests_cant": "Tests use short lengths where the overrun stays inside allocator slack and the terminator happens to be zero.", "anchors": ["src/libc/strdup.c:10-46"]}
{"id": "C89", "title": "Names of error numbers", "statement": "bfdev_errname finds for every error number of errno.h its own name (with the minus sign exactly for numbers that are not positive) and text, NULL for every other number; no two numbers share a name.", "quantifier": "all ints", "why_tests_cant": "2^32 arguments; the binary search relies on the table's order.", "anchors": ["src/errname.c:14-178", "include/bfdev/errno.h"]}
{"id": "C90", "title": "Algorithm registries", "statement": "The registries of text search and cache algorithms are a map from names to algorithms: register refuses incomplete and duplicate entries, unregister removes exactly the given object, creation by name uses the registered one.", "quantifier": "all histories of register, unregister and create", "why_tests_cant": "Order of constructors and re-registration.", "anchors": ["src/textsearch/textsearch.c", "src/cache/cache.c:15-39", "src/cache/cache.c:369-394"]}
{"id": "C91", "title": "Character classes", "statement": "Every bfdev_is* predicate answers for every int whether the character belongs to its class (ISO C in the ASCII half, ISO 8859-1 in the other), and the answer does not depend on whether the compiler knows the argument; tolower/toupper change exactly the letters.", "quantifier": "all ints, both expansions of each macro", "why_tests_cant": "The compile-time and the run-time expansion are different code; a test sees only the one the compiler picked.", "anchors": ["include/bfdev/ctype.h", "src/libc/ctype.c:11-257"]}
{"id": "C92", "title": "Alignment and rounding macros", "statement": "align_low/high/check, round_up/down and DIV_ROUND_UP give the multiple at or below/above the value (resp. the quotient rounded up) for every combination of argument types, whenever the result can be represented.", "quantifier": "all 8x8 combinations of integer types, all values, all powers of two", "why_tests_cant": "Correctness depends on C's integer conversions; the values that break lie above 2^32 or at the top of the type.", "anchors": ["include/bfdev/align.h:22-86", "include/bfdev/math.h:19-48"]}
{"id": "C93", "title": "min, max and clamp", "statement": "bfdev_min/max return the smaller/larger argument and bfdev_clamp a value inside the bounds, the argument itself if it is inside; the _adj forms enforce the bound they document.", "quantifier": "all combinations of types, all values", "why_tests_cant": "The arguments are converted to the type of the first one before comparing.", "anchors": ["include/bfdev/minmax.h:18-71"]}
{"id": "C94", "title": "Masks and bit fields", "statement": "The mask macros have exactly the bits they name; FIELD_GET of FIELD_PREP returns the value exactly if it fits, updating a field leaves disjoint fields alone, FIELD_FIT tells whether it fits and FIELD_MAX the largest value.", "quantifier": "all unsigned types, all field positions and widths, all values", "why_tests_cant": "Shifts by the full width and truncation at the top of the type.", "anchors": ["include/bfdev/bits.h:40-109", "include/bfdev/bitfield.h:19-51"]}
{"id": "C95", "title": "Overflow-checked arithmetic", "statement": "The overflow_check macros report exactly the results that do not fit; overflow_add/sub/mul return the result, or saturate.", "quantifier": "all integer types, all operands", "why_tests_cant": "All 2^128 pairs of operands.", "anchors": ["include/bfdev/overflow.h:23-157"]}
{"id": "C96", "title": "Bitwise operations of multi precision integers", "statement": "bfdev_mpi_and, bfdev_mpi_or and bfdev_mpi_xor give the bitwise combination of the magnitudes, in canonical form, whichever operands are the destination.", "quantifier": "all values, all lengths, all aliasings, any former content of the destination", "why_tests_cant": "All pairs of lengths and all aliasings of destination and operands.", "anchors": ["src/mpi.c: bfdev_mpi_and, bfdev_mpi_or, bfdev_mpi_xor"]}
{"id": "C97", "title": "Shifts of multi precision integers", "statement": "bfdev_mpi_shli multiplies by 2^shift, bfdev_mpi_shri divides by 2^shift truncating towards zero; shifting left and back gives the same number.", "quantifier": "all values, all shift counts, in place or not", "why_tests_cant": "All lengths and shift counts; the boundary cases lie at 2^32 bits.", "anchors": ["src/mpi.c: bfdev_mpi_shli, bfdev_mpi_shri"]}
{"id": "C98", "title": "Single bits of a multi precision integer", "statement": "btesti answers the bit of the magnitude, bseti and bclri change that bit alone, keep the sign and leave the number normalised.", "quantifier": "all values, all bit numbers", "why_tests_cant": "All positions, inside and beyond the number.", "anchors": ["src/mpi.c: bfdev_mpi_btesti, bfdev_mpi_bseti, bfdev_mpi_bclri"]}
{"id": "C99", "title": "Bounded formatting", "statement": "bfdev_vscnprintf stores as much of the text as leaves room for a terminator, terminates it, returns the number of characters stored and touches nothing outside the given size.", "quantifier": "all buffers, sizes and texts", "why_tests_cant": "All relations of text length and size.", "anchors": ["src/scnprintf.c:10-36"]}
{"id": "C100", "title": "Log messages", "statement": "A message is handed on exactly if its level (the last digit tag of the format string, or the log's default) does not exceed the record level; what is handed on is level tag, colour, text and colour reset cut to the buffer, terminated, with its exact length, to the log's own function or to the stream its level selects.", "quantifier": "all logs, format strings, texts and buffer contents", "why_tests_cant": "Truncation at every position and every combination of flags and levels.", "anchors": ["src/log/log.c:22-168", "src/log/color.c", "src/log/level.c", "include/port/log.h:18-32"]}
{"id": "C101", "title": "Byte-order accesses at any address", "statement": "The unaligned set_le/set_be functions write exactly the bytes of the value in the named order at the given address and nothing else; the get functions return the value those bytes denote, so reading back returns what was stored.", "quantifier": "16, 32 and 64 bits, all addresses, all values, processors of both byte orders", "why_tests_cant": "A test runs on one processor; the other header is never compiled there.", "anchors": ["include/bfdev/asm-generic/unaligned.h:15-237", "include/bfdev/byteorder/little-endian.h", "include/bfdev/byteorder/big-endian.h", "include/bfdev/asm-generic/byteorder.h:10"]}
{"id": "C102", "title": "Byte swapping and byte-order conversion of arrays", "statement": "The swab array functions reverse the bytes of exactly the given elements, and doing it twice restores them; the order conversion arrays store each element's bytes in little-endian order and the inverse restores the values, also in place.", "quantifier": "all arrays, offsets, counts, widths and both processors", "why_tests_cant": "All lengths and overlaps of source and destination.", "anchors": ["include/bfdev/swab.h:390-546", "include/bfdev/asm-generic/byteorder.h:14-52"]}
{"id": "C103", "title": "Bit operations on byte streams", "statement": "The _le bit operations act on bit (n mod 8) of byte (n / 8) of memory, the _be operations on the same bit of big-endian 64-bit words, on processors of either byte order, and on no other bit.", "quantifier": "all arrays, all bit numbers, both processors", "why_tests_cant": "A test runs on one processor only; the frame is quantified over all other bits.", "anchors": ["include/bfdev/bitops-endian.h:16-180"]}
{"id": "C104", "title": "Bitmap queries do not depend on what the compiler knows", "statement": "bfdev_bitmap_empty, bitmap_full, bitmap_intersects, bitmap_equal and bitmap_or_equal answer the same question about the first `bits` bits, whether the compiler takes the inline word version, the byte version or the out-of-line version.", "quantifier": "all bitmaps, lengths, and all combinations of what is known at compile time", "why_tests_cant": "Which expansion is taken depends on optimisation and on constants at the call; tests exercise the one they are built with.", "anchors": ["include/bfdev/bitmap.h:39-100", "include/bfdev/bitmap-comp.h"]}
{"id": "C105", "title": "Bitmap operations do not depend on what the compiler knows", "statement": "bfdev_bitmap_and, andnot, or, xor, complement, shl and shr store the same bits, return the same flag and touch no other word in every expansion.", "quantifier": "all bitmaps, lengths, operands equal or disjoint, known or unknown length", "why_tests_cant": "Same as C104: a test sees one expansion per call site.", "anchors": ["include/bfdev/bitmap.h:102-191"]}
{"id": "C106", "title": "Bitmap ranges do not depend on what the compiler knows", "statement": "bfdev_bitmap_set and clr change exactly the bits of the range; bitmap_zero, fill and copy give the first `bits` bits their value and change no other word, in every expansion (single bit, byte range, out of line).", "quantifier": "all bitmaps, starts, lengths, and all combinations of what is known at compile time", "why_tests_cant": "Alignment of start and length and compile-time knowledge multiply; sizes reach 2^32.", "anchors": ["include/bfdev/bitmap.h:193-270"]}
{"id": "C107", "title": "Atomic operations take effect at once", "statement": "Whatever number of threads call bfdev_atomic_*, bfdev_cmpxchg, bfdev_try_cmpxchg, bfdev_xchg and bfdev_bit_atomic_* on shared words, in any interleaving of their memory accesses, the calls report and do what they would if each were executed at one instant between its start and its end.", "quantifier": "all memories, all adaptive clients, any number of threads, all interleavings", "why_tests_cant": "Interleavings cannot be enumerated; the early exits of test_set and test_clr and the retry loop of xchg matter only under contention.", "anchors": ["include/bfdev/asm-generic/atomic.h", "include/bfdev/asm-generic/cmpxchg.h", "include/bfdev/asm-generic/bitops.h: bfdev_arch_bit_atomic_*"]}
{"id": "C108", "title": "A bit as a lock", "statement": "If threads take bit b with bfdev_bit_atomic_test_set (owning it when it reports false) and give it back with bit_atomic_clr or test_clr only while owning it, at most one thread owns it at any time, the bit is set exactly while it is owned, other atomic operations on the neighbouring bits do not disturb it, and a thread that goes for a free lock undisturbed gets it.", "quantifier": "all clients, any number of threads, all interleavings, all bits", "why_tests_cant": "A race shows up in a vanishing share of test runs.", "anchors": ["include/bfdev/asm-generic/bitops.h: bfdev_arch_bit_atomic_test_set, test_clr, clr"]}
{"id": "C109", "title": "No update is lost", "statement": "After any interleaving a counter that is only changed by atomic additions and subtractions holds the initial value plus the sum of all completed changes; numbers drawn with fetch_add(1) are consecutive and never given to two callers; every value given to bfdev_xchg is handed to exactly one later exchange or is still in the word.", "quantifier": "all clients, any number of threads, all interleavings", "why_tests_cant": "Lost updates need a preemption between two instructions.", "anchors": ["include/bfdev/asm-generic/atomic.h:33-122", "include/bfdev/asm-generic/cmpxchg.h:25-38"]}
{"id": "C110", "title": "Debug lists: transparent, and double use refused", "statement": "Compiled with the list debug checks, every list, slist and hlist operation on a well-formed list gives exactly the list the plain build gives; deleting a node twice, adding a node where it already is or next to itself, and adding between links that disagree leave memory untouched. A node added a second time elsewhere is not noticed.", "quantifier": "all lists, positions, nodes and memories", "why_tests_cant": "A debug build that behaves differently on good data, or that lets one kind of double use pass, needs every position and every kind of damage to be tried.", "anchors": ["src/list-debug.c", "src/slist-debug.c", "src/hlist-debug.c", "include/bfdev/list.h:52-125", "include/bfdev/slist.h:56-89", "include/bfdev/hlist.h:79-167"]}
{"id": "C111", "title": "Creating and destroying a cache is exact in memory", "statement": "bfdev_cache_create, whichever of its requests the allocator refuses, accesses only memory it owns and leaves no block behind when it fails; when it succeeds it holds exactly the head, the two arrays and one block per slot and has changed no other block; bfdev_cache_destroy releases each of them once and nothing else.", "quantifier": "all allocators (refusing any subset of requests), both algorithms, all sizes up to 2^63, all memories", "why_tests_cant": "A test would have to fail each of up to size+3 allocations in turn, for every size, under a checker of leaks and double frees.", "anchors": ["src/cache/cache.c:303-367", "src/cache/lru.c:80-137", "src/cache/lfu.c:127-184"]}
{"id": "C112", "title": "One producer and one consumer share a FIFO without a lock", "statement": "If one thread only calls in/put and another only calls out/get/peek/homing (both may ask len, empty, full), then in any interleaving of their memory accesses no access leaves the buffers, the two never touch the same byte of the element buffer at the same time, the bytes that come out are those that went in, in order, none lost, doubled or torn, and calls that move one element or all they were asked for behave as the bounded queue, one after the other. A call that moves part of what it was asked for has settled the amount at its beginning and need not take effect at one instant.", "quantifier": "all adaptive pairs of threads, all interleavings byte by byte, all capacities, element sizes and counter values", "why_tests_cant": "Interleavings cannot be enumerated, and a torn element appears only when a copy is cut at one byte.", "anchors": ["src/fifo.c:12-48", "src/fifo.c:117-151", "include/bfdev/fifo.h:225-379"]}
{"id": "C113", "title": "Callbacks may change the chain they are called from", "statement": "During bfdev_notifier_call callbacks may register and unregister nodes, themselves included. Then every node is called at most once in a round, in ascending priorities and only while it is registered; at most the allowed number of nodes is called; a node that was registered before and that nobody unregisters is called unless the round is stopped; and the chain stays intact. A callback must not unregister the node whose turn is next: that node is then called over and over until the allowed number of calls is used up.", "quantifier": "all chains, callbacks acting on all calls before them, histories of registrations, unregistrations and calls", "why_tests_cant": "What happens depends on which node a callback changes relative to a pointer the loop has saved; tests would have to try all of them at all positions.", "anchors": ["src/notifier.c:25-69", "include/bfdev/notifier.h:64-110"]}
{"id": "C114", "title": "Debug heaps and trees: transparent, and double deletion refused", "statement": "Compiled with the heap and red-black tree checks, every history of insertions, deletions and replacements gives the replies and exactly the memory of the plain build; deleting a node again after it was deleted does nothing (plain, cached and heap variants); linking a node where it already is changes nothing in a heap, nor in a tree if its parent is black or it is the root. Not noticed: a node inserted twice into a heap, and deleting a tree node that was replaced.", "quantifier": "all comparisons, histories, nodes and memories", "why_tests_cant": "Transparency concerns every node address and shape; a repeated deletion may come any number of operations after the first, when the memory around it has changed.", "anchors": ["src/heap-debug.c", "src/rbtree-debug.c", "include/bfdev/heap.h:144-214", "include/bfdev/rbtree.h:616-1010"]}
{"id": "C115", "title": "A FIFO between two threads survives store buffers", "statement": "On a machine whose stores wait in a buffer of the thread before the other sees them, in the order they were made (x86-TSO), one producer and one consumer may still share a FIFO without a lock or a barrier: no access leaves the buffers, bytes waiting to be stored are never ones the consumer is about to read, the consumer receives exactly the producer's stream, in order and each element whole, and once all stores have arrived the FIFO holds what is left of it. What each side knows of the other may be late, so a get may miss a put that has already returned. Where stores to different places may overtake each other the consumer reads bytes that were never sent.", "quantifier": "all adaptive pairs of threads, all interleavings of accesses and of stores reaching memory, all capacities, element sizes and counter values", "why_tests_cant": "The window between a store and its arrival is a few nanoseconds and depends on the machine.", "anchors": ["src/fifo.c:12-48", "src/fifo.c:117-151", "include/bfdev/fifo.h:225-379"]}
{"id": "C116", "title": "Loops that are safe against removal", "statement": "The postorder loops of red-black trees and heaps that are safe against removal run their body exactly once on every node, children before parents, even if the body gives back or overwrites every node it has been given: no node is read after its turn. bfdev_hashmap_for_each_safe with a body that calls bfdev_hashmap_del on nodes of its choice never goes wrong, ends, visits only members, and removes exactly the chosen nodes it visits; with a policy that never shrinks it visits all. A node that is in the structure when the loop starts and is not removed before its turn is visited.", "quantifier": "all trees and heaps reached by any history, all bodies that leave the nodes still to come alone; all hash maps reached by any history, hash functions, policies, allocators and choices of nodes", "why_tests_cant": "Which nodes are skipped depends on rotations and rehashing that only certain shapes and hash values provoke; touching a freed node usually goes unnoticed in a test.", "anchors": ["include/bfdev/rbtree.h:523-608", "include/bfdev/heap.h:355-440", "include/bfdev/hashmap.h:167-177", "include/bfdev/titer.h:181-210", "src/hashmap.c:219-240"]}
{"id": "C117", "title": "Code that is to run once", "statement": "In one thread of control an expansion of BFDEV_DO_ONCE or BFDEV_DO_ONCE_ON calls its function exactly the first time that it is reached with a true condition, whatever the functions do, also if they reach the same expansion again; its value is the condition. With any number of threads a call that begins after the function was taken up never calls it again, each thread calls it at most once, and whoever passes it by with a true condition passes a function that was taken up before; so the function is called once by all threads together. With a bit and bfdev_bit_atomic_test_set exactly one thread is told that the bit was down.", "quantifier": "all programs with nested calls, all adaptive threads, all interleavings", "why_tests_cant": "The window between the test and the assignment is two instructions wide; nesting multiplies the orders of events.", "anchors": ["include/bfdev/once.h:15-36", "include/bfdev/bitflags.h:14-69", "include/bfdev/asm-generic/bitops.h"]}
{"id": "C118", "title": "Data behind a bit lock", "statement": "Words that threads touch with plain loads and stores only while they hold the lock of the word, a bit taken with bfdev_bit_atomic_test_set and given back with bfdev_bit_atomic_clr or test_clr, behave as if every access happened at once, one after the other, also on a machine whose stores wait in buffers and overtake each other: at most one thread holds a lock, every load returns the value stored last, and after the lock was given back the data is in memory. Giving the lock back with a plain store (bfdev_atomic_write) is not enough: data is missed where stores overtake each other, and other bits of the word are lost everywhere.", "quantifier": "all adaptive threads, any number of locks and words, any other atomic operations on the lock words, all interleavings of accesses and of stores reaching memory, in order or not", "why_tests_cant": "A missing barrier shows on few machines and only in a window of some nanoseconds.", "anchors": ["include/bfdev/asm-generic/bitops.h", "include/bfdev/asm-generic/atomic.h:15-122", "include/bfdev/asm-generic/cmpxchg.h:16-54", "include/bfdev/asm-generic/rwonce.h:13-23", "include/bfdev/bitops.h:120-190"]}
{"id": "C119", "title": "The last reference sees everything", "statement": "Threads share an object with a bfdev_refcnt counter. Each writes its own words of the object with plain stores while it has a reference, may take more references while it has one, and gives them back with bfdev_refcnt_dec_test or sub_test. Then at most one thread is ever told that it gave back the last, nobody has a reference then, and that thread sees the last values of all words, those written by other threads included, also on a machine whose stores wait in buffers and overtake each other.", "quantifier": "all adaptive threads, numbers of references below 2^64, all interleavings of accesses and of stores reaching memory, in order or not", "why_tests_cant": "The store of another thread that arrives after the object was freed shows once in millions of runs, and not at all on most machines.", "anchors": ["include/bfdev/refcount.h:62-105", "include/bfdev/asm-generic/atomic.h:33-122"]}
{"id": "C120", "title": "Debug reports of reference counts", "statement": "Compiled with the reference count checks, the counter behaves as in the plain build, and the messages are exactly the misuses, in order: a take from a count of 0 or below, a return to a count of 0 or below, a return of more than there is. A program is silent if and only if it uses the counter well; threads that give back only what they hold are never reported; a count that outgrows its type is reported; a guarded take (addnz, incnz) is reported only if the count is negative or outgrows its type.", "quantifier": "all histories of takes, returns and handing over by any threads, right or wrong, with counts inside intptr_t", "why_tests_cant": "Misuse has to be combined with every later call, and a check that is wrong at one boundary is silent.", "anchors": ["include/bfdev/refcount.h:24-128", "src/refcount.c:13-54"]}
{"id": "C121", "title": "Loops over bits whose body changes the bitmap", "statement": "bfdev_for_each_bit and bfdev_for_each_zero, their reverse, continue and form variants do, whatever their body stores into memory, exactly what a loop does that looks at one index after the other and asks for the bit when its turn comes: bits the body sets ahead are visited, bits it clears ahead are not, and changes behind do not matter. The form variants run the body on the given index first without looking at its bit. The searches for bits common to two maps give the first such bit at or after, and the last at or before, an index.", "quantifier": "all bitmaps up to 2^32-64 bits, all bodies that keep memory the same size, all starting indices (up to the length for the reverse variants)", "why_tests_cant": "The search functions skip whole words at a time; that a word changed between two steps is reread needs every position of change relative to the index.", "anchors": ["include/bfdev/bitwalk.h:203-309", "src/bitwalk.c:73-150"]}
{"id": "C122", "title": "Debug checks of the index list", "statement": "Compiled with BFDEV_DEBUG_ILIST, the walk over a list that the checks make ends on any memory, however damaged, and passes a list exactly if it goes around distinct nodes with all links right in both directions. From fresh nodes on every history of adds and deletes, under any comparison, does exactly what the plain build does and logs nothing. A call on a damaged head changes nothing; a message is logged exactly if one of the two lists is damaged before or after the call; a list that passed every check is in order.", "quantifier": "all memories, all damage of links between valid objects, all histories and comparisons", "why_tests_cant": "A walk over a corrupted list can circle forever in one shape among all; tests of checks try the corruption the author thought of.", "anchors": ["src/ilist.c:14-66", "src/ilist.c:69-143", "include/bfdev/ilist.h:18-122"]}
{"id": "C123", "title": "Augmented red-black trees keep any in-order summary right", "statement": "In an augmented red-black tree whose callbacks come from BFDEV_RB_DECLARE_CALLBACKS, let RBCOMPUTE join the left child's summary, the node's own value and the right child's summary with any associative (not necessarily commutative) operation. After any sequence of insertions by the protocol find place, link, RBCOMPUTE of the new node, propagate from its parent, fixup_augmented, and deletions by bfdev_rb_delete_augmented or its cached form, every node carries the summary of the values under it in order, the root's is that of the whole tree, no other member of any node is changed, and the structure, the leftmost cache and the replies are those of the plain tree. bfdev_rb_insert_augmented should do this as well.", "quantifier": "all trees, all associative summaries, all values, all orders, all histories, plain and cached roots", "why_tests_cant": "The rotations, the successor's copy and the early exit of propagate meet in too many tree shapes to enumerate, and a stale summary shows only in a later query.", "anchors": ["include/bfdev/rbtree.h:697-751", "include/bfdev/rbtree.h:938-1010", "include/bfdev/rbtree.h:1028-1097", "src/rbtree.c:118-226"]}
{"id": "C124", "title": "A lock-free list hands nodes over with everything that was stored in them, on machines with store buffers", "statement": "Threads that touch only words of nodes they hold may fill a node with plain stores, add it (or a batch) with bfdev_llist_add/bfdev_llist_split, and whoever gets it from bfdev_llist_destroy or (single consumer) bfdev_llist_del may use plain loads and stores on it: also on a machine where stores wait in per-thread buffers and overtake each other, every load returns what was last stored, no access is wild, no node is lost or handed to two threads, and the calls act like pushes and pops on one stack.", "quantifier": "for every number of threads, every program of each thread, every assignment of nodes and data words, every schedule of accesses and of stores reaching memory, in order (TSO) or out of order per word", "why_tests_cant": "a unit test runs on one machine with one scheduling; reordering of stores shows only on other machines or once in many runs", "anchors": ["src/llist.c:10-43", "include/bfdev/llist.h:15-56", "include/bfdev/asm-generic/cmpxchg.h:25-54"]}
{"id": "C125", "title": "Locks, last references and destroyed lists need no order of loads; del does", "statement": "Also when the processor satisfies plain loads before earlier accesses of their thread (but not before an earlier __sync builtin): a bit lock taken with bfdev_bit_atomic_test_set and given back with bit_atomic_clr or test_clr stays exclusive and its holder loads the values stored last from the words behind it; the thread told by bfdev_refcnt that it gave back the last reference sees what all others stored; a lock-free list emptied with bfdev_llist_destroy hands every node to exactly one thread with its data. A failed test_set, a test of the lock bit or a load of the counter may be out of date, but not older than the last barrier of the thread. bfdev_llist_del by the only consumer does not have this property: if the load of entry->next is satisfied before the load of head->next it depends on, nodes are cut off the list.", "quantifier": "for all client programs that keep the rules of C118, C119 and C124 (nobody calls del), all numbers of threads, all interleavings, all orders in which buffered stores reach memory, and all choices of loads that are satisfied early", "why_tests_cant": "the reordering depends on the processor and on timing; a test on x86 never shows it", "anchors": ["include/bfdev/asm-generic/bitops.h:60-140", "include/bfdev/asm-generic/atomic.h:15-122", "include/bfdev/refcount.h:62-105", "src/llist.c:10-43", "include/bfdev/llist.h:42-56"]}
{"id": "C126", "title": "A call on the lock-free list or an atomic word is held up only by calls that do finish", "statement": "Take any stretch of any schedule of any number of threads. The memory accesses one thread makes inside bfdev_llist_add/_split, _del and _destroy are at most three per call of its own that returns in the stretch, two per call of another thread that returns, and three more; so while nothing returns anywhere no thread makes more than three accesses (no livelock, no lock that a stopped thread could keep), and a thread left alone finishes its call within four accesses, wherever the others were stopped. For the operations of atomic.h, cmpxchg.h and the atomic bit operations the accesses are at most twice the calls that return anywhere, plus two; a thread that does not use bfdev_xchg makes at most two per own call whatever the others do. The last part does not hold for bfdev_xchg and the list calls: one such call can be kept from finishing for ever by a rival whose calls finish.", "quantifier": "for all clients, numbers of threads, schedules, stretches of a schedule and states in which the others were stopped", "why_tests_cant": "A livelock, or a call that hangs because another thread was stopped at the wrong place, shows only under particular schedules; no finite set of runs bounds the retries of all of them.", "anchors": ["src/llist.c:10-43", "include/bfdev/llist.h:42-56", "include/bfdev/asm-generic/cmpxchg.h:25-54", "include/bfdev/asm-generic/bitops.h:136-180", "include/bfdev/asm-generic/atomic.h:15-122"]}
{"id": "C127", "title": "Sorting and searching survive any comparison function, with few calls", "statement": "The comparison function given to bfdev_sort, bfdev_list_sort or bfdev_bsearch may be any program that leaves the data alone: its answers may depend on all earlier calls, contradict each other or be random. The call still returns, touches nothing outside the array or the nodes of the list, leaves a permutation of the elements (a well-formed circular list for bfdev_list_sort), shows the function only elements of the array or list, and calls it at most 3 n log2 n times (bfdev_sort), n log2 n times (bfdev_list_sort, fewer than 2^32 nodes) or log2 n + 1 times (bfdev_bsearch), logarithms rounded down; bsearch returns a position only when the function has just answered 0 for the element there, and NULL only when it never did.", "quantifier": "for all arrays (element size no multiple of 2^32, fewer than 2^63 bytes) and lists, and all comparison functions, with any dependence on the calls made before", "why_tests_cant": "Inconsistent comparison functions are the classic way to run a sort out of its array; the space of answer sequences is exponential and a test can try only a few.", "anchors": ["src/sort.c:10-70", "src/list-sort.c:9-131", "include/bfdev/bsearch.h:15-38"]}
{"id": "C128", "title": "KMP searches are linear and work on streams", "statement": "A search with the kmp algorithm compares pattern characters at most three times per byte that next_block has handed out, whatever next_block answers; preparing the pattern takes at most three comparisons per pattern byte, and enumerating all matches of a text with find and next takes at most three per byte of the whole text. A search over a stream whose blocks can be read only once asks for every block exactly once, in order, names the number of bytes read so far in every request, stops at the block in which the first match ends, and reports the first match of the whole stream, also when it crosses blocks.", "quantifier": "all patterns, texts, block boundaries, and (for the cost) all adaptive sources of blocks", "why_tests_cant": "Worst cases of the fallback chain need adversarial patterns and texts of any length; block boundaries may cut a match at any place.", "anchors": ["src/textsearch/kmp.c:36-118", "include/bfdev/textsearch.h:120-190"]}
{"id": "C129", "title": "A red-black tree survives any comparison function, with few calls", "statement": "Whatever the client's comparison function answers (not an order, changing its mind, depending on all earlier calls), insertions, deletions, replacements and searches of a plain or cached red-black tree never go wrong: the tree stays a red-black tree with consistent links and holds exactly the nodes inserted and not deleted or replaced since, the loops over it visit each of them once, and the cached first node is the first one. A node is refused or found only after the function said equal. An insertion or search among n nodes calls the function at most 2 log2(n+1) times, deletion and replacement never do.", "quantifier": "all adaptive comparison functions, all adaptive clients, all histories from the empty root, plain and cached trees", "why_tests_cant": "A broken comparison function has unboundedly many behaviours; balance and consistency must hold after every history of every one of them.", "anchors": ["src/rbtree.c:544-639", "include/bfdev/rbtree.h:616-1030"]}
{"id": "C130", "title": "A binary heap survives any comparison function, with few calls", "statement": "Whatever the client's comparison function answers (inconsistently, randomly, depending on all earlier calls), any history of bfdev_heap_insert of nodes not in the heap and bfdev_heap_delete of nodes in it never reads or writes through a null or stray pointer and always ends; the heap stays a complete tree of exactly the nodes inserted and not deleted, count is their number, the level-order loop visits each once and the client's fields are untouched. Inserting into n nodes calls the function at most log2(n+1) times and deleting from n nodes at most 2 log2(n-1) times, and every call gets two different nodes of the heap.", "quantifier": "for all comparison functions (answers depending on all earlier calls), all histories of insertions and deletions, all memories", "why_tests_cant": "A test uses a consistent comparison; no test can try all inconsistent answer sequences or bound the number of calls for every heap.", "anchors": ["src/heap.c:49-95", "src/heap.c:97-216", "include/bfdev/heap.h:144-214"]}
{"id": "C131", "title": "A KMP search context lives inside its block and goes back to its allocator", "statement": "bfdev_textsearch_create with the kmp algorithm asks for 48 bytes plus five per pattern byte and, for a non-empty pattern of fewer than 2^30 bytes, neither create nor any search afterwards reads or writes outside of that block; pattern_get and pattern_len give back the pattern (upper-cased when case is ignored), any number of searches find the leftmost match, and destroy frees exactly this block with the allocator given to create. Both limits are sharp: with every pattern of 2^30 to 2^32 - 1 bytes the 32-bit table size wraps and create writes outside of its block, and with the empty pattern the first search reads behind it.", "quantifier": "for all patterns, flags, addresses, allocator and algorithm pointers, block sources and sequences of linear searches (64-bit target)", "why_tests_cant": "Out-of-bounds accesses of a few bytes go unnoticed by tests, and the wrap needs patterns of a gigabyte.", "anchors": ["src/textsearch/kmp.c:9-125", "src/textsearch/textsearch.c:28-56", "include/bfdev/textsearch.h:62-221"]}
{"id": "C132", "title": "A skip list survives any comparison function", "statement": "Whatever the client's comparison and search functions answer (inconsistently, randomly, depending on all earlier calls), and whatever heights are drawn, no sequence of insertions, searches, deletions, loops and resets on a skip list touches memory that is not its own: the list holds exactly the nodes inserted and not deleted, each once on every level up to its height, every level is a sublist of the one below, and destroy releases every key once. bfdev_skiplist_find returns, and bfdev_skiplist_delete removes, a node only right after the function answered 0 for its key, and nothing only if it never did. An insertion, search or deletion calls the function at most once per node in the list, always with the key of such a node. (Searching after an insertion that failed at a new height stays excluded, see C54.)", "quantifier": "for all functions (answers depending on all earlier calls), all random numbers, all allocators, all adaptive clients, all histories", "why_tests_cant": "A node left linked on an upper level after deletion is a use after free that only shows with particular heights and particular inconsistent answers.", "anchors": ["src/skiplist.c:25-131", "src/skiplist.c:133-192", "include/bfdev/skiplist.h:20-67"]}
{"id": "C133", "title": "A hash map survives any functions of the user's", "statement": "Whatever the user's hash, equality, search, extend and shrink functions answer (inconsistently, randomly, depending on all earlier calls) and whenever memory runs out, no sequence of operations on a hash map, by a client that never inserts a node that is already there, touches memory that is not its own or loses or duplicates a node: a loop over the map visits exactly the nodes inserted and not deleted or replaced, each once, and the count is right. A node is found, deleted or replaced, or an insertion refused as a duplicate, only right after the equality or search function answered 0 for that node, and not found only if it answered something else for every node it was shown; it is shown different nodes of the map only. Resizing asks for the hash of every node of the map exactly once, happens when the extend function says so, and extend and shrink see the right count; an insertion without memory changes nothing. With functions that only look at their arguments this is the behaviour of C52.", "quantifier": "for all functions (answers depending on all earlier calls), all allocators, all adaptive clients, all histories", "why_tests_cant": "A hash that changes between insertion and resizing, or an equality that is not one, is exactly what a broken or hostile key type produces; tests use consistent functions.", "anchors": ["src/hashmap.c:10-268", "include/bfdev/hashmap.h:37-60", "include/bfdev/hashtbl.h:46-141"]}
{"id": "C134", "title": "A Sunday search context stays inside its allocation", "statement": "Creating a Sunday search context, searching linear data with it, asking for its pattern and its length and releasing it touch only the block that was allocated for it (1056 bytes and the pattern), the search reports the first occurrence, and the block goes back to its allocator. Preparing a pattern of at least four bytes never leaves the block. Byte 255 breaks all of this: a shorter pattern that contains it makes preparation write behind the block, in a longer pattern it overwrites the beginning of the pattern, and in the text it reads a shift from the pattern, so that occurrences are missed or the search never ends.", "quantifier": "all patterns, texts, flags, addresses, and case functions, with the exceptions named", "why_tests_cant": "whether a one-entry overrun of a table inside the same block matters depends on the pattern length and on what the text contains; tests with ordinary letters never reach the entry", "anchors": ["src/textsearch/sunday.c:9-126", "src/textsearch/textsearch.c:39-56", "src/textsearch/linear.c:10-40", "include/bfdev/textsearch.h:62-221"]}
{"id": "C135", "title": "A Boyer-Moore search context stays inside its allocation", "statement": "Creating a Boyer-Moore search context for a pattern of 1 to 2^30 - 1 bytes, searching any linear text with it, asking for its pattern and its length and releasing it touch only the block that was allocated for it (1064 bytes and five for each byte of the pattern) and the text; the search ends, what it reports is an occurrence, and the block goes back to its allocator. Without memory the answer is NULL. From 2^30 bytes on preparation writes behind the block, and for an empty pattern it reads behind it.", "quantifier": "all patterns, texts (byte 255 included), flags, addresses, and case functions that map bytes to bytes", "why_tests_cant": "the tables of 255 entries are indexed with bytes up to 255, the loop over the good suffixes counts below zero, and the size wraps around for huge patterns: whether any of this leaves the block depends on every pattern and text", "anchors": ["src/textsearch/bm.c:9-160", "src/textsearch/textsearch.c:39-56", "src/textsearch/linear.c:10-40", "include/bfdev/textsearch.h:62-221"]}
{"id": "C136", "title": "Boyer-Moore reports the first occurrence of any bytes", "statement": "A Boyer-Moore search over linear data reports the first occurrence of the pattern in the text, or UINT_MAX if there is none, with or without case, whatever bytes (255 included) pattern and text contain.", "quantifier": "all patterns, texts, flags and addresses; proved for patterns whose last byte stands nowhere else in them, false for others", "why_tests_cant": "the bad character table has 255 entries and byte 255 reads the first entry of the other table; that this entry is always 1, and therefore a safe shift, depends on every step of the table computation", "anchors": ["src/textsearch/bm.c:40-151"]}
{"id": "C137", "title": "Swapping an object in place rearranges exactly its own bytes, the same way on every processor", "statement": "bfdev_swab16s/32s/64s, bfdev_swahb32s, bfdev_swahw32s, bfdev_swahb64s, bfdev_swahw64s and bfdev_swahl64s rearrange the bytes of the object in memory as their names say (all bytes, bytes within half-words, half-words within words, words within the long), whatever the byte order of the processor, and touch no other byte; doing it twice restores the memory; byte, half-word and word swaps one after the other are the full byte swap; the pointer forms return what the in-place forms store; the array forms treat each object in its own place. This holds also if the architecture supplies its own in-place functions.", "quantifier": "for all memories, addresses, operations, array lengths and both byte orders", "why_tests_cant": "A test runs on one processor with a few values; it cannot show that the memory effect does not depend on the byte order or that no neighbouring byte is touched for any address, and an architecture hook that no build defines is never compiled.", "anchors": ["include/bfdev/swab.h:264-384", "include/bfdev/swab.h:386-510", "include/bfdev/swab.h:512-548"]}
{"id": "C138", "title": "Bitmaps from an allocator are independent and live exactly until they are freed", "statement": "bfdev_bitmap_alloc and bfdev_bitmap_zalloc return memory that holds all the bits asked for (all clear for zalloc) or NULL; setting, clearing and flipping a bit inside a bitmap changes this bit and no other bit of any bitmap nor memory of others, and testing tells the current value; bfdev_bitmap_free releases exactly this bitmap; no call accesses memory outside the bitmaps. If the allocator never fails, only a request for no bits returns NULL.", "quantifier": "for all histories of calls on any number of bitmaps, all allocators that hand out unused memory and all contents of fresh memory", "why_tests_cant": "Histories, allocators and sizes are unbounded, and the sizes at which the computation wraps need gigabytes of memory to be tested.", "anchors": ["src/bitmap.c:343-363", "src/allocator.c:40-74", "include/bfdev/allocator.h:95-112", "include/bfdev/asm-generic/bitops.h:17-68"]}
{"id": "C139", "title": "Multi precision integers are variables: import, assignment, export and comparison", "statement": "Objects set with bfdev_mpi_seti, bfdev_mpi_set (also to itself) and bfdev_mpi_import hold exactly that integer, whatever they held before and however many leading zero words are imported; bfdev_mpi_data returns its words without leading zeros (one zero word for 0) and its sign; bfdev_mpi_cmp orders the objects as the integers; a call that runs out of memory returns -ENOMEM and changes nothing.", "quantifier": "for all histories of such calls on any number of objects, all word sequences and signs, and all patterns of failing allocations", "why_tests_cant": "Histories, lengths and failure patterns are unbounded; stale words of earlier values show up only for particular sequences of lengths.", "anchors": ["src/mpi.c:422-439", "src/mpi.c:462-513", "src/mpi.c:1126-1142", "src/mpi.c:1689-1746"]}
