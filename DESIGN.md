# Formal model of bfdev in Rocq (Coq 8.16.1)

Source: `/repo` (openbfdev/bfdev, pinned commit), read as text. Everything below lives in
`/verif/rocq/theories` (logical name `Verif`).

## Conventions

* Machine words are `Z` values with explicit wrap-around (`w64 x = x mod 2^64`, etc., `Word.v`).
  Pointers to bytes are `list Z` plus an index; every out-of-bounds access or other undefined
  behaviour is a distinct outcome (`None` / an error constructor), never silently defaulted
  unless the comment of the definition says so.
* Target assumed: 64-bit little-endian (`BFDEV_BITS_PER_LONG == 64`), two's complement (C101–C103 take the byte order as a parameter).
* Loops are structural recursions or fuelled recursions; fuel exhaustion is a distinct outcome and
  is proved unreachable (or reachable: some loops of the code do diverge).
* `XModel.v` holds the functions of the code (each definition cites file and lines),
  `XSpec.v` (or the head of `XProps.v`) an independent specification,
  `XProofs.v` the lemmas, `XProps.v` the property theorems, each with a concrete `Example`
  meeting its hypotheses and a `Print Assumptions`.
* A property that is false of the code is kept as stated in `properties.jsonl`; the development then contains
  a `…_refuted` theorem with a concrete witness and the strongest restricted theorem that does
  hold, named `…_partial`.

## Trusted base

* Coq's kernel (including `vm_compute`), no plugins.
* `Print Assumptions` of each property theorem is printed at build time; the list is given in the
  section "Axioms" below.
* The hand transcription of the C code into Gallina (no extraction from C, no compilation or run
  of the C code was possible in the sandbox).

## Axioms

`Print Assumptions` of every theorem named in `MANIFEST.json` answers "Closed under the global context": no axiom of
any library is used. (Some files import ssreflect from Coq's own distribution, so a scan of everything that is loaded
finds the interface axioms of `Coq.ssr.ssrunder`; no theorem depends on them.)

## Trusted interfaces

What the code calls and we did not model is a parameter of the model, quantified over in the theorems:
allocators (any function of the history that answers NULL or fresh memory), user callbacks (comparison, hash, find, clash,
remove, event handlers), random draws (any sequence), the clock (any values allowed by the statement), block sources
of the text search, the formatted text of `vsnprintf`, schedules of threads (any interleaving of single memory
accesses, sequentially consistent). Each `XSpec.v` states what is required of them.

## Plan per property

| id | what is modelled | how it is proved |
|----|------------------|------------------|
| C01, C02 | base64 encode/decode as functions on byte lists with the literal tables | induction in steps of 3 bytes / 4 characters; table facts by computation over 256 values |
| C03 | base32 encode/decode, literal tables | induction in steps of 5 bytes |
| C04 | ascii85 encode/decode | false (`z` handling): `_refuted` by computation; round trip proved for buffers with no all-zero group |
| C05 | both tables and macros | exhaustive computation over the finite domain (the domain is the full quantifier) |
| C06, C07 | arc4 setkey/trans | permutation invariant by induction; involution by keystream argument |
| C08 | flat fifo functions with 64-bit wrapping counters and an array buffer | refinement to a bounded queue by induction over operation sequences |
| C09 | record functions | `_refuted` |
| C10 | flat ring buffer | refinement to "last n" queue |
| C11 | pow2 roundup and dynamic_alloc | arithmetic |
| C12–C17 | portable bit functions | bit-level lemmas, exhaustive tables, linear maps over Z.testbit |
| C18–C21 | bitmaps as `list Z` words | pointwise `testbit` specification, induction over words |
| C22, C23 | double-word helpers | algebra, Knuth D two-digit correction; udivd `_refuted` |
| C24–C28 | limb lists | value function `sum limb_i 2^(64 i)`, induction; refutations of carry loss |
| C29 | matrices as lists with dimensions | pointwise spec |
| C30, C31 | crc tables generated by the generator model, literal parameters | linearity of CRC over xor, induction |
| C32 | md5/sha1/sha2 update/finalise | streaming = one-shot padding by induction; compression functions against standard |
| C33 | jhash mix/final | explicit inverse |
| C34 | prandom | GF(2)-linear invertibility on the live bits |
| C35–C37 | heapsort, bsearch, list merge sort | loop invariants, permutation and sortedness, stability |
| C38, C39 | textsearch | KMP failure-function invariant; refutations for bm and sunday |
| C40 | levenshtein rows | refinement to recursive definition; refutation for the uninitialised cell |
| C41, C42 | argv, scnprintf | induction / case analysis |
| C43–C46 | memalloc, allocpool | tiling invariant over operation histories |
| C47, C48 | array, allocator front end | refinement to sequences |
| C49, C50 | limiters | invariants over call histories |
| C51 | bloom | monotone bit set; flush refuted |
| C52, C53 | hashmap, hash | refinement to finite map |
| C54–C57 | skiplist, heap, rbtree, segtree | inductive shapes + refinement |
| C58–C61 | lists at pointer level (heap as finite map) | representation predicates |
| C62, C63 | llist, refcount | interleaving step semantics, global invariants |
| C64, C65 | cache, lru, lfu | refinement over histories |
| C66–C68 | fsm, notifier, respool | operational model |
| C69, C70 | radix, btree | refinement with guards; refutations |
| C71–C74 | errptr, circle, stringhash, string | arithmetic / induction |
| C75–C87 | later additions: single-bit operations, matrix cells, pool contents, fit policies, tree iterators, radix iteration | as the rows of their modules |
| C88 | strdup, strndup over a byte memory | frame condition; refutation of the overrun |
| C89 | errname table and binary search | table is ordered, search invariant |
| C90 | registries of algorithms | invariant over histories |
| C91 | ctype predicates, both expansions, and the table | complete case analysis over the 256 codes after reduction modulo 256 |
| C92–C95 | arithmetic macros over a small semantics of C's integer types and conversions (CArith.v) | congruence modulo the width, bit-wise reasoning; refutations |
| C96–C98 | MPI and/or/xor, shifts and single bits over one memory with the bitmap model | bit-wise equality with Z.land/lor/lxor, mul/quot by powers of two; refutations at the 32-bit limits |
| C99–C100 | scnprintf and logging over one buffer; vsnprintf's text is a parameter | exact buffer content by decomposition of the buffer; induction over the level tags; refutations |
| C101–C103 | byte order of the processor and included header as parameters; memory as bytes | bit-level characterisation of swab lifted to byte lists; induction over writes; refutations for the generic header |
| C104–C106 | public bitmap functions with compile-time knowledge as Boolean parameters; memset/memcpy/memcmp over bytes of words | byte loops by induction, then reduction to C18–C21; exact characterisation of the wrong expansions |
| C107–C109 | one atomic access per step, threads as functions of their own past calls, any schedule | every completing access is shown to be the whole call (linearisation point); lock, counter, tickets and exchange follow from the resulting sequential history |
| C110 | check functions of the debug builds in front of the plain list models | the neighbours of any ring member agree, so the checks pass; poison and link comparisons decide the refusals; a concrete ring for the unnoticed case |
| C111 | live blocks and 8-byte cells; allocator as an arbitrary oracle | ownership as a permutation of the live blocks, carried through the allocation, clean-up and linking loops by induction |
| C112 | the flat FIFO cut into single accesses of two threads, bytes of a copy in any order | invariant: what each thread has in hand lies in its own part of the ring; the other's steps leave it; refutation of atomicity for partial transfers |
| C113 | bfdev_notifier_call over the list memory with callbacks that run registrations and unregistrations between its steps | rounds as a relation over abstract chains; the nodes called so far are never at or behind the saved successor; refuted where the successor is unregistered |
| C114 | the checked variants of insertion and deletion over the same memory as C56/C57 | the checks pass on every node of a tree (its links are nodes, not poison); nodes outside the tree are framed, so the poison of a deleted node survives until it is used again; induction over histories; refuted for replaced nodes and for heap insertion |
| C115 | the threads of C112 with a store buffer each; stores move to memory at any time, in order or (weak) overtaking each other | invariant over unbounded positions: memory out ≤ own out ≤ memory in ≤ own in ≤ memory out + capacity, waiting bytes only in the free part; the histories of both threads are related to one stream; refuted for overtaking stores |
| C116 | the safe loops of trees and hash maps over the memories of C55, C56, C52, with the body as a parameter | the rest of a postorder walk reads only nodes still to come; for maps, induction along a chain that deletions may move to another table, with a quadratic bound; refutations by runs |
| C117 | once.h as a function on flags with nested calls; a thread model with test and assignment as separate steps; the atomic bit operations of C107 | induction over nested programs; invariant over interleavings; the linearisation of C107; refutation by a schedule |
| C118 | the calls of C107 on a machine with a store buffer per thread (in order, or any order that keeps stores to one word in order); the __sync builtins wait for an empty buffer | invariant: the owner's view, or memory when there is none, equals the values after the calls one by one; ownership by lock derived from politeness; refutations by schedules |
| C119 | the same machine; references as sums over the log | ownership by references: the count is the sum, so the last one owns everything |
| C120 | the checks as a function of what a call saw, over the steps of C63; signed sums that overflow are undefined | induction over histories against an unbounded count; refutations for overflow and for guarded takes |
| C121 | the loop macros with the body as a function on memory, over the searches of C21 | refinement to a loop over all indices, by induction on the indices left |
| C122 | the checks as walks that fault, spin or return, around the plain calls | a path with both links right cannot enter itself, counting; links answer each other as invariant of all histories; witnesses by computation |
| C123 | RBCOMPUTE over any join, the rotate/copy/propagate callbacks and the insertion protocol over pointer memory | the callbacks meet the contract of RbSpec.v for every associative join; link, compute, propagate, fixup; histories by induction; witnesses by computation |
| C124 | src/llist.c and llist.h as sequences of accesses on the store-buffer machine of FenceModel: node links and data are plain words (LlistFenceModel) | ownership of a node passes at the compare-and-swap of the add and at the exchange or del of the taker; invariant over all logs of a sequential machine, lifted by the ownership theorem behind C118; refinement to the stack specification of C62 |
| C125 | the machine of C118 with loads satisfied early: values fetched ahead that a later plain load may take, dropped at builtins and own stores (LoadModel); clients of C118, C119, C124 | specification lex: calls one after the other except stale plain loads of words used to synchronise; ownership begins and ends at barriers; each step reduced to go_inv and drain_inv of FenceProofs; refutation for del |
| C126 | LlistModel, AtomicModel (both existing) | Potential function of one thread: accesses since the call began or last failed, plus two if the value it believes in is no longer there; every failed exchange is paid for by a call of another thread that returned. Starvation by a symbolic round that can be repeated any number of times |
| C127 | SortCallsModel, ListCallsModel (the comparison function is a function of all earlier calls; the calls are recorded) | Heap sort: depth of a descendant; merge sort: sizes of the waiting chains from the binary digits of the count, potential k 2^k - 2^k + 1 per chain; erasure to the models of C35, C36 and C37 |
| C128 | KmpCostModel (the KMP loops with a counter of comparisons and a history of block requests) | Potential = length of the current partial match; a stream is simulated by the positional source of C38 |
| C129 | RbCallsModel (the comparison function of the tree searches is a function of all earlier calls; the calls are recorded) | The descent ends at some gap of the tree whatever the answers; insertion at any gap, deletion and replacement from C56; height from the black height |
| C130 | HeapCallsModel: the heap functions with a comparison whose answer depends on all recorded calls | fixup/sink/erase keep positions and nodes whatever the answers; depth of a complete tree bounds the calls; erasure to HeapModel |
| C131 | KmpMemModel: kmp.c and the textsearch wrappers over byte memory with the struct layout | fields and table of the block refine the lists of TextModel; every access is in the block; large patterns fault by an invariant over the table loop |
| C132 | SkipCallsModel: skip list with recorded calls and answers depending on all of them | the interval between the two neighbours found so far holds no node of a higher level; a node that is found is found at its height; erasure to SkiplistModel |
| C133 | HashCallsModel: hash map with recorded calls of the user's functions and answers depending on all of them | the table invariant of C52 without the placement of nodes: each node is in exactly one bucket, whichever; erasure to HashmapModel |
| C134 | sunday.c's context as one block of bytes (SundayMemModel): prepare, both loops of compute_prefix, find, create, destroy; every access checked against the block | the byte-level functions follow the list-level ones of C39 for patterns without byte 255; for longer patterns the table overrun lands in the pattern; for shorter ones it is a fault, by induction over the pattern; witnesses for missed matches and a search that never ends |
| C135 | bm.c's context as one block of bytes (BmMemModel): prepare, all loops of compute_prefix, subpattern, find, create, destroy; every access checked against the block | invariant of block, fields and tables over all loops, the good suffix entries are at least 1 so that the scan advances; the scan follows the list-level one of C39 with a table of 256 entries, which gives soundness; the loop that leaves the block for huge patterns by induction |
| C136 | as C135 | values of bad_shift through the loops of compute_prefix, entry 255 being good_shift[0] = 1; the scan never jumps over an occurrence; refuted for patterns that repeat their last byte |
| C137 | `swap_p`, `swap_s`, `swap_run` of SwabMemModel.v: the pointer, in-place and array forms of swab.h on a byte memory, for both byte orders, with the `bfdev_arch_swahw64s` hook as a parameter | byte origins of each operation from the bit permutations of C15; they commute with reversing the object, so both byte orders agree; the hook of `bfdev_swahl64s` refuted |
| C138 | `bm_alloc`, `bm_zalloc`, `bm_free` and the single-bit operations of BitmapHeapModel.v over the live blocks of CreateModel.v, with any allocator and any contents of fresh memory | invariant over histories: exactly the client's blocks are live and every bit has its value; ends at the first call the client was not allowed to make; the wrapping size refuted |
| C139 | `mpi_copy`, `do_seti`, `do_set`, `do_import`, `do_data` of MpiStoreModel.v on any number of objects, each resize may fail | refinement of histories to variables that hold integers; the copy is independent of old contents and fresh memory; negative zero refuted |

## What is not modelled

* Log output and `printf` formatting (the text produced by the C library is a parameter), the `port/`
  headers, architecture-specific assembly, C11 weak memory orders (store buffers only in C115, C118, C119, C124, early loads only in C125), the preprocessor, struct layout except where a
  property depends on it (sizes 40/32 in the pool allocator, the words of radix and B+tree nodes).
* 32-bit targets; big-endian targets outside C101–C103.
* Reentrant callbacks (a callback that calls back into the same object), except where a theorem says otherwise.
* The list of functions without a counterpart is at the end of this file.

## Outcome per property

Generated from `MANIFEST.json`. Every theorem below is closed under the global context.

| id | property | status | theorems (file) | remarks |
|----|----|----|----|----|
| C01 | base64 decode inverts encode | proved | `base64_encode_rfc`, `base64_roundtrip` (BaseProps) |  |
| C02 | base64 decode rejects exactly the texts holding a foreign character before the first '=' | proved | `base64_decode_total`, `base64_decode_rejects_iff` (BaseProps) |  |
| C03 | base32 decode inverts encode | proved | `base32_encode_rfc`, `base32_roundtrip`, `base32_decode_total` (BaseProps) |  |
| C04 | ascii85 round trip | partial | `ascii85_roundtrip_partial`, `ascii85_roundtrip_refuted`, `ascii85_decode_memory_safe`, `ascii85_decode_alphabet` (Ascii85Props) | False of the code for buffers containing an aligned all-zero group (refuted with witnesses); proved for all others. |
| C05 | BCD conversions are mutually inverse on their domain and flag everything else | proved | `bin2bcd_correct`, `bcd2bin_correct`, `bcd_roundtrip`, `bcd_tables_flag_invalid` (BcdProps) |  |
| C06 | ARC4 decryption inverts encryption and chunking is invisible | proved | `arc4_is_rc4`, `arc4_decrypt_inverts` (Arc4Props) |  |
| C07 | ARC4 state is always a permutation | proved | `arc4_state_permutation`, `arc4_never_out_of_bounds` (Arc4Props) |  |
| C08 | FIFO behaves as a bounded queue | proved | `C08_fifo_is_bounded_queue`, `C08_fresh`, `C08_fifo_order` (FifoProps) |  |
| C09 | FIFO record mode round trip | partial | `C09_record_roundtrip_partial`, `C09_record_roundtrip_refuted`, `C09_second_record_refuted` (FifoProps) | False of the code: header stored at the read position and in the opposite byte order. Proved for one-byte headers, one-byte elements, empty FIFO. |
| C10 | Ring buffer keeps exactly the newest elements | proved | `C10_ringbuf_keeps_newest`, `C10_in_suffix` (FifoProps) |  |
| C100 | Log messages | partial | `C100_level`, `C100_log`, `C100_endptr_refuted`, `C100_reset_refuted`, `C100_error_refuted`, `C100_default_refuted` (LogProps) | Exact text, length, terminator, filter and destination for every call whose text can be formatted. Refuted: bfdev_log_level leaves a null-initialised end pointer alone (tests *endptr); a message filling the buffer loses the colour reset; a formatting error writes out uninitialised memory; a default level above 8 is read beyond the tables. |
| C101 | Byte-order accesses at any address | partial | `C101_store`, `C101_load`, `C101_load_defined`, `C101_roundtrip`, `C101_native`, `C101_generic_refuted` (ByteorderProps) | Full for builds whose header matches the processor. asm-generic/byteorder.h always includes little-endian.h, so a build without an architecture header writes the wrong order on a big-endian processor: refuted. |
| C102 | Byte swapping and byte-order conversion of arrays | partial | `C102_swab_array`, `C102_order_array`, `C102_overlap_refuted` (ByteorderProps) | Swapping in full; conversion when the destination does not start inside the source (in place included), refuted otherwise. The cpu_to_be array macros of byteorder.h name functions that do not exist. |
| C103 | Bit operations on byte streams | partial | `C103_le`, `C103_be`, `C103_generic_refuted` (ByteorderProps) | All non-atomic operations, for builds whose header matches the processor; refuted for the generic header on a big-endian processor. |
| C104 | Bitmap queries do not depend on what the compiler knows | partial | `C104_empty`, `C104_full`, `C104_intersects`, `C104_equal_exact`, `C104_equal_partial`, `C104_or_equal_exact`, `C104_equal_refuted` (BitmapApiProps) | empty, full and intersects in full. equal and or_equal give the opposite answer whenever the compiler knows the length to be at most 64, and equal also whenever it knows it to be a multiple of 8 (memcmp result used as a truth value): exact characterisation and refutation. |
| C105 | Bitmap operations do not depend on what the compiler knows | partial | `C105_and`, `C105_andnot`, `C105_or`, `C105_xor`, `C105_complement`, `C105_shl`, `C105_shr_partial` (BitmapApiProps) | All expansions. Out-of-line shr only for lengths that are a multiple of 64 (C19_shr_refuted); inline shifts by 64 or more are undefined in C and excluded. |
| C106 | Bitmap ranges do not depend on what the compiler knows | partial | `C106_zero_fill`, `C106_copy`, `C106_set_clr_partial`, `C106_set_refuted`, `C106_wrap_refuted` (BitmapApiProps) | zero, fill, copy for lengths up to 2^32-64; a length within 7 of 2^32 rounds to zero bytes and nothing happens (refuted). set and clr in full where the range is known to be one bit or byte aligned; out of line only for ranges ending on a word boundary, the same call runs out of bounds otherwise (refuted). |
| C107 | Atomic operations take effect at once | proved | `C107_linearizable` (AtomicProps) | Sequentially consistent memory; the __sync builtins are taken to be atomic. |
| C108 | A bit as a lock | proved | `C108_mutual_exclusion`, `C108_progress` (AtomicProps) | Same memory model as C107. |
| C109 | No update is lost | proved | `C109_counter`, `C109_tickets`, `C109_exchange` (AtomicProps) | Same memory model as C107; tickets are distinct for fewer than 2^64 draws. |
| C11 | Dynamic FIFO allocation gives at least the requested capacity, as a power of two | proved | `C11_dynamic_alloc` (FifoProps) |  |
| C110 | Debug lists: transparent, and double use refused | proved | `C110_list_add`, `C110_list_del`, `C110_list_move`, `C110_list_swap`, `C110_list_del_poisoned`, `C110_list_double_add`, `C110_list_damaged`, `C110_elsewhere_refuted`, `C110_slist_add`, `C110_slist_del`, `C110_slist_plain_faults`, `C110_hlist_head_add`, `C110_hlist_insert`, `C110_hlist_double_add`, `C110_hlist_del` (ListDebugProps) | Assumes that no list object lies at a poison address. hlist next_add and prev_add are shown equal to the plain functions, whose defects are those of C59. The logged message is not modelled. |
| C111 | Creating and destroying a cache is exact in memory | proved | `C111_create`, `C111_destroy`, `C111_huge_refuted` (CreateProps) | Blocks are pairwise apart in an unbounded address space; allocator adversarial. Sizes above 2^63 are undefined in bfdev_pow2_roundup (refuted). |
| C112 | One producer and one consumer share a FIFO without a lock | proved | `C112_spsc`, `C112_no_race`, `C112_real_time`, `C112_stream`, `C112_sequential`, `C112_linearizable_refuted`, `C112_merges` (SpscProps) | Sequentially consistent memory and program order are assumed: the code has no barriers. Flat FIFOs only. That partial transfers are atomic as well is refuted. |
| C113 | Callbacks may change the chain they are called from | partial | `C113_history`, `C113_round`, `C113_refuted` (ReentProps) | Proved for all histories in which no callback unregisters the node whose turn is next (unless the round ends with that call); for that case the unlimited statement is refuted for every number of calls. Callbacks do not call the chain again from inside. |
| C114 | Debug heaps and trees: transparent, and double deletion refused | proved | `C114_heap_history`, `C114_heap_double_link`, `C114_heap_insert_refuted`, `C114_heap_plain_refuted` (HeapDebugProps); `C114_rb_history`, `C114_rb_double_link`, `C114_rb_replaced_refuted` (RbDebugProps) | Assumes that no node lies at a poison address. A refused link of a tree node with a red parent is not covered: the fixup that follows it may rotate. The logged message is not modelled. |
| C115 | A FIFO between two threads survives store buffers | proved | `C115_stream`, `C115_no_race`, `C115_bytes`, `C115_weak_refuted`, `C115_late_refuted` (TsoProps) | Loads are in program order; compiler reorderings are not modelled (the counters are not volatile). The last two theorems show what the property says does not hold. |
| C116 | Loops that are safe against removal | partial | `C116_destroy`, `C116_rb_destroy`, `C116_heap_destroy`, `C116_free`, `C116_hashmap_still`, `C116_hashmap_any`, `C116_rb_delete_refuted`, `C116_heap_delete_refuted`, `C116_hashmap_shrink_refuted` (SafeIterProps) | All proved except the last sentence, which is false: a body that calls bfdev_rb_delete or bfdev_heap_delete on the node rebalances the tree under the iterator and nodes are never visited (four keys suffice), and bfdev_hashmap_del under the stock policy rehashes and reverses the chains during the loop, so deleting every node leaves one behind (all three refuted). Keys of the hash map are distinct in the positive theorems, since deletion is by key. |
| C117 | Code that is to run once | partial | `C117_sequential`, `C117_threads`, `C117_once_per_thread`, `C117_threads_refuted`, `C117_flag` (OnceProps) | All proved except "once by all threads together", which is false: two threads can both find the flag down (C117_threads_refuted). The positive theorem bounds it: all calls of one function overlap. |
| C118 | Data behind a bit lock | proved | `C118_ownership`, `C118_locks`, `C118_plain_unlock_refuted`, `C118_plain_unlock_bits_refuted` (FenceProps) | Loads happen in program order and the __sync builtins are full barriers, also in the buffers of C118's machine; compiler reorderings are not modelled. The last two theorems show the last sentence. |
| C119 | The last reference sees everything | proved | `C119_last_sees`, `C119_plain_drop_refuted` (FenceRefProps) | Same machine as C118. Every word but the counter has one thread that may touch it while it has references (data that several threads read at the same time is not covered); the last one may touch all. C119_plain_drop_refuted: giving a reference back with a plain load and store makes the last one miss data. |
| C12 | Find-first/last set bit on words | proved | `C12_find_first_last`, `C12_find_zero` (BitsProps) |  |
| C120 | Debug reports of reference counts | partial | `C120_exact`, `C120_silent`, `C120_no_false_alarm`, `C120_addnz_alone`, `C120_overflow_never`, `C120_overflow_refuted`, `C120_addnz_zero_refuted` (RefDbgProps) | All proved except the last two parts, which are false: the overflow check of a take comes after a signed sum that is undefined when it overflows, so no take of a positive number is ever reported as overflow (C120_overflow_never, C120_overflow_refuted); and a guarded take on a count of 0, which rightly does nothing, is always reported as overflow (C120_addnz_zero_refuted). Guarded takes interleaved with other calls are covered by C63 only. |
| C121 | Loops over bits whose body changes the bitmap | proved | `C121_loops`, `C121_still`, `C121_common`, `C121_common_small` (BitLoopProps) | Loops with the out-of-line searches (lengths not known at compile time to be at most 64; for those see C21). The body does not assign the index. |
| C122 | Debug checks of the index list | partial | `C122_walk`, `C122_walk_answers`, `C122_add`, `C122_del`, `C122_history`, `C122_refuse_refuted`, `C122_blind_refuted` (IlistDbgProps) | All proved except two parts that are false: ilist_head_check drops the result of the walk over the index list, so a call on a head with a damaged index list is logged and carried out (C122_refuse_refuted; a damaged node list is refused, C122_add, C122_del); and the checks look at links only, so the unsorted lists of C61_refuted pass them all (C122_blind_refuted). Links to memory that is not there make the check itself fault and are outside C122_add and C122_del. |
| C123 | Augmented red-black trees keep any in-order summary right | partial | `C123_history`, `C123_insert`, `C123_delete`, `C123_insert_augmented_refuted`, `C123_propagate_refuted`, `C123_height_refuted` (AugProps) | Proved for every associative join, every value, order and history, plain and cached: C123_history gives all node summaries and the root's, C123_insert and C123_delete the single calls with the frame. Refuted: bfdev_rb_insert_augmented itself never propagates, so summaries above the new node stay stale even if the new node brings its own right one; propagating from the new node instead of its parent stops early when the uninitialised member happens to be right; a summary that depends on the shape (height) is lost by the rotations, so associativity is needed. |
| C124 | A lock-free list hands nodes over with everything that was stored in them, on machines with store buffers | proved | `C124_list`, `C124_data_seen` (LlistFenceProps) | llist.c as the accesses it makes, on the store-buffer machine of FenceModel (TSO and out of order per word; the __sync builtins are full barriers, loads happen in program order). Same side condition as C62: nobody calls del, or one thread does all the taking. |
| C125 | Locks, last references and destroyed lists need no order of loads; del does | partial | `C125_ownership`, `C125_locks`, `C125_data_exact` (LoadLockProps); `C125_last_sees` (LoadRefProps); `C125_list`, `C125_del_refuted` (LoadListProps) | The machine of C118 with loads that the processor may perform before earlier accesses of the same thread, but not before an earlier __sync builtin or an earlier own store to the same word. Locks, last references and lists emptied with destroy are proved; plain loads of the lock word, the counter or the list head may report an old value, which lex bounds to the time since the last barrier of the thread. Refuted for bfdev_llist_del if the processor does not keep dependent loads in order (C125_del_refuted). Loads that are delayed after later accesses, and compiler reorderings, are not modelled. |
| C126 | A call on the lock-free list or an atomic word is held up only by calls that do finish | partial | `C126_lock_free`, `C126_somebody`, `C126_alone`, `C126_wait_free_refuted` (LockFreeProps); `C126_atomic_lock_free`, `C126_atomic_wait_free`, `C126_xchg_wait_free_refuted` (AtomicFreeProps) | Interleaving models of C62 and C107 (sequentially consistent memory, atomic __sync builtins that do not fail spuriously). List calls under the rules of C62: no del, or one consumer. The two refuted theorems show the last sentence: bfdev_xchg and the list calls are lock-free but not wait-free. |
| C127 | Sorting and searching survive any comparison function, with few calls | proved | `C127_sort_any`, `C127_sort_same`, `C127_bsearch_any`, `C127_bsearch_same` (SortCallsProps); `C127_list_sort_any`, `C127_list_sort_same` (ListCallsProps) | The comparison function is an arbitrary function of all calls made before and of the two elements; it does not change the data it compares. The *_same theorems show that with an ordinary function the models are those of C35-C37. |
| C128 | KMP searches are linear and work on streams | proved | `C128_cost`, `C128_all_cost`, `C128_stream` (KmpCostProps) | KmpCostModel counts comparisons and records requests; projected to the model of C38 by prepare_same, loop_same and all_same. |
| C129 | A red-black tree survives any comparison function, with few calls | proved | `C129_any`, `C129_find_last_any`, `C129_same` (RbCallsProps) | RbCallsModel records the calls; for a fixed function it is the model of C56 (C129_same). Deletion and replacement reuse C56 with the order given by the positions. |
| C13 | n-th set bit search | partial | `C13_ffnsp`, `C13_ffnsp_full`, `C13_ffnsp_full_refuted`, `C13_flnsp_partial`, `C13_flnsp_refuted`, `C13_ffnzp_partial` (BitsProps) | Proved for every word except the all-ones word, for which flnsp (and the exhausted case of ffnsp) is refuted. |
| C130 | A binary heap survives any comparison function, with few calls | proved | `C130_any`, `C130_same`, `C130_tight` (HeapCallsProps) | Adaptive comparison over the recorded calls; C130_same erases the recording to the functions of C55; C130_tight shows that both bounds are met. |
| C131 | A KMP search context lives inside its block and goes back to its allocator | proved | `C131_lifecycle`, `C131_large_refuted`, `C131_empty_refuted` (KmpMemProps) | Byte-addressed memory with the struct layout of a 64-bit little-endian target; an access outside of the block is Fault. The two refuted theorems are the last sentence of the statement: the first one for every such pattern and every block, the second with a witness. The search results come from C38 by refinement. |
| C132 | A skip list survives any comparison function | proved | `C132_step`, `C132_any`, `C132_shape`, `C132_same` (SkipCallsProps) | SkipCallsModel records all calls of cmp and find and answers them by an arbitrary function of the calls before; C132_same: with ordinary functions it is the model of C54. Searches after an insertion that ran out of memory at a new height are excluded by callowed (C54_refuted shows why). |
| C133 | A hash map survives any functions of the user's | proved | `C133_step`, `C133_any`, `C133_same` (HashCallsProps) | HashCallsModel records all calls of the user's five functions and answers them by an arbitrary function of the calls before; C133_same: with ordinary functions it is the model of C52. The functions are assumed to return and to leave the map alone. A client must not insert a node that is in the map (with ADD, an equality that denies a node itself would link it twice). |
| C134 | A Sunday search context stays inside its allocation | partial | `C134_lifecycle_partial`, `C134_long`, `C134_null`, `C134_short_refuted`, `C134_overwritten_refuted`, `C134_text_refuted`, `C134_hang_refuted` (SundayMemProps) | The context is one block of bytes with the offsets of the struct; every load and store is checked. Missing from the lifecycle: byte 255 in pattern or text and a text that fills its memory; both are false of the code (refutations here and in C39). |
| C135 | A Boyer-Moore search context stays inside its allocation | proved | `C135_lifecycle`, `C135_null`, `C135_large_refuted`, `C135_empty_refuted` (BmMemProps) | Every load and store is checked against the block; entry 255 of bad_shift is entry 0 of good_shift, which is 1, so byte 255 is harmless here. The exceptions named in the statement are refuted. Completeness of the search is C136. |
| C136 | Boyer-Moore reports the first occurrence of any bytes | partial | `C136_first_partial`, `C136_misses_refuted` (BmFirstProps) | Proved on the byte-level model, byte 255 included, when the last byte of the pattern stands nowhere else in it. Missing: other patterns, where the search misses occurrences. |
| C137 | Swapping an object in place rearranges exactly its own bytes, the same way on every processor | partial | `C137_in_place_partial`, `C137_hook_refuted`, `C137_twice`, `C137_pointer`, `C137_compose32`, `C137_compose64`, `C137_array` (SwabMemProps) | Proved for both byte orders, any memory and address, and also with a correct bfdev_arch_swahw64s hook, except for bfdev_swahl64s with that hook: swab.h:505 tests and calls bfdev_arch_swahw64s there, so a correct word swap hook makes the long swap wrong (C137_hook_refuted). No header of the repository defines a hook. The other hooks are not modelled. |
| C138 | Bitmaps from an allocator are independent and live exactly until they are freed | partial | `C138_history_partial`, `C138_largest`, `C138_largest_refuted` (BitmapHeapProps) | The history theorem covers everything but the last sentence, which is false for the 63 largest sizes: the sum in BFDEV_BITS_TO_LONG wraps, the size becomes 0 and NULL is returned without asking the allocator (C138_largest, C138_largest_refuted). For all other sizes the history theorem includes it. Cells are 8-byte words. |
| C139 | Multi precision integers are variables: import, assignment, export and comparison | partial | `C139_history_partial`, `C139_negative_zero_refuted` (MpiStoreProps) | Proved for all histories in which zero is not imported with the negative sign. Such an import stores a negative zero, which stands for 0 but compares as less than 0 (C139_negative_zero_refuted). The buffer of an import lies outside the object; capacities are left out, so every resize may fail. |
| C14 | Rotations are inverse bit permutations | proved | `C14_rotations` (BitsProps) |  |
| C15 | Byte swapping and bit reversal are the mathematical permutations | partial | `C15_swab`, `C15_swab_involutive`, `C15_swah`, `C15_bitrev_dynamic`, `C15_bitrev_const_partial`, `C15_bitrev_const_refuted`, `C15_bitrev_const_other_bits` (BitsProps) | Everything proved except the 32- and 64-bit constant-expression bit reversals, which are wrong (refuted). |
| C16 | Population count | proved | `C16_popcount`, `C16_popparity` (BitsProps) |  |
| C17 | Power-of-two and log2 helpers | proved | `C17_ilog2`, `C17_roundup`, `C17_roundup_domain`, `C17_rounddown`, `C17_check` (BitsProps) |  |
| C18 | Bitmap logical operations are bitwise on the declared bits | partial | `C18_and`, `C18_andnot`, `C18_or`, `C18_xor`, `C18_complement`, `C18_replace`, `C18_equal`, `C18_or_equal`, `C18_intersects`, `C18_small_partial`, `C18_small_equal_refuted`, `C18_small_equal_inverted` (BitmapProps) | All out-of-line functions and all inline constant-length versions proved, except the inline equal / or_equal which answer the opposite (refuted, and shown inverted on every input). |
| C19 | Bitmap shift moves every bit by the distance | partial | `C19_shl`, `C19_shr_partial`, `C19_shr_refuted`, `C19_small` (BitmapProps) | Left shift and inline versions proved for all inputs; right shift only for lengths that are a multiple of 64, false otherwise (refuted). |
| C20 | Bitmap range set/clear changes exactly the range | partial | `C20_set_partial`, `C20_clr_partial`, `C20_unaligned_end_out_of_bounds`, `C20_set_refuted` (BitmapProps) | Proved for ranges that end on a word boundary; every other range runs out of bounds (proved). |
| C21 | Bitmap search returns the extremal matching bit | partial | `C21_find_next`, `C21_find_prev`, `C21_find_first`, `C21_find_last`, `C21_for_each`, `C21_small_partial`, `C21_small_refuted`, `C21_small_64_always_none` (BitwalkProps) | Out-of-line searches and iteration macros proved for all lengths up to 2^32-64; the inline zero searches are false for a constant length of 64 (refuted). |
| C22 | Double-word multiply and divide are exact | proved | `C22_add_sub`, `C22_mul`, `C22_qrnnd`, `C22_udiv` (DwordProps) |  |
| C23 | Double-word by double-word division | partial | `C23_udivd_partial`, `C23_udivd_word_partial`, `C23_udivd_refuted`, `C23_udivd_wrong`, `C23_rem_stale_refuted` (DwordProps) | False of the code when the divisor's top bit is set, the dividend is smaller and its low word is not (wrong quotient, shown on every such input), and the high remainder word is not written for one-word divisors; proved otherwise. |
| C24 | Multi-precision addition and subtraction are exact | partial | `C24_add_partial`, `C24_sub_partial`, `C24_addi_partial`, `C24_subi_partial`, `C24_add_carry_refuted`, `C24_sub_borrow_refuted`, `C24_inplace_refuted`, `C24_stale_refuted`, `C24_addi_negative_refuted`, `C24_subi_zero_refuted` (MpiProps) | False of the code. Proved exactly when the result is right (iff a computable carry / borrow loss condition is false) for all operands and aliasings that do not read freed storage; each defect refuted with a witness. |
| C25 | Multi-precision multiplication is exact | partial | `C25_muli`, `C25_mul_partial`, `C25_mul_carry_refuted`, `C25_mul_inplace_refuted` (MpiProps) | Word multiplication proved; long multiplication proved when no multiplier limb takes the defective addition and the product does not overwrite one of two operands; the rest is false (refuted). |
| C26 | Multi-precision division by a word is exact | proved | `C26_divi`, `C26_modi`, `C26_zero_divisor`, `C26_zero_by_zero_refuted` (MpiProps) | Exact for every non-zero word divisor; 0/0 answering 1 is recorded separately. |
| C27 | Multi-precision division | partial | `C27_div_partial`, `C27_div_refuted`, `C27_rem_refuted` (MpiProps); `C27_long_div_partial`, `C27_long_mod_partial`, `C27_zero_divisor`, `C27_norm_refuted` (MpiDivProps) | Quotient and remainder (Knuth's algorithm, digit estimate, add-back) proved for dividends of any length and every divisor of one limb, or with its top bit set and no all-ones limb beyond the lowest; also for dividends not larger than the divisor. For other divisors the code is wrong: it never normalises the divisor, and its additions lose carries (refuted, also for normalised divisors). |
| C28 | Multi-precision comparison is integer comparison | partial | `C28_cmp`, `C28_cmpi`, `C28_negative_zero_refuted` (MpiProps) | Proved for canonical integers; the library itself produces negative zeros, which compare wrongly (refuted). |
| C29 | Matrix arithmetic follows the algebra modulo 2^64 | partial | `C29_add`, `C29_sub`, `C29_mul`, `C29_errors`, `C29_trans_writes_nothing`, `C29_trans_refuted` (MatrixProps) | Sum, difference and product proved for all dimensions whose cell count fits 32 bits and all aliasings; transposition is false (source and destination pointers are swapped). |
| C30 | Table-driven CRC equals the polynomial definition and composes over chunks | proved | `C30_table_driven`, `C30_remainder`, `C30_remainder_reflected`, `C30_compose`, `C30_crc4` (CrcProps) | Table generator and byte-wise functions (built without BFDEV_CRC_EXTEND) equal bit-serial polynomial division for the nine generated algorithms, and crc4 with its bit length. The default extended build is C31. |
| C31 | Slice-by-8 CRC equals byte-at-a-time CRC | partial | `C31_slice_by_8_partial`, `C31_crc64_refuted`, `C31_rocksoft_refuted` (CrcProps) | Proved for the seven algorithms with registers of at most 32 bits, every address and length; false for the two 64-bit algorithms (refuted). |
| C32 | MD5/SHA-1/SHA-224/SHA-256 equal the standard on every message and split | proved | `C32_md5`, `C32_sha1`, `C32_sha224`, `C32_sha256` (DigestProps) | Streaming frame (buffering, padding, length field) and all four compression functions proved equal to RFC 1321 / FIPS 180-4; the constants of the standards are computed from their definitions (sine series, square and cube roots of primes). |
| C33 | Jenkins hash mixing loses no information | proved | `C33_mix_reversible`, `C33_value`, `C33_no_collision` (JhashProps) | Mix and final are bijections of the 96-bit states; the function equals lookup3's hashlittle of the bytes, length and seed and reads nothing else; keys of equal length that differ inside one block never reach the same internal state. |
| C34 | PRNG state never degenerates | proved | `C34_healthy`, `C34_injective`, `C34_range` (PrandomProps) | Any seed or the default state, any sequence of value/u64/reseed calls; the step is also injective on the relevant bits. |
| C35 | Heap sort sorts | proved | `C35_sort`, `C35_short`, `C35_huge_elements_refuted` (SortProps) | Any element size that is not a multiple of 2^32 (the swap length is an unsigned int; for such a multiple the swap moves nothing, refuted), any comparator that is a total preorder. |
| C36 | Binary search is sound and complete on sorted arrays | proved | `C36_bsearch` (SortProps) | Arrays and comparators for which the comparison against the key is monotone; the index arithmetic does not overflow. |
| C37 | List sort is a stable sort | proved | `C37_list_sort`, `C37_unique` (ListSortProps) | Pointer-level model of the bottom-up merge sort: any list and any total preorder; the 32-bit counter may wrap. |
| C38 | KMP search reports exactly the occurrences | proved | `C38_first`, `C38_enumerates`, `C38_linear`, `C38_empty_refuted` (TextProps) | Any block source, any start, with and without case folding (toupper a parameter; its values on the pattern must be chars again). Texts below 2^32 and patterns below 2^30 bytes. The empty pattern, outside the claim, reads beside the table. |
| C39 | Boyer-Moore and Sunday search report exactly the occurrences | partial | `C39_sunday_partial`, `C39_sunday_255_refuted`, `C39_sunday_end_refuted`, `C39_bm_sound_partial`, `C39_bm_partial`, `C39_bm_misses_refuted`, `C39_bm_255_refuted`, `C39_next_refuted` (TextProps) | False as stated: byte 255 indexes one past both tables, sunday reads the byte after the text, bm misses occurrences (aa in baa), and neither advances the search offset, so bfdev_textsearch_next reports the first match for ever. Proved (with and without case folding): sunday finds the leftmost match when a readable byte follows and no byte is 255; bm finds the leftmost match for patterns whose last byte occurs nowhere else in the pattern and only reports occurrences for every pattern. |
| C40 | Levenshtein distance is the optimal edit cost | partial | `C40_cheapest_partial`, `C40_right_cell`, `C40_cheapest_refuted`, `C40_in_bounds`, `C40_no_memory` (LevProps) | False as stated: one cell of the fresh memory is read before it is written; with zeros there the distance of abc and x is 1. Proved: the result is the cost of the cheapest alignment whenever that cell does not undercut (exact condition), for all strings and weights without overflow of unsigned int; no access is out of bounds. |
| C41 | Argument splitting | partial | `C41_split_partial`, `C41_huge_refuted` (ArgvProps) | Proved for all strings below 2^30 - 4 bytes: count, words, terminators, layout of the block. With 2^29 - 1 words the 32-bit size of the vector wraps to 0 (refuted). |
| C42 | scnprintf never exceeds the buffer | partial | `C42_count_partial`, `C42_failure_refuted` (ArgvProps) | Proved for every size and every formatted text; the C library's vsnprintf is taken at its specification. When the formatter fails the function reports size - 1 characters (refuted). |
| C43 | Pool allocator blocks are disjoint, aligned, inside the pool and sized | proved | `C43_blocks`, `C43_align_refuted` (MemallocProps) | Any history of malloc/free/realloc/stores on any pool with the three policies; requests up to 2^64 - 32. Blocks are at multiples of 8 from the start of the pool; BFDEV_MEMALLOC_ALIGN is not honoured for addresses (refuted, beyond the claim). |
| C44 | Pool allocator conserves memory and coalesces | proved | `C44_conserves` (MemallocProps) | Any history; of a pool of odd size the last byte is not used. |
| C45 | Pool allocator handles huge requests | partial | `C45_huge_partial`, `C45_huge_refuted` (MemallocProps) | Proved for malloc and realloc of sizes up to 2^64 - 32; above that the rounding wraps and a block of size 0 is handed out (refuted). |
| C46 | Bump allocator | partial | `C46_blocks_partial`, `C46_first_position`, `C46_wrap_refuted` (AllocpoolProps) | Any history of requests that stay clear of 2^64; blocks are also placed at the first possible position. A size near 2^64 makes the offset wrap and later blocks overlap (refuted). |
| C47 | Dynamic array behaves as a stack | partial | `C47_sequence_partial`, `C47_accessors_partial`, `C47_failure_partial`, `C47_abort_refuted`, `C47_wrap_refuted`, `C47_dangling_refuted` (ArrayProps) | Any history, any answers of the allocator, below 2^31 elements and 2^63 bytes. From 2^31 elements on the program aborts (count is truncated to int in bfdev_max); wrapping products give blocks that are too small or a dangling pointer (refuted). |
| C48 | Allocator front end | proved | `C48_malloc`, `C48_zalloc`, `C48_free`, `C48_realloc`, `C48_array_partial`, `C48_array_refuted` (AllocProps) | Front end over arbitrary back ends. Beyond the claim: the array variants multiply without overflow check (refuted for products of 2^64 and more). |
| C49 | Rate limiter admits at most burst events per interval | proved | `C49_windows`, `C49_total`, `C49_span`, `C49_disabled`, `C49_sliding_refuted`, `C49_zero_refuted` (RatelimitProps) | Exact answers for any history with resets (times other than 0): the first burst calls of every window are admitted; at most 2*burst admissions in any span of one interval; refused calls are counted. The sharper reading (at most burst in every sliding span) and clocks that start at 0 are refuted. |
| C50 | Token bucket never exceeds capacity and conserves tokens | partial | `C50_range`, `C50_rate`, `C50_exact_partial`, `C50_exact_refuted`, `C50_zero_refuted`, `C50_backwards_refuted` (TokenProps) | Range and rate bound hold for every history with a positive non-decreasing clock; equality with an ideal bucket only while waits stay below about 2^32 intervals (beyond: refuted, the 32-bit truncation loses tokens). A clock at 0 or running backwards breaks the bound (refuted). |
| C51 | Bloom filter has no false negatives | partial | `C51_no_false_negative`, `C51_exact`, `C51_push_result`, `C51_flush_partial`, `C51_flush_refuted`, `C51_capacity_refuted` (BloomProps) | No false negatives after any history, for every hash function; exact answer without flush; push returns what peek would have returned. Flush clears only the first eighth of the bits, so the part about flush is refuted. |
| C52 | Hash map is a finite map | proved | `C52_step`, `C52_history` (HashmapProps) | For every lawful set of user operations (hash, equal and find agree on a key), every grow/shrink policy, every allocator including one that refuses: any adaptive client sees a finite (multi)map; a refusal happens only when the next table cannot be allocated and leaves memory and map unchanged. Iteration visits every node once. |
| C53 | Hash function ranges | proved | `C53_ranges`, `C53_zero_bits`, `C53_injective`, `C53_index`, `C53_index_one` (BloomProps) | Also: the multiplication loses nothing (injective at full width); table indices are in bounds for tables of two or more entries; 0 bits / one entry is an undefined shift. |
| C54 | Skip list is an ordered set | proved | `C54_step`, `C54_history`, `C54_sorted`, `C54_height`, `C54_destroy`, `C54_refuted` (SkiplistProps) | For every order with ties, every sequence of drawn heights (all of 1..levels are possible), every allocator: an adaptive client sees a sorted list of nodes, the newest first among equals; search and deletion pick a tallest match; each level is the nodes of greater height, a sublist of the level below. Exception, refuted as C54_refuted: after an insertion refused for lack of memory at a new height a search reads an uninitialised variable, so searches are allowed only while no such refusal happened since the last reset. |
| C55 | Binary heap | proved | `C55_history`, `C55_drain` (HeapProps) | Any history of insert/delete from the initialised root, every comparison that is a total preorder: complete tree, heap order, exact node set, count, least root, client fields untouched; repeatedly deleting the root yields the nodes sorted. |
| C56 | Red-black tree balance and order | proved | `C56_history` (RbProps) | Any history of insert/delete/replace on plain and cached trees from the empty root; equal keys refused; replies, red-black shape, links, order, iteration and the cached first node. Duplicate-allowing callers of insert_node are covered by the lemma link_fixup at any gap. |
| C57 | Interval tree stabbing queries | partial | `C57_query`, `C57_delete`, `C57_insert_partial`, `C57_insert_longest`, `C57_history_partial`, `C57_refuted` (SegProps) | False as stated: insert overwrites the new node's subtree maximum after rotations (C57_refuted: the query misses a stored interval). Proved: on any tree with right maxima first/next enumerate exactly the overlapping intervals in start order; delete keeps the maxima of every tree; insert keeps the tree and all maxima but perhaps the new node's, and all of them when no stored interval ends after the new one; histories of such operations answer every query exactly. |
| C58 | Intrusive list operations | partial | `C58_rotate`, `C58_init`, `C58_add`, `C58_add_inside`, `C58_del`, `C58_splice`, `C58_replace`, `C58_move`, `C58_move_across`, `C58_swap_partial`, `C58_queries`, `C58_for_each`, `C58_for_each_safe`, `C58_swap_self_refuted`, `C58_replace_empty_refuted` (ListProps) | Proved for all lists and positions; swapping or moving a node relative to itself faults and replacing the head of an empty list corrupts it (refuted). |
| C59 | Hash-list operations | partial | `C59_init`, `C59_head_add`, `C59_del`, `C59_replace`, `C59_head_replace`, `C59_traverse`, `C59_for_each_safe`, `C59_next_add_partial`, `C59_next_add_refuted`, `C59_prev_add_refuted`, `C59_prev_add_cycle` (SlistProps) | next_add is right only behind the last node and prev_add never is (refuted); all other operations proved at every position. |
| C60 | Singly linked list operations | proved | `C60_init`, `C60_add`, `C60_del`, `C60_replace`, `C60_queries`, `C60_for_each`, `C60_for_each_safe` (SlistProps) | All lists and positions; the search for the predecessor is bounded by the length of the list. |
| C61 | Index list stays sorted | partial | `C61_history_partial`, `C61_distinct_keys`, `C61_adds`, `C61_refuted` (IlistProps) | Pointer-level model. True for every history that never deletes the oldest of several equal nodes while other keys are present; false otherwise (refuted: keys come out 5, 7, 6). |
| C62 | Lock-free list loses and duplicates nothing | proved | `C62_linearizable`, `C62_exactly_once`, `C62_exclusive`, `C62_del_refuted` (LlistProps) | Interleaving model at the granularity of single memory accesses (sequential consistency), any number of threads, any schedule, adds of linked batches and destroys; also with one consumer using del. The refutation shows that del with two consumers (not promised by the claim) hands one node to both. |
| C63 | Reference counting under concurrency | partial | `C63_counts`, `C63_one_zero`, `C63_addnz_alone_partial`, `C63_addnz_zero`, `C63_addnz_lost_refuted`, `C63_addnz_twice_refuted`, `C63_addnz_zero_loops` (RefcntProps) | Interleaving model, any number of threads: get/put fully proved. The conditional increment is right alone and never raises a zero count, but under contention it reports success without adding, or adds twice (refuted): the loop repeats on success instead of on failure. |
| C64 | Cache: bounded, consistent, LRU order | partial | `C64_session_partial`, `C64_victim_partial`, `C64_reset_refuted` (CacheProps) | For every adaptive client that releases, renames and deletes only nodes it holds, gives no tag twice by renaming, and clears the cache only when no node is pending or in use: every session refines the abstract cache, holds at most its size, each tag once, takes only nodes nobody holds and among them the one released first. With a reset while a node is in use the statement is false: the reference count survives the reset and the node is never given back (C64_reset_refuted). |
| C65 | Cache: LFU evicts a least frequently used element | proved | `C65_session`, `C65_victim` (CacheProps) | Over every session of a rule-keeping client the node taken from another tag is held by nobody and has a minimal 64-bit use count among those; the heap is the C55 model. |
| C66 | Finite state machine dispatch | partial | `C66_handle`, `C66_unchanged`, `C66_finished`, `C66_total`, `C66_track`, `C66_failure_refuted`, `C66_pop_refuted`, `C66_nochange_refuted`, `C66_exit_refuted` (FsmProps) | For every graph, every answer of the callbacks: first accepting transition of the nearest reacting ancestor, exit/action/enter in order until the first failure, exact new state, history, stack and reply (relation handles); ignored events change nothing; handling terminates on acyclic graphs. False readings are refuted: a failed action does not enter the error state, a failure after a pop loses the stack entry, NOCHANGE after a crossing transition, and the exit function of the state left is not run when an ancestor's transition fires. |
| C67 | Notifier chain order | partial | `C67_chain`, `C67_call`, `C67_history`, `C67_refuted` (NotifierProps) | every history of register/unregister/call from raw memory refines the abstract chain: ascending priorities, stop and remove bits, count bound, reply and count of calls. Among equal priorities the newest node is called first, so the claim of registration order is refuted (C67_refuted). Callbacks that themselves change the chain: see C113 |
| C68 | Resource pool releases in reverse order exactly once | proved | `C68_history`, `C68_release_all`, `C68_find`, `C68_once`, `C68_empty_refuted` (RespoolProps) | Any history of insert/remove/release/find_remove/find_release/(release_all + init), release functions that free their node or not: replies, the order of releases, and for each node insertions = removals + releases + still held. release_all alone does not empty the pool (C68_empty_refuted). |
| C69 | Radix array is a sparse map | partial | `C69_session_partial`, `C69_find_after_alloc`, `C69_gone_after_free`, `C69_release`, `C69_alias_refuted`, `C69_overread_refuted`, `C69_free_refuted`, `C69_high_refuted` (RadixProps) | Every history of alloc/free/find/charge/release/stores/loads/iteration by a polite client (offsets below 2^63; searched offsets below some live one or of a bit length the capacity test gets right), with any allocator that may fail. The statement for all offsets is false: aliasing, out-of-bounds read, freeing another cell, and shift counts above 63 (the _refuted theorems). |
| C70 | B+tree is an ordered map | partial | `C70_session_partial`, `C70_sorted`, `C70_forward`, `C70_backward`, `C70_release`, `C70_odd_refuted`, `C70_remove_zero_refuted`, `C70_update_zero_refuted`, `C70_prev_zero_refuted`, `C70_next_absent_refuted`, `C70_remove_absent_refuted`, `C70_last_empty_refuted` (BtreeProps) | Every history of insert/lookup/update/remove/first/last/next/prev/release by any adaptive client, any allocator (which may fail), any clash and remove callbacks, any even node size from 4 (the stock layouts have 8), against an ordered map; tree of any height, splits, merges, key pointers into changing nodes and node addresses as in the code. Walks forwards and backwards are complete and ordered; release returns every node. Restricted to what BtreeSpec.ballowed says; outside it the statement is false: with the stock layout removing the absent key 0 loses another entry, updating it succeeds, and removing an absent key can write outside the node; seven refutations. Keys of one word with the stock comparison. |
| C71 | Error pointers | proved | `C71_roundtrip`, `C71_is_err`, `C71_zero_forms` (MiscProps) | All 2^64 pointers and all ints, including the forms for NULL. |
| C72 | Circular buffer arithmetic | partial | `C72_count_space`, `C72_count_end_partial`, `C72_count_end_refuted` (MiscProps) | Count and space are exact for free-running wrapping counters; count-to-end only for counters inside the ring (refuted otherwise). SPACE_END does not compile and is not modelled. |
| C73 | String hash stays within 32 bits | partial | `C73_nibble`, `C73_local`, `C73_short_partial`, `C73_refuted`, `C73_signed_refuted` (MiscProps) | The bound is false: 7-bit strings and single non-ASCII characters reach 2^32 and more (refuted). Proved for all strings: bits 28..31 are clear; for up to six 7-bit characters the exact value, below 2^28. |
| C74 | String difference | proved | `C74_memdiff`, `C74_strdiff` (MiscProps) | All strings and blocks. |
| C75 | Dynamic FIFO buffer is as large as its capacity | partial | `C75_alloc_buffer_partial`, `C75_alloc_overflow_refuted` (FifoProps) | False of the code when the byte size exceeds 2^64; proved below that. |
| C76 | Ring buffer record mode | partial | `C76_ringbuf_record_refuted` (FifoProps) | False of the code (refuted). |
| C77 | Single-bit array operations touch exactly the addressed bit | proved | `C77_bit_ops` (BitsProps) |  |
| C78 | Matrix cells are stored and fetched where they belong | partial | `C78_import`, `C78_import_refuted`, `C78_data_partial`, `C78_data_refuted` (MatrixProps) | Import proved below 2^32 cells and refuted above; the accessor is false (refuted), with an exact characterisation of when it is right. |
| C79 | Pool allocator keeps the contents of blocks | proved | `C79_contents` (MemallocProps) | Any history with the three policies. |
| C80 | Fit policies find what they promise | partial | `C80_policies`, `C80_worst_refuted` (MemallocProps) | Completeness and optimality of the three policies in every reachable state; worst fit misses a free chunk of size 0 for an empty request (refuted). |
| C81 | Tree iterators visit every node once, in their order | proved | `inorder_visit`, `reverse_visit`, `preorder_visit`, `postorder_visit` (TiterProofs); `C56_orders` (RbProps) | Loops over any linked tree; level order is not covered here. |
| C82 | Red-black tree searches | proved | `C56_find`, `C56_find_last` (RbProps); `rb_parent_ok` (RbOps) | All trees and all search functions monotone along the tree. |
| C83 | Heap lookup by position | partial | `C83_find_partial`, `C83_refuted` (HeapProps) | False: the depth is taken from the number of nodes instead of the index (C83_refuted: with seven nodes find(1) is not the root). Proved for positions of the last level. |
| C84 | Heap level-order loop | proved | `C55_history`, `level_ok`, `level_perm` (HeapProps) | After any history the loop visits the nodes at positions 1, 2, ..., count, a permutation of the contents. |
| C85 | Radix array iteration | partial | `C85_iteration_partial`, `C69_session_partial`, `C85_first_refuted`, `C85_prev_refuted`, `C85_next_refuted` (RadixProps) | After every polite history: which cell is reported (as long as no allocation failed), with the right offset inside an aligned range of 2^13. False in general: first misses cells beyond block 0, previous invents a cell, next reports wrong offsets across subtrees. |
| C86 | Charging a radix array range | partial | `C86_charge_partial`, `C69_session_partial`, `C86_charge_refuted` (RadixProps) | One cell every 256 offsets from the start exists afterwards; the last block of an unaligned range may be missed. |
| C87 | Cells of a typed radix array do not overlap | partial | `C87_cells`, `C87_index_partial`, `C87_index_refuted` (RadixProps) | Disjointness for all sizes; the inverse for powers of two only, refuted for other sizes. |
| C88 | String duplication | partial | `C88_strdup`, `C88_null`, `C88_strndup_exact`, `C88_strndup_overflow`, `C88_strndup_open`, `C88_strndup_refuted`, `C88_strndup_open_refuted` (StrdupProps) | strdup: proved. strndup: false for every length except strlen + 1 (both directions proved): a smaller length leaves the copy unterminated, a greater one makes strncpy pad beyond the block. |
| C89 | Names of error numbers | proved | `C89_errname`, `C89_unique`, `C89_min_refuted` (ErrnameProps) | For every int but INT_MIN, whose negation is undefined (refutation). Uses C36 for the binary search. |
| C90 | Algorithm registries | proved | `C90_history` (RegistryProps) | Any sequence of operations on any objects, the list at pointer level (model of C58). Names and callbacks of an object do not change. |
| C91 | Character classes | partial | `C91_dynamic`, `C91_classes`, `C91_xdigit_blank_partial`, `C91_xdigit_refuted`, `C91_blank_refuted`, `C91_const`, `C91_const_right`, `C91_known_refuted`, `C91_known_partial`, `C91_case`, `C91_eof_refuted`, `C91_toascii` (CtypeProps) | The run-time predicates are exactly their classes for every int, except isxdigit ('0' lacks the flag) and isblank (the flag of HT sits on VT), refuted. The compile-time versions subtract in signed int, so every smaller code belongs to the class (isdigit(' ') is true when the compiler knows the argument): exact extension proved, agreement refuted for eleven macros and proved for ASCII arguments not below the class. tolower/toupper are right on 0..255 in the C locale and turn EOF into 255. |
| C92 | Alignment and rounding macros | partial | `C92_align_check`, `C92_align_low`, `C92_align_low_refuted`, `C92_align_high`, `C92_align_high_refuted`, `C92_align_ptr`, `C92_round_down`, `C92_round_down_refuted`, `C92_round_up`, `C92_round_up_refuted`, `C92_div_round_up`, `C92_div_round_up_refuted` (MacroProps) | Right for all type combinations where ~(align-1) reaches the width of the common type and the result is representable; an unsigned 32-bit alignment truncates a 64-bit value, tops wrap to 0, DIV_ROUND_UP overflows near the top and truncates negative dividends the wrong way: refuted with witnesses. BFDEV_DIV_ROUND_CLOSEST applies bfdev_is_unsigned, which expects a type, to expressions and does not compile. |
| C93 | min, max and clamp | partial | `C93_minmax`, `C93_clamp`, `C93_minmax_refuted`, `C93_adj_refuted`, `C93_adj_partial` (MacroProps) | Right whenever the type of the first argument can hold the others; refuted otherwise. bfdev_min_adj/max_adj enforce the opposite of the documented bound. |
| C94 | Masks and bit fields | partial | `C94_masks`, `C94_range`, `C94_shift`, `C94_shift_refuted`, `C94_field`, `C94_roundtrip`, `C94_update`, `C94_fit_partial`, `C94_fit_refuted` (MacroProps) | Everything but FIELD_FIT (which accepts values whose upper bits the shift pushes out) and BIT_SHIFT on int values (undefined from 32 on, although documented as a long), both refuted. |
| C95 | Overflow-checked arithmetic | partial | `C95_check`, `C95_saturate`, `C95_saturate_refuted`, `C95_exact` (MacroProps) | The checks are exact (the compiler's builtins are taken to be correct); unsigned addition and multiplication saturate; subtraction and signed operations do not, refuted with the exact outcome proved. |
| C96 | Bitwise operations of multi precision integers | partial | `C96_and_partial`, `C96_or_partial`, `C96_xor_partial`, `C96_negative_refuted` (MpiBitsProps) | For operands of which the shorter has fewer than 2^26 limbs (the bitmap functions count bits in an unsigned int); the assertion in mpi_or never fires on normalised operands. The sign of the operands is ignored: refuted as an operation on integers. |
| C97 | Shifts of multi precision integers | partial | `C97_shli_partial`, `C97_shri_partial`, `C97_roundtrip_partial`, `C97_shri_refuted`, `C97_shli_refuted`, `C97_negative_zero_refuted` (MpiBitsProps) | For results below 2^26 limbs (left) and counts below 2^32 (right). Beyond: shri by 2^32 returns the operand unchanged, shli by 2^64-1 returns zero with success; shri of -1 leaves a negative zero. All refuted with witnesses. |
| C98 | Single bits of a multi precision integer | partial | `C98_btesti_partial`, `C98_bseti_partial`, `C98_bclri_partial`, `C98_restore_partial`, `C98_bseti_refuted` (MpiBitsProps) | For bit numbers below 2^32; bseti of bit 2^32 sets bit 0 and leaves the number with zero limbs on top, refuted. |
| C99 | Bounded formatting | partial | `C99_vscnprintf`, `C99_empty`, `C99_error`, `C99_error_refuted` (LogProps) | Right whenever the C library formats the text; when it reports an error, the caller is told the buffer was filled although nothing was stored (int compared with size_t), refuted. |

## Functions of the code without a counterpart in the model

Every `.c` and `.h` file with function bodies is listed below with the functions that no definition cites (found by comparing the citations of the model with the function bodies of the code). Files that are not listed are modelled completely. Accessors, constructors and destructors that only copy or free are usually folded into the operation that uses them.

* `include/bfdev/action.h` (0 of 4 modelled): `bfdev_action_init`, `bfdev_action_update`, `bfdev_action_clear`, `bfdev_action_call`
* `include/bfdev/allocator.h` (3 of 5 modelled): `bfdev_alloc_init`, `bfdev_alloc_ops_init`
* `include/bfdev/array.h` (4 of 6 modelled): `bfdev_array_index`, `bfdev_array_size`
* `include/bfdev/asm-generic/bitops.h` (37 of 40 modelled): `bfdev_arch_bit_atomic_test_set`, `bfdev_arch_bit_atomic_test_flip`, `bfdev_arch_bit_atomic_test_change`
* `include/bfdev/asm-generic/builtin-clz.h` (0 of 1 modelled): `bfdev_arch_clz`
* `include/bfdev/asm-generic/builtin-ctz.h` (0 of 1 modelled): `bfdev_arch_ctz`
* `include/bfdev/asm-generic/builtin-ffs.h` (0 of 1 modelled): `bfdev_arch_ffs`
* `include/bfdev/asm-generic/builtin-fls.h` (0 of 1 modelled): `bfdev_arch_fls`
* `include/bfdev/asm-generic/unaligned.h` (12 of 22 modelled): `bfdev_arch_unaligned_get_uint`, `bfdev_arch_unaligned_get_ulong`, `bfdev_arch_unaligned_set_uint`, `bfdev_arch_unaligned_set_ulong`, `bfdev_arch_unaligned_get_u16`, `bfdev_arch_unaligned_get_u32`, `bfdev_arch_unaligned_get_u64`, `bfdev_arch_unaligned_set_u16`, `bfdev_arch_unaligned_set_u32`, `bfdev_arch_unaligned_set_u64`
* `include/bfdev/atomic.h` (9 of 17 modelled): `bfdev_atomic_fetch_and`, `bfdev_atomic_fetch_or`, `bfdev_atomic_fetch_xor`, `bfdev_atomic_add_fetch`, `bfdev_atomic_sub_fetch`, `bfdev_atomic_and_fetch`, `bfdev_atomic_or_fetch`, `bfdev_atomic_xor_fetch`
* `include/bfdev/bitops.h` (54 of 62 modelled): `bfdev_rol8`, `bfdev_ror8`, `bfdev_rol16`, `bfdev_ror16`, `bfdev_rol32`, `bfdev_flns64`, `bfdev_ffnz64`, `bfdev_flnz64`
* `include/bfdev/btree.h` (0 of 1 modelled): `bfdev_btree_init`
* `include/bfdev/byteorder/big-endian.h` (2 of 12 modelled): `bfdev_cpu_to_le64p`, `bfdev_le16_to_cpup`, `bfdev_le32_to_cpup`, `bfdev_le64_to_cpup`, `bfdev_cpu_to_be16p`, `bfdev_cpu_to_be32p`, `bfdev_cpu_to_be64p`, `bfdev_be16_to_cpup`, `bfdev_be32_to_cpup`, `bfdev_be64_to_cpup`
* `include/bfdev/cache.h` (0 of 3 modelled): `bfdev_cache_get`, `bfdev_cache_try_get`, `bfdev_cache_cumulative`
* `include/bfdev/crypto/sha1-base.h` (3 of 4 modelled): `bfdev_sha1_digest_init`
* `include/bfdev/crypto/sha2-base.h` (3 of 5 modelled): `bfdev_sha224_digest_init`, `bfdev_sha256_digest_init`
* `include/bfdev/fsm.h` (5 of 6 modelled): `bfdev_fsm_init`
* `include/bfdev/hashmap.h` (0 of 5 modelled): `bfdev_hashmap_init`, `bfdev_hashmap_add`, `bfdev_hashmap_set`, `bfdev_hashmap_update`, `bfdev_hashmap_append`
* `include/bfdev/hashtbl.h` (4 of 5 modelled): `bfdev_hashtbl_empty`
* `include/bfdev/ilist.h` (5 of 6 modelled): `bfdev_ilist_last`
* `include/bfdev/list.h` (21 of 22 modelled): `bfdev_list_check_head`
* `include/bfdev/log.h` (0 of 1 modelled): `bfdev_log_init`
* `include/bfdev/log2.h` (4 of 5 modelled): `bfdev_ilog2_64_dynamic`
* `include/bfdev/matrix.h` (0 of 1 modelled): `bfdev_matrix_init`
* `include/bfdev/mpi.h` (0 of 3 modelled): `bfdev_mpi_init`, `bfdev_mpi_length`, `bfdev_mpi_size`
* `include/bfdev/overflow.h` (0 of 1 modelled): `bfdev_overflow_check`
* `include/bfdev/port/stdio.h` (1 of 3 modelled): `bfport_fwrite`, `bfport_fflush`
* `include/bfdev/port/stdlib.h` (0 of 5 modelled): `bfport_rand`, `bfport_malloc`, `bfport_calloc`, `bfport_realloc`, `bfport_free`
* `include/bfdev/port/string.h` (4 of 11 modelled): `bfport_memcpy`, `bfport_memset`, `bfport_memcmp`, `bfport_strcmp`, `bfport_strchr`, `bfport_strspn`, `bfport_strcspn`
* `include/bfdev/prandom.h` (2 of 3 modelled): `bfdev_prandom_long`
* `include/bfdev/rbtree.h` (14 of 18 modelled): `bfdev_rb_init`, `bfdev_rb_cache_init`, `bfdev_rb_cached_insert_node_augmented`, `bfdev_rb_cached_insert_augmented`
* `include/bfdev/refcount.h` (3 of 5 modelled): `bfdev_refcnt_get`, `bfdev_refcnt_set`
* `include/bfdev/unaligned.h` (11 of 22 modelled): `bfdev_unaligned_set_uint`, `bfdev_unaligned_set_ulong`, `bfdev_unaligned_get_u16`, `bfdev_unaligned_get_u64`, `bfdev_unaligned_set_u16`, `bfdev_unaligned_set_u32`, `bfdev_unaligned_set_u64`, `bfdev_unaligned_get_le16`, `bfdev_unaligned_get_le32`, `bfdev_unaligned_get_le64`, `bfdev_unaligned_set_le16`
* `src/argv.c` (2 of 3 modelled): `bfdev_argv_destroy`
* `src/bloom.c` (5 of 6 modelled): `bfdev_bloom_destroy`
* `src/btree-utils.c` (1 of 3 modelled): `bfdev_btree_alloc`, `bfdev_btree_free`
* `src/btree.c` (30 of 32 modelled): `bnode_takeout_key`, `btree_empty_key`
* `src/cache/cache.c` (18 of 19 modelled): `cache_hash`
* `src/cache/lru.c` (8 of 9 modelled): `lru_exit`
* `src/callback.c` (0 of 3 modelled): `bfdev_cbfunc_noop`, `bfdev_cbfunc_ret0`, `bfdev_cbfunc_ret1`
* `src/crypto/crc-ccitt.c` (0 of 1 modelled): `bfdev_crc_ccitt`
* `src/crypto/crc-itut.c` (0 of 1 modelled): `bfdev_crc_itut`
* `src/crypto/crc-rocksoft.c` (0 of 1 modelled): `bfdev_crc_rocksoft`
* `src/crypto/crc-t10dif.c` (0 of 1 modelled): `bfdev_crc_t10dif`
* `src/crypto/crc16.c` (0 of 1 modelled): `bfdev_crc16`
* `src/crypto/crc32.c` (0 of 1 modelled): `bfdev_crc32`
* `src/crypto/crc4.c` (0 of 1 modelled): `bfdev_crc4`
* `src/crypto/crc64.c` (0 of 1 modelled): `bfdev_crc64`
* `src/crypto/crc7.c` (0 of 1 modelled): `bfdev_crc7`
* `src/crypto/crc8.c` (0 of 1 modelled): `bfdev_crc8`
* `src/fifo.c` (14 of 15 modelled): `bfdev_fifo_dynamic_free`
* `src/hashmap.c` (11 of 15 modelled): `hashmap_hash_node`, `hashmap_hash_key`, `hashmap_equal`, `hashmap_find`
* `src/levenshtein.c` (1 of 2 modelled): `bfdev_levenshtein`
* `src/log/log.c` (6 of 9 modelled): `log_scnprintf`, `log_suffix`, `log_emit`
* `src/matrix.c` (5 of 8 modelled): `matrix_zero`, `matrix_copy`, `bfdev_matrix_release`
* `src/memalloc.c` (12 of 13 modelled): `memalloc_check`
* `src/mpi.c` (60 of 62 modelled): `mpi_extend`, `bfdev_mpi_release`
* `src/rbtree.c` (11 of 14 modelled): `bfdev_rb_fixup`, `bfdev_rb_erase`, `bfdev_rb_remove`
* `src/ringbuf.c` (14 of 15 modelled): `bfdev_ringbuf_dynamic_free`
* `src/textsearch/bm.c` (7 of 9 modelled): `bm_init`, `bm_exit`
* `src/textsearch/kmp.c` (6 of 8 modelled): `kmp_init`, `kmp_exit`
* `src/textsearch/sunday.c` (6 of 8 modelled): `sunday_init`, `sunday_exit`
