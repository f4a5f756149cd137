{"id": "C01", "title": "Build then decode is the identity", "statement": "For every valid list S, s_sequence::builder::build(S) succeeds, and decode() on the bytes it produced - wherever those bytes are placed in memory - returns |S| and leaves exactly S in out[0..|S|).", "quantifier": "every non-empty strictly increasing list of unsigned integers below 4294901760 (= 2^32 - 2^16); every address the encoding is placed at; every previous content of memory and of the output buffer; 31 readable bytes behind the encoding and 23 spare words in the output buffer (C34 and C39 say exactly what is needed)", "why_tests_cant": "The encoder picks per chunk/block between four physical layouts at cardinality and byte-size thresholds; tests sample a few random lists, the claim is about all of them and every mix of layouts.", "anchors": ["include/builder.hpp: encode_sequence, encode_sparse_chunk, encode_block", "include/building_util.hpp", "include/decode.hpp: s_sequence::decode, decode_chunk, decode_sparse_chunk, decode_bitmap", "include/s_sequence.hpp: s_sequence(uint8_t const*)"]}
{"id": "C02", "title": "Values in the last 65536 of the 32-bit range", "statement": "The documented domain is 32-bit integers, but the code does not store a value v >= 4294901760. Exact behaviour: for every strictly increasing list S of uint32, a release build succeeds and produces the very bytes it would produce for S with those values removed when anything remains (so they are silently lost), and for an S made only of such values it produces bytes whose decode reads outside the encoding; a build with assertions enabled aborts on every such S.", "quantifier": "every non-empty strictly increasing list of uint32 with at least one value >= 2^32 - 2^16", "why_tests_cant": "The wrap happens only in the last of 65536 slices; the repository's generators never reach it.", "anchors": ["include/builder.hpp: encode_sequence (s.right += chunk_size, *begin < s.right)", "include/building_util.hpp: slice"]}
{"id": "C03", "title": "Duplicates are rejected without side effects", "statement": "For every non-empty non-decreasing list with values below 2^32 - 2^16 that contains some value twice, build throws and the builder's output bytes are exactly what they were before the call.", "quantifier": "every non-decreasing, not strictly increasing list in range; every previous content of the builder", "why_tests_cant": "The duplicate may be in any chunk after any number of already encoded chunks.", "anchors": ["include/building_util.hpp: chunk_cardinality", "include/builder.hpp: encode_sequence, s_sequence::builder::build"]}
{"id": "C04", "title": "size() and cardinality() report the number of stored values", "statement": "For every valid S stored at any address, size() and cardinality() both return |S|.", "quantifier": "every valid list S, every address", "why_tests_cant": "Must hold for every combination of chunk counts and chunk cardinalities, including full chunks stored as cardinality-1 in 16 bits.", "anchors": ["include/s_sequence.hpp: cardinality, size"]}
{"id": "C05", "title": "contains(v) decides membership", "statement": "For every valid S and every uint32 v, contains(v) returns true iff v is in S, without reading outside the encoding of S.", "quantifier": "every valid list S, every address, every 32-bit v (present, absent, beyond the maximum)", "why_tests_cant": "The existing test only queries present values; the claim is also about all absent ones and all skip-pointer/chunk/block boundary positions.", "anchors": ["include/contains.hpp", "include/s_sequence.hpp: iterator::skip_to_value", "include/util.hpp: bitmap_contains"]}
{"id": "C06", "title": "select(i) returns the i-th value", "statement": "For every valid S and uint32 i: if i < |S| then select returns true and sets value to the i-th smallest element; otherwise it returns false and leaves value unchanged. It does not read outside the encoding of S.", "quantifier": "every valid list S, every address, every 32-bit rank, every previous content of value", "why_tests_cant": "All ranks of all lists, across skip pointers, chunk kinds, block kinds and words; out-of-range ranks are never tested.", "anchors": ["include/select.hpp", "include/s_sequence.hpp: iterator::skip_to_position"]}
{"id": "C07", "title": "next_geq(v) returns the least stored value >= v", "statement": "For every valid S and uint32 v, next_geq(v) returns the smallest element of S that is >= v, or 2^32-1 when there is none, without reading outside the encoding of S; 2^32-1 is never an element, so the answer is unambiguous.", "quantifier": "every valid list S, every address, every 32-bit v", "why_tests_cant": "Saturation to the next block and to the next chunk has many boundary cases per layout pair.", "anchors": ["include/next_geq.hpp", "include/s_sequence.hpp: iterator::skip_to_value, base"]}
{"id": "C08", "title": "uncompress writes the exact bitmap and nothing else", "statement": "For every valid S, uncompress returns |S|; for every chunk (65536-value range) containing an element, its 1024 words become exactly the bitmap of S there whatever they held before; words of other chunks are not touched; on a zeroed buffer the result is the bitmap of S. No word past the last non-empty chunk and no byte outside the encoding is accessed.", "quantifier": "every valid list S, every address, every previous content of the output bitmap of sufficient size", "why_tests_cant": "Frame conditions (what is not written) over all layouts cannot be enumerated.", "anchors": ["include/uncompress.hpp"]}
{"id": "C09", "title": "enumerator visits the stored values in order", "statement": "After init(S, p): the k-th value() (k next() calls) is the k-th element of S for k < |S|; has_next() is true exactly while k < |S|; once exhausted value() returns p; the enumerator never writes outside its own 65536-entry buffer.", "quantifier": "every valid list S, every address, every past-the-end value, every number of steps k <= |S|, every previous state of the enumerator; 31 readable bytes behind the encoding (C39 says exactly how many are needed)", "why_tests_cant": "A history property over all chunk boundaries, and a memory-safety property of over-wide SIMD stores.", "anchors": ["include/enumerator.hpp", "include/decode.hpp: decode_chunk"]}
{"id": "C10", "title": "next_geq_enumerator on non-decreasing queries", "statement": "For every valid S and every non-decreasing sequence of uint32 queries, each call returns what a fresh next_geq would return. (Holds when S has at most 32 non-empty chunks, or when every query after the first stays less than 32 chunk ids ahead of the previous answer; false in general: a stale skip pointer makes it return values not in S.)", "quantifier": "every valid list S, every finite non-decreasing history of queries", "why_tests_cant": "The failing histories need an unaligned position followed by a jump of more than 32 chunks; the test advances by one value at a time and never jumps.", "anchors": ["include/next_geq_enumerator.hpp", "include/s_sequence.hpp: iterator::skip_to_value"]}
{"id": "C11", "title": "pairwise_intersection computes the intersection", "statement": "For all valid L and R stored in memory (possibly the same sequence), pairwise_intersection returns the number of common elements and leaves exactly the common elements, in increasing order, in out[0..n).", "quantifier": "every pair of valid lists, every placement, every previous content of the output buffer and of the function's static scratch; 31 readable bytes behind the encodings and 23 spare words in the output buffer (C42 and C46 say exactly what is needed)", "why_tests_cant": "Nine chunk-kind pairs times four block-kind pairs times SIMD size classes; all overlaps.", "anchors": ["include/intersection.hpp", "include/util.hpp: and_bitmaps, OPERATE_BITMAPS"]}
{"id": "C12", "title": "pairwise_union computes the union", "statement": "For all valid L and R stored in disjoint memory or the same sequence, pairwise_union returns the number of distinct elements in L or R and leaves exactly those, in increasing order, in out[0..n).", "quantifier": "every pair of valid lists, every placement, every previous content of output buffer and static scratch; 31 readable bytes behind the encodings and 23 spare words in the output buffer (C42 and C46 say exactly what is needed)", "why_tests_cant": "As for intersection; in addition the tail test compares a pointer of one list against the end of the other (r != end_l), harmless only because of the memory layout.", "anchors": ["include/union.hpp"]}
{"id": "C13", "title": "intersection of many sequences", "statement": "For every vector of one or more valid sequences, intersection returns the number of values common to all and leaves exactly them in increasing order in out[0..n) without writing any other word; this does not depend on how std::sort orders sequences of equal cardinality.", "quantifier": "every non-empty vector of valid lists, every placement, every outcome of the sort, every previous static scratch", "why_tests_cant": "Round-robin candidate search with repeated skips over any number of lists; iteration histories are unbounded.", "anchors": ["include/intersection_many.hpp", "include/uncompress_chunk_and_intersect.hpp"]}
{"id": "C14", "title": "union_many of many sequences", "statement": "For every vector of one or more valid sequences, union_many returns the number of values present in at least one and leaves exactly them in increasing order in out[0..n) without writing any other word.", "quantifier": "every non-empty vector of valid lists, every placement, every previous static scratch", "why_tests_cant": "Any number of lists, any interleaving of their chunks.", "anchors": ["include/union_many.hpp", "include/uncompress_chunk_and_merge.hpp"]}
{"id": "C15", "title": "Index build, save and mmap round trip", "statement": "For every well-formed collection file whose selected lists are valid, building an index, saving it and mapping the file back gives size() = number of selected lists, universe() = the universe in the collection header, and operator[](i) decodes to the i-th selected list in collection order.", "quantifier": "every universe and every finite list of lists, every filter parameters; 31 readable bytes behind the file and 23 spare words in the output buffer (C34 and C39 say exactly what is needed)", "why_tests_cant": "Offsets of arbitrarily many variable-length encodings must line up through two serialisation formats.", "anchors": ["include/builder.hpp: s_index::builder::build, visit", "include/s_index.hpp: mmap, operator[], size, universe"]}
{"id": "C16", "title": "What the collection filter keeps", "statement": "Exact behaviour of pass: an empty list is never kept; every list longer than the size parameter is kept whatever the density parameter; a list not longer than the size parameter is kept iff the density parameter is >= 0 and the IEEE double nearest to n/last is greater than the density. Consequently with the default size 0, --density filters out nothing but empty lists.", "quantifier": "every density double (incl. NaN/negative/infinite), every size, every n and last value in uint32", "why_tests_cant": "IEEE division by a zero last element, NaN and infinity are corner cases tests do not reach.", "anchors": ["include/util.hpp: pass, parameters", "src/build.cpp"]}
{"id": "C17", "title": "Reported size equals bytes written", "statement": "For every index build, the reported statistics bits equal 8 times the exact length of the saved file; for a single sequence build they equal 8 times the length of the encoding plus 128.", "quantifier": "every valid collection; every valid list", "why_tests_cant": "The counter is an independent computation from the bytes written and must agree on all layouts.", "anchors": ["include/builder.hpp: encode_sequence, build", "include/building_util.hpp: block_bitsize, sparse_chunk_bitsize"]}
{"id": "C18", "title": "Statistics account for every chunk, block and integer", "statement": "After a successful build every counter except bits (see C17) equals a closed form of the values: sequences, integers, chunks = max/65536+1 per list, the numbers of empty, sparse, dense and full chunks, of empty, listed and bitmapped blocks up to the last non-empty one of each sparse chunk, the integers in each of them, the header and data bits, and the three histograms (blocks per cardinality, chunks and integers per number of blocks). Hence the accounting identities: sparse+dense+full+empty = chunks, integers in sparse, dense and full chunks sum to integers, integers in sparse and dense blocks sum to integers in sparse chunks, and each histogram sums to its counter.", "quantifier": "every valid list", "why_tests_cant": "Universal accounting identities.", "anchors": ["include/util.hpp: statistics", "include/builder.hpp", "include/building_util.hpp"]}
{"id": "C19", "title": "Bytes read outside the encoding", "statement": "contains, select, next_geq, uncompress, cardinality and union_many/intersection read only bytes of the encodings they are given. decode, enumerator, pairwise_intersection and pairwise_union may read up to 31 bytes past the end of an encoding and never more; that over-read does happen (so decoding an encoding at the very end of readable memory is undefined).", "quantifier": "every valid list (pair), every placement", "why_tests_cant": "Out-of-bounds 16-byte vector loads are invisible to tests unless the encoding abuts an unmapped page.", "anchors": ["include/decode.hpp: decode_sparse_block", "include/intersection.hpp: INIT, ADVANCE", "include/union.hpp"]}
{"id": "C20", "title": "Words written outside the result", "statement": "decode, pairwise_intersection and pairwise_union write nothing outside out[0..n+23) where n is the returned count, and leave everything else unchanged; the bound is exact (buffers of n+22 words exist that are overflowed), so a buffer sized exactly to size(), as in src/example.cpp, is overflowed.", "quantifier": "every valid list (pair), every buffer", "why_tests_cant": "A heap overflow by a few words usually goes unnoticed.", "anchors": ["include/decode.hpp: decode_sparse_block", "src/example.cpp", "src/decode.cpp", "include/union.hpp: ss_union_block"]}
{"id": "C21", "title": "Scratch buffers carry no state between calls", "statement": "The function-local static scratch buffers never influence results: in any single-threaded history of set operations every call returns what it returns in isolation.", "quantifier": "every finite sequence of calls, every initial scratch content", "why_tests_cant": "A property of all call histories.", "anchors": ["include/intersection.hpp: ds_intersect_chunk", "include/union.hpp: ds_union_block, ds_union_chunk", "include/intersection_many.hpp", "include/union_many.hpp", "include/uncompress_chunk_and_intersect.hpp", "include/uncompress_chunk_and_merge.hpp"]}
{"id": "C22", "title": "Concurrent set operations share scratch", "statement": "Two threads intersecting sequences concurrently should each obtain their own result. Because the scratch vector of ds_intersect_chunk is shared static storage this is false: any two threads that both intersect a chunk stored as a bitmap with one stored as blocks have an interleaving (even with atomic word accesses) in which one of them returns the values common to its bitmap and the other thread's blocks. It is true if at most one thread ever intersects such a pair of chunks; all other code paths of pairwise_intersection touch no shared storage.", "quantifier": "any number of threads, every interleaving of their accesses to the shared vector, all valid sequences", "why_tests_cant": "Depends on the schedule.", "anchors": ["include/intersection.hpp: ds_intersect_chunk (static x)"]}
{"id": "C23", "title": "Point queries agree with each other", "statement": "For every valid S: contains(select(i)) for i < size(); next_geq(select(i)) = select(i); next_geq(select(i)+1) = select(i+1) or not found; for v < 2^32-1, contains(v) iff next_geq(v) = v; so S can be enumerated through next_geq alone.", "quantifier": "every valid list, every rank and value", "why_tests_cant": "Cross-operation laws over all inputs.", "anchors": ["include/select.hpp", "include/contains.hpp", "include/next_geq.hpp"]}
{"id": "C24", "title": "Encodings are self-delimiting, relocatable and appended", "statement": "build is deterministic and injective (different valid lists never get the same bytes, nor is one encoding a proper prefix of another); building twice into one builder leaves the first encoding unchanged in front.", "quantifier": "every pair of valid lists, every previous builder content", "why_tests_cant": "Universal over pairs of lists.", "anchors": ["include/builder.hpp: encode_sequence, s_sequence::builder"]}
{"id": "C25", "title": "Size bound of the encoding", "statement": "For every valid S with c non-empty chunks the encoding takes exactly 2 + 8*(c/32) + 8*c bytes plus, per chunk, 0 if it is full, 8192 if it has 32768 values or more, and otherwise the smaller of 8192 and the sum over its non-empty blocks of 2 + n bytes (n < 31 values) or 34 bytes; hence at most 8192 data bytes per chunk and 3 per value. The builder does not always pick the smallest representation: 128 complete blocks take 8192 bytes instead of 4352.", "quantifier": "every valid list", "why_tests_cant": "Worst case over all inputs.", "anchors": ["include/builder.hpp: encode_sequence"]}
{"id": "C26", "title": "Set-operation laws", "statement": "pairwise_intersection and pairwise_union are commutative, idempotent (equal to decode), their outputs are strictly increasing (so they can be built again), and |L and R| + |L or R| = |L| + |R|; the many-sequence operations on two sequences agree with the pairwise ones.", "quantifier": "every pair of valid lists", "why_tests_cant": "Algebraic laws over all inputs.", "anchors": ["include/intersection.hpp", "include/union.hpp", "include/intersection_many.hpp (8-100)", "include/union_many.hpp (8-90)"]}
{"id": "C27", "title": "No assertion fails on valid input", "statement": "With assertions enabled, no assert in the builder or any query fires on valid input, i.e. debug and release builds return the same results.", "quantifier": "every valid list (vector), every query", "why_tests_cant": "Assertions state invariants for all executions.", "anchors": ["include/*.hpp: assert"]}
{"id": "C28", "title": "Printing statistics", "statement": "statistics::print should be well defined after any build; it is not: unless every possible block count 1..256 occurs among the sparse chunks, it converts a NaN to an unsigned integer, which is undefined behaviour. Exact condition proved. When it is defined, the complete list of numbers it writes (counts, percentages, bits per integer, averages, expected values) is determined by the values of the lists and the size of the file.", "quantifier": "every statistics record reachable by a build", "why_tests_cant": "The undefined conversion yields an ordinary-looking number on common hardware.", "anchors": ["include/util.hpp: statistics::print"]}
{"id": "C29", "title": "Byte format of sequences and index files", "statement": "For every valid list the builder appends exactly the bytes of the documented format (chunk count, skip pointers, headers, full/dense/sparse chunk data), a saved sequence is its 64-bit length followed by these bytes, and a saved index is the word count, universe, offsets of the kept lists, byte count and the concatenated sequences; independent of build mode and of what was built before.", "quantifier": "every valid list, every collection and filter parameters", "why_tests_cant": "A test compares a few encodings or only round-trips them, so a change made consistently in writer and reader, or in a rarely used representation, goes unnoticed; files written before the change become unreadable.", "anchors": ["include/builder.hpp:13-221", "include/builder.hpp:223-300", "include/s_index.hpp:23-44"]}
{"id": "C30", "title": "Test programs for one sequence accept a correct index", "statement": "On the index built from the same collection, check of test_decode, test_contains, test_select, test_enumerator, test_next_geq, test_next_geq_enumerator and test_uncompress reports success for every kept list, provided the buffers the programs allocate (universe words) are large enough and, for next_geq, every list ends more than 1000001 below 2^32. test_decode and test_uncompress accept the index if every kept list fits into their buffers (for decoding as in C34, for uncompressing by its last chunk and its length), and have undefined behaviour if one does not.", "quantifier": "every collection whose kept lists are valid, every filter, every position of the file in memory", "why_tests_cant": "They are the tests; nothing tests them.", "anchors": ["test/test_decode.cpp", "test/test_contains.cpp", "test/test_select.cpp", "test/test_enumerator.cpp", "test/test_next_geq.cpp", "test/test_next_geq_enumerator.cpp", "test/test_uncompress.cpp"]}
{"id": "C31", "title": "Test programs for set operations accept a correct index", "statement": "On an index built from a collection, test_intersect, test_union, test_intersect_many and test_union_many report success for every list of queries whose operands are positions of lists of the index and whose results fit into the buffers of universe words. If an operand cannot be decoded into the buffer or a result does not fit (as in C42), they have undefined behaviour instead.", "quantifier": "every collection, every list of queries, every sorting algorithm", "why_tests_cant": "They are the tests; they run on a few random queries.", "anchors": ["test/test_intersect.cpp", "test/test_union.cpp", "test/test_intersect_many.cpp", "test/test_union_many.cpp"]}
{"id": "C32", "title": "What a successful test run means", "statement": "If test_decode, test_select, test_contains or test_next_geq report success for an index built from possibly another collection, the kept lists of the tested collection are exactly the first lists of the index. A success of test_enumerator only says that they are beginnings of them (padded with the universe if longer).", "quantifier": "every pair of collections and filters", "why_tests_cant": "A passing test does not say what it excludes.", "anchors": ["test/test_decode.cpp", "test/test_select.cpp", "test/test_contains.cpp", "test/test_next_geq.cpp", "test/test_enumerator.cpp"]}
{"id": "C33", "title": "Limits of the test programs", "statement": "The test programs should decide whether an index is correct; they do not. test_enumerator accepts every index whose lists extend those of the collection; test_next_geq never reports success for a correct index with a list ending at or above 2^32 - 1000001; test_uncompress writes outside its bitmap for universes from 2^32 - 65536 on, because its size is computed in 32 bits; test_decode writes outside its buffer for lists almost as long as the universe.", "quantifier": "every collection meeting the stated condition", "why_tests_cant": "The defect is in the tests.", "anchors": ["test/test_enumerator.cpp", "test/test_next_geq.cpp", "test/test_uncompress.cpp:41-42", "test/test_decode.cpp"]}
{"id": "C34", "title": "Exact size of the output buffers of decode and uncompress", "statement": "decode is well defined exactly if the buffer holds all values and, for every block of at most 8 values in a chunk stored as blocks, 8 words from the rank of the block on, and 32 words if it has 9 to 30 values; then the result is exact, otherwise it writes outside the buffer. uncompress is well defined exactly if the buffer has 1024 words for every chunk up to the last one.", "quantifier": "every valid list, every buffer and position", "why_tests_cant": "A write past a buffer is usually silent, and the tests use buffers of universe words.", "anchors": ["include/decode.hpp:8-116", "include/uncompress.hpp"]}
{"id": "C35", "title": "The programs in src/", "statement": "On a file built from a collection: cardinality.cpp prints the number of values; decode.cpp and uncompress.cpp print the numbers of lists and values exactly if every list fits into their buffers and otherwise write outside them; contains.cpp prints four times the number of positive answers, select.cpp and next_geq.cpp four times the sum of the answers and read outside their vector of queries exactly if there are too few of them (or 2^32 or more per list); intersect.cpp and union.cpp print eleven times the sum of the sizes if every result fits into universe words as in C42, and otherwise write outside them; build.cpp saves the file of C29 and prints the numbers of C28; example.cpp succeeds exactly if its output vector, of as many words as values, is large enough and printing is defined. On lists that the builder refuses (C44) example.cpp ends with the exception, the abort or undefined behaviour; without assertions it returns 0 for a valid list followed by values above the chunk of the last one, although these are not stored.", "quantifier": "every collection with valid kept lists, every input of queries", "why_tests_cant": "The programs are not run by any test, and reads past a vector are silent.", "anchors": ["src/cardinality.cpp", "src/decode.cpp", "src/uncompress.cpp", "src/contains.cpp", "src/select.cpp", "src/next_geq.cpp", "src/intersect.cpp", "src/union.cpp", "src/build.cpp", "src/example.cpp"]}
{"id": "C36", "title": "The programs in tools/", "statement": "Over all outcomes of their random generators: gen_uniform_data and gen_clustered_data can write exactly the collections described (strictly increasing lists with values from 0 to the universe inclusive; for clustered data, unions of empty, complete or sampled slices), an index can be built of each of them, but a list of all values 0..universe makes decode.cpp write past its buffer; gen_clustered_data never ends for universes above 2^32 - 2^16 and in text mode writes more values than it announces; gen_random_select_queries writes exactly existing ranks and gen_random_next_geq_queries exactly stored values (or writes past its buffer), so that select.cpp and next_geq.cpp print the sums of these; gen_random_pairwise_queries writes exactly pairs of positions.", "quantifier": "every argument, every sequence of random numbers", "why_tests_cant": "The programs are not run by any test, and random data show neither which outputs are impossible nor the rare bad ones.", "anchors": ["tools/gen_uniform_data.cpp:10-34", "tools/gen_clustered_data.cpp:17-111", "tools/gen_random_select_queries.cpp:11-29", "tools/gen_random_next_geq_queries.cpp:12-31", "tools/gen_random_pairwise_queries.cpp:5-10"]}
{"id": "C37", "title": "Building from malformed collections", "statement": "Every file of at least two 32-bit words is two words, complete lists and possibly a cut-off list. s_index::builder::build checks the first word only in debug builds, where anything but 1 aborts; otherwise the word has no influence. Files of fewer than two words and files ending within a list are read past their end, and no index comes out. A list of 2^32-1 words makes the position advance by zero: no index comes out, and the builder never ends if the filter drops that list.", "quantifier": "every finite file of 32-bit words, every filter parameters, both build modes", "why_tests_cant": "The collections the tests use are well formed, and the 32-bit sum wraps only for a list of 16 GiB.", "anchors": ["include/builder.hpp: s_index::builder::build (227-256)"]}
{"id": "C38", "title": "Where the skips of next_geq_enumerator land", "statement": "A skip over 32 chunks from chunk number b adds to the data pointer the size of the run of 32 chunks whose turn it is in the list of skip pointers, not that of the 32 chunks passed: after answering at chunk b, the move to chunk b+32 is off by exactly the difference of the two sizes. If every query of a non-decreasing history skips as many bytes as it should, all answers are those of a fresh next_geq; this is so for every history if chunks 32 apart occupy equally many bytes. Otherwise the enumerator can read outside the encoding, beyond the 31 further bytes that the other operations may touch.", "quantifier": "every valid list S, every memory that holds its encoding, every finite non-decreasing history; every chunk number b with a chunk 32 later", "why_tests_cant": "The tests never skip from a position that is not a multiple of 32, and an overread of a mapped file goes unnoticed.", "anchors": ["include/s_sequence.hpp: iterator::skip_to_value (113-121)", "include/next_geq_enumerator.hpp (23-110)"]}
{"id": "C39", "title": "Exactly how many readable bytes decode and enumerator need", "statement": "Whether decode of a valid list stays inside the memory is decided by the values alone: a block of at most 8 values in a chunk stored as blocks needs 16 readable bytes from the start of its data, a block of 9 to 30 values needs 40, everything else only its own bytes. If every block has them (and the output buffer is large enough in the sense of C34) decode writes exactly the list; otherwise it reads behind the memory or writes behind the buffer. 31 readable bytes after the encoding are always enough, and not 30. After k calls of next an enumerator has needed exactly what the chunks up to that of the k-th value need.", "quantifier": "every valid list S, every memory that holds its encoding with any number of bytes behind it (also none), every output buffer and position, every number of calls k < |S| + 2^32", "why_tests_cant": "An overread is invisible unless it crosses into an unmapped page; the tests read memory-mapped files whose last page is zero-filled.", "anchors": ["include/decode.hpp (26-116)", "include/enumerator.hpp (8-42)"]}
{"id": "C40", "title": "On arbitrary bytes every reading operation ends", "statement": "Whatever bytes a sequence, or the file of an index, consists of (truncated, overwritten, chunk ids out of order), every operation on it ends: opening the index, taking a sequence, contains, select, next_geq, size, decode, uncompress, an enumerator and any history of a next_geq_enumerator, the pairwise and the n-ary intersection and union. No loop runs forever, no exception is thrown, and a build without assertions does not abort: the outcome is a result or an access outside memory.", "quantifier": "every memory of bytes, every address, every argument, every output buffer and content of the static buffers, every number and order of sequences; with and without assertions", "why_tests_cant": "The tests only read files written by the builder; the space of corrupted files is unbounded and an endless loop cannot be observed.", "anchors": ["include/s_sequence.hpp (16-158)", "include/contains.hpp", "include/select.hpp", "include/next_geq.hpp", "include/next_geq_enumerator.hpp", "include/decode.hpp", "include/enumerator.hpp", "include/uncompress.hpp", "include/intersection.hpp", "include/union.hpp", "include/intersection_many.hpp", "include/union_many.hpp", "include/s_index.hpp (23-37)"]}
{"id": "C41", "title": "What next_geq_enumerator answers to queries in any order", "statement": "A next_geq_enumerator never goes back, and for queries in any order (not only non-decreasing ones) its answers are exactly those of a cursor described by the values and the queries alone: the cursor is the start of a chunk, or, once a query pointed inside a chunk that is stored as blocks, the start of the block of the last such answer; a query up to the start of the current chunk gets the first value of that chunk, a later one gets the first value that is not below the query nor below the cursor; once 'not found' has been answered every query but 0 gets 'not found'. Hence asking for a stored value can be answered with a later one, and asking for 0 after 'not found' reads a header that does not exist: it can return a value that is not stored or be undefined.", "quantifier": "every valid sequence, every memory holding it, every history of 32-bit queries in which 0 is not asked after 'not found' and, if there are more than 32 chunks, no query goes 32 chunk ids beyond the previous answer; with and without assertions", "why_tests_cant": "test_next_geq_enumerator only asks increasing values; the number of histories is unbounded.", "anchors": ["include/next_geq_enumerator.hpp (23-110)", "include/s_sequence.hpp (74-158)", "include/next_geq.hpp"]}
{"id": "C42", "title": "Exactly how large the output buffers of the set operations must be", "statement": "Whether an output buffer is large enough for the intersection or the union of two sequences is decided by the two lists alone. Intersection: two blocks of at most 16 values each need 8 or 16 words at the place of their result, a block of more than 16 but at most 30 against a smaller one the same twice, a listed block against a bitmap one word more than the matches of all but its last value, a block that meets a full chunk what decoding it needs; everything else only the words of the result. Union: a block present in one operand only needs what decoding it needs; two listed blocks need their union and what decoding the longer tail needs, and 8 words more when the right one ends first or both end together; everything else only the words of the result. If the buffer has them, the result is exact; otherwise the operation writes outside the buffer. A sequence united with itself, and the operations on any number of sequences, need exactly the words of the result. 23 words more than the result are always enough.", "quantifier": "all valid lists, every memory holding their encodings with 31 readable bytes behind (none for the operations on many), every output buffer and position, every content of the static buffers; with and without assertions", "why_tests_cant": "The test programs give every operation a buffer of universe words; a write a few words behind a vector goes unnoticed.", "anchors": ["include/intersection.hpp", "include/union.hpp", "include/intersection_many.hpp", "include/union_many.hpp", "include/decode.hpp (26-66)"]}
{"id": "C43", "title": "What the builder makes of lists that are not increasing", "statement": "The builder cuts the list into one piece for each chunk up to the chunk of its LAST value: a piece ends at the first value above its chunk, and what follows the last piece is dropped. If no piece has two equal neighbours and each piece fits (at most 65536 values, at most 256 blocks of at most 256 consecutive values when stored sparsely, no value below the chunk when stored as a bitmap), building without assertions succeeds and decode gives back, piece by piece, the values with their low 16 bits and the number of the chunk they were taken for; up to 30 consecutive values of a block in the order given, more of them as a set. With assertions the result is the same if no value lies below its chunk and none is dropped; otherwise the build aborts and writes nothing. In particular up to 30 values of one chunk are accepted in any order in both builds, and then contains and next_geq can be wrong; a valid list followed by values above the chunk of the last one gives the bytes of the valid list; if every value is dropped the bytes are 255 255. The statistics count the dropped values among the integers.", "quantifier": "all non-empty lists of values below 2^32 - 2^16 whose pieces fit, in any order; every previous content of the builder; every memory with 31 readable bytes behind the encoding, every buffer with 23 words to spare; with and without assertions", "why_tests_cant": "The tests only build from sorted lists, and no such input is rejected with a message; a value wrongly placed needs up to 2^24 loop iterations to appear.", "anchors": ["include/builder.hpp (31-202)", "include/building_util.hpp (34-100)", "include/decode.hpp"]}
{"id": "C44", "title": "Building ends on every list, with a known outcome", "statement": "Building one sequence ends whatever the values are. It throws only if two neighbours are equal, aborts only with assertions, and in both cases leaves the bytes of the builder as they were; otherwise it appends to them or has undefined behaviour, and the latter happens only for the empty list or a list that descends somewhere. Without assertions the outcome is exactly this: the pieces of C43 are looked at in order (values from 2^32 - 2^16 on are taken for no piece); the first one with two equal neighbours, more than 256 blocks in a sparse piece, or a value below a piece stored as a bitmap decides: an exception in the first case, undefined behaviour in the others; if there is none the build succeeds. With assertions the first piece decides that has two equal neighbours, a value below the piece, more than 65536 values, more than 256 neighbouring values of one block in a piece of fewer than 32768 values, or more than 256 blocks in a sparse piece: an exception if two neighbours are equal before any value lies below the piece, otherwise an abort; if there is none the build aborts exactly if a value is dropped. So with assertions only the empty list is undefined. Equal neighbours among dropped values do not throw. Building an index from at most 2^32 + 1 words also ends, throws only if two neighbouring words are equal, and aborts only with assertions, whatever the lengths in the collection say.", "quantifier": "all lists; the exact outcome with and without assertions for all non-empty lists of 32-bit words shorter than 2^32; the index for all collections of at most 2^32 + 1 32-bit words and all filter parameters", "why_tests_cant": "The tests build from valid collections only; undefined behaviour needs tens of thousands of unordered values and shows no symptom.", "anchors": ["include/builder.hpp (31-281)", "include/building_util.hpp (15-100)", "include/util.hpp (129-134)"]}
{"id": "C45", "title": "Threads and the eight static buffers", "statement": "A thread that calls intersection, union, intersection_many and union_many in any order, uninterrupted, gets the results each call has on its own, whatever the static buffers contain. With any number of threads, in every interleaving of their accesses to the buffers, every finished thread has these results too, provided no two calls of different threads are of the same operation, or, for the pairwise operations, one of the two does not need the shared buffer (no chunk kept as blocks on one side and as a bitmap on the other; for union also no block kept as bytes on one side and as a bitmap on the other). Without this proviso it fails for each operation: for sequences within one chunk there is always an interleaving in which the first thread returns its bitmap intersected (united) with the blocks of the second, respectively the complete n-ary intersection or union of the second thread instead of its own, and has undefined behaviour if that does not fit its output buffer, although its own result would.", "quantifier": "all numbers of threads and calls, all operands, all contents of the buffers, all interleavings, with and without assertions; the races for all sequences that lie in one chunk", "why_tests_cant": "The tests are single-threaded, and the interleavings in question are rare.", "anchors": ["include/intersection.hpp (185-192)", "include/union.hpp (62-69, 158-165)", "include/intersection_many.hpp (14-73)", "include/union_many.hpp (8-45)", "include/uncompress_chunk_and_intersect.hpp (35-45)", "include/uncompress_chunk_and_merge.hpp (7-49)"]}
{"id": "C46", "title": "Exactly how many readable bytes the pairwise set operations need after the encodings", "statement": "Whether the memory behind the two encodings is long enough is decided by the two lists alone. Intersection: of two blocks kept as bytes, one of at most 16 values is read with 16 bytes, one of more than 16 values with 32 bytes if the other has at most 16; a chunk kept as blocks that meets a full one is read as decoding does; everything else is read without leaving the encoding. Union: a block present in one operand only is read as decoding does (16 bytes for at most 8 values, 40 for 9 to 30), unless the other operand keeps the chunk as a bitmap or is full there; of two blocks kept as bytes the values left when the other ends are read as decoding does, those of the right one even if none are left; the block of the operand with fewer blocks in the chunk is the left one, that of the second operand if they are equal. If these bytes exist and the output buffer suffices (C42), the result is exact; otherwise the operation leaves the memory or the buffer. A sequence united with itself is read without leaving its encoding. 31 bytes are always enough.", "quantifier": "all valid lists, every memory holding their encodings (for the union of two sequences: not overlapping) with any number of bytes behind them, every output buffer and position, every content of the static buffers; with and without assertions", "why_tests_cant": "The tests run on vectors whose capacity exceeds their size or whose neighbouring heap bytes are readable, so reading a few bytes too far goes unnoticed.", "anchors": ["include/intersection.hpp (46-273)", "include/union.hpp (9-257)", "include/decode.hpp (26-66)"]}
{"id": "C47", "title": "From the text on standard input to the result", "statement": "A program that reads pairs of numbers (contains, intersect, union and the tests of pairs) reads the given number of them whatever follows, or, if the text ends before, all of them without a last single number; select and next_geq read single numbers in the same way. Blanks, signs and leading zeros do not matter. If something that is no number comes before enough numbers have been read, an uninitialised query is used: undefined behaviour. So is a number outside the range of int, by the C standard; with glibc its low 32 bits are taken. The numbers reported by contains, select, next_geq, intersect and union (C35) are thereby functions of the index and the text. What the query generators print is read back as exactly the queries drawn, and a random next_geq workload on an index with a value from 2^31 on can make next_geq.cpp undefined by the C standard. The *_many tests read a query per line, without repetitions and up to the first thing that is no number; with assertions a line without a number aborts. example.cpp reads a count and that many values; with too few values it throws or, if there is none, has undefined behaviour; after something that is no number the values are 0. It reads back the list which gen_clustered_data wrote as text.", "quantifier": "all texts made of integers, blanks and arbitrary rests, all numbers of queries, all indexes of valid lists, all tapes of random numbers; conversions by the C standard and by glibc", "why_tests_cant": "No test reads malformed or truncated text, and the workloads in use are far from the limits of int.", "anchors": ["src/contains.cpp (34-60)", "src/select.cpp (11-69)", "src/next_geq.cpp (11-67)", "src/intersect.cpp (37-63)", "src/union.cpp (37-63)", "src/example.cpp (28-40)", "test/test_intersect.cpp (56-86)", "test/test_common.hpp", "test/test_intersect_many.cpp (95-121)", "test/test_union_many.cpp (108-134)", "tools/gen_random_pairwise_queries.cpp (1-21)", "tools/gen_random_select_queries.cpp (1-41)", "tools/gen_random_next_geq_queries.cpp (1-43)", "tools/gen_clustered_data.cpp (70-133)"]}
{"id": "C48", "title": "Command lines", "statement": "build uses for --density, --size and --out the last value given, the default if there is none, and ignores every other word; a value may itself look like an option. An option that is the last word has undefined behaviour; a density that is no number throws; a size that is no int is undefined by the C standard, and one that is no number is 0. The same holds for the tests of single sequences, without --out. example uses the last -o, fails on any other word, and -o as the last word is undefined. A number of queries that is no number or has more than 64 bits throws, as does one for which more memory would be requested than a vector can have, such as -1. The generators of data and queries read their numbers by atoi, so a word that is no number counts as 0; the text or binary form is chosen by --binary anywhere behind the first three words. With too few words each of these programs does nothing but print its usage. Words that are no options leave all parameters at their defaults and save no file, as in the command lines of script/build.py.", "quantifier": "all command lines, all files, all interpretations of words as doubles; conversions by the C standard and by glibc", "why_tests_cant": "Command lines are not tested at all.", "anchors": ["src/build.cpp (21-51)", "src/example.cpp (11-26)", "test/test_common.hpp", "src/contains.cpp (34-60)", "src/select.cpp (55-69)", "tools/gen_uniform_data.cpp (36-54)", "tools/gen_clustered_data.cpp (113-133)", "tools/gen_random_pairwise_queries.cpp (12-21)", "script/build.py"]}
{"id": "C49", "title": "The text written by build", "statement": "On standard output an unsigned integer is its decimal digits without leading zeros, and a double is the decimal number of six significant digits that is nearest to it (ties to an even digit), without trailing zeros, and with an exponent of at least two digits exactly if it is below 1/10000 or not below 1000000. The output of build is the universe size, a line of progress for each 1000 lists kept, and the lines of statistics::print with the counters of the collection (C17, C18); it is undefined if the collection has no chunk stored as blocks with some number of blocks between 1 and 256 (C28). The text is determined by the values of the lists.", "quantifier": "all doubles, all collections whose kept lists are valid and have fewer than 2^37 values, all parameters, with and without assertions", "why_tests_cant": "The tests do not look at the output, and rounding and the choice of the format depend on the value of each number.", "anchors": ["include/util.hpp (151-242)", "include/builder.hpp (236, 249-252)", "src/build.cpp (9-13)"]}
{"id": "C50", "title": "The numbers printed by build are exact to five digits", "statement": "Every quotient, percentage and average that build prints is a decimal number of at most six digits that differs from the exact fraction of the counters by at most 0.0000051 of it, although it is computed by up to 768 operations on doubles, and in two different ways for percentages; 0 is printed as 0, and the quotients of 0 by 0 (which occur on collections without sparse blocks) as NaN. Integers are exact. The text can be read back: different integers have different texts, and two doubles of the same sign with the same text are rounded to the same number of six digits.", "quantifier": "all collections whose kept lists are valid and have fewer than 2^36 values, all parameters, with and without assertions; single quotients, percentages and averages of all integers below 2^53", "why_tests_cant": "The tests do not look at the output; rounding errors depend on every number and on the order of the operations.", "anchors": ["include/util.hpp (151-242)", "src/build.cpp (9-13)"]}
{"id": "C51", "title": "Alignment of the words of an index", "statement": "In an index mapped at an address divisible by 8 the addresses of the headers of a list and of the data of each of its chunks are determined modulo 8 by the cardinalities of the blocks: every list adds 2, every block of a chunk stored as blocks 2, and every value in a block of fewer than 31 values 1. Hence the 32-bit skip pointers of the first list are never aligned, and neither are the 64-bit words of its bitmaps up to the first chunk of blocks; the 16-bit headers of a list lie at odd addresses exactly if the lists before it have an odd number of listed values; and in an index without chunks of blocks only every fourth list has aligned bitmaps.", "quantifier": "all collections whose kept lists are valid, all parameters, all lists of the index and all their chunks", "why_tests_cant": "The tests run on machines that allow unaligned access, where this is not visible; a sanitizer shows it for the addresses of one run.", "anchors": ["include/s_sequence.hpp (16-25)", "include/s_index.hpp (23-37)", "include/util.hpp (16-31)", "include/decode.hpp (77-97)"]}
{"id": "C52", "title": "Damage to a chunk stays in that chunk", "statement": "Operations read only the head of a sequence (number of chunks, skip pointers, chunk headers) and the data of the chunks they need; their results stay right however all other bytes are changed, and even if they are missing. size needs the head only; contains the data of the chunk of the value; select that of the chunk of the selected value; next_geq those of the chunks of the bound and of the result; the intersection of two or of many sequences those of the chunks that occur in all operands. Damage inside the chunk of the value is not detected, not even in debug mode: contains then gives wrong answers.", "quantifier": "all valid lists, all contents of the bytes that may be wrong, all arguments, debug and release builds", "why_tests_cant": "Tests run on intact data; that no other byte has any influence is a statement about all contents of those bytes.", "anchors": ["include/contains.hpp (57-76)", "include/select.hpp (77-101)", "include/next_geq.hpp (142-176)", "include/intersection.hpp (194-273)", "include/intersection_many.hpp (5-73)", "include/s_sequence.hpp (27-133)"]}
{"id": "C53", "title": "What the programs print", "statement": "A test program for single sequences that compares the lists of a collection with those of an index writes the universe, then for every list one line for each difference and, after every 1000 lists, its progress, then the number of lists, and 'everything good' if and only if there was no difference; nothing else. It writes no difference when the index holds the collection. For any index and collection, right or wrong, the text agrees with the verdict. The programs for set operations write the number of queries and the sizes of the results. cardinality, decode, uncompress, contains, intersect, union, select and next_geq write the number of sequences or queries, the integers or the checksum, and times computed from what the timer measured. example writes the statistics of its sequence and, if a value differs, which was got and which was expected, and returns 1. With too few words every program writes its usage and returns 1.", "quantifier": "all indexes and collections (lists of the collection may differ from those of the index), all queries and command lines, all times, debug and release builds", "why_tests_cant": "Nothing tests what the test programs say; that every difference is reported and nothing else is a statement about all pairs of lists.", "anchors": ["test/test_decode.cpp (12-64)", "test/test_contains.cpp (12-57)", "test/test_select.cpp (12-65)", "test/test_enumerator.cpp (12-53)", "test/test_next_geq.cpp (12-74)", "test/test_next_geq_enumerator.cpp (12-76)", "test/test_uncompress.cpp (30-88)", "test/test_intersect.cpp (12-81)", "test/test_union.cpp (10-73)", "test/test_intersect_many.cpp (57-121)", "test/test_union_many.cpp (70-134)", "src/cardinality.cpp (10-42)", "src/decode.cpp (11-46)", "src/uncompress.cpp (11-50)", "src/contains.cpp (11-60)", "src/intersect.cpp (11-63)", "src/union.cpp (11-63)", "src/select.cpp (11-69)", "src/next_geq.cpp (11-67)", "src/example.cpp (39-88)"]}
{"id": "C54", "title": "Exactly which shuffle tables make intersections right", "statement": "table.hpp, with the table shuffle_mask, is not in the repository. A table with 16 bytes for every mask of 16 bits makes every intersection of two sequences right if and only if, for every mask and every k, byte k of the entry has top bit 0 and as its last four bits the position of the k-th one of the mask; the other bits of these bytes and the bytes behind the last one do not matter. With any table of 16 bytes for every mask an intersection is defined and returns the right number of values: an error in the table shows only in the values. The entry of one mask can be tested with one intersection of 1..16 with the values given by the ones of the mask. Every call of the library does the same with each right table.", "quantifier": "all tables, masks, pairs of sequences, memories, output buffers, debug and release builds", "why_tests_cant": "There are 65535 masks with a one; a test shows only the entries of the masks it happens to meet, and the count is right even when they are wrong.", "anchors": ["include/intersection.hpp (9)", "include/intersection.hpp (21-38)", "include/intersection.hpp (40-84)", "include/intersection.hpp (104-183)", "include/intersection.hpp (194-274)"]}
{"id": "C55", "title": "Files that are cut short are not noticed until the missing bytes are touched", "statement": "Let a memory-mapped index file be cut to any number of bytes. Opening it reads 16 bytes, so from 16 bytes on it succeeds with the size and universe of the whole file and below it leaves the memory; taking the i-th sequence succeeds exactly if the bytes up to the second one of the sequence are left, and gives the same sequence. A list of which all bytes are left (with the slack an operation wants) is stored as before, so that everything proved about stored lists applies. The size of a list is right exactly if all but the last four bytes of its head are left. If the head is left, contains, select and next_geq are right as long as the data of the chunks they look into are left. decode and uncompress of a list of which even one byte is missing always leave the memory.", "quantifier": "every collection, every filter, every position at which the file is cut, every valid list and memory holding it, every query, every output buffer; with and without assertions", "why_tests_cant": "No test opens a truncated file; whether the missing bytes crash depends on how the last page is mapped, and s_index::mmap checks nothing.", "anchors": ["include/s_index.hpp (23-37)", "include/s_sequence.hpp (16-25, 45-57, 99-121)", "include/decode.hpp (58-116)", "include/uncompress.hpp (7-107)"]}
{"id": "C56", "title": "Damage stays in its chunk for uncompress and the enumerator, but spoils everything behind it for decode", "statement": "Let the head of an encoding and the data of some of its chunks be intact and the other bytes arbitrary. If uncompress ends, it returns the number of values, has written exactly the right words for every intact chunk, and has changed no word outside those of the chunks present. If k steps of the enumerator end, it has a next value exactly if k is below the number of values, and if the k-th value lies in an intact chunk the enumerator is at that value, also behind damaged chunks. If decode ends, nothing before the output position has changed and every value up to the first damaged chunk is in its place; later values may be misplaced and the returned number wrong, even in debug mode. If 8712 more bytes are readable behind the encoding, all three end without leaving their buffers, whatever the damaged bytes are.", "quantifier": "every valid list, every memory of bytes in which its head and any set of its chunks are intact, every output buffer and position, every number of steps below the size plus 2^32; with and without assertions", "why_tests_cant": "The tests decode only what the builder just wrote; there are 256^n ways to damage n bytes, and nothing in the format detects them.", "anchors": ["include/decode.hpp (9-116)", "include/uncompress.hpp (7-107)", "include/enumerator.hpp (8-52)", "include/s_sequence.hpp (45-121)"]}
{"id": "C57", "title": "Queries about lists the index does not have", "statement": "With assertions, operator[] stops the program for every number not below size(); so contains.cpp, intersect.cpp and union.cpp abort at the first query that names no list of the index, and a test program that ends normally was asked about existing lists only. Without assertions nothing is checked: the number size() gives a sequence starting where the file ends, because the byte count of the encodings stands where the next offset would be; larger numbers take eight bytes of the encodings for an offset. If no byte follows the file (or one), a query about list number size() is undefined behaviour, as is every number whose offset would lie behind the memory; other numbers may be answered as if they were lists. The intersection and the union of no sequences are undefined in both builds.", "quantifier": "every collection of valid lists and every filter, every memory holding the index file, every list of queries before and after the first one that names no list; every memory for the assertion and the test programs", "why_tests_cant": "The tests use query files made for the index, so that every number is in range; and what a release build reads for a number out of range depends on the bytes of all lists.", "anchors": ["include/s_index.hpp (23-38)", "src/contains.cpp (11-60)", "src/intersect.cpp (11-62)", "src/union.cpp (11-62)", "include/intersection_many.hpp (8-24)", "include/union_many.hpp (8-21)"]}
{"id": "C58", "title": "What the set-operation tests report about wrong results", "statement": "Whatever the index file contains, if test_intersect, test_union, test_intersect_many or test_union_many ends, its output is exactly: the lines before the queries; for every query in turn (of at least two lists, for the programs for many lists, which also write the size) one line if the returned size is not the expected one, and one line for each position below the returned size at which the output differs from the buffer of expected values; the number of queries; and 'everything good' if and only if no such line was written. The numbers in each line are the position, the returned size, the expected and the returned value; behind the expected values the pair programs compare with what earlier queries left in the buffer.", "quantifier": "every memory, every list of queries, every shuffle table and sorting function, with and without assertions", "why_tests_cant": "These lines are written only when the library is wrong, so that a passing test never executes the code that writes them.", "anchors": ["test/test_intersect.cpp (12-54)", "test/test_union.cpp (10-46)", "test/test_intersect_many.cpp (57-93)", "test/test_union_many.cpp (70-106)"]}
{"id": "C59", "title": "What the scripts run", "statement": "For file names the shell leaves alone, script/queries.py runs decode, intersect, union, select and next_geq on the index three times each; if the query files hold queries that make sense for the index, every run returns 0 and writes exactly the number of lists and integers, or the number of queries, the checksum of the right answers, and its own times. This holds for the files the tools write for 1000 queries, whatever the random numbers are. If the index name contains a blank, decode runs on the first word and the other programs take the second for the number of queries and throw unless it begins with a number; if the name is empty, all write their usage and return 1. The three commands of script/build.py do the same: each builds the index of all lists that are not empty, whatever its number, and saves nothing, or has no defined behaviour if some number of values per block does not occur.", "quantifier": "every collection and filter, every memory holding the index, every plain index name and directory, every text of the three query files, every random tape, every time measured, with and without assertions", "why_tests_cant": "The scripts are not tested; the commands are strings put together from arguments, and the repetitions are only compared by a person reading the times.", "anchors": ["script/queries.py (1-21)", "script/build.py (1-8)", "src/decode.cpp (11-46)", "src/intersect.cpp (11-63)", "src/union.cpp (11-63)", "src/select.cpp (11-69)", "src/next_geq.cpp (11-67)", "src/build.cpp (21-51)"]}
{"id": "C60", "title": "Set operations on damaged sequences", "statement": "If the heads of the sequences are intact and the data of some chunks is wrong in any way, and decode, the intersection or the union of two or of any number of sequences ends, then it delivers only values of chunks that the right result may have values in, chunk after chunk in increasing order, and of every chunk that is intact in all operands exactly the right values in order; it writes nothing before the place it was given. Inside a damaged chunk a union can hold values of no operand, and twice, and no assertion notices.", "quantifier": "all sequences, all damage outside the heads, every set of intact chunks, every earlier content of the static and output buffers, every outcome of the sorting, with and without assertions", "why_tests_cant": "Tests only use encodings that are right; what an operation does with wrong bytes depends on all of them and on what earlier calls left in the static buffers.", "anchors": ["include/decode.hpp (91-116)", "include/intersection.hpp (194-274)", "include/union.hpp (167-258)", "include/intersection_many.hpp (8-74)", "include/union_many.hpp (8-45)"]}
{"id": "C61", "title": "Set operations on damaged sequences stay in bounds", "statement": "If only the heads of the sequences are intact and all other bytes are arbitrary, and 8712 more bytes can be read behind each sequence (8733 for the union of two), the intersection and the union of two or of any number of sequences end without an exception, a failed assertion or an access outside memory, the static buffers or the output buffer, provided the output buffer has room for 65536 values for each chunk the result may have values in, or, for the union of two, for each chunk of each operand. Room for the values of both lists is not enough for a union with one damaged chunk.", "quantifier": "all sequences, all bytes outside the heads, every content of the static and output buffers, every outcome of the sorting, with and without assertions", "why_tests_cant": "Which bytes are read depends on every damaged byte, and a test would have to try all of them and notice reads that happen to hit mapped memory.", "anchors": ["include/intersection.hpp (194-274)", "include/union.hpp (16-258)", "include/intersection_many.hpp (8-74)", "include/union_many.hpp (8-45)", "include/decode.hpp (9-90)"]}
{"id": "C62", "title": "Whole programs: text, files and return values", "statement": "build, started with any options on a collection file, prints its lines, changes no file but the one named last after --out, which becomes the index, and returns 0, if every number of blocks from 1 to 256 occurs; otherwise it fails before it saves anything. When it fails on a missing file, a list with a repetition or a file that ends early it has written the universe and one line for every 1000 lists encoded so far, and no file has changed. gen_uniform_data and gen_clustered_data write collections; the index build makes of them passes all test programs; example saves the sequence it read and finds it again; with too few or unknown words the programs say how to use them, return 1 and write no file.", "quantifier": "all command lines, all collections, all files on the disk, all random numbers, all places in memory, with and without assertions", "why_tests_cant": "The tests run each program's core on files that are there and right; no test looks at the text and files that a failing program leaves, or runs the programs one after the other for all inputs.", "anchors": ["src/build.cpp (9-51)", "src/example.cpp (11-89)", "include/builder.hpp (227-269)", "tools/gen_uniform_data.cpp (36-54)", "tools/gen_clustered_data.cpp (113-133)", "test/test_common.hpp (26-50)"]}
{"id": "C63", "title": "Whole programs on machines that convert every double", "statement": "On a machine where converting a double that does not fit to uint64_t yields some number, build saves the index of every collection of valid lists and returns 0, whether or not all numbers of blocks from 1 to 256 occur in it; so gen_uniform_data, build and the test programs always work one after the other, and example always saves the sequence. All lines printed are as on other machines, except the average and the Elias-Fano bits for numbers of blocks that do not occur, which are determined by what the machine yields for a NaN: 2^63 and 0 on x86-64.", "quantifier": "all machines (functions from doubles to 64-bit numbers), command lines, collections, files on the disk, random numbers, with and without assertions", "why_tests_cant": "A test runs on one machine, where the conversion has one result; that the index and the other lines do not depend on that result is a statement about all of them.", "anchors": ["include/util.hpp (90-94)", "include/util.hpp (210-240)", "src/build.cpp (9-51)", "src/example.cpp (11-89)", "tools/gen_uniform_data.cpp (36-54)"]}
{"id": "C64", "title": "Whole programs on an index: text, files and return values", "statement": "contains, intersect, union, select, next_geq, cardinality, decode and uncompress, started on an index file on the disk, write exactly their lines with the right totals, return 0 and change no file. When they fail it is proved what they have written before: nothing for a bad or too large number of queries, the line 'reading queries...' for text that is no number, that line and DONE for a missing index with the pairwise programs but nothing with the others, and the line 'performing' for a query about a list that is not there (with assertions) or too few queries. The generators of queries write queries which, through a pipe, these programs answer; a session of gen_uniform_data, build, cardinality and gen_random_select_queries | select works for all random numbers. With too few words each program says how to use it and returns 1.", "quantifier": "all command lines, indexes, files on the disk, texts on the standard input, random numbers, measured times and places in memory, with and without assertions", "why_tests_cant": "No test runs these programs; the text left by a failing run depends on the order of reading, opening and writing, which only a statement about all inputs pins down.", "anchors": ["src/contains.cpp (11-60)", "src/intersect.cpp (11-63)", "src/union.cpp (11-63)", "src/select.cpp (11-69)", "src/next_geq.cpp (11-67)", "src/cardinality.cpp (10-42)", "src/decode.cpp (11-46)", "src/uncompress.cpp (11-50)", "tools/gen_random_pairwise_queries.cpp (5-21)", "tools/gen_random_select_queries.cpp (10-41)", "tools/gen_random_next_geq_queries.cpp (10-43)"]}
{"id": "C65", "title": "Test programs that do not come to their end: the text before, and how they end", "statement": "test_decode, test_contains, test_select, test_enumerator, test_next_geq, test_next_geq_enumerator and test_uncompress, started on an index and a collection on the disk, write exactly the lines of their checks and return 0 when the collection ends with a list. If a list is cut off they run into undefined behaviour, if (with assertions) the collection has one more list than the index they are aborted, and if decode or uncompress has no room for a list there is undefined behaviour; in all these cases exactly the lines for the lists before have been written, and no file has changed. A missing index or collection is an exception, an empty collection undefined behaviour and, with assertions, a first word that is not 1 an abort, each before anything is written. With too few words they write how to use them and return 1.", "quantifier": "all command lines, indexes of at least as many lists, collections with anything behind their lists, files on the disk and places in memory, with and without assertions", "why_tests_cant": "The tests themselves are the programs; no run of them on a good collection shows what a log means that stops in the middle.", "anchors": ["test/test_common.hpp (26-50)", "test/test_decode.cpp (12-64)", "test/test_contains.cpp (12-57)", "test/test_select.cpp (12-65)", "test/test_enumerator.cpp (12-53)", "test/test_next_geq.cpp (12-74)", "test/test_next_geq_enumerator.cpp (12-76)", "test/test_uncompress.cpp (30-88)"]}
{"id": "C66", "title": "Test programs on queries: the text they leave, and how they end", "statement": "test_intersect, test_union, test_intersect_many and test_union_many, started on an index on the disk with queries on standard input, find no error, write exactly their lines (for queries of many positions the size of each result) and return 0, if the results, and for pairs the decoded lists, fit into as many words as the universe of the index. The first query for which this is not so ends them with undefined behaviour, and with assertions the first query that names a list which the index has not with an abort; exactly the first lines and the sizes of the results before have then been written, and no file has changed. A number of queries that is no number is an exception before anything is written; so is one that is too large for pairs, while the programs for many positions have then written their first line. A missing index is noticed after the queries have been read, garbage among pairs is undefined behaviour and a line without a number an abort while they are read.", "quantifier": "all command lines, texts on standard input, indexes, files on the disk and places in memory, all orders in which std::sort leaves equal elements, with and without assertions", "why_tests_cant": "These programs are the tests of the set operations; a run shows one log, not what a log that stops says about the queries before.", "anchors": ["test/test_intersect.cpp (12-81)", "test/test_union.cpp (10-73)", "test/test_intersect_many.cpp (32-121)", "test/test_union_many.cpp (45-134)", "test/test_common.hpp (12-23)"]}
{"id": "C67", "title": "Random data, generated queries and test programs: which sessions end with everything good", "statement": "gen_random_pairwise_queries piped into test_intersect or test_union, both given the same number of queries: if the generator was told at most as many lists as the index has, the pipe writes that it tested that number of queries and that everything is good exactly when every query drawn names lists that decode, and for unions unite, in as many words as the universe of the index; otherwise the pipe ends with undefined behaviour after its first line. Every sequence of pairs in range can be drawn. If the generator was told of more lists than there are, some random numbers make both programs abort, with assertions. After gen_uniform_data and build, for any random numbers, the pipe into test_intersect always ends with \"everything good\" if the universe is at least 23 larger than the longest length asked for, and the pipe into test_union if it is at least 23 larger than twice that. After gen_clustered_data with \"--binary\", whose lists have no repetitions although the numbers drawn may, build saves the index, all test programs of single sequences pass and the pipes end with \"everything good\", if the universe is at least 23 larger than every list (for unions, than twice every list) is long. test_intersect_many and test_union_many end with \"everything good\" for any queries about lists of an index whose values are all below its universe; for a list that contains the universe, which gen_uniform_data can draw, that is false.", "quantifier": "all command lines, random numbers, indexes, files on the disk and places in memory, all orders in which std::sort leaves equal elements, with and without assertions", "why_tests_cant": "A run draws one sequence of queries from one collection; that no draw makes the tests fail, and that some draw makes them abort when the number of lists is wrong, is about all of them.", "anchors": ["tools/gen_random_pairwise_queries.cpp (5-21)", "tools/gen_clustered_data.cpp", "tools/gen_uniform_data.cpp", "src/build.cpp", "test/test_intersect.cpp (12-81)", "test/test_union.cpp (10-73)", "test/test_intersect_many.cpp (57-121)", "test/test_union_many.cpp (70-134)"]}
{"id": "C68", "title": "example reports the first value that differs", "statement": "example, told to save the sequence, checks what it maps afterwards against its input. If the file mapped holds another sequence T which differs from the input S in some value, it writes \"got v but expected w\" for the first such place, v being the value of T and w that of S, and returns 1. If T is a beginning of S it returns 0 without a message. If S is a proper beginning of T the input is read past its end. In all cases the statistics of S are printed and the file saved is that of S.", "quantifier": "all valid sequences S and T, texts with S, places in memory, files on the disk and ways to convert doubles that do not fit, with and without assertions", "why_tests_cant": "The program is run with a file nobody else writes to, so its check never fails; what it would tell for every other file is not seen in any run.", "anchors": ["src/example.cpp (39-88)"]}
