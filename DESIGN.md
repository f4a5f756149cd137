# Formal model of jermp/s_indexes in Rocq (Coq 8.16.1)

`properties.jsonl` lists the properties, `MANIFEST.json` maps each one to its theorems, `seeded/LOG.jsonl`
records the mutation tests. This file says how the model is built, what has to be trusted, and what was found.

## Trusted base

1. **Coq's kernel** (8.16.1, standard library only). No plugins, no extraction, no native compilation in proofs;
   some closed examples are decided by `vm_compute`. `coqchk` accepts the development.
2. **Assumptions.** `Print Assumptions` follows every property theorem in its `Prop_*.v` file; each one prints
   `Closed under the global context`. No axiom is declared. Loading the standard library brings the
   `Coq.ssr.ssrunder` module signature axioms into the environment of `coqchk -o`; no theorem depends on them.
3. **That the model says what the C++ does.** This is the part no checker verifies. Every definition in the
   `M_*.v` files and in `Hw.v` carries the file and lines it transcribes. The points where the model is not a
   literal transcription are listed under "Simplifications".
4. **The meaning of the theorems**: `Spec.v`, `Format.v`, `Counts.v`, `Shown.v`, `Printed.v`, `Exact.v`, `Report.v`, `Holds.v`, `Room.v`, `RoomSets.v`, `Reads.v`, `ReadsSets.v`, `Told.v`, `Drawn.v`, `Typed.v`, `Jumps.v`, `Outcome.v`, `Back.v`, `Disorder.v`, `Places.v`, `Damage.v`, `Table.v` and the statements in `Prop_*.v`. These are
   short, contain no proofs, and mention the model only through its public functions.
   `P_*.v`, `L_*.v`, `Lib.v` and `Layout.v` need not be read to know what is proved.

## The model

The library is modelled at byte level as total, executable Gallina functions.

* One flat readable memory: `mem : list Z` (bytes). Pointers into encodings are `Z` addresses.
  A read outside `mem` is the outcome `UB`.
* Every function returns a `res A`: `Ok a | Throw | Abort | UB | Fuel`
  (`Throw`: C++ exception, `Abort`: failed `assert`, `UB`: undefined behaviour, `Fuel`: loop bound of the
  model exhausted). Theorems state `= Ok _`, so they exclude every other outcome, non-termination included.
* `assert`s are in the model behind a flag `dbg` (`false`: compiled with NDEBUG). Theorems hold for both values
  unless they say otherwise (C02); C27 is about the flag itself.
* Unsigned arithmetic wraps explicitly (`u8 u16 u32 u64`).
* Output buffers are `list Z` of fixed length; a store out of bounds is `UB`; the SIMD stores of 8 words are
  modelled as such, so claims about memory safety are about exactly the words the code writes.
* Function-local `static` buffers are explicit arguments and results with arbitrary previous content.
* `statistics` is a function from field names to `Z`.

| file | models |
|------|--------|
| Base.v, Hw.v | outcomes, integers, memory; builtins and instructions (ctz clz popcnt pdep tzcnt bt bts shrx lddqu cvtepu8 cmpestrm pshufb bsrli) |
| M_Util.v | constants.hpp, util.hpp except printing |
| M_Build.v | building_util.hpp, builder.hpp (s_sequence::builder) |
| M_Seq.v | s_sequence.hpp: header, iterator, size |
| M_Decode.v | decode.hpp, enumerator.hpp |
| M_Uncompress.v | uncompress.hpp, uncompress_chunk_and_{intersect,merge}.hpp |
| M_Query.v | contains.hpp, select.hpp, next_geq.hpp, next_geq_enumerator.hpp |
| M_Intersect.v, M_Union.v | intersection.hpp, union.hpp including the SIMD block kernels |
| M_Many.v | intersection_many.hpp, union_many.hpp |
| M_Index.v | builder.hpp (s_index::builder), s_index.hpp, the saved file |
| M_Print.v, M_Out.v | statistics::print: its arithmetic; its text, operator<< for numbers, the output of build |
| M_Say.v | the text which the programs in test/ and src/ write, and what main returns |
| M_Script.v | script/build.py and script/queries.py: the commands, and what the shell makes of them |
| M_Session.v | whole programs: command line, files, the text written up to a failure, what main returns |
| M_Lax.v | build and example where converting a NaN to uint64_t yields some number |
| M_Bench.v | contains, intersect, union, select, next_geq, cardinality, decode, uncompress and the generators of queries as whole programs; pipes |
| M_Live.v | the seven test programs on a collection as whole programs, with what they have written when they fail |
| M_LiveQ.v | the four test programs on queries as whole programs, with what they have written when they fail |
| M_Calls.v | programs that call set operations in sequence, threading the static buffers |
| M_Conc.v | threads interleaving over the static vector of ds_intersect_chunk |
| M_Threads.v | threads that call any of the four set operations, interleaving over all eight static buffers |
| M_Tests.v | the test programs in test/ |
| M_Drivers.v | the programs in src/ |
| M_Tools.v | the programs in tools/ |
| M_Text.v | the main functions of all programs: command lines, scanf, getline, operator>>, stoull, atoi |

Specification: `Spec.v` (sorted lists, "these bytes are at this address", queries on lists),
`Format.v` (the byte format as a function of the values), `Counts.v` (every statistics counter as a function of
the values), `Shown.v` (the numbers printed as a function of the counters), `Printed.v` (numbers and lines as text), `Exact.v` (the same lines with exact fractions instead of doubles), `Report.v` (what the programs report, for C53), `Holds.v` (a memory that holds the index
of a collection), `Room.v` and `RoomSets.v` (sizes of output buffers), `Reads.v` and `ReadsSets.v` (readable bytes behind an encoding), `Outcome.v` (how an execution can end), `Told.v` (queries on standard input),
`Drawn.v` (outcomes of the random generators of tools/), `Typed.v` (numbers in text, options of a command line, for C47 and C48), `Jumps.v` (sizes of runs of chunks, for C38),
`Back.v` (answers to queries in any order, for C41), `Disorder.v` (lists that are not increasing, for C43 and C44), `Places.v` (addresses modulo 8, for C51), `Damage.v` (sequences with wrong bytes, for C52, C56, C60 and C61), `Astray.v` (results that are right in some chunks, for C60), `Cut.v` (memory that ends early, for C55), `Script.v` (what the scripts run, for C59), `Beyond.v` (lists that do not exist, for C57), `Ran.v` (reports about queries, for C58), `Table.v` (right shuffle tables, for C54), `Session.v` (files before and after, for C62), `Lax.v` (what is printed where a NaN is converted, for C63), `Bench.v` (runs on an index on the disk, for C64), `Live.v` (test programs that do not come to their end, for C65).

### Simplifications

* `size_t`/`uint64_t` counters that only ever hold sums of sizes of objects in memory, and the statistics, do not
  wrap in the model.
* `table.hpp` (the shuffle table) is included by the code but absent from the pinned commit. The table is a
  parameter constrained by a checkable predicate (`shuffle_table_ok`); a table satisfying it is given. C54 gives the exact condition on the table.
* `std::sort` with ties: the theorem quantifies over every sorted permutation of the input vector.
* `essentials::visit/save/load` and `mm::file_source` (external submodules, absent): a saved vector is its 64-bit
  length followed by its bytes; a mapped file is its bytes at some address.
* Doubles are `Coq.Floats.SpecFloat` (IEEE binary64, round to nearest even). In `print` the ceiling of the
  logarithm is the exact one. `std::cout << x` has the default format (`%g`); the text of a NaN is a parameter.
* The collection file is the list of its 32-bit words. `encode_sequence` sees the words of its list only: reading
  past them is `UB`, although the words that follow in the file would be readable.
* The random numbers of the programs in tools/ are read from a tape and reduced to the requested range; theorems
  quantify over the tape. Distributions, seeds and correlations are not modelled: "can happen" means for some tape.
  `std::uniform_int_distribution(a, b)` with `b < a` is undefined behaviour. `RAND_MAX` is 2^31 - 1.
* C22 and C45 model threads whose word accesses are atomic and sequentially consistent. Real executions have at least
  these behaviours (the accesses are data races, so the C++ program has undefined behaviour). The encodings, and the
  output buffer of a call, belong to the thread; only the static buffers are shared. The vector that `std::sort`
  orders in intersection_many is taken as already sorted.
* The loops that split a chunk into blocks (`sparse_chunk_bitsize_loop`, `encode_sparse_chunk_loop`) have the bound
  `split_steps`: one step for each value and one for each block passed. On input that descends to an earlier block
  the block base wraps around 32 bits as in C++ (up to 2^24 steps for one value); C43 covers such input.
* `bitmap += (id - prev) * ...` in uncompress.hpp multiplies in 64 bits. A negative difference, possible only in
  malformed encodings, moves the pointer backwards, as on the target machine.
* A `default: assert(false); __builtin_unreachable();` is `UB` in the model for both values of `dbg`.
* Pointer comparisons and `memcpy`/`reinterpret_cast` accesses are reads at addresses, which need not be aligned (C51 says which are); strict aliasing
  and the clobber lists of inline assembly are not modelled.

* Text is a list of character codes, in the C locale. `%d` and `std::atoi` of a number that is no `int` are undefined
  behaviour if the parameter `iso` is set, as in the C standard; otherwise they store the low 32 bits of the nearest
  number of 64 bits, as glibc does. `std::stod` is a parameter: any function from words
  to a double or an exception. A vector that is asked for more than its `max_size()` throws; memory never runs out.
  In M_Session.v (C62) a file that does not exist makes a program throw; files to be written can always be opened. In M_Text.v files exist.
* Of the shell that runs the commands of `script/` (M_Script.v, C59) there is what they need: words separated by spaces and tabs, and `<`.
  A command with any other special character, a file that does not exist or another program is outside the model (`None`). The scripts
  are Python 2; that `queries.py` stops at `xrange` under Python 3 is not modelled.

### Not modelled

Timing (the time in the output is a parameter, C53), the text a program writes before an exception, an abort or undefined behaviour
(except build and example up to `statistics::print`, C62, the programs on an index, C64, and the test programs, C65 and C66), the text of `essentials::print_size` (a parameter of C62), operating system behaviour of `mmap` (page granularity, failures), allocation failure, and
performance.

## Proofs

`Layout.v` describes an encoding as a function of the values grouped by `v / 65536` and `/ 256`. `P_Build*.v` show
that the builder writes it; every reader is shown correct against it by induction over chunk and block lists
(`P_Seq` iterators, `P_Decode`, `P_Query`, `P_NextGeq`, `P_Ng`, `P_Jumps`, `P_Back`, `P_Enum`, `P_Uncompress`, `P_Inter`, `P_Union`,
`P_Many*`, `P_Index`); `P_Stats`, `P_Format`, `P_Counts` treat sizes and counters, `P_Float` the double quotient,
`P_Print`, `P_Shown` and `P_Out*` printing, `P_Acc*` its rounding errors, `P_Say*` and `P_Ran` the other programs' output, `P_Script` the scripts, `P_Align` addresses modulo 8, `P_Damage*` sequences with wrong bytes, `P_Cut` with missing bytes, `P_Beyond` queries about missing lists, `P_Spoil*` decoding damaged sequences, `P_Table` the shuffle table, `P_Fits` the exact conditions for the programs, `P_Dbg` the assertions, `P_Scratch`, `P_Conc` and `P_Threads*` the static buffers, `P_Laws` the corollaries,
`P_Tests*` the test programs, `P_Drivers` and `P_Tools` the programs in src/ and tools/, `P_Text*` text and command lines, `P_Short`, `P_Room` and `P_RoomMany/Inter/Union/Join/Sets` buffers that are too small, `P_Reads` and `P_ReadsJoin` memory that is too short,
`P_Total` arbitrary bytes, `P_Disorder*`, `P_Ends`, `P_Release`, `P_Assert` and `P_Example` lists that are not increasing (`Disorder.v` has the definitions used in the statements);
`P_Session*`, `P_Lax`, `P_Bench*`, `P_Live`, `P_LiveQ*`, `P_LivePipe` and `P_Changed` whole programs on files (C62-C68), with their examples in the files `*Ex`, where the
contents of files are computed once (`Eval vm_compute`) and proved equal to `f_index` so that the separate checker is fast;
`P_Fin*` put the results in the form in which the `Prop_*.v` files state them. `P_Ex.v` has the concrete memory
used by the examples that show the hypotheses can be met.

| file | properties |
|------|------------|
| Prop_Build | C01 round trip, C02 values of the last chunk, C03 duplicates |
| Prop_Query | C04 size, C05 contains, C06 select, C07 next_geq |
| Prop_Enum | C08 uncompress, C09 enumerator, C10 next_geq_enumerator |
| Prop_Jumps | C38 skips of next_geq_enumerator |
| Prop_Back | C41 next_geq_enumerator, queries in any order |
| Prop_Sets, Prop_Many | C11-C14 set operations |
| Prop_Index, Prop_Counts | C15 index, C17 reported size, C18 statistics |
| Prop_Filter | C16 the density/size filter |
| Prop_Bounds | C19 bytes read, C20 words written |
| Prop_Calls, Prop_Conc, Prop_Threads | C21 histories of calls, C22 and C45 threads |
| Prop_Laws | C23, C24, C26 laws |
| Prop_Format | C25 size, C29 format |
| Prop_Modes | C27 assertions |
| Prop_Print | C28 printing |
| Prop_Tests | C30-C33 the test programs |
| Prop_Room, Prop_RoomSets | C34 buffer sizes of decode and uncompress, C42 of the set operations |
| Prop_Reads, Prop_ReadsSets | C39 readable bytes needed by decode and enumerator, C46 by the pairwise set operations |
| Prop_Drivers | C35 the programs in src/ |
| Prop_Tools | C36 the programs in tools/ |
| Prop_Malformed | C37 building from any file of words |
| Prop_Total | C40 reading any bytes |
| Prop_Disorder | C43 building from lists that are not increasing |
| Prop_Ends | C44 outcome of building for any list |
| Prop_Assert | C44 with assertions |
| Prop_Example | C35: example.cpp on lists that are not increasing |
| Prop_Fits | C30, C31, C35: the programs whose buffers have as many words as the universe, with the exact condition |
| Prop_Text | C47 text on standard input, C48 command lines |
| Prop_Out | C49 the output of build, C48 command lines without options |
| Prop_Acc | C50 the numbers printed against exact fractions, C49 reading them back |
| Prop_Align | C51 alignment |
| Prop_Damage | C52 damaged sequences |
| Prop_Say | C53 what the programs print |
| Prop_Table | C54 which shuffle tables make intersections right |
| Prop_Cut | C55 files that are cut short |
| Prop_Spoil | C56 decode, uncompress and the enumerator on damaged sequences |
| Prop_Beyond | C57 queries about lists the index does not have |
| Prop_Ran | C58 reports of the set-operation tests about wrong results |
| Prop_Script | C59 the commands of the scripts |
| Prop_Astray | C60 set operations on damaged sequences |
| Prop_Safe | C61 when set operations on damaged sequences stay in their bounds |
| Prop_Session | C62 whole programs: text, files and what main returns |
| Prop_Lax | C63 the same on machines that convert every double to some integer |
| Prop_Bench | C64 the programs that work on an index, alone and behind generators of queries |
| Prop_Live | C65 test programs that do not come to their end |
| Prop_LiveQ | C66 test programs on queries, as whole programs |
| Prop_LivePipe | C67 random data, generated queries and test programs: which sessions end with everything good |
| Prop_Changed | C68 example when the file it maps holds another sequence |

A theorem whose name ends in `_refuted` proves, by a concrete witness, that the natural reading of the property is
false for this code; the theorems beside it say exactly what holds.

### Validation against recorded runs

The code cannot be run here, but the repository contains results of running it, which the model must be able to produce.

* `README.md` shows the output of build for a collection of 100 lists. `C49_readme` exhibits counters that fulfil the equations
  proved in C17 and C18 and whose text, in the model, is that output, character by character. The counters of headers, bitmaps and
  file size are determined by the log: for instance the total is the sum of the parts plus exactly the 8 * 100 + 24 bytes of C17.
* `statistics/README.md` has three logs of statistics::print. All the equations of C17 and C18 hold up to the digits printed; all 768 lines
  about Elias-Fano codes agree with the exact logarithm (`C49_logs` checks some in Coq).
* `data/test_sequence` was made by gen_clustered_data in text form. It has a length, that many increasing values and then 21698
  further numbers, as C36 says (finding 20).

## What the proofs found in the code

1. Values >= 2^32 - 2^16 are silently lost in release builds and abort debug builds: `s.right` wraps to 0 in the
   last chunk (C02).
2. `next_geq_enumerator` keeps its iterator between calls, but a skip of 32 chunks adds the size of the next run in
   the list of skip pointers, wherever it starts. Answers can be values that are not stored (C10), and reads can be
   outside the encoding (C38).
3. `decode_sparse_block` and the SIMD kernels write up to 23 words past the result and read up to 31 bytes past an
   encoding (C19, C20). `src/example.cpp` gives `decode` a buffer of exactly `size()` words.
4. `statistics::print` converts a NaN to an unsigned integer unless all block counts 1..256 occur; `src/build.cpp`
   prints before it saves (C28).
5. Set operations share static scratch buffers between threads; two threads can exchange results (C22). In one
   thread the buffers are harmless (C21).
6. A list longer than the `--size` parameter passes the filter whatever its density, so with the default size 0
   `--density` only removes empty lists (C16).
7. A chunk with 32768 values or more is always stored as a bitmap even when blocks would be smaller (C25).
8. union.hpp:55 tests `r != end_l` where `r != end_r` is meant. With `r == end_r` it decodes a block of no values,
   which only costs an over-wide read and write of 8 words (`u + 8` in `join_words`, C42); `r == end_l` cannot happen for sequences that do not overlap in
   memory, which is why C12 assumes that (`apart`).
9. `contains(v)` iff `next_geq(v) == v` fails at v = 2^32 - 1, the not-found answer (C23).
10. `stats.very_sparse_chunks` is never incremented.
11. `num_chunks(universe) * chunk_size / 64` is computed in 32 bits (test_uncompress.cpp:41-42, src/uncompress.cpp:17-18)
    and is 0 for universes from 2^32 - 65536 on; `uncompress` then writes outside the empty vector (C33).
12. test_next_geq.cpp continues to query up to 1000000 past the last value in 32-bit arithmetic. For lists that end
    within 1000001 of 2^32 it reports an error on a correct index (C33).
13. test_enumerator.cpp accepts an index whose lists are longer than those of the collection (C33); no test program
    compares the number of lists.
14. The test programs give `decode` and the set operations buffers of `universe` words, which is too small for lists
    almost as long as the universe (C33, C34).
15. No test program calls `pairwise_intersection` (test_intersect.cpp:35-36 is commented out), and
    test_next_geq_enumerator only moves in steps of one, which cannot expose the defect of C10.
16. src/select.cpp and src/next_geq.cpp read past the end of the vector of queries when standard input has fewer
    than `size() * num_queries_per_sequence` integers, or the count per sequence is 2^32 or more (C35).
17. The totals printed by src/contains.cpp, select.cpp, next_geq.cpp, intersect.cpp and union.cpp are multiplied by
    the number of runs (only cardinality.cpp divides), and select.cpp adds the previous answer again for a rank
    that does not exist (C35).
18. src/example.cpp writes past the end of its output vector for every list whose encoding ends in a small block,
    such as the list 5 (C35).
19. tools/gen_uniform_data.cpp and gen_clustered_data.cpp draw values up to and including the universe, so a list can
    have one value more than src/decode.cpp allocates words (C36).
20. tools/gen_clustered_data.cpp does not terminate for universes above 2^32 - 2^16 (`s.right` wraps), and its text
    mode writes the elements behind the end returned by `std::unique` as well, after a count that does not include
    them (C36).
21. tools/gen_random_next_geq_queries.cpp decodes into a buffer of `universe` words, which has the defect of 14 (C36).
22. `i += n + 1` in s_index::builder::build and in the test programs is a 32-bit sum: after a list of 2^32 - 1 words it
    adds zero, and the loop never ends (C37). Whether a collection file is complete is never checked, and its first
    word only by an assertion (C37).
23. `next_geq_enumerator` answers a query for 0 after "not found" by reading a chunk header that does not exist
    (`base()` of the end is 2^32, which is 0 in 32 bits): the answer can be a value that is not stored, or the
    behaviour is undefined (C41). Smaller queries than before are not rejected; a stored value can be missed (C41).
24. The builder does not check that the values increase. Equal neighbours are the only violation that throws; with
    assertions, values below their chunk and values left over abort. Up to 30 values of one chunk are accepted in any
    order even with assertions, also with repetitions that are not adjacent, and the queries then give wrong answers.
    Without assertions a value can come back moved to another chunk (3 as 65539) or be dropped silently (C43).
25. Without assertions the builder writes past the end of its bitmap for a chunk of 32768 or more values (or one that is
    cheaper as a bitmap) with a value below the chunk, and past the end of `num_blocks_in_chunks` and `num_integers` for
    a sparse chunk of more than 256 pieces. These are the only two undefined behaviours on non-empty lists (C44).
    With assertions both are caught: only the empty list is undefined (`C44_assertions`).
26. All four set operations race when two threads call the same one. intersection_many and union_many can return the
    complete result of the other thread; the pairwise ones combine their bitmap with the blocks of the other thread.
    A thread can then write past the end of an output buffer that is large enough for its own result (C45). Different
    operations have no buffer in common, so two threads calling different operations are safe.
27. Because of finding 8 the union can read further behind an encoding than decoding it does: to unite {5} with {9}, 16
    bytes must be readable behind {5}, 15 to decode it; to unite {9} with {5}, none (C46). 31 bytes behind both
    encodings are always enough, and a sequence united with itself is never left.
28. Anything on standard input that is no number makes contains.cpp, intersect.cpp, union.cpp, select.cpp, next_geq.cpp and
    the tests of pairs use a variable that was never assigned: `scanf` returns 0, not `EOF`, and only `EOF` is tested (C47).
29. Queries are read with `%d` into unsigned variables. gen_random_next_geq_queries prints values as unsigned numbers, so
    for values from 2^31 on its own output has undefined behaviour in next_geq.cpp (C47); glibc happens to store the right bits.
30. example.cpp does not check that it could read: with too few numbers it repeats the last one, and the builder throws;
    after something that is no number it goes on with zeros (C47).
31. The options `--density`, `--size`, `--out` and `-o` as the last word of a command line read `argv[argc]`, a null
    pointer, into a `std::string` or `std::atoi` (C48). `-1` queries are 2^64 - 1, for which `reserve` throws (C48).
32. A line without a number aborts test_intersect_many and test_union_many with assertions (C47).
33. `script/build.py` runs `./build FILE 0.01 -o OUT.0.01.bin`, and the README `./test_decode INDEX FILE 0.01`. None of these words is an option,
    so all three commands of the script use the default parameters and none saves an index; the test uses the default density (C48).
34. The words of an index are read through pointers to 16, 32 and 64-bit integers at addresses that are not multiples of 2, 4 and 8:
    undefined behaviour in C++, though harmless in the instructions of the target machine. The skip pointers of the first list and the bitmaps at its beginning are
    misaligned in every index, because a sequence starts with a header of two bytes (C51).
35. Without assertions example.cpp returns 0 for a valid list followed by values above the chunk of the last one, although those values
    are dropped: it compares only as many values as the sequence has. The printed number of integers includes the dropped ones, so that
    the bits per integer are too small (C35, C43).
36. `s_index::mmap` (s_index.hpp:28-37) compares nothing with the size of the file: a file of which only the first 16 bytes are left opens with
    the right size and universe, and the lists before the cut work (C55).
37. `s_sequence::decode` (decode.hpp:108-116) places every chunk behind as many values as the chunks before it yielded, not behind as many as
    the header says: one wrong bit in a bitmap moves all later values, and the count returned is wrong, without any assertion failing.
    The enumerator and uncompress take cardinalities from the header, and later chunks stay right (C56).
38. `s_index::operator[]` (s_index.hpp:23-26) checks its argument only by an assertion, and contains.cpp, intersect.cpp and union.cpp pass it
    whatever number the query has. In a release build a number that is too large takes bytes of the encodings for an offset: with the two lists
    of C57_example a query about list number 8 is answered as if it were list 0, because eight zero bytes of a bitmap are read as offset 0.
39. `test_intersect.cpp` (44-50) and `test_union.cpp` (36-42) compare up to the size the library returned, but only as many words of the buffer
    `expected` as the right result has are new: if the library returns too many values, "expected" in the messages is what an earlier query
    left there (C58_example), and a surplus value that happens to be there is not reported.
40. `script/queries.py` puts the index name into its commands without quotes: with a blank in the name, `decode` measures another file without a
    word, and the second half of the name is taken for the number of queries (C59_blank). `script/build.py` measures the same
    index three times and leaves no file for `queries.py` (C59_build, see 33).
41. The set operations take the sizes of blocks from the data and check nothing: with one damaged chunk the union of two lists writes more values
    than both lists have, and an output buffer with room for both lists overflows without an assertion failing (C61_union_refuted).
    C61_union allows 131072 values for a damaged chunk of both lists, although a chunk has 65536; union.cpp (16) has room for one value for
    each number below the universe.
42. `build` prints the statistics before it saves (build.cpp:9-19): on a collection in which some number of blocks from 1 to 256 does not occur,
    `statistics::print` first converts a NaN to uint64_t (4), which the standard leaves undefined; so the standard does not promise an output
    file although the index was built (C62_build, C62_session), and the same goes for `example` (C62_example).
    On machines that yield some number for that conversion nothing else goes wrong: `build` saves the index of every collection and the
    session gen_uniform_data, build, tests works for all of them (C63). The lines for numbers of blocks that do not occur are meaningless there,
    and differ between machines: on x86-64 they show an average of 9223372036854775808 integers per chunk (C63_machines).
43. A log of `test_intersect` or `test_union` that stops after "reading queries..." does not tell how many pairs were right, nor whether the
    index was missing: both open it only after the queries have been read and write nothing for a pair without error. The programs for many
    positions write a line for each query, and reserve room for the queries only after their first line, so that "-1" as number of queries
    is an exception after that line there and before any line in the others (C66).
44. `test_union_many` has room for as many values as the universe, but gen_uniform_data draws values up to and including it (19): the union of
    [0] and [1] on an index of universe 1 is written past the end of the vector (C67_many). With values below the universe this cannot happen.
45. `example` compares as many values as the sequence mapped has, not as many as its input has: a file with only the first values of the input
    passes, and one with more values makes it read the input past its end (C68_example).
