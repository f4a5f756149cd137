{
 "claims": [
  {
   "property": "C01",
   "status": "proved",
   "theorems": [
    "C01_build_decode"
   ],
   "note": ""
  },
  {
   "property": "C02",
   "status": "proved",
   "theorems": [
    "C02_high_values",
    "C02_only_high_unreadable"
   ],
   "note": "The documented 32-bit domain is violated by the code; the theorems give its exact behaviour."
  },
  {
   "property": "C03",
   "status": "proved",
   "theorems": [
    "C03_duplicates_rejected"
   ],
   "note": ""
  },
  {
   "property": "C04",
   "status": "proved",
   "theorems": [
    "C04_size"
   ],
   "note": ""
  },
  {
   "property": "C05",
   "status": "proved",
   "theorems": [
    "C05_contains"
   ],
   "note": "stored 0: nothing outside the encoding is read."
  },
  {
   "property": "C06",
   "status": "proved",
   "theorems": [
    "C06_select"
   ],
   "note": ""
  },
  {
   "property": "C07",
   "status": "proved",
   "theorems": [
    "C07_next_geq"
   ],
   "note": ""
  },
  {
   "property": "C08",
   "status": "proved",
   "theorems": [
    "C08_uncompress"
   ],
   "note": ""
  },
  {
   "property": "C09",
   "status": "proved",
   "theorems": [
    "C09_enumerator"
   ],
   "note": "Also covers up to 2^32 calls after exhaustion."
  },
  {
   "property": "C10",
   "status": "proved",
   "theorems": [
    "C10_next_geq_enumerator_small",
    "C10_next_geq_enumerator_gentle",
    "C10_next_geq_enumerator_refuted"
   ],
   "note": "False in general (refuted by a witness); the two positive theorems are the conditions of the statement."
  },
  {
   "property": "C11",
   "status": "proved",
   "theorems": [
    "C11_intersection"
   ],
   "note": ""
  },
  {
   "property": "C12",
   "status": "proved",
   "theorems": [
    "C12_union"
   ],
   "note": ""
  },
  {
   "property": "C13",
   "status": "proved",
   "theorems": [
    "C13_intersection_many"
   ],
   "note": "For every outcome of the sort."
  },
  {
   "property": "C14",
   "status": "proved",
   "theorems": [
    "C14_union_many"
   ],
   "note": ""
  },
  {
   "property": "C15",
   "status": "proved",
   "theorems": [
    "C15_index",
    "C15_index_decode"
   ],
   "note": "Quantified over the filter: kept is whatever pass selects. Forall short excludes lists of 2^32-1 words, see C37."
  },
  {
   "property": "C16",
   "status": "proved",
   "theorems": [
    "C16_pass",
    "C16_density",
    "C16_default_size"
   ],
   "note": "double(n)/universe is shown to be the double nearest to n/u, which is unique."
  },
  {
   "property": "C17",
   "status": "proved",
   "theorems": [
    "C17_size_index",
    "C17_size_sequence"
   ],
   "note": ""
  },
  {
   "property": "C18",
   "status": "proved",
   "theorems": [
    "C18_exact_index",
    "C18_exact_sequence",
    "C18_statistics_index",
    "C18_statistics_sequence"
   ],
   "note": "counts in Counts.v gives every counter (except bits, see C17) from the values alone; describes/accounts in Spec.v list the equations between counters."
  },
  {
   "property": "C19",
   "status": "proved",
   "theorems": [
    "C19_own_bytes",
    "C19_many",
    "C19_decode_refuted",
    "C19_enumerator_refuted",
    "C19_intersection_refuted",
    "C19_union_refuted"
   ],
   "note": "The upper bound of 31 bytes is in C01_build_decode, C09_enumerator, C11_intersection and C12_union, which assume only 31 readable bytes after the encodings; the refutations show 30 are not enough."
  },
  {
   "property": "C20",
   "status": "proved",
   "theorems": [
    "C20_decode",
    "C20_intersection",
    "C20_union",
    "C20_decode_refuted",
    "C20_intersection_refuted",
    "C20_union_refuted"
   ],
   "note": "Nothing is written outside n+23 words; a buffer of n+22 words is not enough."
  },
  {
   "property": "C23",
   "status": "proved",
   "theorems": [
    "C23_point_queries"
   ],
   "note": "The equivalence of contains and next_geq is for v < 2^32-1: next_geq answers 2^32-1 for not found."
  },
  {
   "property": "C24",
   "status": "proved",
   "theorems": [
    "C24_prefix_free",
    "C24_append"
   ],
   "note": ""
  },
  {
   "property": "C25",
   "status": "proved",
   "theorems": [
    "C25_size",
    "C25_smallest_refuted"
   ],
   "note": "Exact size; the refutation shows that the smallest representation is not always chosen."
  },
  {
   "property": "C26",
   "status": "proved",
   "theorems": [
    "C26_pairwise",
    "C26_chain_intersection",
    "C26_chain_union"
   ],
   "note": ""
  },
  {
   "property": "C29",
   "status": "proved",
   "theorems": [
    "C29_sequence_format",
    "C29_sequence_file",
    "C29_index_file"
   ],
   "note": "Format.v defines the format independently of the model."
  },
  {
   "property": "C27",
   "status": "proved",
   "theorems": [
    "C27_refines_build",
    "C27_refines_queries",
    "C27_refines_sets",
    "C27_valid_build",
    "C27_valid_index",
    "C27_valid_queries",
    "C27_valid_sets",
    "C27_valid_many"
   ],
   "note": "For arbitrary inputs a run with asserts either aborts or equals the run without; for valid inputs it never aborts."
  },
  {
   "property": "C28",
   "status": "proved",
   "theorems": [
    "C28_print",
    "C28_shown",
    "C28_shown_occurs",
    "C28_few_chunks"
   ],
   "note": "Exact condition for statistics::print to be undefined, a build for which it is defined, and undefinedness of every build with fewer than 256 chunks; in the defined case all the numbers printed."
  },
  {
   "property": "C21",
   "status": "proved",
   "theorems": [
    "C21_history",
    "C21_call"
   ],
   "note": "For arbitrary memory and arbitrary content of the scratch buffers."
  },
  {
   "property": "C22",
   "status": "proved",
   "theorems": [
    "C22_alone",
    "C22_can_finish",
    "C22_safe",
    "C22_race",
    "C22_isolation_refuted"
   ],
   "note": "Isolation is false in general (refuted, and C22_race gives a wrong interleaving for every pair of such calls); C22_safe is the condition under which it holds. Interleaving semantics with atomic word accesses."
  },
  {
   "property": "C30",
   "status": "proved",
   "theorems": [
    "C30_occurs",
    "C30_accept",
    "C30_exact"
   ],
   "note": "C30_occurs: such an index exists for every such collection."
  },
  {
   "property": "C31",
   "status": "proved",
   "theorems": [
    "C31_accept",
    "C31_exact"
   ],
   "note": "pairwise_intersection itself is called by no test program (commented out); test_intersect calls intersection on two sequences."
  },
  {
   "property": "C32",
   "status": "proved",
   "theorems": [
    "C32_sound"
   ],
   "note": "Requires that the index has at least as many lists as the collection; otherwise the programs read outside the offsets. Lists of the index beyond those of the collection are not looked at by the programs."
  },
  {
   "property": "C33",
   "status": "proved",
   "theorems": [
    "C33_prefix",
    "C33_prefix_refuted",
    "C33_alarm",
    "C33_wrap",
    "C33_overflow_refuted"
   ],
   "note": "The natural claim is false; the theorems give the conditions."
  },
  {
   "property": "C34",
   "status": "proved",
   "theorems": [
    "C34_decode",
    "C34_enough",
    "C34_uncompress"
   ],
   "note": "C34_decode assumes 31 readable bytes after the encoding, as C01; both directions proved."
  },
  {
   "property": "C35",
   "status": "proved",
   "theorems": [
    "C35_cardinality",
    "C35_decode",
    "C35_uncompress",
    "C35_contains",
    "C35_select",
    "C35_next_geq",
    "C35_intersect",
    "C35_union",
    "C35_build",
    "C35_example_cpp",
    "C35_example_cpp_occurs",
    "C35_example_cpp_invalid",
    "C35_example_cpp_dropped",
    "C35_intersect_exact",
    "C35_union_exact"
   ],
   "note": "C35_intersect and C35_union give a simple sufficient condition, the _exact theorems the exact one; queries must name lists of the index."
  },
  {
   "property": "C36",
   "status": "proved",
   "theorems": [
    "C36_uniform",
    "C36_uniform_index",
    "C36_uniform_decode",
    "C36_event",
    "C36_clustered",
    "C36_clustered_index",
    "C36_clustered_endless",
    "C36_clustered_text",
    "C36_select",
    "C36_next_geq",
    "C36_pairwise"
   ],
   "note": "Random numbers are a tape: theorems hold for every tape, and every outcome described is that of some tape; their distribution is not modelled."
  },
  {
   "property": "C37",
   "status": "proved",
   "theorems": [
    "C37_words",
    "C37_tiny",
    "C37_first_word",
    "C37_truncated",
    "C37_truncated_never",
    "C37_endless",
    "C37_endless_refuted"
   ],
   "note": "Reading outside the file counts as undefined. Lists of 2^32-1 words are excluded from the other properties about collections by the hypothesis Forall short."
  },
  {
   "property": "C38",
   "status": "proved",
   "theorems": [
    "C38_faithful",
    "C38_even",
    "C38_off",
    "C38_outside_refuted"
   ],
   "note": "Sufficient conditions for right answers, the exact error of a skip, and a witness of reading outside."
  },
  {
   "property": "C39",
   "status": "proved",
   "theorems": [
    "C39_decode",
    "C39_enough",
    "C39_enumerator"
   ],
   "note": "The requirement is stated from the cardinalities of the blocks and chunks alone; extra is what memory there is behind the encoding, possibly 0."
  },
  {
   "property": "C40",
   "status": "proved",
   "theorems": [
    "C40_one",
    "C40_pair",
    "C40_many",
    "C40_open"
   ],
   "note": "Loops carry an explicit bound in the model; the theorem says that no input exhausts it. Undefined behaviour (an access outside memory) is one of the possible outcomes."
  },
  {
   "property": "C41",
   "status": "proved",
   "theorems": [
    "C41_any_order",
    "C41_lost_refuted",
    "C41_restart_refuted",
    "C41_restart_ub_refuted"
   ],
   "note": "The cursor is described in Back.v from the values and queries alone. Histories that skip further than 32 chunk ids are the subject of C10 and C38."
  },
  {
   "property": "C42",
   "status": "proved",
   "theorems": [
    "C42_intersection",
    "C42_union",
    "C42_union_self",
    "C42_intersection_many",
    "C42_union_many",
    "C42_enough"
   ],
   "note": "meet_fits and join_fits in RoomSets.v give the requirement from the values alone; both directions proved."
  },
  {
   "property": "C43",
   "status": "proved",
   "theorems": [
    "C43_cuts",
    "C43_unordered",
    "C43_few",
    "C43_one_chunk",
    "C43_queries_refuted",
    "C43_tail",
    "C43_nothing"
   ],
   "note": "The definitions of the statement (cuts, kept, run_ok, run_above, lost) are in Disorder.v and use no definition of the model."
  },
  {
   "property": "C44",
   "status": "proved",
   "theorems": [
    "C44_builder",
    "C44_twins_refuted",
    "C44_defined",
    "C44_release",
    "C44_release_cases",
    "C44_debug",
    "C44_debug_cases",
    "C44_assertions",
    "C44_index"
   ],
   "note": "taken, fine, storable, caught and sound are in Disorder.v and use no definition of the model. The model counts more than 256 pieces as an access out of range (stats_entry)."
  },
  {
   "property": "C45",
   "status": "proved",
   "theorems": [
    "C45_alone",
    "C45_safe",
    "C45_race_intersection",
    "C45_race_union",
    "C45_race_union_many",
    "C45_race_intersection_many",
    "C45_union_refuted",
    "C45_union_many_refuted",
    "C45_intersection_many_refuted",
    "C45_overflow_refuted"
   ],
   "note": "Word accesses are atomic and sequentially consistent in the model; only the static buffers are shared. The races are proved for operands that lie in one chunk. The foreign value in a pairwise intersection is C22_isolation_refuted."
  },
  {
   "property": "C46",
   "status": "proved",
   "theorems": [
    "C46_intersection",
    "C46_union",
    "C46_union_self",
    "C46_enough"
   ],
   "note": "The theorems give the result if and only if both the output room of C42 and the readable bytes suffice. The operations on any number of sequences never read behind an encoding (C42 assumes nothing behind it)."
  },
  {
   "property": "C47",
   "status": "proved",
   "theorems": [
    "C47_pairs",
    "C47_pairs_overflow",
    "C47_words",
    "C47_contains",
    "C47_intersect",
    "C47_union",
    "C47_select",
    "C47_next_geq",
    "C47_pipe_select",
    "C47_pipe_next_geq",
    "C47_pipe_next_geq_undefined",
    "C47_pipe_pairs",
    "C47_pipe_example",
    "C47_lines",
    "C47_lines_empty",
    "C47_lines_any",
    "C47_many",
    "C47_example_cpp"
   ],
   "note": "Characters are codes in the C locale; the parameter iso chooses between the C standard and glibc. The end-to-end theorems have the conditions of C35 and C31."
  },
  {
   "property": "C48",
   "status": "proved",
   "theorems": [
    "C48_build",
    "C48_test",
    "C48_example_cpp",
    "C48_count",
    "C48_usage",
    "C48_tools",
    "C48_script",
    "C48_script_test"
   ],
   "note": "std::stod is an arbitrary function. Files that cannot be opened are the subject of C62."
  },
  {
   "property": "C49",
   "status": "proved",
   "theorems": [
    "C49_integer",
    "C49_double",
    "C49_build",
    "C49_occurs",
    "C49_integer_read",
    "C49_double_read"
   ],
   "note": "Output after statistics::print is in C62. The text of a NaN is a parameter."
  },
  {
   "property": "C50",
   "status": "proved",
   "theorems": [
    "C50_quotient",
    "C50_percentage",
    "C50_mean",
    "C50_build",
    "C50_occurs"
   ],
   "note": "Exact.v states the output with exact fractions; no double occurs in it. Rounding of doubles is to nearest even (SpecFloat)."
  },
  {
   "property": "C51",
   "status": "proved",
   "theorems": [
    "C51_places",
    "C51_first",
    "C51_odd",
    "C51_bitmaps",
    "C51_aligned_refuted"
   ],
   "note": "That words are aligned is false (refuted); the theorems give the exact addresses modulo 8. The position of bitmaps of single blocks inside a chunk is not stated."
  },
  {
   "property": "C52",
   "status": "proved",
   "theorems": [
    "C52_whole",
    "C52_overwritten",
    "C52_size",
    "C52_contains",
    "C52_select",
    "C52_next_geq",
    "C52_intersection",
    "C52_intersection_many",
    "C52_contains_refuted"
   ],
   "note": "intact, in Damage.v, leaves every other byte arbitrary. Decoding is the subject of C56, unions of C60; a damaged head is the subject of C40 and C43 only."
  },
  {
   "property": "C53",
   "status": "proved",
   "theorems": [
    "C53_reports",
    "C53_clean",
    "C53_verdict",
    "C53_queries",
    "C53_index",
    "C53_contains",
    "C53_intersect",
    "C53_union",
    "C53_select",
    "C53_usage",
    "C53_example",
    "C53_example_any"
   ],
   "note": "The time is a parameter. Text written before an exception or undefined behaviour is not modelled except in C62, C64, C65 and C66. Which lines the programs for set operations write about a wrong result is C58."
  },
  {
   "property": "C54",
   "status": "proved",
   "theorems": [
    "C54_exact",
    "C54_count",
    "C54_entry",
    "C54_same"
   ],
   "note": "table and right_table are in Table.v. The table itself is not in the repository, so that it is right cannot be proved."
  },
  {
   "property": "C55",
   "status": "proved",
   "theorems": [
    "C55_index",
    "C55_whole",
    "C55_part",
    "C55_size",
    "C55_contains",
    "C55_select",
    "C55_next_geq",
    "C55_all"
   ],
   "note": "Reading behind the end of the mapped bytes is undefined in the model; a real mapping is padded with zeros to the end of its last page. cut and kept_chunk are in Cut.v."
  },
  {
   "property": "C56",
   "status": "proved",
   "theorems": [
    "C56_uncompress",
    "C56_enumerator",
    "C56_decode",
    "C56_decode_refuted",
    "C56_defined"
   ],
   "note": "intact is in Damage.v (C52). The first three theorems are about runs that end; C56_defined says when they do. Unions are the subject of C60."
  },
  {
   "property": "C57",
   "status": "proved",
   "theorems": [
    "C57_debug",
    "C57_next",
    "C57_later",
    "C57_nowhere",
    "C57_contains",
    "C57_intersect",
    "C57_union",
    "C57_tests",
    "C57_release_refuted",
    "C57_none"
   ],
   "note": "nowhere is in Beyond.v. The two arguments of the pairwise operations are opened from left to right in the model; the order does not matter for these statements. A real mapping is padded with zeros to the end of its last page."
  },
  {
   "property": "C58",
   "status": "proved",
   "theorems": [
    "C58_pairs",
    "C58_many"
   ],
   "note": "run, query_report, query_session, ran_pair and ran_many are in Ran.v. The theorems are about runs that end."
  },
  {
   "property": "C59",
   "status": "proved",
   "theorems": [
    "C59_queries",
    "C59_tools",
    "C59_blank",
    "C59_empty",
    "C59_build"
   ],
   "note": "plain_name, experiment and did are in Script.v. The shell is modelled as far as the scripts need it (words, blanks and <); names with other special characters, files that do not exist and Python 3 are not. What build writes is described by C48."
  },
  {
   "property": "C60",
   "status": "proved",
   "theorems": [
    "C60_decode",
    "C60_intersection",
    "C60_union",
    "C60_intersection_many",
    "C60_union_many",
    "C60_union_refuted"
   ],
   "note": "intact is in Damage.v, delivered and agrees_on in Astray.v. The theorems are about runs that end; C61 says when they end; C40 that they end in any case, possibly with an access outside memory."
  },
  {
   "property": "C61",
   "status": "proved",
   "theorems": [
    "C61_intersection",
    "C61_union",
    "C61_intersection_many",
    "C61_union_many",
    "C61_union_refuted"
   ],
   "note": "intact is in Damage.v. The rooms are sufficient; that they are necessary is shown only by C61_union_refuted, for a smaller buffer. A damaged head is the subject of C40."
  },
  {
   "property": "C62",
   "status": "proved",
   "theorems": [
    "C62_build",
    "C62_interrupted",
    "C62_uniform",
    "C62_clustered",
    "C62_tests",
    "C62_session",
    "C62_example",
    "C62_example_words",
    "C62_usage"
   ],
   "note": "has_file, saved, words32, in_memory and all_pass are in Session.v. Parameters: std::stod, the text of essentials::print_size, where files are mapped. What statistics::print has written before it converts a NaN is not modelled. Files to be written can always be opened."
  },
  {
   "property": "C63",
   "status": "proved",
   "theorems": [
    "C63_build",
    "C63_session",
    "C63_example",
    "C63_machines"
   ],
   "note": "odd_average, odd_bits, whole, build_lines_on and statistics_lines_on are in Lax.v. conv is any function to 64-bit numbers; the C++ standard promises nothing about these runs, so a compiler may do otherwise. Parameters as in C62."
  },
  {
   "property": "C64",
   "status": "proved",
   "theorems": [
    "C64_pairs",
    "C64_pairs_stop",
    "C64_pairs_abort",
    "C64_words",
    "C64_words_stop",
    "C64_index",
    "C64_generators",
    "C64_pipe_pairs",
    "C64_pipe_words",
    "C64_session",
    "C64_usage"
   ],
   "note": "index_on, reports, stops and the lines are in Bench.v and Report.v. iso, nan, time and mapped are parameters: whether a number that does not fit is undefined for scanf, how NaN is printed, what the timer measured, and where the file is mapped. A pipe hands over all the text of the first program; that the standard input is only read once it is there does not matter because the first program writes no files."
  },
  {
   "property": "C65",
   "status": "proved",
   "theorems": [
    "C65_tests",
    "C65_refuse"
   ],
   "note": "so_far and ends_badly are in Live.v, the lines of the checks in Report.v. Without assertions a list the index has not is read from behind the offsets; that case is not stated. Parameters: std::stod and where files are mapped."
  },
  {
   "property": "C66",
   "status": "proved",
   "theorems": [
    "C66_pairs",
    "C66_pairs_stop",
    "C66_many",
    "C66_many_stop",
    "C66_usage"
   ],
   "note": "decode_fits and join_fits (C34, C42) say when a list can be decoded and two lists united in u words. The order in which std::sort leaves lists of the same cardinality is a parameter. Without assertions a list the index has not is read from behind the offsets; that case is not stated. Lines about wrong results are the subject of C58."
  },
  {
   "property": "C67",
   "status": "proved",
   "theorems": [
    "C67_pairs",
    "C67_session",
    "C67_clustered",
    "C67_many"
   ],
   "note": "A pipe is the second program on the text and the files of the first. The sessions are on machines that convert every double to some integer (C63)."
  },
  {
   "property": "C68",
   "status": "proved",
   "theorems": [
    "C68_example"
   ],
   "note": "statistics_lines_on is in Lax.v, saved in Session.v, decode_fits in Room.v. The file that is mapped is a parameter and holds any sequence T; C63_example is the case in which it is the file saved. conv as in C63."
  }
 ]
}