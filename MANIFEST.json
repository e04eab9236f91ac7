{
 "claims": [
  {
   "property": "C01",
   "status": "proved",
   "theorems": [
    "C01_chop_splits",
    "C01_new_blob"
   ],
   "note": "all sizes, any position in any buffer"
  },
  {
   "property": "C02",
   "status": "proved",
   "theorems": [
    "C02_histories_partition"
   ],
   "note": "invariant over arbitrary histories of Chop on a forest of blobs"
  },
  {
   "property": "C03",
   "status": "proved",
   "theorems": [
    "C03_chop_min_max"
   ],
   "note": ""
  },
  {
   "property": "C04",
   "status": "proved",
   "theorems": [
    "C04_views_agree",
    "C04_exception_is_size_0",
    "C04_chops",
    "C04_null"
   ],
   "note": "including the size-0 exception of AsByteVector"
  },
  {
   "property": "C05",
   "status": "proved",
   "theorems": [
    "C05_isEmpty_is_null",
    "C05_isEmpty_ignores_exhaustion",
    "C05_null_stays_empty"
   ],
   "note": ""
  },
  {
   "property": "C06",
   "status": "proved",
   "theorems": [
    "C06_extract",
    "C06_round_trip",
    "C06_every_value",
    "C06_short"
   ],
   "note": "all 11 integer types; representation specified bit by bit"
  },
  {
   "property": "C07",
   "status": "proved",
   "theorems": [
    "C07_decimal",
    "C07_char",
    "C07_numeral_unique"
   ],
   "note": "deviation of char/signed char below -99 characterised exactly"
  },
  {
   "property": "C08",
   "status": "proved",
   "theorems": [
    "C08_double",
    "C08_float",
    "C08_same_text_double",
    "C08_same_text_float"
   ],
   "note": "all finite doubles and floats denote exactly the printed number; non-finite texts"
  },
  {
   "property": "C09",
   "status": "proved",
   "theorems": [
    "C09_in_range",
    "C09_full_range"
   ],
   "note": "all oracles and ranges; the full range separately"
  },
  {
   "property": "C10",
   "status": "proved",
   "theorems": [
    "C10_monotone",
    "C10_first",
    "C10_last",
    "C10_last_iff"
   ],
   "note": "last value: exact condition (at most 65792 values)"
  },
  {
   "property": "C11",
   "status": "proved",
   "theorems": [
    "C11_reachable",
    "C11_exceptions",
    "C11_larger",
    "C11_unreached"
   ],
   "note": "exact characterisation: reachable except for ranges of 65522 or 65524 values, where the unreachable values are named, and ranges of more than 65536 values, where the oracle determines the value injectively"
  },
  {
   "property": "C12",
   "status": "proved",
   "theorems": [
    "C12_word",
    "C12_short",
    "C12_empty_dictionary"
   ],
   "note": "all dictionaries up to 2^53 words, all data; the empty dictionary separately"
  },
  {
   "property": "C13",
   "status": "proved",
   "theorems": [
    "C13_reachable"
   ],
   "note": "every word of a dictionary of up to 2^52 words"
  },
  {
   "property": "C14",
   "status": "proved",
   "theorems": [
    "C14_width"
   ],
   "note": "consumption itself is part of C12_word"
  },
  {
   "property": "C15",
   "status": "proved",
   "theorems": [
    "C15_words"
   ],
   "note": "the 254 words of src/dict.cpp"
  },
  {
   "property": "C16",
   "status": "proved",
   "theorems": [
    "C16_latin1",
    "C16_ascii",
    "C16_empty"
   ],
   "note": ""
  },
  {
   "property": "C17",
   "status": "proved",
   "theorems": [
    "C17_values",
    "C17_fixed",
    "C17_short",
    "C17_zero"
   ],
   "note": "C17_fixed: Size/k chunks of k bytes, values in order (C17_values); C17_short: OutOfData, nothing consumed; C17_zero: diverges for k = 0."
  },
  {
   "property": "C18",
   "status": "proved",
   "theorems": [
    "C18_variated",
    "C18_overflow"
   ],
   "note": "variated_cut (VectorSpec.v) is the declarative description of oracle/chunk alternation; C18_overflow is the finding that min+2 > INT_MAX is undefined."
  },
  {
   "property": "C19",
   "status": "proved",
   "theorems": [
    "C19_unbounded",
    "C19_layout",
    "C19_any_count",
    "C19_any_size"
   ],
   "note": "unbounded_cut (VectorSpec.v) describes the division; binary32 arithmetic of the code is modelled with Flocq. C19_layout, C19_any_count, C19_any_size: any number of parts, sizes up to 2^31 - 4096."
  },
  {
   "property": "C20",
   "status": "proved",
   "theorems": [
    "C20_count_wraps",
    "C20_sum_overflows",
    "C20_rounding",
    "C20_min_missed"
   ],
   "note": "C20_count_wraps, C20_sum_overflows, C20_rounding and C20_min_missed give the failures for every blob of the stated shape."
  },
  {
   "property": "C21",
   "status": "proved",
   "theorems": [
    "C21_short",
    "C21_gap_variated",
    "C21_gap_unbounded",
    "C21_gap_tiny",
    "C21_min"
   ],
   "note": "C21_short, C21_gap_variated, C21_gap_unbounded; C21_gap_tiny is the case without two bytes for the count oracle."
  },
  {
   "property": "C22",
   "status": "proved",
   "theorems": [
    "C22_minSize",
    "C22_short",
    "C22_refuse"
   ],
   "note": "C22_minSize gives minSize(); C22_short is the equivalence below 2^31 bytes and 2^16 stamps; C22_refuse drops both bounds for one direction. set_ok: sensible sizes, totals within int."
  },
  {
   "property": "C23",
   "status": "proved",
   "theorems": [
    "C23_values",
    "C23_division",
    "C23_otherwise"
   ],
   "note": "set_cut (SetSpec.v) is the declarative description; C23_values says what ExtractStrSet/ExtractBinSet return; C23_otherwise covers sets where a stamp can be driven below zero."
  },
  {
   "property": "C24",
   "status": "proved",
   "theorems": [
    "C24_one_byte_short",
    "C24_refused"
   ],
   "note": "C24_one_byte_short for minSize() >= 1, C24_refused for minSize() == 0. A finding."
  },
  {
   "property": "C25",
   "status": "proved",
   "theorems": [
    "C25_layout",
    "C25_undefined",
    "C25_never"
   ],
   "note": "C25_layout: every long enough blob has this form; C25_undefined; C25_never without the condition on minimal sizes. A finding."
  },
  {
   "property": "C26",
   "status": "proved",
   "theorems": [
    "C26_division",
    "C26_otherwise"
   ],
   "note": "C26_division with the size bounds; C26_otherwise without the condition on minimal sizes."
  },
  {
   "property": "C27",
   "status": "proved",
   "theorems": [
    "C27_load",
    "C27_short",
    "C27_unload",
    "C27_null",
    "C27_history"
   ],
   "note": "Load, failed Load, Unload, Unload before Load, and refinement of arbitrary Load/Unload histories to a byte-level reference."
  },
  {
   "property": "C28",
   "status": "proved",
   "theorems": [
    "C28_enumerator",
    "C28_text",
    "C28_nonempty",
    "C28_dropped"
   ],
   "note": "Exact characterisation (iff) of every successful enumerator and text run, over any tame graph."
  },
  {
   "property": "C29",
   "status": "proved",
   "theorems": [
    "C29_min",
    "C29_max",
    "C29_appends"
   ],
   "note": "C29_min and C29_max over construction and Append histories of any length (lot_grow); C29_appends: Append calls on a lottery in a stamp graph do exactly this."
  },
  {
   "property": "C30",
   "status": "proved",
   "theorems": [
    "C30_exact",
    "C30_underreports"
   ],
   "note": "C30_exact: maxSize() of any history with an unbounded stamp; C30_underreports: the consequence, for all sizes and all data. A finding."
  },
  {
   "property": "C31",
   "status": "proved",
   "theorems": [
    "C31_picks",
    "C31_enough",
    "C31_none",
    "C31_short",
    "C31_reach",
    "C31_stale"
   ],
   "note": "On stamp graphs, with tame leaves (C46). C31_picks, C31_enough, C31_none, C31_short, C31_reach; C31_stale shows that the proviso of C31_enough is needed, a finding."
  },
  {
   "property": "C32",
   "status": "proved",
   "theorems": [
    "C32_picks",
    "C32_none",
    "C32_min",
    "C32_never_aborts",
    "C32_short",
    "C32_reach"
   ],
   "note": "On stamp graphs, with tame leaves (C46). C32_picks, C32_none, C32_min, C32_never_aborts, C32_short, C32_reach."
  },
  {
   "property": "C33",
   "status": "proved",
   "theorems": [
    "C33_sizes",
    "C33_isRecursive"
   ],
   "note": "all graphs; undefined behaviour (int overflow, expired pointer) is the only other outcome"
  },
  {
   "property": "C34",
   "status": "proved",
   "theorems": [
    "C34_negative",
    "C34_overflow"
   ],
   "note": "property corrected while proving: the operator is not merely unselectable, the size query overflows"
  },
  {
   "property": "C35",
   "status": "proved",
   "theorems": [
    "C35_exact",
    "C35_not_a_pool",
    "C35_forever",
    "C35_json"
   ],
   "note": "exact characterisation of isRecursive() on pools, plus the StampJSON instance"
  },
  {
   "property": "C36",
   "status": "proved",
   "theorems": [
    "C36_sizes"
   ],
   "note": ""
  },
  {
   "property": "C37",
   "status": "proved",
   "theorems": [
    "C37_total",
    "C37_short",
    "C37_limit"
   ],
   "note": "Instance of C41_composed; the limit is exact (C37_limit)."
  },
  {
   "property": "C38",
   "status": "proved",
   "theorems": [
    "C38_json",
    "C38_finite_data",
    "C38_nan"
   ],
   "note": "Exact characterisation: JSON if and only if all doubles drawn are finite. The unqualified claim (all output is JSON) is false of the code: C38_nan."
  },
  {
   "property": "C39",
   "status": "proved",
   "theorems": [
    "C39_string"
   ],
   "note": ""
  },
  {
   "property": "C40",
   "status": "proved",
   "theorems": [
    "C40_unary",
    "C40_binary",
    "C40_balanced"
   ],
   "note": "Exact characterisation of unary and binary operator results; balance for arbitrary nestings."
  },
  {
   "property": "C41",
   "status": "proved",
   "theorems": [
    "C41_composed",
    "C41_leaves",
    "C41_limits"
   ],
   "note": "Proved for arbitrary graphs: induction on the amount of data and, inside, on the stamp expression. User stamps are arbitrary functions satisfying [safe]. Limits of the galleys (found false outside them by C20, C21, C24-C26) are part of [well]."
  },
  {
   "property": "C42",
   "status": "proved",
   "theorems": [
    "C42_elementary",
    "C42_galleys",
    "C42_composite",
    "C42_json",
    "C42_library_leaves"
   ],
   "note": "elementary stamps, galleys, arbitrary graphs of composite stamps over local user stamps, StampJSON"
  },
  {
   "property": "C43",
   "status": "proved",
   "theorems": [
    "C43_one",
    "C43_meaning"
   ],
   "note": ""
  },
  {
   "property": "C44",
   "status": "proved",
   "theorems": [
    "C44_safe",
    "C44_once",
    "C44_all",
    "C44_size",
    "C44_copy"
   ],
   "note": "Invariant over all histories of pointer operations; double free after copy for every reachable state."
  },
  {
   "property": "C45",
   "status": "proved",
   "theorems": [
    "C45_hexdump",
    "C45_dump",
    "C45_too_big",
    "C45_overflow",
    "C45_negative"
   ],
   "note": "exact text of every line; sizes from 2^31 bytes on and negative ones shown never to finish (finding)"
  },
  {
   "property": "C46",
   "status": "proved",
   "theorems": [
    "C46_terminates",
    "C46_depth",
    "C46_zero",
    "C46_leaves",
    "C46_json"
   ],
   "note": "Any graph over tame leaves without enumerators over zero-sized elements; the recursion depth of the model is shown to be no restriction (C46_depth); the zero-sized enumerator is proved endless (C46_zero)."
  },
  {
   "property": "C47",
   "status": "proved",
   "theorems": [
    "C47_bound",
    "C47_leaves",
    "C47_set",
    "C47_lottery",
    "C47_refuted"
   ],
   "note": "C47_bound: for every nest; C47_leaves: the stamps of the library meet its hypothesis; C47_set: exact maxSize() of a set; C47_lottery: lotteries of stamps of limited size meet it; C47_refuted: an actual lottery that consumes more than its maxSize() (see C30)."
  },
  {
   "property": "C48",
   "status": "proved",
   "theorems": [
    "C48_load_all",
    "C48_short",
    "C48_interrupted",
    "C48_unload"
   ],
   "note": "Stated over the chunks that set_extract cuts (C22-C26 say which); C48_twice and C48_stops show the cases of a shared stamp and of a chunk below minSize()."
  },
  {
   "property": "C49",
   "status": "proved",
   "theorems": [
    "C49_decodes",
    "C49_kinds",
    "C49_reach"
   ],
   "note": "C49_decodes gives the reading as an inductive relation (DecodeSpec); C49_kinds and C49_reach the choice of kinds. Sizes of parts are those of C19 for data up to its limit; above it only their order is stated."
  },
  {
   "property": "C50",
   "status": "proved",
   "theorems": [
    "C50_depth"
   ],
   "note": "For data of every size; C50_case shows that the bound is reached."
  },
  {
   "property": "C51",
   "status": "proved",
   "theorems": [
    "C51_shape",
    "C51_members",
    "C51_limit"
   ],
   "note": "C51_shape and C51_members; C51_limit shows that the bound of C51_shape is exact"
  },
  {
   "property": "C52",
   "status": "proved",
   "theorems": [
    "C52_every"
   ],
   "note": "with an explicit amount of data; the amount is sufficient, not claimed to be least"
  },
  {
   "property": "C53",
   "status": "proved",
   "theorems": [
    "C53_works",
    "C53_broken",
    "C53_scalars",
    "C53_nothing",
    "C53_copy",
    "C53_move",
    "C53_history"
   ],
   "note": "Programs over StampJSON objects are lists of operations on a table of objects; C53_works is for all intact tables, C53_copy and C53_move for all programs around one copy or move. The is_recursive cache is taken as unset and addresses as not reused."
  },
  {
   "property": "C54",
   "status": "proved",
   "theorems": [
    "C54_values",
    "C54_exact",
    "C54_pool",
    "C54_pool_large"
   ],
   "note": "Shares are stated as a cut of the oracle values into runs; lengths bounded in products to avoid division."
  },
  {
   "property": "C55",
   "status": "proved",
   "theorems": [
    "C55_words",
    "C55_large",
    "C55_lottery",
    "C55_lottery_large"
   ],
   "note": "C55_words and C55_large for dictionaries, C55_lottery and C55_lottery_large for lotteries (1, 2, 4 and 8 oracle bytes)."
  },
  {
   "property": "C56",
   "status": "proved",
   "theorems": [
    "C56_setup",
    "C56_writes",
    "C56_short",
    "C56_reach",
    "C56_unambiguous",
    "C56_main",
    "C56_program"
   ],
   "note": "Ownership of the stamps (the example hands over references) is not modelled."
  },
  {
   "property": "C57",
   "status": "proved",
   "theorems": [
    "C57_point",
    "C57_bytes",
    "C57_short",
    "C57_line",
    "C57_number",
    "C57_line_short",
    "C57_readable",
    "C57_example01",
    "C57_example02",
    "C57_example04",
    "C57_example08",
    "C57_example_short"
   ],
   "note": "C57_short states the partial consumption as it is."
  },
  {
   "property": "C58",
   "status": "proved",
   "theorems": [
    "C58_json",
    "C58_changed",
    "C58_refuses",
    "C58_unopened",
    "C58_fails",
    "C58_limit"
   ],
   "note": "Exact characterisation: the failing cases (empty, too small, from 393232 bytes) are stated as they are."
  },
  {
   "property": "C59",
   "status": "proved",
   "theorems": [
    "C59_fit",
    "C59_fit_any",
    "C59_fit_undefined",
    "C59_pick",
    "C59_pick_exact",
    "C59_pick_any",
    "C59_pick_wrong",
    "C59_writes",
    "C59_less",
    "C59_reach"
   ],
   "note": "C59_fit_undefined and C59_pick_wrong are the exceptions the statement names; they are findings about the experimental code"
  },
  {
   "property": "C60",
   "status": "proved",
   "theorems": [
    "C60_operations",
    "C60_graph",
    "C60_json",
    "C60_compose",
    "C60_tail"
   ],
   "note": "takes_front (FrontSpec.v) holds for every outcome; galleys need nothing of the stamps; graphs need it of their leaves only."
  },
  {
   "property": "C61",
   "status": "proved",
   "theorems": [
    "C61_sizes",
    "C61_unbounded",
    "C61_near_limit"
   ],
   "note": "The inductive relation sized (SizesSpec.v) gives the sizes by the parts; C61_sizes proves them for the code's queries with their marks. Finding: near INT_MAX sizes wrap or are undefined (C61_near_limit)."
  },
  {
   "property": "C62",
   "status": "proved",
   "theorems": [
    "C62_vector",
    "C62_set",
    "C62_cut",
    "C62_enumerator",
    "C62_operators",
    "C62_set_stamp",
    "C62_hashel"
   ],
   "note": "failure (FailSpec.v) carries OutOfData, UB, Abort and divergence alike."
  },
  {
   "property": "C63",
   "status": "proved",
   "theorems": [
    "C63_minSize",
    "C63_never",
    "C63_pool",
    "C63_maxSize"
   ],
   "note": "Exact characterisation of a defect: expired weak pointers are dereferenced. Complements C53, which is about StampJSON objects."
  },
  {
   "property": "C64",
   "status": "proved",
   "theorems": [
    "C64_fixed",
    "C64_variated",
    "C64_unbounded_one",
    "C64_unbounded",
    "C64_values",
    "C64_integers",
    "C64_enumerator",
    "C64_sentences"
   ],
   "note": "Oracles are exhibited for every list; for unbounded elements the last byte is left open because the count of chunks and their sizes round in binary32."
  },
  {
   "property": "C65",
   "status": "proved",
   "theorems": [
    "C65_division",
    "C65_values",
    "C65_operands",
    "C65_set_stamp",
    "C65_gap"
   ],
   "note": "Oracles 65535*extra/(max-min) for variated stamps and the extras themselves for unbounded ones; the fair division of C23/C26 then has one solution. C65_gap shows that some limit is needed."
  },
  {
   "property": "C66",
   "status": "proved",
   "theorems": [
    "C66_threshold",
    "C66_at_most",
    "C66_leaves",
    "C66_json"
   ],
   "note": "C66_threshold is the boundary for any composition, C66_at_most compares it with minSize(), C66_leaves and C66_json give the elementary and the JSON stamps."
  },
  {
   "property": "C67",
   "status": "proved",
   "theorems": [
    "C67_operations",
    "C67_graph",
    "C67_json",
    "C67_compose",
    "C67_amount"
   ],
   "note": "C67_graph covers recursive graphs; C67_amount shows the length of the rest cannot be dropped from the statement."
  },
  {
   "property": "C68",
   "status": "proved",
   "theorems": [
    "C68_galleys",
    "C68_values",
    "C68_element",
    "C68_stamps"
   ],
   "note": "C68_galleys for the division, C68_values and C68_element for values, C68_stamps for composed stamps in any graph."
  },
  {
   "property": "C69",
   "status": "proved",
   "theorems": [
    "C69_chars",
    "C69_until",
    "C69_list",
    "C69_leaves",
    "C69_complex",
    "C69_array",
    "C69_readable",
    "C69_memory",
    "C69_sizes"
   ],
   "note": "C69_chars, C69_until, C69_list (tests' stamps), C69_leaves (they meet the conditions of the graph theorems), C69_complex, C69_array, C69_readable, C69_memory (README)"
  },
  {
   "property": "C70",
   "status": "proved",
   "theorems": [
    "C70_enough",
    "C70_starved",
    "C70_sizes",
    "C70_sum_of_minima",
    "C70_stamps"
   ],
   "note": "C70_enough and C70_starved together give the exact threshold; C70_sizes: the sizes such a stamp should report; C70_sum_of_minima: README's rule holds exactly for fixed-size stamps in front (finding); C70_stamps: stamps to which it applies"
  },
  {
   "property": "C71",
   "status": "proved",
   "theorems": [
    "C71_pick",
    "C71_inside",
    "C71_exact",
    "C71_share",
    "C71_zero",
    "C71_all_zero",
    "C71_empty",
    "C71_nodes"
   ],
   "note": "Elements on both sides of a boundary are allowed for a seed exactly on it unless the sum of the weights divides 255 (C71_exact)."
  },
  {
   "property": "C72",
   "status": "proved",
   "theorems": [
    "C72_program",
    "C72_alive",
    "C72_use_count",
    "C72_no_leak",
    "C72_stamp",
    "C72_members",
    "C72_unaffected",
    "C72_self_contained",
    "C72_lottery",
    "C72_pool"
   ],
   "note": "Objects are numbered in the order of their creation; a history begins with the latest act. C72_program: lawful programs run, others have no meaning (UB). C72_alive, C72_use_count, C72_no_leak: lifetimes. C72_stamp, C72_members: what the stamps of a program are in terms of Stamps.v. C72_unaffected, C72_self_contained: what is kept behaves as if nothing was dropped. C72_lottery, C72_pool: a destroyed member."
  },
  {
   "property": "C73",
   "status": "proved",
   "theorems": [
    "C73_same",
    "C73_doubles",
    "C73_enumerators",
    "C73_sets",
    "C73_unary",
    "C73_hash_element",
    "C73_enumerator",
    "C73_binary",
    "C73_set",
    "C73_lottery",
    "C73_at_most",
    "C73_pools"
   ],
   "note": "Answers as in the plain queries (C73_same), lower bound for every expression (C73_doubles), exact counts for nested enumerators and sets (C73_enumerators, C73_sets), upper bound for every graph (C73_at_most), exact count and factorial bound for pools in each other (C73_pools)."
  },
  {
   "property": "C74",
   "status": "proved",
   "theorems": [
    "C74_write",
    "C74_present",
    "C74_positions",
    "C74_apart",
    "C74_within",
    "C74_free",
    "C74_freed",
    "C74_lives"
   ],
   "note": "A blob depends on the array it was made of until its last use; nothing in the library keeps the array alive (part f)."
  },
  {
   "property": "C75",
   "status": "proved",
   "theorems": [
    "C75_status",
    "C75_test_status",
    "C75_harness",
    "C75_skip_all",
    "C75_zero_plan_refuted",
    "C75_died",
    "C75_skip_rest",
    "C75_block",
    "C75_leak",
    "C75_guard",
    "C75_comparison",
    "C75_calls",
    "C75_try",
    "C75_no_plan_done",
    "C75_defined"
   ],
   "note": "the departures from the README are theorems of their own: C75_died, C75_zero_plan_refuted, C75_no_plan_done, C75_skip_rest, C75_leak"
  },
  {
   "property": "C76",
   "status": "proved",
   "theorems": [
    "C76_symmetric",
    "C76_special",
    "C76_special_float",
    "C76_sound_double",
    "C76_complete_double",
    "C76_sound_float",
    "C76_complete_float",
    "C76_tiny",
    "C76_default",
    "C76_overflow_refuted"
   ],
   "note": "C76_overflow_refuted shows that the bound on the sum is needed"
  },
  {
   "property": "C77",
   "status": "proved",
   "theorems": [
    "C77_set",
    "C77_set_waste",
    "C77_set_more",
    "C77_set_negative",
    "C77_vector_negative",
    "C77_vector_overflow",
    "C77_vector_wraps"
   ],
   "note": "characterises what happens: the claim a user would like, that larger data is divided like smaller data, is false of the code. Not covered: the 256 and 4096 sizes at the ends of the intervals of the vector."
  },
  {
   "property": "C78",
   "status": "proved",
   "theorems": [
    "C78_overflow",
    "C78_minimum",
    "C78_maximum",
    "C78_all"
   ],
   "note": "characterises what happens: the claim a user would like, that sizes are computed right, is false of the code there."
  }
 ]
}