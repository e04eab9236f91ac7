# libblobstamper in Rocq: design

The development is in `rocq/theories`: Coq 8.16.1, its standard library, and Flocq 4.1 for IEEE-754
arithmetic. `properties.jsonl` holds the properties, `MANIFEST.json` the theorem names,
`seeded/LOG.jsonl` the tests of the theorems against wrong programs.

## How it is built

1. **Model** (one definition per function of the code, each with file and lines).
   `Base` outcomes and C++ integers; `FloatModel` binary32/binary64; `Blob`; `Oracle`; `Fmt` text of
   numbers; `Arithm`; `StampDict`, `DictWords`; `StampText`; `Galley` (vector, set, Load, LoadAll);
   `Stamps` (lottery, pool, operators, enumerators over a graph of stamps); `Json`; `Hexdump`;
   `OwnedPtr`; `Owner` (lifetimes of stamps); `JsonLife` (StampJSON objects under copy and destruction); and the programs of
   `examples/` and `pulp2json`: `Formula`, `Points`, `Pulp`.
2. **Specifications** (`*Spec.v`): small, declarative, do not mention the functions of the model
   unless the property is about them.
3. **Proofs** (`*Facts.v` and the other files).
4. **Properties** (`Prop_*.v`): only the final theorems, an `Example` of a concrete case for each,
   and `Print Assumptions`.

An operation of the model returns `Ok v | OutOfData | UB | Abort | Diverge`. Undefined behaviour
(out-of-range access, signed overflow, conversion of an unrepresentable floating value, null
dereference, division by zero, double free) is an outcome of its own and never a default value. A loop or a
recursion that runs out of fuel gives `Diverge`; C46 shows when that cannot happen, and where it does
happen (C17, C45, C46) it is shown that no amount of fuel is enough.

Code that uses a blob only through `Size`, `Chop`, `AsByteVector` (all stamps and galleys) is written
once over the class `BlobOps`. It is run on the `Blob` model with its wrapping `size_t` fields; proofs
go through plain byte lists, which a simulation (`Sim`, `SimGraph`) shows to be equivalent.
Theorems speak about actual blobs: `holds b l` says that the blob is well formed and `l` are its
bytes, `runs f b r rest` that running `f` gives `r` and leaves `rest`.

Stamps built from stamps form a graph: a stamp is a finite expression whose cycles go through
indices into a heap of pools and lotteries. Stamps written by users of the library are arbitrary
functions on blobs (`XLeaf`), subject to the hypotheses stated in the theorem.

## Properties

Status is `proved` for all of them. Where the code does not have the property one would like, the
property is stated as what the code does (exactly), and the deviation is listed under Findings.

| id | property | file | theorems | how |
|----|----------|------|----------|-----|
| C01 | Chop splits a blob exactly | Prop_Blob | C01_chop_splits C01_new_blob | arithmetic on wrapped fields |
| C02 | Chop histories partition the buffer | Prop_Blob | C02_histories_partition | invariant over histories of Chop on a forest of blobs (BlobHistory) |
| C03 | Chop(min,max) takes as much as allowed | Prop_Blob | C03_chop_min_max | case analysis |
| C04 | Read-only views agree | Prop_Blob | C04_views_agree C04_exception_is_size_0 C04_chops C04_null | pointer arithmetic, list lemmas |
| C05 | isEmpty() reports a null buffer, not exhaustion | Prop_Blob | C05_isEmpty_is_null C05_isEmpty_ignores_exhaustion C05_null_stays_empty | invariant over histories |
| C06 | Integer stamps decode little-endian and round-trip | Prop_Arithm | C06_extract C06_round_trip C06_every_value C06_short | codec round trip over all integer types |
| C07 | Integer text is the decimal numeral of the value | Prop_Arithm | C07_decimal C07_char C07_numeral_unique | digits induction; 8-bit types by cases |
| C08 | Double text is exact | Prop_FloatText | C08_double C08_float C08_same_text_double C08_same_text_float | parse-back of the printed text to a rational equal to the value |
| C09 | OracleProportion stays in range | Prop_Oracle | C09_in_range C09_full_range | binary32 error bounds |
| C10 | OracleProportion is monotone and hits the ends | Prop_Oracle | C10_monotone C10_first C10_last C10_last_iff | monotonicity of rounding; midpoints of binary32 for the last value |
| C11 | OracleProportion can reach every value | Prop_Oracle | C11_reachable C11_exceptions C11_larger C11_unreached | gap argument on binary32 products; finite list of exceptions; neighbouring integers round alike (OracleLarge), pigeonhole |
| C12 | Dictionary stamp always returns a word of the dictionary | Prop_Dict | C12_word C12_short C12_empty_dictionary | binary64 bounds on the index |
| C13 | Every dictionary word is reachable | Prop_Dict | C13_reachable | explicit oracle for each word |
| C14 | Dictionary index width | Prop_Dict | C14_width | case analysis |
| C15 | Built-in dictionary words are JSON-safe | Prop_Dict | C15_words | computation over the word list |
| C16 | Text stamps normalise every byte | Prop_Text | C16_latin1 C16_ascii C16_empty | list induction |
| C17 | GalleyVector over a fixed-size stamp | Prop_Vector | C17_values C17_fixed C17_short C17_zero | fuel induction |
| C18 | GalleyVector over a variated stamp | Prop_Vector | C18_variated C18_overflow | induction against the relation variated_cut |
| C19 | GalleyVector over an unbounded stamp | Prop_Vector, Prop_VectorAll | C19_unbounded C19_layout C19_any_count C19_any_size | binary32 error analysis of carried remainders, relation unbounded_cut |
| C20 | GalleyVector size limits | Prop_Vector, Prop_VectorAll | C20_count_wraps C20_sum_overflows C20_rounding C20_min_missed | explicit families of inputs |
| C21 | Short input to GalleyVector | Prop_Vector | C21_short C21_gap_variated C21_gap_unbounded C21_gap_tiny C21_min | case analysis |
| C22 | GalleySet refuses short input cleanly | Prop_Set | C22_minSize C22_short C22_refuse | sums over the stamps |
| C23 | GalleySet divides data between fixed and unbounded stamps | Prop_Set | C23_values C23_division C23_otherwise | binary64 error analysis, relation set_cut |
| C24 | GalleySet can short-change a stamp by one byte | Prop_Set | C24_one_byte_short C24_refused | explicit family of inputs |
| C25 | GalleySet with all-zero variated oracles | Prop_Set | C25_layout C25_undefined C25_never | NaN propagation |
| C26 | GalleySet divides data between variated stamps | Prop_Set | C26_division C26_otherwise | binary64 error analysis |
| C27 | Load bites the right amount | Prop_Load | C27_load C27_short C27_unload C27_null C27_history | refinement of load/unload histories |
| C28 | Enumerator output format | Prop_Enum | C28_enumerator C28_text C28_nonempty C28_dropped | inversion of successful runs |
| C29 | Lottery size bookkeeping over Append histories | Prop_Lottery | C29_min C29_max C29_appends | induction over Append histories |
| C30 | Lottery forgets unboundedness | Prop_Lottery | C30_exact C30_underreports | exact maximum over histories |
| C31 | Lottery picks a member that fits | Prop_Lottery | C31_picks C31_enough C31_none C31_short C31_reach C31_stale | index bounds; selection as a relation |
| C32 | PoolPicker picks a member that fits | Prop_Pool | C32_picks C32_none C32_min C32_never_aborts C32_short C32_reach | selection as a relation; reachability by explicit oracle |
| C33 | Size queries terminate on cyclic stamps | Prop_Recursion | C33_sizes C33_isRecursive | measure on unmarked pools |
| C34 | A pool with a binary operator over itself reports a negative minSize() | Prop_Recursion | C34_negative C34_overflow | computation on the symbolic pool |
| C35 | isRecursive() misses recursion through galleys | Prop_Recursion | C35_exact C35_not_a_pool C35_forever C35_json | reachability in the graph of pools |
| C36 | JSON stamp sizes | Prop_Json | C36_sizes | computation |
| C37 | JSON extraction is total | Prop_Json | C37_total C37_short C37_limit | instance of C41; limit by explicit blob |
| C38 | JSON output is well-formed | Prop_Json | C38_json C38_finite_data C38_nan | induction on runs against a JSON grammar |
| C39 | StampJSONString declares more than it consumes | Prop_Json | C39_string | inversion |
| C40 | Math operator output nests properly | Prop_Math | C40_unary C40_binary C40_balanced | induction, balance of parentheses |
| C41 | minSize() is sufficient, compositionally | Prop_Contract | C41_composed C41_leaves C41_limits | contract of each combinator; induction on data and expression |
| C42 | Extraction depends only on the blob's bytes | Prop_Locality | C42_elementary C42_galleys C42_composite C42_json C42_library_leaves | simulation |
| C43 | Exactly one size class | Prop_Class | C43_one C43_meaning | case analysis |
| C44 | Owning pointers free exactly once | Prop_Owned | C44_safe C44_once C44_all C44_size C44_copy | invariant over histories |
| C45 | hexdump stays inside its line buffer | Prop_Hexdump | C45_hexdump C45_dump C45_too_big C45_overflow C45_negative | symbolic line, induction on lines |
| C46 | Extraction terminates | Prop_Termination | C46_terminates C46_depth C46_zero C46_leaves C46_json | induction on data size and expression |
| C47 | maxSize() bounds consumption | Prop_Max | C47_bound C47_leaves C47_set C47_lottery C47_refuted | induction on runs |
| C48 | LoadAll loads each stamp with its own chunk | Prop_LoadAll | C48_load_all C48_short C48_interrupted C48_unload | induction on the stamps |
| C49 | How StampJSON reads its data | Prop_Decode | C49_decodes C49_kinds C49_reach | inversion of runs into an inductive reading relation |
| C50 | Nesting of JSON output is bounded by the data | Prop_Decode | C50_depth | induction on data size |
| C51 | Shape of the values StampJSON writes | Prop_Shape | C51_shape C51_members C51_limit | induction on data size over the reading relation of C49; lower bound on binary32 shares |
| C52 | StampJSON can write every such value | Prop_Shape | C52_every | induction on the tree; oracles chosen so that binary32 shares fall halfway between integers |
| C53 | StampJSON objects under copy, move, assignment and destruction | Prop_Life | C53_works C53_broken C53_scalars C53_nothing C53_copy C53_move C53_history | equality of two graphs by induction on fuel; distance to the destroyed object; induction on operation lists |
| C54 | OracleProportion and pools choose evenly | Prop_Fair | C54_values C54_exact C54_pool C54_pool_large | cut of a monotone function close to a line; binary32 rounding bounds |
| C55 | Dictionaries and lotteries choose evenly | Prop_Fair | C55_words C55_large C55_lottery C55_lottery_large | the same with binary64 bounds |
| C56 | A lottery with operators over itself writes exactly the formulas, within exact size bounds | Prop_Formula | C56_setup C56_writes C56_short C56_reach C56_unambiguous C56_main C56_program | induction on data size; induction on the formula with oracles equal to the sizes wanted; prefix-free texts |
| C57 | User-made point and line stamps of the examples | Prop_Points | C57_point C57_bytes C57_short C57_line C57_number C57_line_short C57_readable C57_example01 C57_example02 C57_example04 C57_example08 C57_example_short | composition of runs; texts read back from the left |
| C58 | pulp2json prints one line of JSON | Prop_Pulp | C58_json C58_changed C58_refuses C58_unopened C58_fails C58_limit | instance of C37, C38; induction on the text for its characters |
| C59 | Splitting data in two again and again writes exactly the formulas of numbers | Prop_Experiment | C59_fit C59_fit_any C59_fit_undefined C59_pick C59_pick_exact C59_pick_any C59_pick_wrong C59_writes C59_less C59_reach | binary64 error bounds; induction on data size and on the formula |
| C60 | An extraction only ever takes data from the front of the blob | Prop_Front | C60_operations C60_graph C60_json C60_compose C60_tail | induction on fuel and stamp; closure of takes_front under binding |
| C61 | Sizes of stamps made of stamps, at any depth | Prop_Sizes | C61_sizes C61_unbounded C61_near_limit | induction on fuel and stamp over queries with more marks set |
| C62 | A failing part fails the whole with the same failure | Prop_Fail | C62_vector C62_set C62_cut C62_enumerator C62_operators C62_set_stamp C62_hashel | inversion of the cut, induction on the parts before |
| C63 | A destroyed member spoils its pool and everything that needs its size | Prop_Expired | C63_minSize C63_never C63_pool C63_maxSize | induction on fuel and stamp; every query answers or is UB |
| C64 | Every list can come out of a vector | Prop_Reach | C64_fixed C64_variated C64_unbounded_one C64_unbounded C64_values C64_integers C64_enumerator C64_sentences | explicit oracles; uniqueness of the cut |
| C65 | Every division can come out of a set | Prop_ReachSet | C65_division C65_values C65_operands C65_set_stamp C65_gap | explicit oracles; prefix sums determine the division |
| C66 | How many bytes a stamp needs | Prop_Need | C66_threshold C66_at_most C66_leaves C66_json | the inductive relation `needs` (NeedSpec.v) computes the number from the reported sizes; induction over it, with C41 for success, C21/C22/C31/C32 for the refusals and the gaps of C21 between the minimum of the element and minSize() of the enumerator |
| C67 | Bytes left behind do not influence the result | Prop_Blind | C67_operations C67_graph C67_json C67_compose C67_amount | a binary logical relation between two runs of the same extraction on blobs with the same consumed front and rests of one length (BlindFacts.v), compositional in the operations; induction over fuel and expression |
| C68 | Changing the bytes of one element changes that element only | Prop_Weave | C68_galleys C68_values C68_element C68_stamps | the layout of a division (parts with gaps around them, `weave`) is computed along the run; reads of oracles go through the relation of C67, every Chop adds a part (WeaveFacts.v); composed stamps through C28/C40 and locality (C42) |
| C69 | Stamps that users write: the tests' character stamps and README's complex numbers | Prop_User | C69_chars C69_until C69_list C69_leaves C69_complex C69_array C69_readable C69_memory C69_sizes | runs of the extractions on blobs; division into chunks from C17; texts read back from the front |
| C70 | Stamps applied one after another to the same blob | Prop_User | C70_enough C70_starved C70_sizes C70_sum_of_minima C70_stamps | induction on the list of stamps |
| C71 | A choice by weights keeps the proportions | Prop_Weighted | C71_pick C71_inside C71_exact C71_share C71_zero C71_all_zero C71_empty C71_nodes | binary64 error analysis of the accumulated steps; counting of seeds |
| C72 | How long stamps live, and what a destroyed member does | Prop_Owner | C72_program C72_alive C72_use_count C72_no_leak C72_stamp C72_members C72_unaffected C72_self_contained C72_lottery C72_pool | counts of pointers balanced along every program; heaps that agree on what is met |
| C73 | How many calls one size query makes | Prop_Cost | C73_same C73_doubles C73_enumerators C73_sets C73_unary C73_hash_element C73_enumerator C73_binary C73_set C73_lottery C73_at_most C73_pools | Cost.v: query of Stamps.v with a tick at every entry (the q_* functions are shared, polymorphic in the state). Erasure and both bounds in one induction over fuel and expression (within: same outcome as the plain query, cost between two numbers); exact counts by induction on the depth, for the clique by induction on fuel with the number of unmarked pools as the measure. |
| C74 | Blobs are views of the caller's memory | Prop_Views | C74_write C74_present C74_positions C74_apart C74_within C74_free C74_freed C74_lives | Views.v: arrays kept apart from Blob objects; every step builds the blob of Blob.v from the array as it is then and runs the shared Chop, Chop2, Load or any extractor. Invariant over all careful programs (every view well-formed in its array); cut_shape: a cut depends on the size alone; disjointness by induction over the program with a count of hand-made blobs. |
| C75 | The exit status of a test program is the verdict of its own output | Prop_Tap | C75_status C75_test_status C75_harness C75_skip_all C75_zero_plan_refuted C75_died C75_skip_rest C75_block C75_leak C75_guard C75_comparison C75_calls C75_try C75_no_plan_done C75_defined | Tap.v: the library function by function as state transformers with exceptions, exit and terminate; a program is the tree of its calls and scopes. TapSpec.v reads the output back, line by line, as a harness does. Invariant relating counters, flags and the lines read back, kept by every statement (induction over programs); stack depth and stack restoration by two more inductions. |
| C76 | is() on floating point numbers means a relative error below EPSILON | Prop_Near | C76_symmetric C76_special C76_special_float C76_sound_double C76_complete_double C76_sound_float C76_complete_float C76_tiny C76_default C76_overflow_refuted | TapFloat.v: the comparison in the operations of Flocq. The three parts of the disjunction are taken apart over the reals (NearFacts.v); a quotient rounded below a number of the format is below it, so only the roundings of the difference and of the sum are left, bounded by the relative error of sums, which holds for subnormal numbers too. |
| C77 | Galleys on data of 2 GiB and more | Prop_Huge | C77_set C77_set_waste C77_set_more C77_set_negative C77_vector_negative C77_vector_overflow C77_vector_wraps | sets: HugeFacts.v shows that the division depends on the number of available bytes as an int only, and that an operation that succeeds does the same with more data behind; so the theorem for small data applies to a front part. HugeSet.v: with variated stamps a negative amount is divided; every double operation of the division gives the negated result for negated operands, so the sizes are the negated shares of the positive amount. Vectors: HugeVector.v repeats the error analysis of the sizes for a negative amount of data; the sizes add up to a negative number up to an error of about 2 KiB, so one of them is negative and its Chop fails. |
| C78 | Sets whose total sizes do not fit an int | Prop_Totals | C78_overflow C78_minimum C78_maximum C78_all | TotalsFacts.v: induction over the stamps; a sum of non-negative terms that leaves the range overflows at some step. Conversions to int are modulo 2^32, so the repeated ones collapse into one. |

## Trusted base

- Coq's kernel (and its `vm_compute` machine; `coqchk` re-checks the compiled files without it).
- The definitions of the model: that they say what the C++ code does on the platform below.
- Flocq 4.1 is used for its definitions (the operations of binary floats) and its proofs. It adds no
  axiom of its own; the definitions are part of what has to be believed about `float` and `double`.
- The specifications and theorem statements: that they say what `properties.jsonl` says.

No axiom is declared in the development. `Print Assumptions` lists for every theorem either nothing or
these four axioms, which come with the real numbers of the standard library (through Flocq):

- `ClassicalDedekindReals.sig_not_dec`
- `ClassicalDedekindReals.sig_forall_dec`
- `FunctionalExtensionality.functional_extensionality_dep`
- `Classical_Prop.classic`

`Closed under the global context` (129 theorems):

C01_chop_splits, C01_new_blob, C02_histories_partition, C03_chop_min_max, C04_chops, C04_exception_is_size_0, C04_null, C04_views_agree, C05_isEmpty_ignores_exhaustion, C05_isEmpty_is_null, C05_null_stays_empty, C06_every_value, C06_extract, C06_round_trip, C06_short, C07_char, C07_decimal, C07_numeral_unique, C14_width, C15_words, C16_ascii, C16_empty, C16_latin1, C19_layout, C21_min, C22_minSize, C25_layout, C27_history, C27_load, C27_null, C27_short, C27_unload, C29_appends, C29_max, C29_min, C30_exact, C32_min, C33_isRecursive, C33_sizes, C34_negative, C35_exact, C35_forever, C35_not_a_pool, C41_limits, C43_meaning, C43_one, C44_all, C44_copy, C44_once, C44_safe, C44_size, C45_dump, C45_hexdump, C45_negative, C45_overflow, C45_too_big, C46_zero, C47_lottery, C47_set, C53_history, C56_unambiguous, C57_bytes, C57_example01, C57_example02, C57_example04, C57_number, C57_point, C57_readable, C57_short, C60_compose, C60_tail, C61_near_limit, C61_sizes, C61_unbounded, C63_maxSize, C63_minSize, C66_at_most, C67_compose, C69_chars, C69_leaves, C69_readable, C69_until, C70_enough, C70_sizes, C70_starved, C70_sum_of_minima, C72_alive, C72_no_leak, C72_program, C72_self_contained, C72_stamp, C72_use_count, C73_at_most, C73_binary, C73_doubles, C73_enumerator, C73_enumerators, C73_hash_element, C73_lottery, C73_pools, C73_same, C73_set, C73_sets, C73_unary, C74_apart, C74_free, C74_freed, C74_lives, C74_positions, C74_present, C74_within, C74_write, C75_block, C75_calls, C75_comparison, C75_defined, C75_died, C75_guard, C75_harness, C75_leak, C75_no_plan_done, C75_skip_all, C75_skip_rest, C75_status, C75_test_status, C75_try, C75_zero_plan_refuted, C78_all, C78_maximum.

The four axioms R (214 theorems):

C08_double, C08_float, C08_same_text_double, C08_same_text_float, C09_full_range, C09_in_range, C10_first, C10_last, C10_last_iff, C10_monotone, C11_exceptions, C11_larger, C11_reachable, C11_unreached, C12_empty_dictionary, C12_short, C12_word, C13_reachable, C17_fixed, C17_short, C17_values, C17_zero, C18_overflow, C18_variated, C19_any_count, C19_any_size, C19_unbounded, C20_count_wraps, C20_min_missed, C20_rounding, C20_sum_overflows, C21_gap_tiny, C21_gap_unbounded, C21_gap_variated, C21_short, C22_refuse, C22_short, C23_division, C23_otherwise, C23_values, C24_one_byte_short, C24_refused, C25_never, C25_undefined, C26_division, C26_otherwise, C28_dropped, C28_enumerator, C28_nonempty, C28_text, C30_underreports, C31_enough, C31_none, C31_picks, C31_reach, C31_short, C31_stale, C32_never_aborts, C32_none, C32_picks, C32_reach, C32_short, C34_overflow, C35_json, C36_sizes, C37_limit, C37_short, C37_total, C38_finite_data, C38_json, C38_nan, C39_string, C40_balanced, C40_binary, C40_unary, C41_composed, C41_leaves, C42_composite, C42_elementary, C42_galleys, C42_json, C42_library_leaves, C46_depth, C46_json, C46_leaves, C46_terminates, C47_bound, C47_leaves, C47_refuted, C48_interrupted, C48_load_all, C48_short, C48_unload, C49_decodes, C49_kinds, C49_reach, C50_depth, C51_limit, C51_members, C51_shape, C52_every, C53_broken, C53_copy, C53_move, C53_nothing, C53_scalars, C53_works, C54_exact, C54_pool, C54_pool_large, C54_values, C55_large, C55_lottery, C55_lottery_large, C55_words, C56_main, C56_program, C56_reach, C56_setup, C56_short, C56_writes, C57_example08, C57_example_short, C57_line, C57_line_short, C58_changed, C58_fails, C58_json, C58_limit, C58_refuses, C58_unopened, C59_fit, C59_fit_any, C59_fit_undefined, C59_less, C59_pick, C59_pick_any, C59_pick_exact, C59_pick_wrong, C59_reach, C59_writes, C60_graph, C60_json, C60_operations, C62_cut, C62_enumerator, C62_hashel, C62_operators, C62_set, C62_set_stamp, C62_vector, C63_never, C63_pool, C64_enumerator, C64_fixed, C64_integers, C64_sentences, C64_unbounded, C64_unbounded_one, C64_values, C64_variated, C65_division, C65_gap, C65_operands, C65_set_stamp, C65_values, C66_json, C66_leaves, C66_threshold, C67_amount, C67_graph, C67_json, C67_operations, C68_element, C68_galleys, C68_stamps, C68_values, C69_array, C69_complex, C69_list, C69_memory, C69_sizes, C70_stamps, C71_all_zero, C71_empty, C71_exact, C71_inside, C71_nodes, C71_pick, C71_share, C71_zero, C72_lottery, C72_members, C72_pool, C72_unaffected, C76_complete_double, C76_complete_float, C76_default, C76_overflow_refuted, C76_sound_double, C76_sound_float, C76_special, C76_special_float, C76_symmetric, C76_tiny, C77_set, C77_set_more, C77_set_negative, C77_set_waste, C77_vector_negative, C77_vector_overflow, C77_vector_wraps, C78_minimum, C78_overflow.

## Platform

x86-64, System V ABI, GCC with libstdc++ and glibc: little endian, `int` 32 bit, `long` and `size_t` 64
bit, `char` signed, SSE arithmetic (each operation rounds to its own format, no FMA contraction),
conversion to a narrower signed type reduces modulo 2^n, C locale.

## What is modelled

| code | model | remarks |
|------|-------|---------|
| `Blob` (src/blob.cpp, blob.h): constructor, isEmpty, Dump, Chop (both), AsByteVector, Size, DataDup, asVector, asString | `Blob`, `Base.Chop2`, `Hexdump.Dump` | all members. The buffer is not written by the library, so it is part of the value |
| `OracleProportion` (src/oracle.cpp) | `Oracle` | in binary32 as written |
| `to_string_precise`, 12 overloads (helpers.h) | `Fmt`, `Arithm` | with the buffer of `__to_xstring`; `long double`: the format lacks `L`, undefined |
| `StampArithm<T>` (stamp_arithm.h): ExtractValue, ExtractStr, sizes | `Arithm` | 14 types |
| `StampBaseV`, `StampBasePV`: ExtractBin, ExtractPValue (stamp.h) | `Arithm` | ownership of the result in `OwnedPtr` |
| `StampBase`: isFixedSize, isVariated, isUnbounded, isRecursive, Load; UnloadStr/Bin/PValue/Value | `Galley`, `Stamps` | one generic `Unload` |
| `DictBase`, `DictLCAlphaSmall`, `StampDict`, `StampDictT`, `StampDictLCAlphaSmall` | `StampDict`, `DictWords` | word list copied from the source |
| `StampStringLatin1`, `StampStringASCII`, `StampText<T>`, `StampStrEnumerator` | `StampText`, `Stamps` (`XVec`) | |
| `GalleyVectorBase` minSize, maxSize, extract_internal; `ExtractStrVector`, `ExtractBinVector`, `ExtractValuesVector` | `Galley`, `Stamps` | the three extractions differ in the element type only: one polymorphic definition |
| `GalleySetBase` minSize, maxSize, extract_internal, LoadAll; `ExtractStrSet`, `ExtractBinSet` | `Galley`, `Stamps` | in binary64 as written |
| `StampMathUnaryOp`, `StampMathBinaryOp` | `Stamps` | |
| `StampLottery`, `StampLottery4Recursion`: constructors, Append, sizes, soft filter, ExtractStr | `Stamps` | members are references; when they end is the matter of `Owner` |
| `PoolPickerStamp`: constructor, add_weak, isRecursive, sizes, ExtractStr | `Stamps` | destroyed members are `None` entries |
| `StampJSONInt/Float/String/Array/HashEl/Hash`, `StampJSON` | `Json` | |
| shared_ptr, weak_ptr and reference members of the stamp classes: who keeps whom alive | `Owner` | objects numbered as made, `use_count()` explicit; a pointer to a destroyed object leads nowhere |
| a program that writes to and gives up its arrays while blobs point into them | `Views` | the steps run the functions of `Blob` and `Galley` on the array as it is then |
| `t/libtappp/src/tap++.cpp`, `t/libtappp/include/tap++/tap++.h` (the test library: calls, exceptions, macros) | `Tap` | one run of a program; both streams are std::cout, as the library sets them; `_current_message` is one variable |
| `nearly_equal`, `EPSILON` of the test library | `TapFloat` | unqualified fabs and fmin are those of double, as with `<cmath>` alone |
| number of minSize() and maxSize() calls of one query | `Cost` | a counter beside the queries of `Stamps`; time itself is not modelled |
| Copy, move, assignment, destruction of `StampJSON` | `JsonLife` | table of objects; an object is known by whose constructor made its stamps |
| `BinaryOp`, `main` of examples/exampleZZ.cpp | `Formula` | for any operators and data; output as a list |
| `StampPoint3D`, `StampPolyLine3D`, `main` of examples/example01.cpp to example08.cpp | `Points` | for any string in the array; what is printed as a tuple |
| `GetFileSize`, `main` of console_demo/pulp2json.cpp | `Pulp` | files given by what opening and stat() find |
| `Variants`, `VariantPicker`, `fit_sizes`, `TestRNode1`, `GalleySimpleRecusion` of t/320-galley-recursion-experiments.cpp | `Experiment` | without what is printed |
| `WeightedRefPicker`, `TestRNode2`, `TestRNode3` of t/320-galley-recursion-experiments.cpp (not used by its `main`) | `Weighted` | references as indices into the list of weights |
| the stamps of t/test-chars-stamps.h | `TestStamps` | C69, C70, and in `Conformance` |
| the complex number stamps of README.md, stamps called in turn | `Readme` | the padding-free struct of two shorts as a record |
| `hexdump` (src/helpers.cpp) | `Hexdump` | line buffer explicit, printed lines returned |
| `sized_ptr`, `VLATO_ptr` (helpers.h) | `OwnedPtr` | as a state machine over malloc'ed blocks |

## What is not modelled

- `StampRecursive` (stamp.h:49-56) and the exception class `NotImplemented` (blob.h:56): nothing uses
  them. `GalleyBase`, `std::ref_vector`, `cast_shared_vector`: plumbing; up-casts succeed.
- `dynamic_pointer_cast` in galley.cpp:59, 73, 374, 389 and galley.h:86: the constructors take stamps of the
  right class only.
- The order in which the members of one stamp are destroyed: no destructor looks at another stamp.
- Failure of allocation, size of the stack, threads, strict aliasing, padding of values, stdout.
- Of the TAP library: set_output(), set_error(), threads. The scripts in `console_demo/`.

## Does the model match the code?

The code cannot be run here. What the project says about its own output is in its tests: `Conformance` runs the model
on the data of t/001, 050, 060, 100, 110, 120, 130, 140, 150, 200, 300 and 321 and checks every result these tests expect, up to the
1748 characters of JSON of t/321. These are examples, not proofs; they guard against a model of another program.

## Simplifications

- A stamp is asked for its sizes many times in one call of the code; the model of the galleys takes
  both numbers once. `QueryFacts` proves that a query leaves the heap as it found it (C33), so the answers agree.
- Operations after an exception: the outcome is returned together with the blob as the exception left it.
- "%.999g": rounding to 999 digits is not modelled; the expansion of a float or double never has that
  many (C08), the case would be `UB`.
- `malloc` succeeds; `free` of a null pointer does nothing.
- `ExtractPValue` returns bytes and size, and the owner of them is modelled separately (C44).

## Findings

Each is a theorem about the model, for all inputs of the stated kind.

- `Blob::isEmpty()` is about the pointer: an exhausted blob is not empty (C05).
- `AsByteVector()` of a blob created with size 0 from a null or initial pointer leaves its buffer (C04).
- `char`/`signed char` values from -128 to -100 print as three characters and a NUL (C07).
- `long double` text is undefined (`%g` without `L`) (C07, model).
- `OracleProportion` cannot reach some values of ranges of 65522 and 65524 values (C11), nor the last value of
  a range of more than 65792 values (C10).
- `StampLottery` keeps plain references: once a member is gone, extraction is undefined though the sizes still answer; `add_weak`
  does not keep its stamp alive (C72).
- `StampDict` never uses 4-byte indices (`UINT_MAX + 1` is 0); an empty dictionary is undefined (C12, C14).
- `GalleyVector` over a stamp of fixed size 0 never ends (C17, C46); over a variated stamp with
  minSize() near INT_MAX the loop condition overflows (C18); over an unbounded stamp the count
  wraps to 0 from 65536 parts, the sum of oracles overflows `int`, and rounding may ask for more data than
  there is, or give an element of minSize() 2^24 + 1 one byte less (C20); data too small for the first part but not below minSize() gives an empty vector (C21).
- `GalleySet`: all variated oracles 0 gives NaN and an undefined conversion (C25); a stamp may get one
  byte less than minSize(), or, with minSize() 0, `Chop(-1)` and OutOfData (C24), which stops LoadAll midway
  (C48); a variated stamp may get maxSize() + 1 bytes (C26).
- In a set, a variated stamp whose data may vary by up to 65535 bytes and more is not given every size: some sizes are
  unreachable (C65).
- A stamp that is in a set twice keeps only the later chunk after LoadAll (C48).
- `StampLottery::Append` of a bounded stamp after an unbounded one forgets the unboundedness (C30), so
  that more than maxSize() may be consumed (C47). minSize() of a lottery built from an empty
  vector overflows. A stamp over the lottery itself appended first makes minSize() stale (C31).
- A pool with a binary operator over itself has a negative or undefined minSize() (C34).
- A pool never checks its weak pointers: one destroyed member makes its size and nearly every extraction undefined, and so
  those of all stamps around it (C63).
- The blob a stamp keeps between Load() and UnloadStr() is a view: a buffer refilled in between changes the answer, one freed in between makes it undefined (C74).
- minSize() of nested galleys makes a number of calls exponential in the depth, and of pools in each other a factorial one (C73).
- minSize() of an enumerator near INT_MAX wraps to a negative number, that of a hash element is undefined (C61).
- `isRecursive()` of StampJSON is false (C35).
- `StampJSONString` declares 8 bytes and consumes 1 (C39). JSON text may contain `nan` and `inf` (C38).
  For some blobs from 393232 bytes on, StampJSON is undefined (C37).
- Members of JSON objects are never numbers or strings, since what StampJSONString declares and does not use is left
  for the value (C51). From 786424 bytes on an array may be empty (C51).
- A copy of a StampJSON refers to its original and is undefined once that is destroyed; a StampJSON that was moved
  (a growing `std::vector<StampJSON>`) writes no arrays or objects, and is undefined once the old one is destroyed (C53).
- `hexdump` of 2^31 bytes and more, or of a negative size, reads out of bounds or never ends (C45).
- Copying a `sized_ptr` or `VLATO_ptr` frees twice (C44).
- `pulp2json`: an empty file is undefined (`&buffer[0]`), a file below 10 bytes ends the program with the exception, as
  does one that stat() cannot find; a file has to be writable (C58).
- A user stamp written like StampPoint3D has consumed part of its data when it throws OutOfData (C57).
- In t/320: `WeightedRefPicker` with seed 0 chooses the first element even if its weight is 0 (C71_zero), with all weights 0 always the last one
  (C71_all_zero); an empty list ends the program or is undefined (C71_empty).
- In t/320: `fit_sizes({1, 0, 1}, 1)` converts -1.0 to unsigned, which is undefined; `VariantPicker` may return a disabled
  element, if that is the last one (C59).
- README's advice for a stamp that calls two others in turn, minSize() as the sum of their minSize(), is wrong as soon as a stamp
  other than the last is not of fixed size: that one takes up to its maxSize() and the next finds too little; behind an unbounded stamp
  nothing ever works (C70).
- Sizes of 2 GiB and more (C77) are converted to int: a set leaves most of its data unused, down to giving every stamp its minimum
  only; with variated stamps it throws OutOfData for almost all sizes between 2 and 4 GiB (and so on) and just below 4 GiB hands
  out chunks below minSize(); a vector of unbounded stamps throws OutOfData between 2 and 4 GiB (and so on), or uses the size modulo 2^32.
- Totals of a set (C78) are kept in int: two stamps that accept anything up to INT_MAX make the extraction undefined, and one makes
  maxSize() negative; minimal sizes that fit only without the oracles make minSize() negative and every extraction fail.
- The test library (C75): a program that dies after its last planned test exits as if it had not, so with 0 if all passed, where
  its README promises 255; with failures and a wrong number of tests the status is 255, where README promises their sum. plan(0),
  tests and done_testing(n) exit with 0 behind the plan 1..0. plan(no_plan) followed by done_testing() ends in std::terminate().
  skip(reason) after more tests than planned prints 2^32 - k lines. An exception other than skip(reason) in a block leaves the
  block's number on the stack, and the block around it takes it for its own. A message with "# TODO" in it is a directive.
- nearly_equal (C76) stops the divisor at the largest number, so two doubles above 2^1023 within the relative error EPSILON may be
  reported as different; up to a sum of 2^1023 it is exact but for its own rounding.
