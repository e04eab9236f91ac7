{"id": "C01", "title": "Chop splits a blob exactly", "statement": "Blob::Chop(n) with n <= Size() returns a blob holding exactly the first n remaining bytes and leaves exactly the other bytes, in order, in the source blob; with n > Size() it throws OutOfData and the source blob is unchanged (same Size, same bytes).", "quantifier": "every valid blob (any buffer, any offset, any size including 0) and every size_t n", "why_tests_cant": "Blob sizes, offsets and n are unbounded, and begin/end are size_t values that wrap for empty blobs; tests use two literals.", "anchors": ["src/blob.cpp:Blob::Blob", "src/blob.cpp:Blob::Chop(size_t)", "src/blob.cpp:Blob::Size"]}
{"id": "C02", "title": "Chop histories partition the buffer", "statement": "After any sequence of Chop(n) / Chop(min,max) calls, successful or throwing, applied in any order to the original blob and to blobs produced by earlier calls, the live blobs are pairwise disjoint ranges of the caller's buffer, together cover each of its original bytes exactly once, and no blob ever reaches outside that buffer.", "quantifier": "every initial blob and every finite history of Chop calls over the tree of blobs it produces", "why_tests_cant": "The number of histories is infinite and the failure (overlap, loss, out of range) depends on the order of calls.", "anchors": ["src/blob.cpp:Blob::Chop(size_t)", "src/blob.cpp:Blob::Chop(size_t,size_t)"]}
{"id": "C03", "title": "Chop(min,max) takes as much as allowed", "statement": "Chop(min,max) throws OutOfData and changes nothing iff Size() < min; otherwise it returns the first min(Size(),max) bytes and leaves the rest.", "quantifier": "every valid blob, every min, max in size_t (including max = (size_t)-1 as used for unbounded stamps)", "why_tests_cant": "Three-way boundary over 64-bit sizes.", "anchors": ["src/blob.cpp:Blob::Chop(size_t,size_t)"]}
{"id": "C04", "title": "Read-only views agree", "statement": "asVector(), asString(), DataDup() and AsByteVector() all return exactly the remaining bytes, none of them changes the blob; the only exception is AsByteVector() on a blob that was created with size 0, whose pointer computation wraps (undefined behaviour), while the three others are defined there. On a blob made of a null pointer AsByteVector() and DataDup() are undefined; with size 0 asVector() and asString() are empty, with any other size asString() throws and asVector() is undefined.", "quantifier": "every valid blob, and every blob made of a null pointer", "why_tests_cant": "The exceptional case is a wrap-around on one boundary value that a passing test run does not expose.", "anchors": ["src/blob.cpp:Blob::AsByteVector", "src/blob.cpp:Blob::asVector", "src/blob.cpp:Blob::asString", "src/blob.cpp:Blob::DataDup"]}
{"id": "C05", "title": "isEmpty() reports a null buffer, not exhaustion", "statement": "isEmpty() is true exactly when the blob was built on a null pointer; no sequence of Chop calls on a non-null blob ever makes it true, in particular a blob with Size()==0 still answers false. All that is chopped from a blob of a null pointer and size 0 is empty, has size 0 and shows no bytes.", "quantifier": "every blob and every Chop history", "why_tests_cant": "A property of all histories.", "anchors": ["src/blob.cpp:Blob::isEmpty"]}
{"id": "C06", "title": "Integer stamps decode little-endian and round-trip", "statement": "StampArithm<T>::ExtractValue on a blob starting with the little-endian two's complement bytes of v returns v and consumes exactly sizeof(T) bytes; ExtractBin returns exactly the consumed bytes; every byte string of length sizeof(T) is the encoding of exactly the value returned; with fewer than sizeof(T) bytes all of them throw OutOfData and consume nothing.", "quantifier": "every integer type, every value of it, every following data", "why_tests_cant": "2^64 values per type and all continuations.", "anchors": ["include/blobstamper/stamp_arithm.h:StampArithm::ExtractValue", "include/blobstamper/stamp.h:StampBaseV::ExtractBin"]}
{"id": "C07", "title": "Integer text is the decimal numeral of the value", "statement": "StampArithm<T>::ExtractStr returns the canonical decimal numeral of the value ExtractValue would return (it parses back to that value, has no leading zero, and has a minus sign exactly for negatives) for every integer type of 16 bits or more and for unsigned char; for char and signed char this holds exactly for values >= -99, while for -128..-100 the text is the first three characters of the numeral followed by a NUL byte.", "quantifier": "every value of every integer type", "why_tests_cant": "All values of 64-bit types; for the 8-bit types the 4-byte buffer overflow shows only for 29 of 256 values.", "anchors": ["include/blobstamper/helpers.h:to_string_precise", "include/blobstamper/stamp_arithm.h:StampArithm::ExtractStr"]}
{"id": "C08", "title": "Double text is exact", "statement": "The text produced for a finite double (and float) denotes exactly the same real number as the bits, and fits the fixed-size conversion buffer (never truncated); the texts of non-finite values are inf, -inf, nan, -nan. Two values have the same text only if they have the same bits, or both are NaN with the same sign.", "quantifier": "all 2^64 bit patterns (2^32 for float)", "why_tests_cant": "2^64 values; longest expansion has hundreds of digits.", "anchors": ["include/blobstamper/helpers.h:to_string_precise(double)", "include/blobstamper/helpers.h:to_string_precise(float)"]}
{"id": "C09", "title": "OracleProportion stays in range", "statement": "For min <= max (and not the full size_t range) OracleProportion(o,min,max) is always within [min,max]; for the full range [0,SIZE_MAX] it is 0.", "quantifier": "all 65536 oracles and all size_t min <= max", "why_tests_cant": "Uses binary32 arithmetic with rounding on 64-bit ranges: 2^144 cases.", "anchors": ["src/oracle.cpp:OracleProportion"]}
{"id": "C10", "title": "OracleProportion is monotone and hits the ends", "statement": "OracleProportion is non-decreasing in the oracle; oracle 0 gives min; oracle 65535 gives max exactly if the range has at most 65792 values, and in a range of more values max is produced by no oracle at all.", "quantifier": "all oracles, all ranges", "why_tests_cant": "As C09; where the last value stops being reached depends on a tie in float rounding.", "anchors": ["src/oracle.cpp:OracleProportion"]}
{"id": "C11", "title": "OracleProportion can reach every value", "statement": "If the range [min,max] has at most 65536 values, and their number is neither 65522 nor 65524, every value in it is produced by some oracle; in the two exceptional cases min+32768 (for 65524 values also min+16384) is produced by no oracle. In a range of more than 65536 values (but for the full one) different oracles give different values, the larger oracle the larger value, so that some value of the range is produced by no oracle.", "quantifier": "all ranges, all oracles", "why_tests_cant": "Existence for each target under float rounding; two range sizes out of 65536 are exceptional, and non-existence needs all oracles.", "anchors": ["src/oracle.cpp:OracleProportion"]}
{"id": "C12", "title": "Dictionary stamp always returns a word of the dictionary", "statement": "For a non-empty dictionary StampDict::ExtractStr on a blob with at least minSize() bytes returns one of its words, consuming exactly minSize() bytes; with fewer bytes it throws OutOfData and consumes nothing; for an empty dictionary it reads outside the vector (undefined behaviour) for every input.", "quantifier": "every dictionary and every blob", "why_tests_cant": "Double rounding of index over all oracle values and all dictionary sizes.", "anchors": ["src/stamp_dict.cpp:StampDict::ExtractStr", "src/dict.cpp:DictBase::get"]}
{"id": "C13", "title": "Every dictionary word is reachable", "statement": "For each word position of a dictionary there are oracle bytes that select it.", "quantifier": "every dictionary of up to 2^32 words and every position in it", "why_tests_cant": "Unbounded dictionaries.", "anchors": ["src/stamp_dict.cpp:StampDict::ExtractStr"]}
{"id": "C14", "title": "Dictionary index width", "statement": "The number of bytes StampDict consumes is 1 for up to 256 words, 2 for up to 65536 words and 8 above that (the intended 4-byte width is never chosen, because UINT_MAX + 1 wraps to 0).", "quantifier": "every dictionary size", "why_tests_cant": "Would need a dictionary with more than 65536 words.", "anchors": ["src/stamp_dict.cpp:StampDict::ChooseStampSize"]}
{"id": "C15", "title": "Built-in dictionary words are JSON-safe", "statement": "Every word of DictLCAlphaSmall is a non-empty string of lower-case Latin letters, the words are pairwise distinct and sorted.", "quantifier": "all words of the built-in dictionary", "why_tests_cant": "Finite, but no test checks it, and JSON validity of all outputs depends on it.", "anchors": ["src/dict.cpp:DictLCAlphaSmall::DictLCAlphaSmall"]}
{"id": "C16", "title": "Text stamps normalise every byte", "statement": "StampStringLatin1 and StampStringASCII consume the whole blob and return a string of the same length with no NUL byte; ASCII results contain only bytes 1..127; a Latin1 result equals the data except that NUL bytes become spaces; on an empty blob they throw OutOfData.", "quantifier": "every blob content", "why_tests_cant": "All byte strings.", "anchors": ["src/stamp_text.cpp:StampStringLatin1::ExtractStr", "src/stamp_text.cpp:StampStringASCII::ExtractStr"]}
{"id": "C17", "title": "GalleyVector over a fixed-size stamp", "statement": "With a stamp of fixed size k > 0 and a blob of at least k bytes the galley produces exactly Size/k chunks of exactly k consecutive bytes, leaving Size mod k bytes; with fewer than k bytes it throws OutOfData and consumes nothing; with k = 0 it never returns.", "quantifier": "every k and every blob", "why_tests_cant": "Unbounded sizes; non-termination cannot be tested.", "anchors": ["src/galley.cpp:GalleyVectorBase::extract_internal"]}
{"id": "C18", "title": "GalleyVector over a variated stamp", "statement": "With min < max the galley terminates, each chunk has between min and max bytes, each chunk is preceded by a 2-byte oracle which determines its size (cut only by the end of data), the oracles and chunks in order are exactly the consumed prefix, fewer than min+2 bytes remain, and at least one chunk is produced iff Size() >= minSize() of the galley. If min+2 > INT_MAX the size computation is a signed overflow instead.", "quantifier": "every 0 <= min < max <= INT_MAX and every blob", "why_tests_cant": "Loop over unbounded data with float-derived sizes.", "anchors": ["src/galley.cpp:GalleyVectorBase::extract_internal", "src/oracle.cpp:OracleProportion"]}
{"id": "C19", "title": "GalleyVector over an unbounded stamp", "statement": "For a blob of minSize()..2 MiB bytes from which at most 32768 parts can be cut the galley does not throw; the number of chunks is min(N, N*o/65535+1) where N is the maximal possible number of parts and o the first oracle; each chunk has at least the stamp's minSize() bytes; its size differs from minSize()+V*o_i/T by less than 2 bytes, where o_i is its size oracle, T the sum of the size oracles (all of them count as 1 if the sum is 0) and V the data left after the oracles and minSize() for each part; count oracle, size oracles and chunks in order are the consumed prefix and at most one byte is left over. In general, for any number of parts, the number of chunks is the minimum of N and (N*o/65535+1) mod 2^16; up to 2 MiB the data are then divided as said, unless the size oracles exceed INT_MAX in sum (undefined) or the count is 0 (no chunks); up to 4 KiB below 2 GiB the only other outcome is OutOfData, and the sizes of the chunks and of the rest are right up to a millionth.", "quantifier": "every blob content in these size ranges and every stamp minSize()", "why_tests_cant": "Accumulated binary32 rounding over up to 32768 parts.", "anchors": ["src/galley.cpp:GalleyVectorBase::extract_internal"]}
{"id": "C20", "title": "GalleyVector size limits", "statement": "The guarantee of the previous property does not extend to arbitrary sizes: (a) if exactly 65535 parts fit and the count oracle is 65535 the 16-bit part count wraps and the result is empty; (b) size oracles summing to more than INT_MAX are a signed overflow; (c) there is a blob of less than 17 MiB for which float rounding makes the galley throw OutOfData although there is enough data; (d) a stamp of minSize() 2^24 + 1 is given a chunk of 2^24 bytes although there is one more.", "quantifier": "existence claims about large blobs, each over arbitrary data contents where possible", "why_tests_cant": "Needs blobs of 200 kB .. 16 MiB with chosen contents, nobody tests these.", "anchors": ["src/galley.cpp:GalleyVectorBase::extract_internal"]}
{"id": "C21", "title": "Short input to GalleyVector", "statement": "For a blob with Size() smaller than the stamp's minSize() extraction throws OutOfData and consumes nothing; for a blob with stamp minSize() <= Size() < galley minSize() it returns an empty vector without an exception in the variated case (nothing consumed) and in the unbounded case (2 bytes consumed, if it has 2).", "quantifier": "every stamp min/max and every blob size in the gap", "why_tests_cant": "Boundary behaviour for every min.", "anchors": ["src/galley.cpp:GalleyVectorBase::extract_internal", "src/galley.cpp:GalleyVectorBase::minSize"]}
{"id": "C22", "title": "GalleySet refuses short input cleanly", "statement": "GalleySet extraction throws OutOfData at its size check, consuming nothing, exactly when Size() < minSize(), i.e. the sum of the stamps' minSize() plus 2 bytes per variated stamp, plus 2 per unbounded stamp if there is more than one, plus 2 if both kinds are present.", "quantifier": "every list of stamps and every blob", "why_tests_cant": "Any number and mix of stamps.", "anchors": ["src/galley.cpp:GalleySetBase::extract_internal", "src/galley.cpp:GalleySetBase::minSize"]}
{"id": "C23", "title": "GalleySet divides data between fixed and unbounded stamps", "statement": "For a set without variated stamps and Size() >= minSize(), if there are at most two unbounded stamps or every unbounded stamp has minSize() >= 1: no exception; chunk i goes to stamp i in order; fixed stamps get exactly their size; oracles followed by the chunks are exactly the consumed prefix; if there is an unbounded stamp all data is used; the data above the minimum is divided in proportion to the oracles, up to 5/8 of a byte in every prefix; a chunk is never more than one byte short of its stamp's minSize(), and not short at all if its oracle is non-zero or it is the first or the last of the unbounded stamps. Otherwise the only other outcome is OutOfData (C24).", "quantifier": "every such list of up to 2^16 stamps and every blob below 2^31 bytes", "why_tests_cant": "Double rounding with carried remainders over any number of stamps.", "anchors": ["src/galley.cpp:GalleySetBase::extract_internal"]}
{"id": "C24", "title": "GalleySet can short-change a stamp by one byte", "statement": "Three unbounded stamps with size oracles 65535, 0, 65535 and an odd amount of distributable data: the middle stamp receives minSize()-1 bytes (round(-0.5) == -1), or, if its minSize() is 0, the extraction throws OutOfData although the blob is big enough.", "quantifier": "every odd amount of distributable data and all minSizes", "why_tests_cant": "A specific oracle pattern combined with parity.", "anchors": ["src/galley.cpp:GalleySetBase::extract_internal"]}
{"id": "C25", "title": "GalleySet with all-zero variated oracles", "statement": "For any set containing a variated stamp, if all size oracles of variated stamps are zero (e.g. an all-zero blob) the extraction never returns: it converts NaN to int (undefined behaviour) no matter how much data there is, unless an earlier unbounded stamp with minSize() 0 was already short-changed (C24), which is impossible with at most two unbounded stamps or when they all have minSize() >= 1.", "quantifier": "every such set of stamps and every sufficiently long blob", "why_tests_cant": "Division 0/0 only for one oracle pattern, any stamp list.", "anchors": ["src/galley.cpp:GalleySetBase::extract_internal"]}
{"id": "C26", "title": "GalleySet divides data between variated stamps", "statement": "For a set with variated stamps whose size oracles are not all zero and Size() >= minSize(): no exception if of both kinds, variated and unbounded, there are at most two stamps or all have minSize() >= 1 (otherwise OutOfData is possible, nothing else); the variated stamps together get what their oracles ask for, up to the limit set by the data, their maxSizes and the division oracle; every variated chunk is between minSize()-1 and maxSize()+1 bytes; total consumption never exceeds maxSize() when there is no unbounded stamp, and is all the data when there is one.", "quantifier": "every such list of stamps and every blob below 2^31 bytes", "why_tests_cant": "As above.", "anchors": ["src/galley.cpp:GalleySetBase::extract_internal", "src/galley.cpp:GalleySetBase::maxSize"]}
{"id": "C27", "title": "Load bites the right amount", "statement": "StampBase::Load removes min(maxSize(),Size()) bytes (everything for an unbounded stamp) from the blob and a following UnloadStr() yields what ExtractStr would yield on a blob with just these bytes; if Size() < minSize() it throws OutOfData, the blob and the previously loaded data stay unchanged; UnloadStr before any Load dereferences null.", "quantifier": "every stamp and every blob, every history of Load calls", "why_tests_cant": "All sizes and histories.", "anchors": ["src/stamp.cpp:StampBase::Load", "include/blobstamper/stamp.h:StampBaseStr::UnloadStr"]}
{"id": "C28", "title": "Enumerator output format", "statement": "StampStrEnumerator::ExtractStr returns left bracket, the element strings in order joined by the separator, right bracket, where leading empty element strings contribute neither text nor separator; in particular, if no element is empty the output is exactly the separated list. StampText is the same with a space and no brackets.", "quantifier": "every list of element strings, separators and brackets", "why_tests_cant": "All lists.", "anchors": ["src/stamp_enumerator.cpp:StampStrEnumerator::ExtractStr", "include/blobstamper/stamp_text.h:StampText::ExtractStr"]}
{"id": "C29", "title": "Lottery size bookkeeping over Append histories", "statement": "After construction (from a list, or empty) and any sequence of Append calls that leave at least one member, minSize() is the smallest minSize() among the sizes the members reported when they were put in, plus the oracle size, which is the least of 1, 2, 4, 8 bytes w with fewer than 256^w - 1 members; if all members reported bounded sizes maxSize() is the largest reported maxSize() plus the oracle size. Sums that leave the int range are undefined. Append keeps the members in order and touches nothing else.", "quantifier": "every initial list and every Append history", "why_tests_cant": "Histories of arbitrary length.", "anchors": ["include/blobstamper/stamp_lottery.h:StampLottery::Append", "include/blobstamper/stamp_lottery.h:StampLottery::minSize", "include/blobstamper/stamp_lottery.h:StampLottery::maxSize", "include/blobstamper/stamp_lottery.h:init_oracle_size"]}
{"id": "C30", "title": "Lottery forgets unboundedness", "statement": "maxSize() is -1 if a member is unbounded and no bounded member was appended after the last unbounded one; but appending a bounded stamp to any lottery that holds an unbounded one makes maxSize() finite, so the lottery then under-reports what it consumes.", "quantifier": "every lottery and every Append history", "why_tests_cant": "Order-dependent history property.", "anchors": ["include/blobstamper/stamp_lottery.h:StampLottery::Append"]}
{"id": "C31", "title": "Lottery picks a member that fits", "statement": "If a member fits into the data left after the oracle, the result of ExtractStr is the ExtractStr result of such a member on exactly the data left, whatever the oracle, and StampLottery4Recursion picks one that can leave less than its minSize() unused if there is one; Size() >= minSize() is enough for that if no member now reports a larger minSize() than when it was put in (otherwise the lottery can throw although Size() >= minSize()). If no member fits it throws OutOfData having consumed the oracle; with less data than the oracle it throws and consumes nothing. Every eligible member of a lottery with fewer than 65535 members is picked by some oracle.", "quantifier": "every member list and every blob", "why_tests_cant": "Double index computation for all oracle widths.", "anchors": ["include/blobstamper/stamp_lottery.h:StampLottery::ExtractStr", "include/blobstamper/stamp_lottery.h:StampLottery4Recursion::soft_maxsize_filter"]}
{"id": "C32", "title": "PoolPicker picks a member that fits", "statement": "If a member fits into the data left after the two oracle bytes, PoolPickerStamp::ExtractStr returns what such a member extracts from exactly that data, and a member able to consume all of it if there is one that fits; if none fits it throws OutOfData, and never aborts as long as its own minSize() exceeds the data left, which holds for all pools whose members are not made of pools (minSize() is then the least minSize() of the members plus 2); each eligible member of a pool of fewer than 65522 members is selected by some oracle value.", "quantifier": "every pool and every blob (below 65522 members for reachability: for exactly 65522 and 65524 eligible members some are unreachable, see C11)", "why_tests_cant": "All pools, all oracles.", "anchors": ["src/stamp_json.cpp:PoolPickerStamp::ExtractStr"]}
{"id": "C33", "title": "Size queries terminate on cyclic stamps", "statement": "minSize(), maxSize() and isRecursive() of any stamp in any graph of pools, enumerators, hash elements, math operators, sets and lotteries, cyclic or not, terminate; minSize() and maxSize() leave all recursion marks as they found them, isRecursive() may only set the 'is recursive' cache of pools.", "quantifier": "every finite stamp graph", "why_tests_cant": "Infinitely many graphs; non-termination.", "anchors": ["src/stamp_json.cpp:PoolPickerStamp::minSize", "src/stamp_json.cpp:PoolPickerStamp::maxSize", "src/stamp_json.cpp:PoolPickerStamp::isRecursive"]}
{"id": "C34", "title": "A pool with a binary operator over itself reports a negative minSize()", "statement": "For a PoolPickerStamp containing a StampMathBinaryOp over the pool itself minSize() is negative (the INT_MAX/2 marker is doubled and wraps), whatever its other members are; asking the operator itself for minSize() adds two such values, a signed overflow, so every ExtractStr() of the pool on two bytes or more is undefined behaviour.", "quantifier": "every such pool", "why_tests_cant": "Arbitrary other members.", "anchors": ["src/stamp_json.cpp:PoolPickerStamp::minSize", "src/galley.cpp:GalleySetBase::minSize"]}
{"id": "C35", "title": "isRecursive() misses recursion through galleys", "statement": "isRecursive() is true exactly for pools from which, going from pool to member pool, one reaches a pool that reaches itself that way, and once true stays true; every other stamp answers false. StampJSON, although recursive through its arrays and hashes, answers false.", "quantifier": "StampJSON and every pool graph", "why_tests_cant": "Graph property.", "anchors": ["src/stamp_json.cpp:PoolPickerStamp::isRecursive", "include/blobstamper/stamp.h:StampBase::isRecursive"]}
{"id": "C36", "title": "JSON stamp sizes", "statement": "StampJSON::minSize() is 10 and maxSize() is -1; its array member needs 14 bytes and its hash member 22 bytes.", "quantifier": "the StampJSON object graph", "why_tests_cant": "Evaluated through a cyclic graph.", "anchors": ["src/stamp_json.cpp:StampJSON::StampJSON", "src/stamp_json.cpp:PoolPickerStamp::minSize"]}
{"id": "C37", "title": "JSON extraction is total", "statement": "StampJSON::ExtractStr on any blob of 10 to 393231 bytes returns a string: it terminates, does not throw, does not abort and does no undefined operation; below 10 bytes it throws OutOfData; for every size from 393232 to 25768624155 bytes (24 GiB) there is a blob for which the sum of the galley's size oracles overflows int (undefined behaviour).", "quantifier": "every blob content and size in range", "why_tests_cant": "Recursion of data-dependent depth over float-derived splits.", "anchors": ["src/stamp_json.cpp:StampJSON::StampJSON", "src/stamp_json.cpp:PoolPickerStamp::ExtractStr", "src/galley.cpp:GalleyVectorBase::extract_internal"]}
{"id": "C38", "title": "JSON output is well-formed", "statement": "Every string returned by StampJSON::ExtractStr, for a blob of any size, is the text of a tree of integers and doubles read from consecutive bytes of the blob and of dictionary words; it is a JSON text (RFC 8259 grammar) exactly if none of those doubles is NaN or infinite. So it is one if no 8 consecutive bytes of the blob encode a NaN or infinity; with such a double the output contains a bare nan or inf token, which is not JSON (there is a 10-byte blob for which this happens).", "quantifier": "every blob", "why_tests_cant": "Grammar membership for all nested outputs.", "anchors": ["src/stamp_json.cpp:StampJSON::StampJSON", "src/stamp_json.cpp:StampJSONString::ExtractStr", "src/stamp_json.cpp:StampJSONHashEl::ExtractStr"]}
{"id": "C39", "title": "StampJSONString declares more than it consumes", "statement": "StampJSONString is of fixed size 8 by minSize()/maxSize() but ExtractStr consumes exactly 1 byte, which alone determines the result, and leaves the others in the blob.", "quantifier": "every blob of at least 1 byte", "why_tests_cant": "All contents.", "anchors": ["src/stamp_json.cpp:StampJSONString::ExtractStr", "include/blobstamper/stamp_json.h:StampJSONString"]}
{"id": "C40", "title": "Math operator output nests properly", "statement": "StampMathUnaryOp returns op(operand), StampMathBinaryOp returns (left op right) with both operand strings unchanged and in order; parentheses of the output are balanced if those of operator names and operands are.", "quantifier": "every operator name, operand stamps and blob", "why_tests_cant": "All nestings.", "anchors": ["src/stamp_math_op.cpp:StampMathUnaryOp::ExtractStr", "src/stamp_math_op.cpp:StampMathBinaryOp::ExtractStr"]}
{"id": "C41", "title": "minSize() is sufficient, compositionally", "statement": "If element stamps never fail on a blob of at least their minSize(), neither do enumerator, text, unary operator, binary operator and set over non-variated operands (with at most two unbounded ones), hash element, lottery and pool stamps built from them, within the galley size limits and as long as a pool or lottery does not report a minSize() smaller than what some member plus the oracle needs (C31, C34 tell when it does); hence nor does any nesting of them, including recursion through pools and lotteries. The library's own arithmetic (all but long double), dictionary, JSON string and text stamps are such elements.", "quantifier": "every stamp built from library combinators over arbitrary well-behaved user stamps, every blob", "why_tests_cant": "Infinitely many compositions.", "anchors": ["src/galley.cpp", "include/blobstamper/stamp_lottery.h", "src/stamp_json.cpp", "src/stamp_math_op.cpp", "src/stamp_enumerator.cpp"]}
{"id": "C42", "title": "Extraction depends only on the blob's bytes", "statement": "Two blobs with the same remaining bytes, wherever these lie in memory and whatever surrounds them, give the same result (value or exception) and the same remaining bytes for every extraction operation of the library.", "quantifier": "every stamp and galley, every pair of blobs with equal contents", "why_tests_cant": "Relational property over all memory layouts.", "anchors": ["src/blob.cpp", "src/galley.cpp", "include/blobstamper/stamp_arithm.h", "src/stamp_json.cpp"]}
{"id": "C43", "title": "Exactly one size class", "statement": "Every stamp with minSize() >= 0 and maxSize() >= -1 is exactly one of isFixedSize(), isVariated(), isUnbounded().", "quantifier": "all int pairs", "why_tests_cant": "2^64 pairs.", "anchors": ["include/blobstamper/stamp.h:StampBase::isFixedSize"]}
{"id": "C44", "title": "Owning pointers free exactly once", "statement": "In any sequence of constructing, converting (VLATO_ptr to sized_ptr) and destroying owning pointers without copying, each allocation is freed exactly once and none is used after being freed; copying a sized_ptr and destroying both frees twice.", "quantifier": "every operation history", "why_tests_cant": "Histories of arbitrary length.", "anchors": ["include/blobstamper/helpers.h:sized_ptr", "include/blobstamper/helpers.h:VLATO_ptr"]}
{"id": "C45", "title": "hexdump stays inside its line buffer", "statement": "For any data of less than 2^31 bytes hexdump prints ceil(n/16) lines, each showing the offset and the hex digits of all its bytes in order, never writes outside its 100-byte line buffer and never reads outside the data. For larger and for negative sizes it never returns.", "quantifier": "every length and content", "why_tests_cant": "All contents; memory safety.", "anchors": ["src/helpers.cpp:hexdump"]}
{"id": "C46", "title": "Extraction terminates", "statement": "ExtractStr of any stamp graph, recursive ones included, ends on every blob: every pool or lottery entered costs at least one byte and every loop consumes data, provided user stamps end and only chop their blob and no enumerator is built over a stamp of fixed size 0 (such an enumerator never returns). In particular StampJSON always ends.", "quantifier": "every stamp graph (cyclic or not), every blob", "why_tests_cant": "Termination over all recursive graphs and all inputs is not observable by running examples.", "anchors": ["src/galley.cpp:GalleyVectorBase::extract_internal", "src/stamp_json.cpp:PoolPickerStamp::ExtractStr", "include/blobstamper/stamp_lottery.h:StampLottery::ExtractStr"]}
{"id": "C47", "title": "maxSize() bounds consumption", "statement": "If maxSize() of a stamp is not -1, a successful ExtractStr consumes at most maxSize() bytes, for every nest of stamps, enumerators, sets, pools and lotteries whose user stamps keep to their own maxSize(), whose lotteries only hold stamps of limited size and for blobs below 2^31 bytes; a set reports -1 when one of its stamps is unbounded and otherwise the sum of its maxima plus 2 bytes per variated stamp. A lottery to which a bounded stamp was appended after an unbounded one breaks the rule.", "quantifier": "every stamp graph (cyclic or not), every blob below 2^31 bytes", "why_tests_cant": "A bound on consumption over all nests of stamps and all data.", "anchors": ["include/blobstamper/stamp.h:StampBase::maxSize", "src/galley.cpp:GalleySetBase::maxSize", "include/blobstamper/stamp_lottery.h:StampLottery::maxSize", "src/stamp_json.cpp:PoolPickerStamp::maxSize"]}
{"id": "C48", "title": "LoadAll loads each stamp with its own chunk", "statement": "GalleySet's LoadAll divides the blob as ExtractStrSet does and loads stamp i with chunk i (cut at its maxSize()); a stamp listed twice holds the later chunk, stamps outside the set are untouched. If the chunks lie between minSize() and maxSize() and the stamps are distinct objects, unloading them one after another gives exactly what ExtractStrSet gives. With less data than minSize() of the set nothing is loaded or consumed; if a chunk is below the minSize() of its stamp, OutOfData is thrown with the stamps before it loaded and the others as they were.", "quantifier": "every set of stamps, every blob, every previous state of the stamps", "why_tests_cant": "Equivalence of two API paths over all sets, all blobs, all states and all failures.", "anchors": ["src/galley.cpp:GalleySetBase::LoadAll", "src/stamp.cpp:StampBase::Load", "include/blobstamper/stamp.h:StampBaseStr::UnloadStr"]}
{"id": "C49", "title": "How StampJSON reads its data", "statement": "The text StampJSON writes is that of a tree read from the data in one way: two bytes choose among the kinds of value there is enough data for (after them: 8 to 13 bytes long, double or string; 14 to 21 an array; 22 or more an array or an object), each of which some value of these two bytes selects. A long or double is the value of the next 8 bytes, a string takes one byte, an array is a count oracle, size oracles and parts each read as a JSON value, a member of an object is one byte for the name and then the value; what is not read stays in the blob.", "quantifier": "every blob, every depth of nesting", "why_tests_cant": "The meaning of arbitrary data under a recursive decoder.", "anchors": ["src/stamp_json.cpp:PoolPickerStamp::ExtractStr", "src/stamp_json.cpp:StampJSON::StampJSON", "src/stamp_json.cpp:StampJSONHashEl::ExtractStr", "include/blobstamper/stamp_json.h:StampJSONArray"]}
{"id": "C50", "title": "Nesting of JSON output is bounded by the data", "statement": "In the output of StampJSON for n bytes of data arrays and objects are nested at most (n-10)/6 deep, and there are at most n/10 values that are numbers or strings.", "quantifier": "every blob of any size", "why_tests_cant": "A bound on recursion depth for all inputs.", "anchors": ["src/stamp_json.cpp:PoolPickerStamp::ExtractStr", "src/galley.cpp:GalleyVectorBase::extract_internal"]}
{"id": "C51", "title": "Shape of the values StampJSON writes", "statement": "For data of less than 786424 bytes the output of StampJSON is the text of a value whose numbers are 64-bit integers or doubles, whose strings and names are words of the dictionary, whose arrays and objects are never empty, and in which no member of an object is a number or a string (only an array or an object). The last holds for all data of less than 2^31 bytes; the bound 786424 is exact: there are data of that size that give [].", "quantifier": "every blob, every depth of nesting", "why_tests_cant": "What is never produced, over all data.", "anchors": ["src/stamp_json.cpp:PoolPickerStamp::ExtractStr", "src/stamp_json.cpp:StampJSONHashEl::ExtractStr", "include/blobstamper/stamp_json.h:StampJSONHashEl", "src/galley.cpp:GalleyVectorBase::extract_internal"]}
{"id": "C52", "title": "StampJSON can write every such value", "statement": "For every value of the shape of C51 there are data from which StampJSON writes it, as long as the data this needs (11 bytes per number or string; per array or object 4, 2 per element, 1 per name, and 1 if there are several elements) are at most 32767 bytes: no combination of kinds, sizes, nesting or contents is left out by the oracles and the rounding of shares.", "quantifier": "every value of any shape and depth within that size", "why_tests_cant": "Reachability of all of an infinite (very large) family of outputs.", "anchors": ["src/stamp_json.cpp:PoolPickerStamp::ExtractStr", "src/stamp_json.cpp:StampJSON::StampJSON", "src/galley.cpp:GalleyVectorBase::extract_internal", "src/oracle.cpp:OracleProportion"]}
{"id": "C53", "title": "StampJSON objects under copy, move, assignment and destruction", "statement": "The array and object stamps of a StampJSON refer to the object that was constructed, not to the object they end up in. Through any sequence of constructions, copies, moves, assignments and destructions an object sizes and writes exactly like a fresh StampJSON as long as every object reached along these references exists and has its stamps; once one of them is destroyed minSize() and ExtractStr (of 2 or more bytes) are undefined behaviour; if the object referred to was moved from, only numbers and strings are written; a moved-from object finds all data too short. So a copy breaks when its original is destroyed, and a moved object breaks when the moved-from one is.", "quantifier": "every program over any number of objects, every blob", "why_tests_cant": "Arbitrary sequences of object operations; use after free often seems to work.", "anchors": ["src/stamp_json.cpp:StampJSON::StampJSON", "src/stamp_json.cpp:null_deleter", "include/blobstamper/stamp_json.h:StampJSON"]}
{"id": "C54", "title": "OracleProportion and pools choose evenly", "statement": "OracleProportion over a range of n <= 65536 values gives each value one run of consecutive oracle values, runs in the order of the values; the length of a run differs from 65536/n by less than one for n <= 256 (there the result is exactly min + floor(oracle*n/65536)) and by less than 1 + 128/n otherwise. A pool of up to 65536 stamps gives each stamp eligible for the data left (it fits; it can use everything if some that fits can) such a share of the values of its two oracle bytes, in the order of the pool. If more than 65536 stamps are eligible every oracle value selects a stamp of its own, in order, so that the others are never selected: 0 the first, and if more than 65792 are eligible no value the last.", "quantifier": "every range, oracle value, value; every pool, graph and data", "why_tests_cant": "A quantitative statement about all 65536 oracles for all ranges and all pools; sampled frequencies cannot bound each share.", "anchors": ["src/oracle.cpp:OracleProportion", "src/stamp_json.cpp:PoolPickerStamp::ExtractStr"]}
{"id": "C55", "title": "Dictionaries and lotteries choose evenly", "statement": "A dictionary of n <= 65536 words gives each word one non-empty run of consecutive oracle values, in the order of the dictionary, whose length differs from 256/n (65536/n above 256 words) by 1 + 1/n at most; one of up to 2^50 words uses 8 bytes, and the length of the run differs from 2^64/n by 8195 at most. A lottery of fewer than 65535 stamps gives each eligible member such a share of the values of its one (fewer than 255 members) or two oracle bytes, in the order of the members. A lottery of 65535 stamps or more has 4 oracle bytes and gives each of the n eligible members a run whose length differs from 2^32/n by 1 + 3/n + 1/262144 at most, not empty if n <= 2^31; one of 2^32 - 1 up to 2^50 stamps has 8 bytes, and the length differs from 2^64/n by 8195 at most.", "quantifier": "every dictionary, word, oracle; every lottery, graph and data", "why_tests_cant": "All dictionaries and lotteries of every size; a skewed share (a word chosen twice as often, or hardly ever) passes any test of membership.", "anchors": ["src/stamp_dict.cpp:StampDict::ExtractStr", "include/blobstamper/stamp_lottery.h:StampLottery::ExtractStr"]}
{"id": "C56", "title": "A lottery with operators over itself writes exactly the formulas, within exact size bounds", "statement": "The StampLottery4Recursion of examples/exampleZZ.cpp, holding one-byte numbers, words and up to 252 binary operators over the lottery itself, can be built for any non-empty list of operators and then reports minSize() 2, maxSize() -1. On any data of n bytes, 2 <= n < 2^31, ExtractStr returns the text of a formula over these numbers, words and operators, the number k of operators satisfies 7k+2 <= n <= 13k+8, and if k > 0 all data are used. On fewer bytes it throws OutOfData. Conversely every formula comes out of some data of each size n with 7k+2 <= n <= 13k+8, n <= 65537. If names of operators have no spaces or brackets, the text determines the formula. The program prints one such line for each size from 2 to the length of its data.", "quantifier": "every list of operators, every data, every formula, every size within the bounds", "why_tests_cant": "The recursion is unbounded and the bounds have to hold for every data and be met by every formula; a test sees some formulas of some sizes.", "anchors": ["examples/exampleZZ.cpp:BinaryOp", "examples/exampleZZ.cpp:main", "include/blobstamper/stamp_lottery.h:StampLottery4Recursion"]}
{"id": "C57", "title": "User-made point and line stamps of the examples", "statement": "StampPoint3D (examples 03-08) takes 6 bytes, the memory of three short ints, and gives the point they represent: ExtractValue the point, ExtractStr its text \"(X, Y, Z)\", ExtractBin and ExtractPValue its bytes. Any 6 bytes are exactly one point and any three short ints are some 6 bytes. With less data it throws OutOfData having consumed the coordinates that are there. GalleyVectorStr, GalleyVectorV and both StampPolyLine3D give Size()/6 points in order and leave Size() mod 6 bytes; with fewer than 6 bytes they throw OutOfData and consume nothing. The text of a line determines its points. The programs print these results for whatever string they hold; example01 prints what example01a prints, example02 what example02a prints (Load and Unload instead of Extract).", "quantifier": "every blob, every point, every list of points, every string in a program's array", "why_tests_cant": "All byte strings, all points, lines of any length; that no two lines have the same text is a statement about pairs.", "anchors": ["examples/example03.cpp:StampPoint3D", "examples/example04.cpp:StampPoint3D::ExtractValue", "examples/example06.cpp:main", "examples/example07.cpp:StampPolyLine3D::ExtractStr", "examples/example08.cpp:StampPolyLine3D", "examples/example02a.cpp:main"]}
{"id": "C58", "title": "pulp2json prints one line of JSON", "statement": "Given a file of 10 to 393231 bytes pulp2json exits with 0 and prints one line: the text that StampJSON makes of the file, in printable ASCII characters only, which is the text of a tree drawn from the file and is JSON exactly if no double in it is NaN or infinite. If the size reported by stat() differs from that of the file, the program works as on the file cut, or continued with zero bytes. Without an argument, or if the file cannot be opened, it prints a message to stderr and exits with 1. If stat() fails it aborts; an empty file is undefined behaviour; 1 to 9 bytes end it with an uncaught OutOfData; from 393232 bytes up to 24 GiB there are files of each size with undefined behaviour.", "quantifier": "every file, size and argument list", "why_tests_cant": "All files; absence of a NUL in the text (which would cut the line) and the exact limits hold for all or one size only.", "anchors": ["console_demo/pulp2json.cpp:main", "console_demo/pulp2json.cpp:GetFileSize", "src/stamp_json.cpp:StampJSON::StampJSON"]}
{"id": "C59", "title": "Splitting data in two again and again writes exactly the formulas of numbers", "statement": "fit_sizes() divides a number in proportion to seeds: the sizes add up (its assertion holds) and no boundary is off by more than 5/8, unless a seed 0 lies between others, when it may be undefined. VariantPicker() selects a variant on offer, the one the seed points to when 0..255 is divided evenly among all variants, changes nothing else and returns its element, unless the last element offers nothing. GalleySimpleRecusion::do_recursion() on n >= 2 bytes always returns a bracketed formula of one-byte numbers and the five operators with k operators, 5k+2 <= n <= 9k+6, leaving at most 4 bytes; for n up to 49158 every such formula comes out of some data of n bytes; 0 and 1 bytes give \"0\" and \"Q\".", "quantifier": "all seeds (up to 65536 of them), sizes, variants (up to 2^20), blobs below 2^31 bytes, formulas", "why_tests_cant": "The test only checks that one run on one sample comes to an end; rounding in binary64 decides about the assertion and exit(1) for all seeds.", "anchors": ["t/320-galley-recursion-experiments.cpp:fit_sizes", "t/320-galley-recursion-experiments.cpp:VariantPicker", "t/320-galley-recursion-experiments.cpp:TestRNode1::do_recursion", "t/320-galley-recursion-experiments.cpp:GalleySimpleRecusion::do_recursion"]}
{"id": "C60", "title": "An extraction only ever takes data from the front of the blob", "statement": "Whatever its outcome (result or exception), an operation of the library moves the beginning of the blob forward by zero or more bytes: it never gives bytes back, never takes from the end or the middle, never changes the bytes of the buffer, never makes the blob invalid. This holds for Chop, values, oracles, dictionary words, texts, JSON strings, Load, the galleys over stamps that do anything at all with their chunks, every stamp graph over such stamps, StampJSON, and user stamps composed of these. So after any sequence of operations, some of which threw, the blob holds a tail of what it held before.", "quantifier": "every blob, every stamp, graph, declared sizes, sequence of operations", "why_tests_cant": "All data and all stamps including user made ones, on success and on every exception path, for any sequence of operations.", "anchors": ["src/blob.cpp:Blob::Chop", "src/blob.cpp:Blob::ShiftBytes", "src/galley.cpp:GalleyVectorBase::extract_internal", "src/galley.cpp:GalleySetBase::extract_internal", "include/blobstamper/stamp.h:StampBase::Load"]}
{"id": "C61", "title": "Sizes of stamps made of stamps, at any depth", "statement": "minSize() and maxSize() of every combination are what its parts require. Enumerators and texts: the element's minSize() plus no oracle if elements have a fixed size, one if bounded, two if unbounded; maxSize() -1. Operators: the operand's, or those of a set of two; maxSize() -1. Sets: the sum of the members' minimal (maximal) sizes plus one oracle per variable member and one per unbounded member but for a lone one; maxSize() -1 if a member is unbounded. Hash elements: the sum of both; maxSize() -1. Pools: that of the smallest (biggest) member plus an oracle; -1 if a member is unbounded. Lotteries: the recorded sizes plus one oracle of 1, 2, 4 or 8 bytes by the number of members. Close to INT_MAX the size of an enumerator is reduced to a negative int and that of a hash element is undefined behaviour.", "quantifier": "every acyclic stamp graph of any depth with sums below 2^31", "why_tests_cant": "All nestings: the sizes are computed by virtual calls through arbitrarily deep graphs with temporary marks in the pools.", "anchors": ["src/galley.cpp:GalleyVectorBase::minSize", "src/galley.cpp:GalleySetBase::minSize", "include/blobstamper/stamp_math_op.h:StampStrBinaryOp::minSize", "src/stamp_json.cpp:PoolPickerStamp::minSize", "src/stamp_json.cpp:PoolPickerStamp::maxSize", "include/blobstamper/stamp_lottery.h:StampLottery::minSize"]}
{"id": "C62", "title": "A failing part fails the whole with the same failure", "statement": "If a galley has cut up the data and a stamp fails on its chunk, the extraction fails with that very failure, that of the first failing chunk in order; the chunks after it are not looked at, and the blob is left as the galley left it (consumed, not restored). No partial list is returned. If the galley itself fails no stamp is tried. This carries over to enumerators, texts, sets, unary and binary operators (left operand first) in any graph; a hash element takes the name first and the value from the rest, and a failing name means that the value is not tried and the data after the name is left.", "quantifier": "every blob, every stamp and failure (OutOfData, undefined behaviour, abort, no termination), every graph of stamps that take from the front", "why_tests_cant": "All positions of the failing part, all kinds of failure and all stamps including user made ones.", "anchors": ["src/galley.cpp:GalleyVectorStr::ExtractStrVector", "src/galley.cpp:GalleySetStr::ExtractStrSet", "include/blobstamper/stamp_math_op.h:StampStrBinaryOp::ExtractStr", "include/blobstamper/stamp_json.h:StampJSONHashEl::ExtractStr", "include/blobstamper/stamp_enumerator.h:ExtractStr"]}
{"id": "C63", "title": "A destroyed member spoils its pool and everything that needs its size", "statement": "A pool keeps weak pointers and never checks them. If a stamp in it was destroyed, then minSize() of the pool is undefined behaviour, as is that of every stamp whose size depends on it: pools around it, enumerators, texts, operators, sets and hash elements. maxSize() of the pool is undefined or -1, never a number. ExtractStr of such a stamp never returns a string on any data; the pool's throws OutOfData, consuming nothing, on fewer than two bytes and is undefined otherwise; an enumerator's over the pool is always undefined.", "quantifier": "every stamp graph, cyclic or not, with a destroyed member anywhere, every blob", "why_tests_cant": "Undefined behaviour may pass a test; all graphs and all data.", "anchors": ["src/stamp_json.cpp:PoolPickerStamp::minSize", "src/stamp_json.cpp:PoolPickerStamp::maxSize", "src/stamp_json.cpp:PoolPickerStamp::ExtractStr", "include/blobstamper/stamp_json.h:PoolPickerStamp"]}
{"id": "C64", "title": "Every list can come out of a vector", "statement": "For elements of fixed size every list of chunks of that size comes out of a GalleyVector, the data being the chunks themselves. For elements of limited size (up to 65536 different sizes, other than 65522 and 65524 of them) there is, for every list of chunks of allowed sizes, data that give exactly these chunks. For unbounded elements every chunk of up to 32767 bytes is reachable alone, and every list of up to 16384 chunks with up to 32767 bytes in total is, up to one last byte that may or may not belong to the last chunk. So every list of integers of a type, every enumeration of texts of the elements and every sequence of words of the built-in dictionary can be produced.", "quantifier": "all lists, all sizes within the stated limits", "why_tests_cant": "Reachability of every list is not a matter of samples; which lists are unreachable depends on floating-point rounding.", "anchors": ["src/galley.cpp:GalleyVectorBase::extract_internal", "src/galley.cpp:GalleyVectorStr::ExtractStrVector", "include/blobstamper/galley.h:GalleyVectorV::ExtractValuesVector", "include/blobstamper/stamp_text.h:StampText::ExtractStr", "src/stamp_enumerator.cpp:StampStrEnumerator::ExtractStr"]}
{"id": "C65", "title": "Every division can come out of a set", "statement": "Take a GalleySet whose variated stamps can take at most 8191 bytes above their minima together. For every list of chunks, one for each stamp and each of an allowed size (if there are several unbounded stamps, at most 65535 bytes above the minimum each), there are oracles such that the data made of them and the chunks is divided into exactly these chunks with nothing left. So ExtractStrSet, ExtractBinSet, binary operators and sets in a graph of stamps can produce every combination of values of their parts. Without the limit this fails: a stamp of 0 to 131070 bytes gets an odd number of bytes only if there are no more.", "quantifier": "all sets of stamps, all lists of chunks within the stated limits", "why_tests_cant": "Reachability of every division is not a matter of samples; it depends on rounding of shares and on the order of additions.", "anchors": ["src/galley.cpp:GalleySetBase::extract_internal", "src/galley.cpp:GalleySetStr::ExtractStrSet", "src/galley.cpp:GalleySetBin::ExtractBinSet", "src/stamp_math_op.cpp:StampMathBinaryOp::ExtractStr"]}
{"id": "C66", "title": "How many bytes a stamp needs", "statement": "For a sensibly composed stamp there is one number of bytes, computable from the sizes its parts report, from which on ExtractStr() returns a string whatever the bytes are, and below which it throws OutOfData whatever the bytes are. The number is never more than minSize(); for enumerators it is less: an enumerator is content with the minimum of its element (and the two bytes of the element count if the element is unbounded) and then returns an empty list; operators and sets need exactly minSize(), a pool its oracle and the smallest minimum of its members, a lottery likewise; a JSON string needs 1 byte although it asks for 8.", "quantifier": "All composed stamps (enumerators, operators, sets, hash elements, pools, lotteries, any recursion through pools and lotteries), all data up to the size limits of the enumerators used.", "why_tests_cant": "A test tries one length and one content per stamp; the boundary is claimed for every content on both sides and for every composition.", "anchors": ["src/galley.cpp", "src/stamp_json.cpp", "src/stamp_text.cpp", "include/blobstamper/stamp_enumerator.h", "include/blobstamper/stamp_lottery.h"]}
{"id": "C67", "title": "Bytes left behind do not influence the result", "statement": "Whatever an extraction does (returns, or throws), its result and the number of bytes it takes depend only on the bytes it takes and on how many bytes are left behind it, not on what those bytes are: if the bytes left in the blob are replaced by as many others, the same extraction gives the same result and leaves exactly the others. This holds for values, dictionaries, texts, JSON strings, for the division of a blob by both galleys, for every composition of stamps that behave so and for JSON. How many bytes are left does matter: a longer rest can change the result.", "quantifier": "All blobs, all outcomes, all replacements of the same length, all compositions and recursive graphs of stamps over leaves with the property.", "why_tests_cant": "The claim quantifies over every replacement of the unread bytes and over every stamp graph; a test can only vary a few of them.", "anchors": ["src/blob.cpp", "src/galley.cpp", "include/blobstamper/stamp_lottery.h", "src/stamp_json.cpp", "include/blobstamper/stamp_enumerator.h"]}
{"id": "C68", "title": "Changing the bytes of one element changes that element only", "statement": "When a galley divides a blob, the boundaries are determined by the oracle bytes and the amount of data alone: if the bytes inside the parts (and those left over) are replaced by others of the same lengths, the blob is divided at the same places and the new bytes are handed out unchanged. Hence in a vector, enumerator, text, set or operator every element, member or operand is made of its own bytes, and replacing the bytes of one element by as many others replaces that value in the result and leaves all others as they were, provided the element's stamp accepts the new bytes.", "quantifier": "All sizes of elements, all numbers of parts, all blobs, all replacements of the same length, all stamps whose result depends on the bytes they are given, all stamp graphs for the composed stamps.", "why_tests_cant": "The claim is about every change of every element of every division; tests compare a few fixed inputs.", "anchors": ["src/galley.cpp", "include/blobstamper/galley.h", "include/blobstamper/stamp_enumerator.h", "include/blobstamper/stamp_math_op.h"]}
{"id": "C69", "title": "Stamps that users write: the tests' character stamps and README's complex numbers", "statement": "StampTwoChars and StampSeveralChars of the tests throw OutOfData with less than two bytes (and take nothing), otherwise give the bytes before the first NUL of the first two, respectively eight, bytes and take these; StampTwoCharsList gives the texts of all pairs in parentheses and leaves an odd byte. They fulfil the conditions under which the theorems on galleys, sets, pools and lots hold. README's complex number stamps take four bytes, the first two being the real part, and return it as text 'RE + IMi' or as value; the array stamp gives all numbers in order, up to three bytes stay; the texts determine the numbers; the memory copy of README yields the first bytes of the blob unchanged.", "quantifier": "All blobs, all contents, all amounts of data (up to 2^31-1 elements for the memory copy, whose counter is an int).", "why_tests_cant": "The project's tests use these stamps to check others; what they do for NULs, short data and every value is not covered by finitely many runs.", "anchors": ["t/test-chars-stamps.h", "README.md"]}
{"id": "C70", "title": "Stamps applied one after another to the same blob", "statement": "When a user's stamp calls the extract methods of several stamps in turn on its blob, every stamp but the last takes its maxSize(). It works exactly if none of these is unbounded and the data reach the sum of their maxSize() plus the minSize() of the last one; otherwise OutOfData is thrown. The i-th value is what the i-th stamp makes of the data behind the maximum sizes of those before it. README's advice, to report the sum of the minSize(), is right exactly if all stamps but the last are of fixed size.", "quantifier": "All lists of stamps that throw below minSize() and otherwise take as much as they may (shown for the arithmetic, text, dictionary, character and complex number stamps), all blobs, all amounts of data.", "why_tests_cant": "A threshold for every list of stamps of every size and for every amount of data; README shows two stamps of fixed size only.", "anchors": ["README.md", "examples/example04.cpp", "include/blobstamper/stamp.h", "src/blob.cpp"]}
{"id": "C71", "title": "A choice by weights keeps the proportions", "statement": "WeightedRefPicker::pick with seed c returns an element for every seed if the weights are not negative and not all 0: the one whose share, when 0 to 255 is divided in proportion to the weights, contains c (on a boundary one of the two neighbours; the one below if the sum of the weights divides 255). Of the 256 seeds an element gets 255 times its weight over the sum of the weights, give or take one. An element of weight 0 is nevertheless chosen by seed 0 if it is the first one, and the last element if all weights are 0; without elements exit(1) is called, or behaviour is undefined for seed 0. The nodes 2 and 3 drop one byte and write \"2 + \" or \"3 + \" before the formula made of the rest, and \"0\" if there is no byte.", "quantifier": "All lists of weights from 0 to 127 whose sum is from 1 to 2^20, all 256 seeds; all blobs with 2 up to 2^31 - 1 further bytes for the nodes.", "why_tests_cant": "The step is a rounded quotient and the boundaries are rounded sums of any length; whether an integer seed falls on the right side needs a bound on the accumulated error for all lists of weights.", "anchors": ["t/320-galley-recursion-experiments.cpp"]}
{"id": "C72", "title": "How long stamps live, and what a destroyed member does", "statement": "A stamp exists exactly as long as the program holds a shared_ptr to it or a stamp that exists was constructed with it: lists, texts, operators, sets, hash elements and the pool constructor keep their stamps alive, add_weak and lotteries do not. use_count() is the number of the program's pointers plus those of existing stamps (two for the element of an enumerator and for each operand of a binary operator). No program that only hands over existing stamps destroys a stamp twice or uses a destroyed one by that; once the program has dropped its pointers nothing is left, even if pools contain themselves. As long as everything a stamp can come across is kept it answers as if nothing had ever been destroyed; without lotteries and add_weak this is so as long as the stamp itself is kept. A lottery with a destroyed member still answers minSize() and maxSize() from the stored sizes, but extraction is undefined unless the data is too short for its oracle (OutOfData, nothing consumed). A pool with a destroyed member, which then was added by add_weak, has undefined minSize() and extraction.", "quantifier": "All programs of any length that make stamps of the library's composite classes over any leaves, copy and drop pointers, call add_weak and Append; all data.", "why_tests_cant": "Lifetimes depend on the whole history of pointers; undefined behaviour after destruction may go unnoticed in a test.", "anchors": ["include/blobstamper/galley.h", "include/blobstamper/stamp_enumerator.h", "include/blobstamper/stamp_math_op.h", "include/blobstamper/stamp_json.h:PoolPickerStamp", "include/blobstamper/stamp_lottery.h:StampLottery", "src/stamp_json.cpp:PoolPickerStamp::add_weak"]}
{"id": "C73", "title": "How many calls one size query makes", "statement": "minSize() and maxSize() work their answers out by asking the stamps they are made of, often more than once. Counting every minSize() and maxSize() entered: (a) each enumerator, binary operator or non-empty set a stamp lies in at least doubles the calls of minSize(); (b) d enumerators in one another over a stamp of any sizes make exactly 7*2^(d-1)-3 calls when that stamp is of fixed size and 2^(d+2)-3 when it is not, while maxSize() makes one; (c) d sets of one stamp in one another make exactly (4^(d+1)-1)/3 or (5^(d+1)-1)/4 calls, for either query; (d) never more than five times per part and level, and once per member of a pool, so that with P pools of at most k members of weight w the count is at most weight*(1+kw)^P; (e) n pools that are members of each other make at least (n+1)*(n-1)! calls; (f) the JSON stamp makes 18 and 5. Counting changes no answer.", "quantifier": "all stamp graphs (pools, lotteries, galleys, any depth), all leaf sizes, all depths d and numbers of pools n", "why_tests_cant": "A test sees one answer and not the work behind it, on structures of a few levels; the growth with depth is a statement about every depth.", "anchors": ["src/galley.cpp:29-47", "src/galley.cpp:396-452", "include/blobstamper/stamp.h:43-45", "src/stamp_json.cpp:103-147"]}
{"id": "C74", "title": "Blobs are views of the caller's memory", "statement": "Blob objects, the blobs Chop returns and the blob a stamp keeps between Load() and UnloadStr() are views of the array the program gave, never copies. In every program of arrays, writes, blobs, chops, loads, extractions and arrays given up, in any order: (a) a write to an array changes exactly the byte of exactly those blobs that cover the place, and moves no blob; (b) an extraction answers by the bytes that are in the array when it runs, so a stamp loaded before a refill gives the new value; (c) where blobs lie, and which chops and loads throw, does not depend on the bytes; (d) if one blob was made on an array, no place of it is ever in two blobs; (e) every blob stays within its array; (f) giving an array up changes no blob elsewhere, and makes every later use of every blob on it undefined, however long ago it was chopped out. Nothing else ends an array: it exists until the program gives it up, whatever is done with the blobs on it.", "quantifier": "all programs of such steps of any length, any number of arrays and blobs, all bytes, any extractor that depends on the bytes alone (C42) and takes them from the front (C60)", "why_tests_cant": "A test that reads at once what it loaded cannot tell a view from a copy, and use of freed memory often looks right; the claims are about every interleaving of writes, chops and extractions.", "anchors": ["src/blob.cpp:27-110", "src/stamp.cpp:29-49", "include/blobstamper/blob.h:30-35", "include/blobstamper/stamp.h:33-60"]}
{"id": "C75", "title": "The exit status of a test program is the verdict of its own output", "statement": "A program written with the bundled TAP library, whose messages are single lines without '#', and which does not call plan(0) or plan(skip_all), prints tests numbered 1, 2, 3, ...; if it ends by exit_status() without bail_out(), its status is the number of tests printed as failed and not marked TODO, at most 254, if it printed one plan and as many tests, and 255 if the number is another or no plan was printed for the tests; bail_out() gives 255 and its line. So status 0 is what a harness accepts from the output, and conversely. This holds through every nesting of blocks, guards, TRY, FAIL and handlers. Between TEST_START and TEST_END every exception is caught and the program exits; skip(reason) there fills up to the plan. A block left by skip(reason) counts as its planned number and restores TODO and the block stack; guards restore TODO on every way out; ok(), not_ok(), pass(), fail(), is() and isnt() count as one test each, passed when the name says so and failed if the comparison throws; TRY and FAIL add one that tells whether their code threw. The exceptions to what README says are exact: dying after the last planned test does not change the status, plan(0) can exit 0 against its output, plan(no_plan) with done_testing() terminates, skip(reason) after too many tests prints 2^32 + N tests, other exceptions leave a block's number on the stack.", "quantifier": "all test programs (any tree of calls and scopes, any length), all texts, all exceptions thrown; test numbers below 2^32 where stated", "why_tests_cant": "The library is what decides whether tests pass; its claims concern every order and nesting of its calls and every point at which tested code may throw, and the failing cases are those in which a test run reports success.", "anchors": ["t/libtappp/src/tap++.cpp:11-195", "t/libtappp/include/tap++/tap++.h:32-154", "t/libtappp/include/tap++/tap++.h:265-377", "t/libtappp/README.md:281-303"]}
{"id": "C76", "title": "is() on floating point numbers means a relative error below EPSILON", "statement": "nearly_equal, by which is() and isnt() of the test library compare double and float: the answer does not depend on the order of the arguments; numbers equal by == are equal, a NaN is equal to nothing, an infinity only to itself; finite numbers found equal differ by less than EPSILON (1 + 2^-51) times their mean absolute value (float: 1 + 2^-22), or by no more than EPSILON times the smallest normal number up to rounding; finite numbers that differ by at most EPSILON (1 - 2^-50) times their mean absolute value (float: 1 - 2^-21) are found equal, if the sum of their absolute values is at most 2^1023 (2^127); so are numbers that differ by less than EPSILON times the smallest normal number, up to rounding. Beyond that sum the former fails. EPSILON is set to the double nearest to 1/10000.", "quantifier": "all doubles and floats, subnormal, infinite and NaN included; every finite EPSILON in (0, 1] (for the second half normal)", "why_tests_cant": "The comparison decides which results of the numeric stamps the tests accept; its limits concern rounding at every scale, where single examples show nothing.", "anchors": ["t/libtappp/include/tap++/tap++.h:161-218", "t/libtappp/src/tap++.cpp:9"]}
{"id": "C77", "title": "Galleys on data of 2 GiB and more", "statement": "The galleys keep sizes in int. A GalleySet without variated stamps given n bytes above its minimum takes n modulo 2^32 of them, or none if that is 2^31 or more, divides what it takes as it would divide smaller data (C23), and leaves the rest in the blob; if it takes none, every stamp gets exactly its minSize(). For any set, 2^32 bytes more, or a multiple of that, make no difference: the chunks are the same and the additional bytes are left. A set with variated stamps whose data above the minimum, modulo 2^32, is G below 2^32 (0 < G <= 2^31) takes these G bytes away from its variated stamps, in proportion to their weights, so that they get chunks below their minSize(), and gives every other stamp exactly its minSize(); if a variated stamp would get less than nothing, which is always so if G is greater than the minimal sizes of all variated stamps together, it throws OutOfData; if all their oracles are 0, the behaviour is undefined. A GalleyVector of unbounded stamps whose remaining data, modulo 2^32, is between 2^31 (plus the minimal sizes of all parts plus 256) and 2^32 - 4096 throws OutOfData although there are gigabytes to divide. If the minimal sizes of all parts, or the remaining size less these, or the sum of the oracles do not fit an int, the behaviour is undefined. From 4 GiB on, if the remaining size modulo 2^32 is below 2^31 - 4095 and not less than the minimal sizes of all parts, the parts are shares of that number only, right up to a millionth, in order from the front, and the rest is left.", "quantifier": "all lists of stamps up to 65536, all blobs of any size (vector: below 2^46 bytes; set with variated stamps: below 2^63), all oracles", "why_tests_cant": "Nobody tests with gigabytes; the statements concern every size above 2 GiB.", "anchors": ["src/galley.cpp:143-158", "src/galley.cpp:231-239", "src/galley.cpp:304-317"]}
{"id": "C78", "title": "Sets whose total sizes do not fit an int", "statement": "For a GalleySet of stamps with sensible sizes: if the minimal sizes of all stamps together, or what all variated stamps together can take above their minimum, are 2^31 or more (two stamps that take anything up to INT_MAX are enough), the extraction is undefined behaviour; in the first case so is minSize(). If the minimal sizes fit but not together with the oracles, minSize() is negative (too small by 2^32) and the extraction throws OutOfData for every blob, which is left as it was. These and the sets of C22-C26 are all sets of up to 65536 stamps. If the maximal sizes of stamps without an unbounded one do not fit together with the oracles, maxSize() is undefined or too small by 2^32, that is negative; a single stamp of up to INT_MAX bytes is enough for the latter.", "quantifier": "all lists of stamps (the classification: up to 65536), all blobs", "why_tests_cant": "Statements over all lists of sizes; undefined behaviour usually goes unnoticed in a test.", "anchors": ["src/galley.cpp:202-239", "src/galley.cpp:396-452"]}
