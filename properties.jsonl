{"id": "C01", "title": "Adler-32 is the RFC 1950 checksum for data of any length and any chunking", "statement": "For every byte sequence the incremental Adler-32 update/finalize pipeline yields exactly the RFC 1950 value (1+sum of bytes mod 65521, sum of running sums mod 65521), the result does not depend on how the sequence is split across update calls, and the 32-bit accumulators never wrap.", "quantifier": "all byte sequences of any length, all ways of splitting them into update calls", "why_tests_cant": "The no-wrap argument is about the worst case of 5552-byte chunks and arbitrarily long streams; tests only sample.", "anchors": ["blend2d/compression/checksum.cpp: adler32_update_ref", "blend2d/compression/checksum_p.h: adler32_initialize, adler32_finalize, adler32"]}
{"id": "C02", "title": "CRC-32 is the reflected 0xEDB88320 polynomial CRC for data of any length and any chunking", "statement": "For every byte sequence the table-driven CRC-32 equals the bit-serial IEEE 802.3 CRC (initial value and final xor 0xFFFFFFFF), and incremental updating over any split gives the same value.", "quantifier": "all byte sequences, all splits into update calls", "why_tests_cant": "A wrong table entry or shift is only seen on inputs that reach it at the right state; the claim is about all inputs.", "anchors": ["blend2d/compression/checksum.cpp: crc32_table, crc32_update_ref", "blend2d/compression/checksum_p.h: crc32_update_byte, crc32_finalize"]}
{"id": "C03", "title": "Checked and saturating integer arithmetic is exact", "statement": "The checked add/sub/mul raise their overflow flag exactly when the mathematical result is not representable, return the exact result otherwise and never clear an already raised flag; the saturating unsigned variants return min(exact, MAX) resp. max(exact, 0).", "quantifier": "all operand pairs of every width, signed and unsigned", "why_tests_cant": "The 64-bit domain cannot be enumerated.", "anchors": ["blend2d/support/intops_p.h: add_overflow_fallback, sub_overflow_fallback, mul_overflow_fallback, uadd_saturate, usub_saturate, umul_saturate"]}
{"id": "C04", "title": "Alignment and power-of-two helpers are exact", "statement": "align_up returns the least multiple of the alignment not below x (modulo word wrap), align_down the greatest multiple not above x, align_up_diff their difference, is_power_of_2 and is_bit_mask_consecutive decide exactly the sets their names say.", "quantifier": "all values, all power-of-two alignments, every word width", "why_tests_cant": "Domain is all machine words and alignments.", "anchors": ["blend2d/support/intops_p.h: align_up, align_up_diff, align_up_power_of_2, align_down, is_power_of_2, is_bit_mask_consecutive"]}
{"id": "C05", "title": "Population count and bit scans are exact", "statement": "The portable popcount returns the number of one bits, portable clz/ctz return the number of leading/trailing zeros of every non-zero word, and the Harley-Seal style block population counter equals the sum over the words of any array.", "quantifier": "all words, arrays of any length", "why_tests_cant": "Domain is all words and arbitrary-length arrays.", "anchors": ["blend2d/support/intops_p.h: pop_count_static, clz_fallback, ctz_fallback, PopCounterHarleySeal, PopCounterSimple"]}
{"id": "C06", "title": "Sorting returns a sorted permutation of its input", "statement": "quick_sort and insertion_sort terminate on every array and every comparison function that is a total preorder, produce an array sorted by it that is a permutation of the input, never access an element outside the array and never overflow the explicit stack.", "quantifier": "all arrays of any length, all total preorders", "why_tests_cant": "Bad pivots, many duplicates and stack depth only appear on specific arrays; claim is for all.", "anchors": ["blend2d/support/algorithm_p.h: quick_sort, QuickSortImpl, insertion_sort"]}
{"id": "C07", "title": "Binary searches return the documented position", "statement": "On every sorted array and every key lower_bound / upper_bound-style / exact / closest-first / closest-last searches return precisely the position their documentation describes (or 'not found'), reading only inside the array.", "quantifier": "all sorted arrays of any length, all keys", "why_tests_cant": "Off-by-one errors depend on length/key position combinations.", "anchors": ["blend2d/support/algorithm_p.h: lower_bound, binary_search, binary_search_closest_first, binary_search_closest_last"]}
{"id": "C08", "title": "BLRandom never gets stuck and never leaves its range", "statement": "reset(seed) yields a non-zero state for every seed, next_uint64 maps non-zero states to non-zero states and is a bijection on states (no two generators with different states collapse into one), next_double is in [0,1) and next_uint32 is the upper half.", "quantifier": "all 64-bit seeds, all 128-bit states, sequences of any length", "why_tests_cant": "2^128 states.", "anchors": ["blend2d/core/random_p.h: reset_seed, next_uint64, next_uint32, next_double", "blend2d/core/random.cpp"]}
{"id": "C09", "title": "Pixel normalised multiplication is exactly rounded", "statement": "The division-free /255 used by all 8-bit compositing equals round-half-up(x/255) for every product of two 8-bit values; the /65535 variant likewise; premultiplication never produces a component greater than alpha and is monotone.", "quantifier": "all products, all colours and alphas", "why_tests_cant": "2^32 pixels.", "anchors": ["blend2d/pixelops/scalar_p.h: udiv255, udiv65535, cvt_prgb32_8888_from_argb32_8888"]}
{"id": "C10", "title": "Premultiplied pixels survive unpremultiply / premultiply", "statement": "Converting any valid premultiplied 32-bit pixel to non-premultiplied and back gives the identical pixel, and every component of the unpremultiplied pixel fits in 8 bits.", "quantifier": "all valid PRGB32 pixels", "why_tests_cant": "Table of 256 reciprocals times 256 components times rounding; a single wrong entry is silent.", "anchors": ["blend2d/pixelops/scalar_p.h: cvt_argb32_8888_from_prgb32_8888, unpremultiply_rgb_8bit", "blend2d/tables/tables.cpp: unpremultiply_rcp"]}
{"id": "C100", "title": "JPEG Huffman symbols are read back as they were written", "statement": "For every accepted Huffman table and every sequence of its symbols, a segment whose entropy-coded bits begin with the canonical codes of these symbols (with 0xFF stuffed) is read as exactly these symbols by refilling the reader and reading one code after the other, whatever follows them.", "quantifier": "all tables, all sequences of symbols, all segments", "why_tests_cant": "Round trips of a few images cover a few tables; codes of all lengths, on all alignments to the 64-bit word and next to stuffed bytes and the end of the segment do not occur in them.", "anchors": ["blend2d/codec/jpeghuffman.cpp:build_huffman_table", "blend2d/codec/jpeghuffman_p.h:DecoderBitReader::refill", "blend2d/codec/jpeghuffman_p.h:read_code"]}
{"id": "C11", "title": "Low-depth pixel formats expand exactly", "statement": "555/565/4444 to 8888 expansion maps 0 to 0 and max to 255, is strictly monotone per component, keeps components independent, and re-quantisation recovers the original value.", "quantifier": "all 16-bit pixels", "why_tests_cant": "Components interplay through packed multiplications; needs all 65536 pixels.", "anchors": ["blend2d/pixelops/scalar_p.h: cvt_xrgb32_8888_from_xrgb16_0555, cvt_xrgb32_8888_from_xrgb16_0565, cvt_argb32_8888_from_argb16_4444"]}
{"id": "C12", "title": "QOI write/read round trip is lossless", "statement": "For every image of every size, decoding the file written by the QOI encoder succeeds and yields the original pixels: XRGB32 exactly, premultiplied PRGB32 exactly, and A8 as white-with-alpha.", "quantifier": "all image dimensions and all pixel contents (valid premultiplied pixels for PRGB32)", "why_tests_cant": "Index-cache collisions, runs over row ends and diff ranges combine in unboundedly many ways.", "anchors": ["blend2d/codec/qoicodec.cpp: encode_qoi_data_prgb32, encode_qoi_data_xrgb32, encode_qoi_data_a8, decode_qoi_data, write_frame, read_frame"]}
{"id": "C13", "title": "QOI encoder never exceeds the buffer it reserves", "statement": "For every image the number of bytes produced is at most the size reserved up front (header + worst case per pixel + end marker).", "quantifier": "all images", "why_tests_cant": "Worst-case expansion is over all pixel sequences.", "anchors": ["blend2d/codec/qoicodec.cpp: write_frame, encode_qoi_data_*"]}
{"id": "C14", "title": "QOI decoder is memory safe on hostile input", "statement": "For every byte string and every declared width/height the decoder never reads outside the input, never writes outside the image, terminates, and either reports an error or has written every pixel of the image.", "quantifier": "all byte strings, all dimensions", "why_tests_cant": "Hostile input space is infinite.", "anchors": ["blend2d/codec/qoicodec.cpp: decode_qoi_data, store_rle, read_info"]}
{"id": "C15", "title": "QOI decoder implements the QOI specification", "statement": "On every well-formed QOI chunk stream (reference encoder discipline) the decoder produces exactly the pixels the QOI specification's per-pixel state machine assigns.", "quantifier": "all chunk streams and image sizes", "why_tests_cant": "The decoder is restructured (run spill over rows, multi-index fast path, 64-bit hash trick); equivalence is over all streams.", "anchors": ["blend2d/codec/qoicodec.cpp: decode_qoi_data, qoi hash"]}
{"id": "C16", "title": "UTF-8 validation accepts exactly well-formed Unicode text", "statement": "Validating a byte string as UTF-8 succeeds exactly when it is well-formed per the Unicode standard (no overlong forms, no surrogates, max U+10FFFF, no truncation) and on failure the reported index is the start of the first ill-formed sequence.", "quantifier": "all byte strings", "why_tests_cant": "Ill-formed sequences at any place in unbounded text.", "anchors": ["blend2d/unicode/unicode.cpp: bl_validate_utf8, bl_validate_unicode", "blend2d/unicode/unicode_p.h: Utf8Reader"]}
{"id": "C17", "title": "Unicode transcoding preserves the text", "statement": "Successful conversion between UTF-8, UTF-16, UTF-32 and Latin-1 yields text denoting the same code points; converting there and back is the identity.", "quantifier": "all texts, all encoding pairs", "why_tests_cant": "All code point sequences.", "anchors": ["blend2d/unicode/unicode.cpp: convert_unicode, convert_unicode_impl", "blend2d/unicode/unicode_p.h: Utf8Writer, Utf16Writer, Utf32Writer, Utf16Reader, Utf32Reader"]}
{"id": "C18", "title": "Unicode transcoding reports exact progress", "statement": "Whatever the result code, the reported source and destination indexes are the bytes consumed and produced: the destination prefix is the transcoding of the source prefix; on success the whole source was consumed.", "quantifier": "all texts, all destination capacities, all encoding pairs", "why_tests_cant": "Depends on exact capacity versus text length for all texts.", "anchors": ["blend2d/unicode/unicode.cpp: convert_unicode"]}
{"id": "C19", "title": "Unicode transcoding never writes past the destination", "statement": "For every source and every destination capacity no byte is written at or beyond the capacity, and no byte is read at or beyond the end of the source.", "quantifier": "all texts, all capacities", "why_tests_cant": "Capacity/text combinations unbounded.", "anchors": ["blend2d/unicode/unicode.cpp: convert_unicode_impl", "blend2d/unicode/unicode_p.h: readers and writers"]}
{"id": "C20", "title": "BLBitArray behaves like a list of bits", "statement": "Every sequence of append/set/clear/replace/fill/resize operations on an unshared BLBitArray leaves exactly the bits that the same operations leave on a plain list of booleans; bits beyond size are never observable; get/has_bit/cardinality agree with the list.", "quantifier": "all operation sequences of any length, all indexes and sizes", "why_tests_cant": "Word-boundary masks, SSO to heap transition and growth interplay.", "anchors": ["blend2d/core/bitarray.cpp", "blend2d/support/bitops_p.h: ParametrizedBitOps"]}
{"id": "C21", "title": "Modifying one BLBitArray copy never changes another and keeps the rest of its own content", "statement": "After copying a BLBitArray (weak copy), modifying one of the copies changes only that copy, and in it only the addressed bits.", "quantifier": "all arrays, all copies, all modifying operations", "why_tests_cant": "Copy-on-write paths only trigger for shared heap instances of particular sizes.", "anchors": ["blend2d/core/bitarray.cpp: make_mutable_for_modify_op, bl_bit_array_set_bit, bl_bit_array_assign_weak"]}
{"id": "C22", "title": "BLBitArray range and bulk queries are memory safe", "statement": "has_bits_in_range / subsumes / intersects / get_range / replace_words only access words that belong to the array and the caller's buffer and give the set-theoretic answer.", "quantifier": "all arrays, all ranges", "why_tests_cant": "Reads one word past the end only when the range ends on a word boundary at the end of the array.", "anchors": ["blend2d/core/bitarray.cpp: bl_bit_array_has_bits_in_range, bl_bit_array_subsumes, bl_bit_array_intersects, bl_bit_array_get_range, combine_word_data"]}
{"id": "C23", "title": "BLBitArray comparison is the lexicographic total order", "statement": "compare returns the sign of the lexicographic comparison of the bit sequences (prefix smaller), equals is true exactly for identical bit sequences, independent of storage (SSO or heap, spare capacity).", "quantifier": "all pairs of arrays", "why_tests_cant": "Depends on hidden padding bits and storage for all sizes.", "anchors": ["blend2d/core/bitarray.cpp: bl_bit_array_equals, bl_bit_array_compare"]}
{"id": "C24", "title": "BLArray copies are independent values under any operation history", "statement": "With any number of BLArray handles created by weak copy / move / assign, after any sequence of append, insert, remove, resize, reserve, shrink, clear, reset, make_mutable the content of each handle is what the same operations do to an independent list; no operation on one handle is visible through another.", "quantifier": "all handle sets, all operation sequences, all element values and sizes", "why_tests_cant": "Aliasing, SSO/heap and capacity transitions create unboundedly many histories.", "anchors": ["blend2d/core/array.cpp", "blend2d/core/object_p.h: retain_impl, deref_impl_and_test"]}
{"id": "C25", "title": "BLArray bulk assignment and range replacement do what they say", "statement": "assign_data makes the array equal to the given items and replace_range substitutes exactly the given range, for every size of old content, replacement and capacity, without touching memory outside the array's storage.", "quantifier": "all arrays, ranges and replacement data", "why_tests_cant": "Depends on size/capacity/n relations and sharing.", "anchors": ["blend2d/core/array.cpp: bl_array_assign_data, bl_array_replace_data"]}
{"id": "C26", "title": "BLString copies are independent values under any operation history", "statement": "As C24 for BLString: assign, append, insert, remove, resize, reserve, shrink, clear on any handle; the text stays NUL terminated and equals the list model.", "quantifier": "all handle sets and operation sequences", "why_tests_cant": "Same as C24; plus the SSO size byte doubling as terminator.", "anchors": ["blend2d/core/string.cpp: modify_and_copy, insert_and_copy, bl_string_*"]}
{"id": "C27", "title": "Objects are freed exactly when the last reference goes away", "statement": "Under every history of init_weak/assign/move/reset/destroy the implementation behind handles is released exactly once, when the last handle referring to it disappears, and never used afterwards; immutable (external) impls are never considered mutable.", "quantifier": "all histories, all numbers of handles", "why_tests_cant": "Reference counting errors need specific histories.", "anchors": ["blend2d/core/object_p.h: retain_impl, deref_impl_and_test, is_impl_mutable, base_ref_count_value", "blend2d/core/object.cpp: bl_object_assign_move, bl_object_assign_weak, bl_object_reset"]}
{"id": "C28", "title": "Container growth always provides the requested capacity", "statement": "The growth policy never returns less than requested, even when the computation overflows, at least doubles below the growth limit and grows by at least 37.5% above it, so n appends cost O(n) element moves.", "quantifier": "all sizes up to SIZE_MAX", "why_tests_cant": "All 64-bit sizes, asymptotic claim.", "anchors": ["blend2d/core/object_p.h: bl_object_expand_impl_size, bl_object_grow_impl_size_to_power_of_2"]}
{"id": "C29", "title": "Clamping, positive modulo and rotation helpers are exact", "statement": "Clamping an integer of any type to a byte or word returns min(max(x,0),MAX); the positive modulo of x and y>0 is the representative of x in [0,y); rotating a word rotates it within its own width.", "quantifier": "all values of every integer type, all rotation counts", "why_tests_cant": "Domain is all machine words; the failing inputs are single points (INT_MIN) or untested type/sign combinations.", "anchors": ["blend2d/support/intops_p.h: clamp_to_impl, clamp_to_byte, clamp_to_word, pmod, rol, ror"]}
{"id": "C30", "title": "BLRandom has the documented full period", "statement": "Starting from any seed the state of BLRandom does not repeat before 2^128-1 draws (random.h documents: 128 bits of state and full period 2^128 - 1).", "quantifier": "all seeds / all non-zero states", "why_tests_cant": "A period near 2^51 or 2^128 cannot be observed by running the generator; it needs algebra of the transition over GF(2).", "anchors": ["blend2d/core/random.h:35-36", "blend2d/core/random_p.h: next_uint64"]}
{"id": "C31", "title": "QOI decoder agrees with the specification on arbitrary INDEX chunks", "statement": "For every QOI chunk stream, also one whose INDEX chunks name slots never written, the decoder produces the pixels of the specification state machine (which stores every seen pixel, also one fetched by INDEX, in its slot).", "quantifier": "all chunk streams", "why_tests_cant": "Needs adversarial streams no encoder produces; tests use encoder output.", "anchors": ["blend2d/codec/qoicodec.cpp: decode_qoi_data (INDEX fast path)"]}
{"id": "C32", "title": "QOI files with too few pixels are rejected", "statement": "A file whose chunks describe fewer than width*height pixels before the 8 byte end marker is reported as truncated.", "quantifier": "all chunk streams and sizes", "why_tests_cant": "The accepted files are rare combinations of the last chunk kind and image width.", "anchors": ["blend2d/codec/qoicodec.cpp: decode_qoi_data (end marker check, INDEX pair)"]}
{"id": "C33", "title": "Unicode validation of UTF-16 and UTF-32 is exact and reports correct lengths", "statement": "Validating UTF-16, UTF-32 or Latin-1 data succeeds exactly for encodings of well-formed text, and for every encoding the three reported lengths are the lengths of the validated text in UTF-8 bytes, UTF-16 units and code points.", "quantifier": "all byte strings, all encodings", "why_tests_cant": "The input space is infinite and the counters are maintained incrementally per character class; boundary characters in any position matter.", "anchors": ["blend2d/unicode/unicode_p.h:426-620", "blend2d/unicode/unicode.cpp:41-107"]}
{"id": "C34", "title": "Successful conversion produces well-formed Unicode", "statement": "Whenever a conversion succeeds, the produced bytes are well-formed in the destination encoding and converting them back yields the source.", "quantifier": "all sources, all encoding pairs", "why_tests_cant": "Requires reasoning about all accepted inputs, including exotic byte sequences such as encoded surrogates.", "anchors": ["blend2d/unicode/unicode_p.h:239-338", "blend2d/unicode/unicode.cpp:119-395"]}
{"id": "C35", "title": "Unicode result codes tell the truth", "statement": "BL_ERROR_NO_SPACE_LEFT is returned only if the destination is too small and BL_ERROR_DATA_TRUNCATED only if the data can be completed to valid text.", "quantifier": "all sources, all capacities, all encoding pairs", "why_tests_cant": "Tests pick a few truncated strings; the claim is about all of them.", "anchors": ["blend2d/unicode/unicode.cpp:119-395", "blend2d/unicode/unicode_p.h:239-338"]}
{"id": "C36", "title": "PNG inverse filter reconstructs every row", "statement": "For every block of filtered rows (any filter byte per row, any bytes per pixel, any row length and count) inside a buffer, the portable inverse filter of the PNG decoder terminates without touching memory outside of the block and leaves exactly the bytes that the PNG standard (clause 9) prescribes: every byte is the stored byte plus the prediction of None, Sub, Up, Average or Paeth from the already reconstructed bytes, modulo 256, with zeros outside of the image; that reconstruction is unique.", "quantifier": "all buffers, bases, bytes per pixel >= 1, row lengths, row counts below 2^32, filter bytes (unknown ones act as None)", "why_tests_cant": "The first row uses a different set of simplified filters, Paeth is a rewritten predictor and the loops depend on the row length; tests only see the filter sequences of their images.", "anchors": ["blend2d/codec/pngops.cpp:18", "blend2d/codec/pngops_p.h:25", "blend2d/codec/pngops_p.h:107"]}
{"id": "C37", "title": "PNG pixel data never leaves its buffer", "statement": "Whatever dimensions and pixel format the IHDR chunk announces, the decoder computes the exact size of the inflated pixel data (plain or Adam7), rejects data of another size, and runs the inverse filter only inside the buffer of that size.", "quantifier": "all widths and heights that IHDR allows, all colour types and depths, all data", "why_tests_cant": "Images whose size computation overflows 32 bits are gigabytes large and absent from tests, but a small malicious file can announce them.", "anchors": ["blend2d/codec/pngcodec.cpp:138", "blend2d/codec/pngcodec.cpp:1386", "blend2d/codec/pngcodec.cpp:1462"]}
{"id": "C38", "title": "PNG decoding hands over the right pixels", "statement": "For every plain or interlaced PNG image, each row of the image is handed to the pixel converter exactly once, and pixel x of row y is the pixel that the PNG standard assigns to that position: reconstructed data, Adam7 pass layout (clause 8), packing of pixels below 8 bits; otherwise an error code is returned and no memory outside of the buffers is used.", "quantifier": "all sizes, depths 1 to 64 bits per pixel, progressive or not, all filtered data, all alignments of the temporary buffer, failing or succeeding allocation", "why_tests_cant": "Deinterlacing has separate unrolled loops and tails for each depth, width modulo 8/16 and row modulo 8; errors affect only particular widths and heights.", "anchors": ["blend2d/codec/pngcodec.cpp:184", "blend2d/codec/pngcodec.cpp:395", "blend2d/codec/pngcodec.cpp:704", "blend2d/codec/pngcodec.cpp:1548"]}
{"id": "C39", "title": "The PNG chunk reader is safe and reads the header exactly", "statement": "Whatever bytes a PNG file consists of, restart, read_info and read_frame in any order and number terminate with a result code and never read outside of the file or the palette or write outside of the image; read_info succeeds exactly when the signature and the IHDR chunk satisfy the PNG standard (colour type / bit depth combinations without 16-bit samples), and then reports exactly the width, height, depth, colour type and interlacing of the header.", "quantifier": "all byte sequences as files (also truncated and with arbitrary chunk sizes), all sequences of decoder calls, all outcomes of inflation and allocation", "why_tests_cant": "Chunk sizes are 32-bit values chosen by the file; overflow and truncation cases are unbounded in number and depend on the decoder state left by earlier calls.", "anchors": ["blend2d/codec/pngcodec.cpp:919", "blend2d/codec/pngcodec.cpp:1212", "blend2d/codec/pngcodec.cpp:1614", "blend2d/codec/pngcodec.cpp:1632"]}
{"id": "C40", "title": "A PNG image gets its palette and its pixels from the right chunks", "statement": "If read_frame succeeds on a fresh decoder, the pixels are those of the concatenated consecutive IDAT chunks, and colour i of an indexed image is entry i of the PLTE chunk with the alpha of the tRNS chunk (opaque black if missing), colour i of a grey image the linearly scaled grey level with the tRNS level transparent; an indexed image without palette is rejected.", "quantifier": "all files, all chunk orders and sizes, all palette lengths and depths", "why_tests_cant": "The palette is built incrementally from up to 256 entries and two chunks whose lengths and order vary independently.", "anchors": ["blend2d/codec/pngcodec.cpp:1065", "blend2d/codec/pngcodec.cpp:1085", "blend2d/codec/pngcodec.cpp:1169"]}
{"id": "C41", "title": "Frames of PNG animations", "statement": "For animated PNG files, every read_frame call that succeeds hands over the pixels of the fdAT (first frame: IDAT) chunks that follow the frame control chunk, at the size given there; frames are disposed as the file asks (none, background, previous) and the animation starts over after its last frame.", "quantifier": "all files, all sequences of read_frame calls, all dispose operations and frame counts", "why_tests_cant": "State is carried over between frames (previous control, previous pixels, position of the first frame); errors need particular combinations of consecutive frame controls.", "anchors": ["blend2d/codec/pngcodec.cpp:1299", "blend2d/codec/pngcodec.cpp:1506", "blend2d/codec/pngcodec.cpp:1528"]}
{"id": "C42", "title": "DEFLATE Huffman tables decode every code as RFC 1951 defines it", "statement": "For any code lengths a block header can carry, the decoder accepts exactly the codes the format allows (complete; for literals and offsets also a single one-bit code; for offsets also no code), and after acceptance looking up any bit stream yields the symbol whose canonical code the stream starts with: the literal byte, end of block, length base and extra bits, offset base and extra bits, or code-length symbol with its repeat; reserved symbols and unused codes are reported as invalid.", "quantifier": "all vectors of at most 288 / 32 / 19 code lengths, all bit streams", "why_tests_cant": "The number of code length vectors is about 16^288; sub-tables, doubling of the table and the codes of 12..15 bits only meet in rare headers that compressors hardly ever emit.", "anchors": ["blend2d/compression/deflatedecoder.cpp:182-501", "blend2d/compression/deflatedecoderutils_p.h:30-90"]}
{"id": "C43", "title": "DEFLATE table construction never leaves its fixed-size tables", "statement": "Building the literal, offset and code-length tables from attacker controlled code lengths never reads or writes outside of the 2342, 594 and 128 entries reserved for them, and always terminates, whether or not the code is valid.", "quantifier": "all vectors of code lengths a header can carry, all previous table contents", "why_tests_cant": "The table sizes are worst-case bounds over all complete codes (the \"enough\" numbers); a test can only try a vanishing part of them, and an overflow corrupts the neighbouring member silently.", "anchors": ["blend2d/compression/deflatedecoder.cpp:182-501", "blend2d/compression/deflatedefs_p.h", "blend2d/compression/deflatedecoder_p.h:270-291"]}
{"id": "C44", "title": "The DEFLATE decoder produces exactly the bytes RFC 1951 assigns to its input", "statement": "Feeding the bytes of a raw or zlib stream to Decoder::decode, in calls of any size, ends in success with exactly the output RFC 1950/1951 define for the stream, or in DATA_TRUNCATED / DECOMPRESSION_FAILED when the bytes do not start with a valid stream; OUT_OF_MEMORY is only reported when the output array cannot grow (or must not and is too small).", "quantifier": "all byte strings, all ways to split them, all initial output arrays and table contents", "why_tests_cant": "The state machine, bit buffer, tables and three decoding loops interact bit by bit; the set of streams is infinite and compressors emit only a thin slice of what the format allows.", "anchors": ["blend2d/compression/deflatedecoder.cpp:557-1609", "blend2d/compression/deflatedecoderfastimpl_p.h:26-300", "blend2d/compression/deflatedecoderutils_p.h:91-213"]}
{"id": "C45", "title": "Splitting compressed data into several decode calls does not change the result", "statement": "If a stream decodes successfully when passed in one way, it decodes to the same bytes when the same bytes are cut into calls in any other way (as PNG files do with their IDAT chunks).", "quantifier": "all streams, all pairs of ways to cut them, all output capacities", "why_tests_cant": "Every position inside every header, code and match can be a cut; the state kept across calls differs for each.", "anchors": ["blend2d/compression/deflatedecoder.cpp:590-1609", "blend2d/codec/pngcodec.cpp:1399-1452"]}
{"id": "C46", "title": "The DEFLATE decoder only appends to its output", "statement": "Whatever the input, decode never changes the bytes the output array already held nor shrinks it, and with the never-reallocate option the array keeps its capacity.", "quantifier": "all inputs, valid or not, all decoder states, all call sizes, all table contents", "why_tests_cant": "Wide overlapping stores and look-back copies are positioned by attacker controlled distances.", "anchors": ["blend2d/compression/deflatedecoder.cpp:1019-1490", "blend2d/compression/deflatedecoderfast_p.h:1-140"]}
{"id": "C47", "title": "Decoding DEFLATE data never leaves its memory", "statement": "For every input, decode neither reads nor writes outside of the input, the tables and the capacity of the output array, and does not use indeterminate values.", "quantifier": "all inputs, all capacities, all call sizes", "why_tests_cant": "Untrusted input: a fuzzer samples a vanishing part of an infinite set, and overruns by a few bytes do not crash.", "anchors": ["blend2d/compression/deflatedecoder.cpp:557-1609", "blend2d/compression/deflatedecoderfastimpl_p.h:26-300", "blend2d/compression/deflatedecoderfast_p.h:1-140"]}
{"id": "C48", "title": "Calls after the end of a DEFLATE stream", "statement": "After a stream was found invalid, every further call fails and leaves the output alone; after a stream ended, every further call returns and leaves the output alone.", "quantifier": "all streams, all later inputs", "why_tests_cant": "Non-termination cannot be observed by a test; the later inputs are arbitrary.", "anchors": ["blend2d/compression/deflatedecoder.cpp:617-621", "blend2d/compression/deflatedecoder.cpp:1495-1560"]}
{"id": "C49", "title": "RLE-compressed BMP files decode to the picture they describe", "statement": "For a BMP file with RLE4 or RLE8 compression, read_frame gives the picture that the stream describes: encoded and absolute runs in the palette colors, skipped pixels in the background, pixels beyond the right edge dropped, rows bottom-up for a positive height; a stream that ends early or moves outside of the picture gives DATA_TRUNCATED or DECOMPRESSION_FAILED.", "quantifier": "all byte streams, all image sizes, all palettes, both depths", "why_tests_cant": "The stream is a program that moves a pen; the set of streams is infinite and edge effects need runs that meet the right edge or the last row.", "anchors": ["blend2d/codec/bmpcodec.cpp:117-229", "blend2d/codec/bmpcodec.cpp:234-326", "blend2d/codec/bmpcodec.cpp:534-634"]}
{"id": "C50", "title": "Decoding RLE-compressed BMP files stays inside of the image", "statement": "Whatever the stream, RLE decoding reads only the stream and the palette and writes only pixels of the image, not the padding of its rows nor memory before or after it.", "quantifier": "all byte streams, all image sizes and strides, both row orders", "why_tests_cant": "Untrusted input; a write just before the image is not noticed by a test.", "anchors": ["blend2d/codec/bmpcodec.cpp:117-229", "blend2d/codec/bmpcodec.cpp:234-326", "blend2d/codec/bmpcodec.cpp:599-608"]}
{"id": "C51", "title": "BMP headers are read exactly", "statement": "read_info reads only the given buffer, returns the fields of the header of an acceptable file (all documented header sizes, depths, compressions and channel masks) and one of five errors otherwise; everything that it accepts is a file of the documented format within the size limits.", "quantifier": "all byte strings", "why_tests_cant": "Every combination of header size, depth, compression, mask, offset and size matters, with 32-bit overflow at the corners.", "anchors": ["blend2d/codec/bmpcodec.cpp:64-112", "blend2d/codec/bmpcodec.cpp:331-532", "blend2d/codec/bmpcodec_p.h:24-52"]}
{"id": "C52", "title": "Uncompressed BMP files decode to the stored pixels, through any sequence of decoder calls", "statement": "Every pixel of the decoded image is the stored pixel of its row (bottom-up or top-down) and column, converted with the channel layout and the palette of the file; for any sequence of read_info and read_frame calls with any buffers nothing is accessed outside of buffer and image, an error stays, and after the frame there is NO_MORE_DATA.", "quantifier": "all files, all later buffers, all call sequences, all pixel converters", "why_tests_cant": "The buffer of a later call may be shorter than or different from that of the first; sequences are unbounded.", "anchors": ["blend2d/codec/bmpcodec.cpp:534-634", "blend2d/codec/bmpcodec.cpp:639-681"]}
{"id": "C53", "title": "Writing a BMP file and reading it back gives the same picture", "statement": "For every image that can exist, in every pixel format, the encoder writes a well-formed BMP of the announced length inside of its output array, and the decoder reads back the same size and the same color in every pixel (XRGB32 with the unused byte 0xFF, A8 as gray).", "quantifier": "all image sizes up to the limits, all strides, all pixel values, the three formats", "why_tests_cant": "Row padding, 32-bit size arithmetic and row order interact; sizes up to 65535 x 65535 cannot be enumerated.", "anchors": ["blend2d/codec/bmpcodec.cpp:710-854", "blend2d/codec/bmpcodec.cpp:331-532", "blend2d/codec/bmpcodec.cpp:534-634"]}
{"id": "C54", "title": "Reading the character map of a font never leaves the table", "statement": "For the bytes of any cmap table, creating a face, mapping any text and collecting the character coverage read only inside of the table.", "quantifier": "all cmap tables (valid or malformed), all texts of 32-bit code points", "why_tests_cant": "A malicious font can combine any counts, offsets and lengths; a read just after the table rarely crashes a test.", "anchors": ["blend2d/opentype/otcmap.cpp:330-551", "blend2d/opentype/otcmap.cpp:740-839", "blend2d/opentype/otcmap.cpp:556-707"]}
{"id": "C55", "title": "Text maps to the glyphs that the OpenType specification assigns", "statement": "map_text_to_glyphs replaces every character by the glyph that the OpenType specification of formats 0, 4, 6, 10, 12 and 13 gives for it in the selected sub-table, independent of its neighbours; the mapping state counts glyphs and undefined characters and gives the index of the first undefined one.", "quantifier": "all accepted tables, all texts of any length", "why_tests_cant": "The lookup is a binary search without ordering of single cases and keeps the previous segment as a cache; sequences are unbounded.", "anchors": ["blend2d/opentype/otcmap.cpp:64-168", "blend2d/opentype/otcmap.cpp:173-239", "blend2d/opentype/otcmap.cpp:244-325"]}
{"id": "C56", "title": "Well-formed character maps are accepted", "statement": "Every sub-table that satisfies the OpenType specification of formats 0, 4, 6, 10, 12 or 13 passes validation with all of its entries.", "quantifier": "all well-formed sub-tables at any offset of any table", "why_tests_cant": "Test fonts use a handful of formats and sizes; the boundary lengths and the last code points are rarely hit.", "anchors": ["blend2d/opentype/otcmap.cpp:330-551", "blend2d/opentype/otcmap_p.h:46-150"]}
{"id": "C57", "title": "The best character map of a font is selected", "statement": "The face uses a sub-table of a usable encoding record such that no usable record is preferred to it (Windows Unicode before other Unicode, full repertoire before BMP, then symbol, then Mac Roman); the first of equals; no mapping exactly when no record is usable.", "quantifier": "all tables with any number of encoding records, valid or not", "why_tests_cant": "The number, order and validity of records is unbounded; a bad later record must not disturb an earlier match.", "anchors": ["blend2d/opentype/otcmap.cpp:713-839"]}
{"id": "C58", "title": "Character coverage agrees with the mapping", "statement": "The set reported by get_character_coverage holds exactly the characters that map to a glyph.", "quantifier": "all accepted tables, all code points", "why_tests_cant": "Merging of adjacent segments, empty ranges and all 2^21 code points for unbounded tables.", "anchors": ["blend2d/opentype/otcmap.cpp:556-707"]}
{"id": "C59", "title": "Ids are never handed out twice", "statement": "Two calls of generate_id for the same domain never return the same id, and no id is 0, however the calls of different threads interleave; with and without 64-bit atomics, with and without thread-local caches.", "quantifier": "all numbers of threads, all interleavings of their atomic accesses, all mixtures of domains, as long as the 64-bit id space is not used up", "why_tests_cant": "Lost or repeated ids need a particular interleaving at a particular counter value.", "anchors": ["blend2d/threading/uniqueidgenerator.cpp:1-98", "blend2d/threading/uniqueidgenerator_p.h:14-30"]}
{"id": "C60", "title": "Simplifying a composition operator never changes what is rendered", "statement": "For every composition operator, every destination format that an image can have and every source format, the operator, formats and solid color that the simplification table gives produce the same destination pixels (in the components the format stores) as the requested operator, with every mask value.", "quantifier": "all 30 operators, destination formats PRGB32, XRGB32, A8, all source formats, all pixel values representable in the formats (also the undefined alpha byte of XRGB32), all masks in [0, 1]; exact arithmetic", "why_tests_cant": "each entry is an algebraic identity over pixel values; a test compares some pixels of some operators, and the entries chain through each other", "anchors": ["blend2d/core/compopsimplifyimpl_p.h:60-1136", "blend2d/core/compopinfo.cpp:57-130", "blend2d/raster/rastercontext.cpp (resolve of render calls)"]}
{"id": "C61", "title": "The flags of a composition operator are true of the operator", "statement": "Operators flagged type A give the same result when the source is scaled by the mask as when the result is interpolated by the mask; type B operators when the rest of the destination is added; components not flagged as used have no influence; and where a no-operation flag applies the destination is unchanged.", "quantifier": "all operators, all premultiplied source and destination pixels, all masks in [0, 1]; exact arithmetic", "why_tests_cant": "pipelines are generated from these flags, a wrong flag only shows with partial masks or particular pixels", "anchors": ["blend2d/core/compop_p.h:57-96", "blend2d/core/compopinfo.cpp:13-55", "blend2d/pipeline/jit/compoppart.cpp:226"]}
{"id": "C62", "title": "Reference pipelines compute every pixel component exactly", "statement": "The portable (non-JIT) pixel arithmetic behind SrcCopy, SrcOver and Plus, with and without mask, returns in every component of the destination pixel the exact value: products divided by 255 and rounded to nearest, Plus saturated at 255. Components packed into one 64-bit or two 32-bit words never disturb each other, so 64-bit and 32-bit targets draw identical pixels. The same holds for A8 pixels.", "quantifier": "all destination pixels, all source pixels (premultiplied for SrcOver), all masks 0..255, both word sizes", "why_tests_cant": "2^72 combinations of two pixels and a mask; a carry into the neighbouring component needs particular pairs", "anchors": ["blend2d/pipeline/reference/pixelgeneric_p.h:34-540", "blend2d/pipeline/reference/compopgeneric_p.h:25-81"]}
{"id": "C63", "title": "Composition keeps pixels premultiplied and respects the ends of the mask", "statement": "Compositing premultiplied pixels by SrcCopy, SrcOver or Plus under any mask gives a premultiplied pixel. Mask 0 leaves the destination as it is, mask 255 is the same as no mask; an opaque source replaces the destination under SrcOver and a transparent one does not change it.", "quantifier": "all premultiplied destination and source pixels, all masks 0..255", "why_tests_cant": "the number of pairs of pixels; rounding errors could make a color component exceed alpha for a few of them only", "anchors": ["blend2d/pipeline/reference/pixelgeneric_p.h:34-540", "blend2d/pipeline/reference/compopgeneric_p.h:25-81"]}
{"id": "C64", "title": "Fillers compose every pixel once with the mask given to it and write nothing else", "statement": "Filling a box composes each pixel of the box exactly once, with the source pixel of its position and the constant mask; filling by mask commands composes each pixel with the mask (constant or bytes, scaled by the global alpha where requested) that the span and row covering it prescribe, mask pointers advance by their stride from row to row, groups repeat as often as stated; filling through a mask image takes the mask row by row. All other memory is unchanged and no byte outside of the image or the mask is accessed.", "quantifier": "all images with positive or negative stride, all boxes, all lists of mask commands with ordered spans, all masks, any operator whose opaque variant agrees with mask 255", "why_tests_cant": "layouts of spans, repetitions and strides are unbounded; the code moves several pointers incrementally and a single wrong step shows only with particular combinations", "anchors": ["blend2d/pipeline/reference/fillgeneric_p.h:22-160", "blend2d/pipeline/reference/compopgeneric_p.h:83-186", "blend2d/pipeline/pipedefs_p.h:98-106,419-505", "blend2d/raster/rendercommandprocsync_p.h:66-86"]}
{"id": "C65", "title": "Boxes with fractional coordinates are drawn with the exact coverage of every pixel", "statement": "Filling a box given in 24.8 fixed point composes every pixel of the image with the mask floor(area * alpha), area being the exact part of the pixel inside of the box; pixels outside are unchanged, and when nothing is to be drawn no pixel would have had a mask. Masks never exceed alpha and pixels completely inside get exactly alpha.", "quantifier": "all boxes with 0 <= x0 < x1, 0 <= y0 < y1 inside of an image up to 2^23 pixels wide, all alphas, any operator for which mask 0 changes nothing (all of the reference pipelines)", "why_tests_cant": "nine kinds of rows and columns, four layouts of commands depending on the width and alignment, and 2^32 fractional positions", "anchors": ["blend2d/pipeline/pipedefs_p.h:520-546", "blend2d/pipeline/pipedefs_p.h:637-813", "blend2d/pipeline/reference/fillgeneric_p.h:66-160"]}
{"id": "C66", "title": "Filling a rasterized path applies to every pixel the mask of its accumulated coverage and leaves the accumulation buffers zero", "statement": "The reference analytic filler, given rows of cells and bit words in the sizes the render command processor allocates for the destination width, composes every pixel left of the end of the fill box exactly once, with the source pixel of its position and the mask of the sum of all cells up to it; it touches no other memory, does not leave the buffers, and afterwards all its bit words and cells are zero, so that the next fill starts from clean buffers.", "quantifier": "all destination widths, numbers of rows, cell values whose running sums stay within 2^30 and end with zero, all bit patterns that mark the cells, both fill rules, all alphas, all operators for which mask 0 is the identity", "why_tests_cant": "Pixels are found by scanning bits across word boundaries with jumps between several loops; a missed cell, a stale bit word or an off by one at a word boundary shows only for particular run lengths at particular positions, and a cell left non-zero damages a later, unrelated fill.", "anchors": ["blend2d/pipeline/reference/fillgeneric_p.h:164-388", "blend2d/raster/rendercommandprocsync_p.h:101-107", "blend2d/support/bitops_p.h:134-183"]}
{"id": "C67", "title": "Fill rules turn accumulated coverage into masks", "statement": "Whole windings give alpha exactly when the winding number is non-zero (non-zero rule) or odd (even-odd rule), otherwise 0; masks never leave 0..alpha; up to one winding both rules give the same mask, proportional to the cover; even-odd masks have period two windings; reversing the direction of a path keeps the masks of covers that are multiples of 1/256.", "quantifier": "all covers, winding numbers and alphas", "why_tests_cant": "The rule is one masked subtraction in unsigned arithmetic; a wrong shift or mask shows only for high winding numbers or negative covers.", "anchors": ["blend2d/pipeline/reference/fillgeneric_p.h:381-387", "blend2d/pipeline/pipedefs_p.h:823-832"]}
{"id": "C68", "title": "Tag lookup finds exactly the registered OpenType tags", "statement": "For each of the six tag tables (tables, scripts, languages, features, baselines, variations) the hashed lookup of a tag returns the index of the tag in the table when the table contains it, and the no-id value otherwise; it never reads outside of a table. The tables are strictly increasing, so ids are ordered like tags and no two tags share an id.", "quantifier": "all integers as tags, in particular all 2^32 tags, all six tables", "why_tests_cant": "The lookup is a generated perfect hash; a test of the registered tags says nothing about the 2^32 others, which must not collide.", "anchors": ["blend2d/core/fonttagdataids.cpp", "blend2d/core/fonttagdataids_p.h:1256-1467"]}
{"id": "C69", "title": "Tags are valid iff they consist of four printable ASCII characters", "statement": "is_valid_tag accepts a tag iff all four of its characters are in 0x20..0x7E, and tag_to_ascii gives its four characters with every other character replaced by '?'.", "quantifier": "all 32-bit tags", "why_tests_cant": "The check is one bit trick on the packed word where carries between the bytes could hide an invalid character; 2^32 tags.", "anchors": ["blend2d/core/fonttagdata_p.h:20-60"]}
{"id": "C70", "title": "Font feature settings behave as a map from tags to values", "statement": "After any sequence of set_value, remove_value and shrink, get_value returns the value last set for the tag that was not removed since, or the not-set value; a failed call changes nothing, sharers of the object are not changed, and a feature is enabled iff its value is non-zero or, when not set, it is in the documented default set.", "quantifier": "all call sequences, tags, values, allocation failures", "why_tests_cant": "Settings are packed in 16 bytes of bit fields and converted to a dynamic array when they do not fit; which path is taken depends on the whole history.", "anchors": ["blend2d/core/fontfeaturesettings.cpp", "blend2d/core/fontfeaturesettings_p.h", "blend2d/core/fontfeaturesettings.h:287-330"]}
{"id": "C71", "title": "Removing a font feature does not affect any other feature", "statement": "remove_value(t) makes t not set and keeps the value of every other tag; it only fails when memory cannot be allocated, and then changes nothing.", "quantifier": "all reachable settings, all tags", "why_tests_cant": "Removal closes the gap in two packed arrays with fields of different width; the wrong mask only matters for certain neighbours.", "anchors": ["blend2d/core/fontfeaturesettings.cpp"]}
{"id": "C72", "title": "has_value tells whether a font feature is set", "statement": "has_value(t) is true iff a value of t was set and not removed since.", "quantifier": "all reachable settings, all tags", "why_tests_cant": "has_value has its own search code per storage form; a test of a boolean feature does not cover multi-valued features.", "anchors": ["blend2d/core/fontfeaturesettings.cpp"]}
{"id": "C73", "title": "The view, the size and the equality of font feature settings depend on the settings only", "statement": "get_view lists exactly the settings in increasing order of tags and size is their number; equals is true iff both objects have the same settings whichever way they are stored; shrink changes none of them.", "quantifier": "all pairs of reachable settings, all storage forms", "why_tests_cant": "Equality has a case for every pair of storage forms and each of them can be reached through different histories.", "anchors": ["blend2d/core/fontfeaturesettings.cpp", "blend2d/core/fontfeaturesettings_p.h"]}
{"id": "C74", "title": "Boolean font features accept only 0 and 1", "statement": "set_value of a value above 1 for a feature that is a boolean returns BL_ERROR_INVALID_VALUE and changes nothing, as documented.", "quantifier": "all reachable settings, all boolean tags, all 32-bit values", "why_tests_cant": "Depends on the storage form of the object, which depends on its history.", "anchors": ["blend2d/core/fontfeaturesettings.cpp", "blend2d/core/fontfeaturesettings.h:287-330"]}
{"id": "C75", "title": "Gradient stops are always sorted, in range and at most two per offset", "statement": "After any sequence of calls on a BLGradient the stops are sorted by offset, every offset is a number in [0, 1], there are never three stops at the same offset, and the number of stops does not exceed the capacity.", "quantifier": "all sequences of create, reserve, shrink, set_*, reset/assign/add/remove/replace stop calls with all arguments, any sharing between calls, any allocation failures", "why_tests_cant": "The invariant ranges over all call sequences, all doubles including NaN, -0 and infinities, and all sharing states.", "anchors": ["blend2d/core/gradient.cpp:58-174", "blend2d/core/gradient.cpp:480-938", "blend2d/core/gradient.h:675-676"]}
{"id": "C76", "title": "add_stop inserts after equal offsets or replaces the second stop of a pair; index_of_stop finds the first", "statement": "add_stop with an offset in [0, 1] puts the stop behind all stops that are not greater; when two stops with this offset exist already it changes the color of the second. Other offsets (and NaN) are rejected and change nothing. index_of_stop returns the index of the first stop at the offset, SIZE_MAX when there is none.", "quantifier": "all reachable gradients, all offsets and colors", "why_tests_cant": "Binary search and pair handling must be right for every arrangement of stops.", "anchors": ["blend2d/core/gradient.cpp:751-805", "blend2d/core/gradient.cpp:940-959"]}
{"id": "C77", "title": "assign_stops keeps a conforming array, otherwise sorts it and keeps the first and last stop of equal offsets", "statement": "assign_stops of a sorted array with at most two stops per offset stores exactly this array. Any other array of valid offsets is sorted stably and for every offset with more than two stops the first and the last are kept.", "quantifier": "all reachable gradients, all arrays", "why_tests_cant": "Sorting and removing duplicates for every array.", "anchors": ["blend2d/core/gradient.cpp:58-174", "blend2d/core/gradient.cpp:713-742"]}
{"id": "C78", "title": "Removals remove exactly the requested stops", "statement": "remove_stop, remove_stops, remove_stop_by_offset and remove_stops_by_offset remove exactly the stops with the index, in the index range, at the offset (or the first of them), or in the closed interval of offsets, and keep all others in order.", "quantifier": "all reachable gradients, all ranges and offsets", "why_tests_cant": "Depends on whether a copy of the object exists and on the arrangement of stops.", "anchors": ["blend2d/core/gradient.cpp:807-909"]}
{"id": "C79", "title": "replace_stop equals remove_stop followed by add_stop", "statement": "replace_stop(index, offset, color) has the same result as remove_stop(index) followed by add_stop(offset, color), as documented; a call that fails changes nothing.", "quantifier": "all reachable gradients, all indexes, offsets and colors", "why_tests_cant": "Compares two ways through the code for every arrangement of stops.", "anchors": ["blend2d/core/gradient.cpp:911-938", "blend2d/core/gradient.h:685-695"]}
{"id": "C80", "title": "equals is equality of the contents", "statement": "equals returns true exactly when both gradients have the same type, extend mode, transform, values and stops.", "quantifier": "all pairs of gradients", "why_tests_cant": "Ranges over all pairs of objects with any history.", "anchors": ["blend2d/core/gradient.cpp:1001-1019", "blend2d/core/gradient.h:703-708"]}
{"id": "C81", "title": "A gradient is solid or opaque exactly when its colors are", "statement": "A gradient with stops is treated as solid exactly when all colors agree in their 8-bit components or all of them are fully transparent, and as opaque exactly when every 8-bit alpha is 255.", "quantifier": "all stop arrays, all 64-bit colors", "why_tests_cant": "The decision depends on all stops.", "anchors": ["blend2d/core/gradient.cpp:202-287"]}
{"id": "C82", "title": "Cached color tables belong to the current stops; objects sharing the data are not changed", "statement": "At any time the cached lookup tables and the cached info were computed from the current stops. A call on an object whose data are shared never changes what the other objects see.", "quantifier": "all call sequences, all sharing states, all allocation failures", "why_tests_cant": "Every modifying call must invalidate or copy; needs all sequences.", "anchors": ["blend2d/core/gradient.cpp:183-200", "blend2d/core/gradient.cpp:366-395", "blend2d/core/gradient.cpp:533-938"]}
{"id": "C83", "title": "No call on a gradient accesses memory outside its arrays; reserve provides the capacity", "statement": "Every call on a gradient returns without accessing memory outside of its arrays, and a successful reserve(n) provides room for n stops.", "quantifier": "all reachable gradients, all calls, all size_t arguments", "why_tests_cant": "Needs all sizes and sharing states.", "anchors": ["blend2d/core/gradient.cpp:342-395", "blend2d/core/gradient.cpp:533-578", "blend2d/core/gradient_p.h:154-160"]}
{"id": "C84", "title": "Calls on the stops leave type, extend mode, transform and values unchanged", "statement": "Calls that work on the stops or the capacity keep the type, extend mode, transform and all six values of the gradient.", "quantifier": "all reachable gradients, all calls, all sharing states", "why_tests_cant": "A copy of shared data happens inside the call.", "anchors": ["blend2d/core/gradient.cpp:35-44", "blend2d/core/gradient.cpp:108-118", "blend2d/core/gradient.cpp:366-395"]}
{"id": "C85", "title": "Format descriptions are accepted exactly when they make sense", "statement": "BLFormatInfo::sanitize() succeeds exactly for descriptions that describe a pixel: the depth is 1, 2, 4, 8, 16, 24 or 32; an indexed format has at most 8 bits and a palette; any other one names RGB or LUM or alpha (not RGB and LUM), every named component has 1 to 16 bits inside of the pixel, every other component has no bits and no shift, alpha shares no bit with another component, the colour components share no bit with each other, and those of LUM are the same. All other descriptions give BL_ERROR_INVALID_VALUE and no undefined behaviour.", "quantifier": "for all contents of a BLFormatInfo: any depth, flags, sizes and shifts", "why_tests_cant": "The struct has 2^128 contents; the check combines flags, masks and several early exits.", "anchors": ["blend2d/core/format.cpp:41-55", "blend2d/core/format.cpp:70-185", "blend2d/core/format.h:49-84"]}
{"id": "C86", "title": "A sanitized format description is valid and its flags are true", "statement": "After a successful sanitize() the description is valid again, with the depth, component sizes and component flags it had. PREMULTIPLIED remains only with alpha (or a palette). BYTE_SWAP remains only if the pixel has several bytes and a component crosses a byte boundary. BYTE_ALIGNED is set exactly if all components are whole bytes (or the format is indexed), UNDEFINED_BITS exactly if some bit of the pixel belongs to no component, and no other flag is set.", "quantifier": "for all contents of a BLFormatInfo that are accepted", "why_tests_cant": "The informative flags of the input may be arbitrary, and the shifts may be rewritten by the byte swap; tests look at a few formats.", "anchors": ["blend2d/core/format.cpp:86-214", "blend2d/core/format.h:66-76"]}
{"id": "C87", "title": "Sanitizing a format description does not change how pixels are read", "statement": "The description after sanitize() gives every pixel in memory the same component values as the description before, also when the byte swap is resolved by moving the components.", "quantifier": "for all accepted descriptions and all pixel bytes", "why_tests_cant": "A wrong shift shows up only for formats with components smaller than a byte in the other byte order, and only by decoding pixels.", "anchors": ["blend2d/core/format.cpp:187-204", "blend2d/core/format.h:63-64"]}
{"id": "C88", "title": "Sanitize is idempotent and keeps the built-in formats", "statement": "Sanitizing a sanitized description succeeds and changes nothing. query() succeeds exactly for PRGB32, XRGB32 and A8, and the description it returns is one that sanitize() leaves unchanged; otherwise the struct is reset and BL_ERROR_INVALID_VALUE is returned.", "quantifier": "for all contents of a BLFormatInfo that are accepted, and all format numbers", "why_tests_cant": "Idempotence relates two runs for every input; the moved components must pass all checks again.", "anchors": ["blend2d/core/format.cpp:13-30", "blend2d/core/format.cpp:57-65", "blend2d/core/format.cpp:86-214"]}
{"id": "C89", "title": "The color table of a gradient is completely written and every entry shows the stops", "statement": "For every non-empty list of stops with sorted positions inside of the table, the interpolation writes every entry of the table and no memory outside of it. Entry 0 is the premultiplied color of the first stop; every other entry is the premultiplied pixel of a color whose components each lie between those of the two neighboring stops and differ from the exact linear interpolation by at most 1/2 plus m/2^K, where m is the distance to the left stop in entries and K is 23 (32-bit table) or 15 (64-bit table).", "quantifier": "all stop lists, all colors, all sorted positions, all table sizes up to 2^22 (32-bit) and 2^14 (64-bit), any previous content", "why_tests_cant": "The loops add 32-bit steps in wrapping fixed point and share loop counters between spans; an error of one entry at a span boundary or accumulated drift appears only for particular positions, colors and span lengths.", "anchors": ["blend2d/pixelops/interpolation.cpp:interpolate_prgb32", "blend2d/pixelops/interpolation.cpp:interpolate_prgb64"]}
{"id": "C90", "title": "Gradient stops show their own color exactly", "statement": "In the color table the entry of a stop shows exactly the premultiplied color of that stop (the last one if several stops fall into the same entry). Entries before the first stop show exactly the color of the first stop, entries behind the last stop exactly the color of the last one.", "quantifier": "all stop lists with sorted positions, all colors, all table sizes in range", "why_tests_cant": "Drift of the fixed point steps and overwritten span ends depend on the combination of lengths and colors; tests look at a few gradients.", "anchors": ["blend2d/pixelops/interpolation.cpp:interpolate_prgb32", "blend2d/pixelops/interpolation.cpp:interpolate_prgb64"]}
{"id": "C91", "title": "Color tables of gradients contain valid premultiplied pixels; opaque stops give opaque tables", "statement": "Every entry of the color table is a valid premultiplied pixel: no component exceeds alpha. No entry is more transparent than the most transparent stop; in particular a gradient of opaque stops has only opaque entries, in the 32-bit and the 64-bit table.", "quantifier": "all stop lists with sorted positions, all colors, all table sizes in range", "why_tests_cant": "The renderer switches to operators without blending when a gradient is flagged opaque, so one entry with alpha 254 would be drawn wrongly; it would appear only for particular rounding of the alpha steps.", "anchors": ["blend2d/pixelops/interpolation.cpp:interpolate_prgb32", "blend2d/pixelops/interpolation.cpp:interpolate_prgb64"]}
{"id": "C92", "title": "Bucket indexes computed by reciprocal multiplication are exact", "statement": "For every row of the prime table (prime, reciprocal, shift) and every 32-bit hash code, _calc_mod computes exactly hash mod prime, on 64-bit and on 32-bit targets; the index is always smaller than the number of buckets.", "quantifier": "all 129 rows, all 2^32 hash codes, both word sizes", "why_tests_cant": "129 * 2^32 combinations; a reciprocal that is wrong in its last bit fails only for a few hash codes near the top of the range, and then reads or writes outside of the bucket array. Two of the rows are exact only because hash codes end at 2^32.", "anchors": ["blend2d/support/arenahashmap_p.h:_calc_mod", "blend2d/support/arenahashmap.cpp:bl_prime_number_table"]}
{"id": "C93", "title": "The hash map of the font manager behaves as a set of nodes", "statement": "After any sequence of insert, remove, get and reset calls, with or without memory for larger tables, the map contains exactly the nodes inserted and not removed since: remove returns true exactly if the node is there, get returns a matching node if there is one and null otherwise, for_each visits every node once and size() counts them. No call reads or writes outside of the bucket array.", "quantifier": "all sequences of calls, all hash codes, all allocation failures, all key predicates consistent with hash codes", "why_tests_cant": "Tests insert nodes in a few orders; loss of nodes during rehashing or after a failed allocation depends on the collisions and on the table size.", "anchors": ["blend2d/support/arenahashmap.cpp:_rehash", "blend2d/support/arenahashmap.cpp:_insert", "blend2d/support/arenahashmap.cpp:_remove", "blend2d/support/arenahashmap_p.h:get"]}
{"id": "C94", "title": "A lookup does not depend on nodes that do not match", "statement": "Inserting a node that does not match a key does not change the node that get() returns for this key.", "quantifier": "all sequences of calls, all keys", "why_tests_cant": "The order of a chain matters only when duplicates collide and the table grows between two lookups.", "anchors": ["blend2d/support/arenahashmap.cpp:_rehash", "blend2d/support/arenahashmap.cpp:_insert", "blend2d/support/arenahashmap.cpp:_remove", "blend2d/support/arenahashmap_p.h:get"]}
{"id": "C95", "title": "The hash map grows when 13/14 of its buckets are used, and not before", "statement": "As long as memory is available, the number of nodes never exceeds 13/14 of the number of buckets, and an insertion enlarges the table only if it would.", "quantifier": "all sequences of calls", "why_tests_cant": "The threshold is computed in 32 bits and overflows only for tables of more than 330 million buckets, which no test builds.", "anchors": ["blend2d/support/arenahashmap.cpp:_rehash", "blend2d/support/arenahashmap.cpp:_insert"]}
{"id": "C96", "title": "JPEG Huffman tables are accepted exactly if the code exists", "statement": "A DHT segment is accepted exactly if it has sixteen counts, at most 256 symbols, one byte for each symbol, and if canonical codes of these lengths exist (Kraft inequality); any other segment is refused with BL_ERROR_INVALID_DATA. Building the tables never leaves their bounds, and exactly the bytes of the table are consumed.", "quantifier": "all byte sequences", "why_tests_cant": "2^128 combinations of counts; over-subscribed codes are refused by a check inside a loop whose effect on earlier lengths is not visible, and the accelerator table of 256 entries is written from the codes without a bounds check.", "anchors": ["blend2d/codec/jpeghuffman.cpp:build_huffman_table"]}
{"id": "C97", "title": "Reading a JPEG Huffman code returns the symbol whose code starts the stream", "statement": "For every accepted table and every content of the bit reader, at most one symbol has a code that the bits start with. read_code returns this symbol and the length of its code if the reader holds that many bits; it fails with BL_ERROR_DECOMPRESSION_FAILED if the bits are missing or no code matches. The accelerator table, whose entry 255 means \"none\", never hides the symbol with index 255.", "quantifier": "all tables, all 2^64 contents of the reader, all numbers of valid bits", "why_tests_cant": "The accelerator and the search over lengths must agree for all tables; index 255 collides with the marker of empty entries unless symbol 255 always has more than eight bits.", "anchors": ["blend2d/codec/jpeghuffman.cpp:build_huffman_table", "blend2d/codec/jpeghuffman_p.h:read_code"]}
{"id": "C98", "title": "The fast path for JPEG AC coefficients agrees with the two reads it replaces", "statement": "For every accepted table and content of the reader, the entry of the fast AC table gives the same run, value and number of consumed bits as reading the code and then the signed magnitude; if the stream ends before the last of these bits, both fail.", "quantifier": "all tables, all contents of the reader, all numbers of valid bits", "why_tests_cant": "The fast entries are precomputed from every combination of code, run and magnitude; the difference appears only if a stream ends inside a coefficient.", "anchors": ["blend2d/codec/jpeghuffman.cpp:build_huffman_ac", "blend2d/codec/jpegcodec.cpp:decoder_read_baseline_block"]}
{"id": "C99", "title": "The JPEG bit reader delivers the bits of the segment in order", "statement": "For every segment and every sequence of refills and reads, the values read are consecutive bits of the entropy-coded data, beginning with the first bit, where 0xFF 0x00 stands for the byte 0xFF and any other 0xFF ends the data. The reader never reads outside of the segment. After a refill, a read of up to 32 bits fails exactly if the segment has fewer bits left.", "quantifier": "all segments, all sequences of refills and reads", "why_tests_cant": "The result depends on how stuffed bytes and markers fall on the boundaries of the 64-bit word, hence on the history of reads; a test covers a few alignments.", "anchors": ["blend2d/codec/jpeghuffman_p.h:DecoderBitReader::refill", "blend2d/codec/jpeghuffman_p.h:DecoderBitReader::drop", "blend2d/codec/jpeghuffman_p.h:DecoderBitReader::read_unsigned"]}
