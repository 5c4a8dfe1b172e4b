# Formal model of blend2d: design and trusted base

Source: `/repo` (blend2d at the pinned commit), read as text; nothing was built or executed.
All theorems are about the Gallina model in `rocq/theories`, one group of files per area:

* `<Area>_Model.v`  - executable model, function by function; each definition cites file and lines in `/repo`.
* `<Area>_Spec.v`   - small independent specification (what a user expects), without the model's helpers.
* `<Area>_Client.v` - client programs over the API (sequences of calls over many handles), where the property speaks of histories.
* `<Area>_Proofs*.v` - lemmas.
* `<Area>_Props.v`  - the property theorems with `Print Assumptions` and `Cnn_ex*` examples that meet the hypotheses.

## Conventions

* Machine integers are `Z` with explicit wrap (`mod 2^w`) wherever the code can wrap.
* Undefined behaviour (out-of-bounds access, oversized shift, use of uninitialised memory, use after free, overlapping memcpy) is a
  separate outcome (`UB`) of the model. A theorem that gives `Ok` therefore also claims its absence.
* Loops are structural recursion or fuel; out of fuel (`NoFuel`) is a separate outcome excluded by the theorems.
* Allocation failure is a parameter (`m : bool`) of every call that allocates; theorems quantify over it.
* If the property as stated is false of the code, the full statement stays in `properties.jsonl`, `*_refuted` theorems give
  witnesses (inputs a user may legally pass) and a `*_partial` theorem gives the part that holds; what the partial theorem excludes is
  named in its hypotheses (`*_safe`) and below.

## Trusted base

* Coq 8.16.1 kernel, including its `vm_compute` (used for finite sweeps and examples).
* Axioms: only those listed in the section "Assumptions per theorem"; all of them belong to Coq's standard library and enter through
  Flocq's real numbers (binary64 for `next_double`). There are no axioms, parameters, admitted lemmas or disabled checks of our own.
* The transcription of C++ to Gallina (cited line by line) and the C++ semantics assumed there: two's complement, LP64 little-endian
  target, `malloc` gives fresh memory disjoint from everything else, compilers implement signed shifts arithmetically.

## What is modelled, what is not

| Area (files) | Modelled | Not modelled / simplified |
|---|---|---|
| Checksums (`compression/checksum.cpp`, `checksum_p.h`) | `adler32_update_ref` with 32-bit accumulators and its chunk loop, `crc32_update_ref`, table, finalizers | SSE/ARM variants and the dispatch to them |
| Integer helpers (`support/intops_p.h`) | checked/saturating arithmetic for every width and signedness incl. integer promotion, alignment, power of two, bit masks, popcount, Harley-Seal counters, clz/ctz fallbacks, clamp, pmod, rotations | compiler intrinsics (`__builtin_*`) that replace the fallbacks |
| Algorithms (`support/algorithm_p.h`) | `lower_bound`, `binary_search`, `binary_search_closest_*`, `insertion_sort`, `quick_sort` with its explicit stack | comparators are pure functions; SIMD partial searches |
| Random (`core/random*.{h,cpp}`) | seeding, `next_uint64/32`, `next_double` (binary64 through Flocq) | the SSE2 variant of `next_double` (same lane-0 operations) |
| Pixels (`pixelops/scalar_p.h`, `tables/tables.cpp`) | udiv255/65535, (un)premultiply 32/64, reciprocal table, 0555/0565/4444 expansion | SIMD conversions, `pixelconverter.cpp` dispatch |
| QOI (`codec/qoicodec.cpp`) | header, decoder with both fast paths and RLE store, three encoders, `write_frame`, `inspect_data`; image memory as rows with stride | BLImage creation (assumed to succeed), `BLArray` output growth (a bounded buffer) |
| Unicode (`unicode/unicode.cpp`, `unicode_p.h`) | readers, writers, validation, conversion incl. Latin-1 fast/slow path and memcpy path, pointer alignment | wchar/ UTF-16 and 32 big endian readers share the little endian code with a byte swap |
| Objects (`core/object_p.h`, `object.cpp`) | Impl heap with reference counts, SSO handles, retain/release/replace, growth policy, external memory with destroy function | atomicity: histories are sequential interleavings of the atomic operations; user data property list |
| BLBitArray (`core/bitarray.cpp`, `bitops_p.h`) | every operation and query; words as 32-bit cells, uninitialised cells explicit | debug text |
| BLArray (`core/array.cpp`, `array_p.h`) | every operation over plain items of 1..32 bytes as cells, pointers into own storage (`SIn`) or elsewhere (`SExt` with address offset), external data | arrays of BLObjects/BLVar ; byte level view of items |
| BLString (`core/string.cpp`, `string_p.h`, `string.h`) | every operation over bytes as cells: SSO text with the size byte that doubles as terminator, modify/insert in place and with new storage, texts inside or outside of the string, C strings, formatting (the formatted text is an argument), remove, resize, compare, search | `vsnprintf` itself, formatting arguments that point into the string |
| PNG pixels (`codec/pngops.cpp`, `pngops_p.h`, pixel part of `pngcodec.cpp`) | portable inverse filter, Adam7 layout, deinterlacing of 1/2/4 bpp and of whole bytes with its loops, tails and pointers, temporary buffer and alignment, the pixel path of `decoder_read_pixel_data` for the first frame; one byte memory, accesses outside are UB | SIMD filters, DEFLATE (its output is an argument), `BLPixelConverter` (the rows it is given are the result) |
| PNG chunks (rest of `codec/pngcodec.cpp` decoder) | signature, IHDR, CgBI, acTL, fcTL, PLTE/tRNS/grey palette, IDAT/fdAT collection, frame state, dispose operations, `restart`/`read_info`/`read_frame`; file as byte list, reads outside of it are UB | CRCs (the code does not check them), inflate (function argument: more / fail / done), BLImage and BLPixelConverter creation (their result codes are arguments), the PNG encoder |
| DEFLATE tables (`compression/deflatedecoder.cpp` 60-553, entry accessors of `deflatedecoderutils_p.h`) | result tables, counting, sorting, canonical codes, direct table with doubling, sub-tables, incomplete codes, the fast table; previous contents of the table memory arbitrary, unwritten locals unreadable | - |
| DEFLATE decoder (`compression/deflatedecoder.cpp` 557-1609, `deflatedecoderutils_p.h` 91-213, `deflatedecoderfast*_p.h`) | `init`, `decode` with every state, bit buffer with stale high bits, union of tables and lengths (reading another member is UB), optimised and safe loops, fast loop with wide copies, growth (reserve is an oracle) | BMI2 and AVX2 builds, 32-bit targets, `_processed_bytes` (only used in the growth estimate), statistics |
| BMP (`codec/bmpcodec.cpp`, `bmpcodec_p.h`) | both RLE decoders loop by loop, header reading with every check, palette, frame reading with flipping, decoder object (last_result, frame index), encoder with header, palette, padding; image memory in 32-bit pixels, buffers in bytes | big-endian machines, `BLPixelConverter` (a parameter: `create` may fail, `convert_rect` converts row by row), `BLImage::create` (size limits modelled, memory a parameter), `inspect_data` |
| OpenType cmap (`opentype/otcmap.cpp`, `otcmap_p.h`) | validation of sub-tables of formats 0, 4, 6, 10, 12, 13, choice of the encoding record, the five mapping loops with their cached segments and mapping state, character coverage as ranges; reads outside of the table are UB | formats 2, 8, 14 (rejected by the code), `BLBitSet` (coverage is the list of ranges added), the other tables of a font |
| Unique ids (`threading/uniqueidgenerator.cpp`) | `generate_id` and both `GlobalState::fetch_add`, every atomic access a step; any number of threads under any schedule | weaker memory orders (the code uses the default order), `std::atomic` itself, creation of threads (a new thread starts with a zero cache) |
| Composition operators (`core/compopsimplifyimpl_p.h`, `compopinfo.cpp`, `compop_p.h`) | the simplification functions entry by entry, the flags table | the operators themselves are the specification (rational arithmetic, one color channel and alpha, as in the W3C specification and the comments of the source); 64-bit formats as destination; rounding of pipelines |
| Reference pixel arithmetic (`pipeline/reference/pixelgeneric_p.h`, `compopgeneric_p.h` 25-81) | unpacked pixels as one 64-bit word and as two 32-bit words, 8-bit pixels; SrcCopy, SrcOver, Plus, opaque and masked | `cmul`, `PixelIO`, SIMD variants |
| Reference fillers (`pipeline/reference/fillgeneric_p.h` 22-160, `compopgeneric_p.h` 83-186, `pipedefs_p.h` mask commands and `init_box_u_8bpc_24x8`) | FillBoxA, FillMask, constant and variable spans, the commands made for boxes with fractional coordinates and for mask images | the fetchers (the source pixel is a function of the position); the JIT fillers; compositeCSpan with n = 0 is UB in the model; rows of a memory image are addressed in pixels |
| Filler of rasterized paths (`pipeline/reference/fillgeneric_p.h` 164-388) | FillAnalytic: scan of the bit words, runs of cells, gaps, mask calculation, clearing of the buffers; row sizes of the render command processor | 32-bit words and MSB bit order (non-x86 targets); the rasterizer that produces the cells; `size_t` arithmetic is not wrapped; fetchers as above |
| OpenType tags (`core/fonttagdataids.cpp`, `core/fonttagdataids_p.h` 1256-1467, `core/fonttagdata_p.h` 20-60, `core/fonttagdatainfo.cpp`) | the six tables, the hashed lookups, validity and printing of tags, feature info | `fonttagset` |
| Font feature settings (`core/fontfeaturesettings.cpp`, `core/fontfeaturesettings_p.h`) | SSO form (bit set and packed fat features), dynamic form, get/has/set/remove, view, equality, shrink, the plan query | capacities are exact numbers of the growth function; reference counting is one shared/not shared flag; allocation may fail at any call; SIMD variants |
| Gradients (`core/gradient.cpp`, `core/gradient_p.h`) | create, reserve, shrink, setters, all calls on stops, copy on write, cache validity, solid/opaque decision, equality | offsets are binary64 bit patterns, the matrix is opaque (`apply_transform_op` not modelled); the color tables are represented by the stops they were computed from; caller arrays do not overlap the object; allocations of 2^63 bytes or more fail; assertions are off |
| Format descriptions (`core/format.cpp`, `core/format_p.h`) | `bl_format_info_query`, `bl_format_info_sanitize` in full, the public rows of `bl_format_info` | 64-bit little endian host: the palette pointer is the eight bytes of sizes and shifts, an error leaves the struct unwritten; internal formats and `make_flags_static` of those are left out |
| Color tables (`pixelops/interpolation.cpp`) | `interpolate_prgb32` and `interpolate_prgb64` from the stop positions on: steps, spans, opaque and alpha loops, padding, first entry | the position `uint32_t(round_to_int(offset * fWidth))` is an input (floating point); the SSE2 and AVX2 variants of the 32-bit function are not modelled; tables up to 2^22 and 2^14 entries (the library uses 256 to 1024) |
| Hash map (`support/arenahashmap.cpp`, `support/arenahashmap_p.h`) | the prime table, `_calc_mod` on both word sizes, `_rehash`, `_insert`, `_remove`, `get`, `nodes_by_hash_code`, `for_each`, `reset` | chains linked by `_hash_next` are lists; release of bucket arrays, swap and move construction are not modelled; allocation may fail at any call; a node is inserted at most once (otherwise its link is overwritten) |
| JPEG Huffman tables (`codec/jpeghuffman.cpp`, `codec/jpeghuffman_p.h`) | `build_huffman_table` in full, one entry of the table of `build_huffman_ac`, `peek`, `drop`, `read_signed`, `read_code`; one AC coefficient of `decoder_read_baseline_block` (`codec/jpegcodec.cpp` 760-797) | arrays written front to back are lists; 64-bit words; the rest of the block decoder and the progressive mode are not modelled |
| JPEG bit reader (`codec/jpeghuffman_p.h`) | `DecoderBitStream::reset`, `refill`, `drop`, `peek`, `require_bits` with `read_unsigned` | 64-bit words; pointers are indexes into the segment; `eob_run`, `restart_counter`, `flush` and `advance` are not modelled |
| JPEG symbols (`codec/jpeghuffman_p.h`, `codec/jpegcodec.cpp` 735-742) | `refill`, `read_code` and `drop` in sequence | symbols only; magnitude bits between the symbols are the reads of C99 |

## Per property

| Property | What is modelled and how it is proved | Status |
|---|---|---|
| C01 Adler-32 is the RFC 1950 checksum for data of any length and any chunking | `Checksum_*`: unrolled chunk loop with 32-bit accumulators; invariant bounding the sums, equality with the RFC 1950 sums by induction | proved: Reference implementation (adler32_update_ref); SIMD variants not modelled. |
| C02 CRC-32 is the reflected 0xEDB88320 polynomial CRC for data of any length and any chunking | `Checksum_*`: table entry = 8 bit-serial steps (256 cases), induction over data; polynomial remainder over GF(2) | proved: Reference implementation; bit-serial and polynomial-remainder specifications. SIMD variants not modelled. |
| C03 Checked and saturating integer arithmetic is exact | `IntOps_*`: generic width and signedness, integer promotion explicit; case analysis | partial: REFUTED for mul_overflow in the portable build: int64_t fallback divides INT64_MIN by -1 (undefined) for x=-1,y=INT64_MIN; int8_t product of two negative operands overflows int after promotion. All other operand pairs, add/sub and the saturating variants are proved exact. |
| C04 Alignment and power-of-two helpers are exact | `IntOps_*`: generic width; bit lemmas | proved: Generic word width; narrow types with integer promotion covered for is_bit_mask_consecutive. |
| C05 Population count and bit scans are exact | `IntOps_*`: SWAR popcount by splitting the word, clz/ctz by binary descent, Harley-Seal history invariant | proved: Portable fallbacks for 8/16/32/64-bit words; compiler intrinsics not modelled. |
| C06 Sorting returns a sorted permutation of its input | `Algorithm_*`: array as list with checked accesses; loop invariants, permutation, log2 bound of the explicit stack | proved: Any total preorder, any length below 2^64; includes explicit-stack bound. Comparators modelled as pure functions. |
| C07 Binary searches return the documented position | `Algorithm_*`: loop invariant over a monotone predicate | proved: lower_bound, binary_search, binary_search_closest_first/last; generic monotone predicate and sorted integer arrays. |
| C08 BLRandom never gets stuck and never leaves its range | `Random_*`: xorshift invertibility, bit extensionality; binary64 through Flocq | proved: Portable next_double (SSE2 variant performs the same lane-0 operations, not modelled); binary64 via Flocq. |
| C09 Pixel normalised multiplication is exactly rounded | `PixelOps_*`: arithmetic proof of the division trick, packed lanes separated | proved: Scalar code paths; SIMD variants not modelled. |
| C10 Premultiplied pixels survive unpremultiply / premultiply | `PixelOps_*`: interval argument per alpha | proved: All premultiplied pixels (components <= alpha); also that the result is the nearest quotient. |
| C100 JPEG Huffman symbols are read back as they were written | the unread bits of C99 begin with the code, hence with the interval of C97 (`next_ok`); induction over the symbols | proved:  |
| C11 Low-depth pixel formats expand exactly | `PixelOps_*`: per-field bit replication | proved: All 65536 inputs of each of the three formats. |
| C12 QOI write/read round trip is lossless | `Qoi_*`: chunk-level simulation between encoder state and decoder state, induction over pixels | proved: All sizes 1..65535, all strides (also negative), all contents; image create succeeds is assumed. |
| C13 QOI encoder never exceeds the buffer it reserves | `Qoi_*`: per-pixel byte budget invariant | proved: write_frame in the model is UB when the output outgrows max_size; holds for non-premultiplied PRGB32 content too. |
| C14 QOI decoder is memory safe on hostile input | `Qoi_*`: invariant of the decoder over any byte string, reads/writes checked | proved: Out-of-bounds reads and writes are UB in the model; the theorem excludes UB and fuel exhaustion for every byte string. |
| C15 QOI decoder implements the QOI specification | `Qoi_*`: refinement of the decoder to the chunk semantics of the QOI specification | proved: Streams following the reference encoder discipline (index_ok); see C31 for arbitrary index chunks. |
| C16 UTF-8 validation accepts exactly well-formed Unicode text | `Unicode_*`: reader = Unicode table 3-7, induction over the text | partial: REFUTED: UTF-8 encoded surrogates (e.g. ED A0 80) are accepted. Everything else of the claim is proved (C16_utf8_partial). |
| C17 Unicode transcoding preserves the text | `Unicode_*`: conversion loop against encode functions of scalar values | proved: All Unicode texts (sequences of scalar values; Latin-1: 0..255), all supported pairs, every sufficient capacity. Ill-formed sources: see C34. |
| C18 Unicode transcoding reports exact progress | `Unicode_*`: as C17 with indexes | partial: REFUTED twice: Latin-1 to UTF-8 without 2n bytes of space reports indexes 0/0 on success; UTF-16/32 sources with an incomplete last unit succeed without consuming it. The rest is proved. |
| C19 Unicode transcoding never writes past the destination | `Unicode_*`: destination as checked memory | proved: All pairs, sources and capacities. |
| C20 BLBitArray behaves like a list of bits | `BitArray_*`: refinement to `list bool` through programs | partial: REFUTED: append_word at an offset above 16 in its word reads past the caller buffer; fill_words clipped by the size loses bits; resize to heap storage leaves words uninitialized; assign_words of more than 3 words yields an empty array. C20_bit_list_partial proves the claim for programs avoiding exactly these calls. |
| C21 Modifying one BLBitArray copy never changes another and keeps the rest of its own content | `BitArray_*`: heap of Impls with counts; frame theorem plus refinement over many handles | partial: REFUTED: set_bit (and every modify operation) on a shared heap array drops or leaves uninitialized the rest of its content; reserve on a shared array overruns. C21_others_unchanged (no other handle is ever affected) holds without restriction; C21_copies_partial covers programs over any number of handles that modify bits only through unshared handles. |
| C22 BLBitArray range and bulk queries are memory safe | `BitArray_*`: queries against list functions | partial: REFUTED: has_bits_in_range ending at a multiple of 32 reads one word too many; ranges within one word other than the first shift by 32 or more (also cardinality_in_range). subsumes, intersects, get_range proved for all arrays, the rest in C22_queries_partial. |
| C23 BLBitArray comparison is the lexicographic total order | `BitArray_*`: word compare = lexicographic order of bits | proved: All pairs of well-formed arrays in any storage. |
| C24 BLArray copies are independent values under any operation history | `Handle_*`, `Array_*`: programs over many handles refine independent lists; invariant: count of an Impl = number of its handles | partial: C24_reserve: a successful reserve leaves unshared storage with room. REFUTED: resize(n) with n*item_size beyond 2^64 reports success without storage; resize with a fill value inside of the array reads freed memory. C24_array_programs_partial: programs of any length over any number of handles without these calls (POD items of 1..32 bytes). |
| C25 BLArray bulk assignment and range replacement do what they say | `Array_*`: as C24 for the two bulk operations, witnesses for the faulty paths | partial: REFUTED: assign_data of more items than the array has overruns the new storage; replace_data does not move the tail, does not check the capacity and mixes bytes with items in its overlap test. C25_bulk_partial covers the calls that avoid these paths. |
| C26 BLString copies are independent values under any operation history | `String_*`: as C24 with the NUL terminator in the invariant | partial: C26_reserve: a successful reserve leaves unshared storage with room. REFUTED: assigning a short text to a string with shared storage replaces it by an uninitialised variable; reserve(SIZE_MAX) overruns; formatting without memory damages the text although it reports the error. C26_string_programs_partial: programs of any length over any number of handles without these calls; queries and construction hold for all strings. |
| C27 Objects are freed exactly when the last reference goes away | `Object_*`: invariant: count = number of handles, freed exactly at zero | proved: Sequential histories of the atomic operations. |
| C28 Container growth always provides the requested capacity | `Object_*`: growth function; potential argument for the amortised bound | partial: REFUTED for "at least doubles" (126 bytes requested gives 128). Never-less, 37.5% growth above the limit and the amortized bound (at most 6 bytes moved per byte stored) are proved. |
| C29 Clamping, positive modulo and rotation helpers are exact | `IntOps_*`: generic width | partial: REFUTED: clamp_to_byte(INT_MIN)=255; signed pmod wrong (pmod(-4,3)=1); rol on 8/16-bit types loses bits. Proved for all other clamp inputs, unsigned pmod, 32/64-bit rotations. |
| C30 BLRandom has the documented full period | `Random_*`: linear algebra over GF(2): the power of the step matrix is the identity | partial: REFUTED: every state returns to itself after 1999641213840270 (< 2^51) draws, some non-zero states after 3; the code shifts data[1] before storing it to data[0], which is not XORSHIFT+. |
| C31 QOI decoder agrees with the specification on arbitrary INDEX chunks | `Qoi_*`: witness stream; refinement for streams without INDEX chunks | partial: REFUTED: an INDEX chunk naming an unset slot does not re-store the transparent pixel in slot 0, so a later INDEX 0 decodes to a different pixel. The partial theorem covers streams without INDEX chunks, C15 those with the encoder discipline. |
| C32 QOI files with too few pixels are rejected | `Qoi_*`: witness stream | partial: REFUTED: the second half of an INDEX pair may consume the first byte of the end marker, so a file lacking one pixel is accepted. |
| C33 Unicode validation of UTF-16 and UTF-32 is exact and reports correct lengths | `Unicode_*`: as C16 for UTF-16/32 | proved: Lengths below 2^63 bytes. |
| C34 Successful conversion produces well-formed Unicode | `Unicode_*`: output well-formedness by induction | partial: REFUTED for UTF-8 sources containing encoded surrogates; proved for all other source encodings. |
| C35 Unicode result codes tell the truth | `Unicode_*`: result codes | partial: REFUTED: UTF-16 copy of an odd number of bytes reports NO_SPACE_LEFT; E2 41 reports DATA_TRUNCATED. The rest is proved. |
| C36 PNG inverse filter reconstructs every row | `Png_*`: loop invariant over the bytes of a row, induction over rows; uniqueness by induction over positions | proved: Portable filters; the SIMD variants are not modelled. |
| C37 PNG pixel data never leaves its buffer | `Png_*`: layout equals the counting specification of Adam7 (closed forms by induction); refuted by witnesses for any scratch memory | partial: REFUTED: calculate_interlace_steps does not check w*sample_depth and bpl*h for overflow: 65535x32769 grey+alpha wraps to 98303 bytes, 2^29x1 RGBA to 1 byte, and the inverse filter then runs outside of the buffer. C37_filter_safe_partial: width below 2^28 and data below 4 GB. |
| C38 PNG decoding hands over the right pixels | `Png_*`: bit-level invariant of every deinterlacing loop and tail, induction over rows with pass pointers; pipeline composition | partial: REFUTED: interlaced 2 bpp images (tails of rows 2, 4 and 6 modulo 8) and 4 bpp images of width 5 modulo 8 get wrong pixels. C38_decode_partial: all other images (interlace_sound), any size below the limits of C37. |
| C39 The PNG chunk reader is safe and reads the header exactly | `PngChunk_*`: invariant of the decoder record over all call sequences (`dec_inv`), fuel bound by the file length; refuted by witnesses | partial: REFUTED: a file that ends with its IHDR chunk (33 bytes) makes read_info read outside of the file; in a file above 4 GB a chunk of 2^32-12 bytes makes read_frame loop forever (32-bit step). C39_header is proved in full for files not cut off after the header; C39_decoder_safe_partial: all call sequences over files up to 4 GB that are long enough, have no dispose-previous frame and respect the limits of C37/C38 (file_ok). |
| C40 A PNG image gets its palette and its pixels from the right chunks | `PngChunk_*`: loop invariants of the palette and tRNS loops against the chunk list of the file; composed with C38 | partial: REFUTED: an indexed image without PLTE is accepted and uses the uninitialised palette. C40_first_frame_partial: everything else, for all files with file_ok. |
| C41 Frames of PNG animations | `PngChunk_*`: frame control state in the invariant; refuted by witnesses | partial: REFUTED: dispose-previous uses a BLArray that was never constructed (UB) and an animation whose default image is not a frame stops with INVALID_DATA. C41_frame_pixels_partial: pixels of every later frame in every reachable state; blending of frames with blend_op OVER is not implemented by the library. |
| C42 DEFLATE Huffman tables decode every code as RFC 1951 defines it | `DeflateTable_*`: loop invariants of counting, sorting, table doubling, codeword increment and sub-table allocation; codes as intervals of [0, 2^15) ordered by (length, symbol) against the RFC's `next_code` | proved: Three tables, against the canonical code of RFC 1951 3.2.2. The merged entries of build_fast_table are not part of this claim. |
| C43 DEFLATE table construction never leaves its fixed-size tables | `DeflateTable_*`: table size bound for all complete codes by an amortised count of sub-table entries against long codes (`waste`, `fits_litlen`, `fits_offset`); every access of the construction in range | proved:  |
| C44 The DEFLATE decoder produces exactly the bytes RFC 1951 assigns to its input | `DeflateDecoder_*`: step relation of RFC 1950/1951 on the unread bits (`Inflate_Spec.v`); forward simulation of every state of the switch with a relation between bit buffer, input still to come and relation state (`rel`), fuel by a measure; determinism of the relation turns error results into "no run ends"; refuted by computed witnesses | partial: REFUTED: (1) a valid stream in which a stored block follows a block with an end-of-block code below 5 bits is rejected; (2) a call of 176 bytes or more (fast loop) decodes a valid stream to wrong bytes with success. C44_inflate_partial: everything else in full for calls below 176 bytes and streams outside of (1) without distance codes for symbols 30/31 (plain), all inputs valid or not. |
| C45 Splitting compressed data into several decode calls does not change the result | corollary of C44 and determinism of the step relation; refuted by witnesses | partial: REFUTED: the fast loop of larger calls overruns the array on a stream that small calls decode; an output that fills the array exactly can give OUT_OF_MEMORY depending on the cut. C45_chunking_partial: all cuts into calls below 176 bytes, plain streams. |
| C46 The DEFLATE decoder only appends to its output | `DeflateDecoder_Frame.v`: invariant of every loop including the wide stores of the fast loop, for arbitrary tables and inputs | proved: Includes the fast loop and every invalid input. About runs that do not reach undefined behaviour (see C47). |
| C47 Decoding DEFLATE data never leaves its memory | corollary of C44 (the model's accesses outside of its lists are UB); refuted by witnesses | partial: REFUTED: the fast loop writes past the end of the array on a valid stream whose output fits, and reads past the end of the distance table for static distance symbol 30. C47_safe_partial: calls below 176 bytes on plain streams; C43 covers the table construction for all inputs. |
| C48 Calls after the end of a DEFLATE stream | `DeflateDecoder_Frame.v`: states after the final codes; non-termination as "out of fuel for every fuel" | partial: REFUTED: after the end of the stream decode never returns if reserve succeeds. C48_invalid_stays holds in full; C48_done_stays_partial for arrays that must not be reallocated. |
| C49 RLE-compressed BMP files decode to the picture they describe | `Bmp_Proofs.v`, `Bmp_Proofs2.v`: simulation of the pen machine `rle` by the two decoder loops, invariant "painted so far, rest untouched"; `frame_rle` lifts it to read_frame | partial: REFUTED by C49_clipped_run_refuted: an absolute run that crosses the right edge leaves its unread bytes to be read as commands. C49_rle_picture_partial: every stream without such a run and without a move through the last row with the pen not in column 0 (see C50). |
| C50 Decoding RLE-compressed BMP files stays inside of the image | `Bmp_Proofs3.v`: invariant for arbitrary streams with one additional row; refuted by a 70-byte file | partial: REFUTED by C50_write_outside_refuted: a move to the row after the last one clears pixels there, before the image for bottom-up files. C50_rle_bounds_partial: every stream stays inside of memory that has one more row; C50_plain_bounds: plain streams stay inside of the image. |
| C51 BMP headers are read exactly | `Bmp_Proofs4.v`, `Bmp_Proofs5.v`: the reader equals a function of the decoded header fields; bit masks by induction over the four masks | partial: REFUTED: 124-byte headers are rejected (the constant is 12), 108-byte headers with compression 0 and zero masks are rejected, unknown compressions of 16/24/32-bit files are read as raw pixels. Totality and soundness (C51_header_total, C51_header_sound) in full; C51_header_accepts_partial for the rest. |
| C52 Uncompressed BMP files decode to the stored pixels, through any sequence of decoder calls | `Bmp_Proofs6.v`: induction over rows; call sequences by an invariant of the decoder object | proved: Files that are not RLE-compressed (see C49, C50); the pixel converter and image allocation are parameters with stated contracts. |
| C53 Writing a BMP file and reading it back gives the same picture | `Bmp_Proofs7.v`: the output is filled from left to right, equals an explicit byte list; reading it back through C51/C52 | proved: The pixel converter is a parameter that must do three conversions (converter_ok). A8 images of more than 2^29 pixels can be written but not read back: the decoded 32-bit image would exceed the size limit. |
| C54 Reading the character map of a font never leaves the table | `CMap_Proofs2.v`, `CMap_Proofs3.v`: what validation establishes (`valid`); `CMap_Proofs4.v`: `validate_safe`, `init_safe`; refuted by a 28-byte table | partial: REFUTED by C54_init_refuted: a format 12/13 sub-table without groups at the end of the table makes validation read the first group behind the table. C54_init_safe_partial: every other table; C54_map_safe: mapping and coverage in full. |
| C55 Text maps to the glyphs that the OpenType specification assigns | `CMap_Proofs.v`: both binary searches equal `find` on ordered segments; `CMap_Proofs2.v`, `CMap_Proofs3.v`: the cached segment is the one the search would find; induction over the text | partial: REFUTED by C55_missing_glyph_refuted: in format 4 idDelta is added also to a glyphIdArray entry 0 (missing glyph). C55_mapping_partial: every character but those and U+FFFF (format 4); C55_pointwise: independence of neighbours and mapping state for all texts. |
| C56 Well-formed character maps are accepted | `CMap_Proofs4.v`: `accept0` .. `accept12`; format 6 by evaluation of the length check | partial: REFUTED: no well-formed format 6 sub-table is accepted (C56_format6_rejected, C56_format6_refuted), nor format 10 up to U+10FFFF (C56_format10_refuted). C56_accepts_partial: formats 0, 4, 10 (below U+10FFFF), 12, 13 (at most 0x10FFFF groups). |
| C57 The best character map of a font is selected | `CMap_Proofs4.v`: loop invariant `good` (maximum of the scores so far, first of equals), `scr_preferred` relates scores and the preference order | proved: usable includes that validation succeeds; which sub-tables that are is C56. |
| C58 Character coverage agrees with the mapping | `CMap_Proofs4.v`: `cover_array_ok`, `cover_ranges_ok` (merging keeps the union) | partial: REFUTED by C58_coverage_refuted: a whole segment is reported although its glyphIdArray holds 0. C58_coverage_partial: contains every mapped character, exact for formats 0, 6, 10, union of the segments otherwise. |
| C59 Ids are never handed out twice | `UniqueId_Proofs.v`: invariant `inv` of all reachable states (blocks of different threads are disjoint, ids returned so far lie below the cache position of their block); `UniqueId_Proofs2.v`: the execution of 2^23 blocks by induction | partial: REFUTED for targets without 64-bit atomics by C59_unique32_refuted (old high part combined with a low part after the threshold was cleared). C59_unique64: full statement with 64-bit atomics. C59_unique32_partial: 32-bit atomics before the threshold. Sequentially consistent atomics, as in the code. |
| C60 Simplifying a composition operator never changes what is rendered | `CompOp_Proofs.v`: `simplify_ok`, every entry by case analysis over operator and formats, then linear/nonlinear arithmetic over rationals | partial: REFUTED twice: dst-in of a transparent source over XRGB32 is a no-operation (C60_dst_in_refuted), color-dodge of an A8 source paints black pixels white (C60_color_dodge_refuted). C60_simplify_partial: every other entry. Exact arithmetic (rationals), not the rounding of the pipelines. |
| C61 The flags of a composition operator are true of the operator | `CompOp_Proofs2.v`: `nop_sa0`, `type_a` (mask zero by `nop_sa0`, else minimum, maximum and comparisons scale), `type_b`, `uses`, `nops` | partial: REFUTED: plus and linear burn are not type A (C61_plus_refuted, C61_linear_burn_refuted), multiply is not a no-operation over a transparent destination (C61_multiply_nop_refuted). C61_type_a_partial, C61_nop_partial: everything else; C61_type_b, C61_uses in full. |
| C62 Reference pipelines compute every pixel component exactly | `PixGen_Proofs.v`: components as lanes of a word (`b4`, lane-wise multiplication, addition, division by 255 without carries); `PixGen_Proofs2.v`: `impl64_ok`, `impl32_ok`, `impl8_ok` | proved: PRGB32 and A8 pixels, SrcCopy, SrcOver and Plus of the reference pipelines. |
| C63 Composition keeps pixels premultiplied and respects the ends of the mask | from C62 by bounds on the rounded values (`result_u8`, `result_le`, `result_0`, `result_255`) | proved: As C62. |
| C64 Fillers compose every pixel once with the mask given to it and write nothing else | `Fill_Proofs.v`: a span as a change of memory (`drawn`), `Fill_Proofs2.v`: rows (`row_loop_ok`, commands rewritten in place), induction over the rows (`mask_loop_ok`), `Fill_Proofs3.v`: `fill_box_a_ok` | partial: REFUTED for spans with a gap between them by C64_fill_mask_refuted: the reference filler skips the gap in the fetcher only, not in the destination (no caller emits such commands today; the JIT filler moves both). C64_fill_box, C64_masked_box in full, C64_fill_mask_partial for spans without gaps. |
| C65 Boxes with fractional coordinates are drawn with the exact coverage of every pixel | `Fill_Proofs3.v`: mask data; `Fill_Proofs4.v`: coverage of rows and columns, the program of mask commands (`box_rows`); `Fill_Proofs5.v`: `box_u_ok`, all layouts | proved: Fetchers are abstract: the source pixel is a function of the position. |
| C66 Filling a rasterized path applies to every pixel the mask of its accumulated coverage and leaves the accumulation buffers zero | `Analytic_Proofs.v`: words as predicates on bits (`word_is`, `find`, `xor_end`); `Analytic_Proofs2.v`: invariant at the labels (`at_label`, `at_group`), induction over the groups of bits (`groups_ok`), `scanline_ok`; `Analytic_Proofs3.v`: induction over the rows | proved: 64-bit words in LSB order (x86-64). C66_spare_bit_needed shows that the spare bit which the row sizes leave behind the last pixel is necessary: without it the filler shifts a word by its size. |
| C67 Fill rules turn accumulated coverage into masks | `calc_mask_ok` (in `Analytic_Proofs.v`) links the code to `fill_mask_of`; the rest is arithmetic on the specification | proved: fill_mask_of is linked to the code by C66_fill_analytic. |
| C68 Tag lookup finds exactly the registered OpenType tags | `TagData_Proofs.v`: the lookup is shown exact for an abstract hash when every table entry is found and the final comparison is made; the finite part is a computation over the tables | proved: Tables are transcribed from fonttagdataids.cpp. |
| C69 Tags are valid iff they consist of four printable ASCII characters | `TagData_Proofs.v`: carries of the bit trick byte by byte | proved: 32-bit tags. |
| C70 Font feature settings behave as a map from tags to values | `FontFeature_Proofs*.v`: invariant `inv` relating packed words / arrays to an association list sorted by tag; induction over `reach`; witnesses by computation | partial: REFUTED: C70_set_value_refuted, C70_other_value_refuted, C70_size_refuted. In SSO form set_value compares with the 8-bit tag mask instead of the 4-bit value mask, so 16..255 for a multi-valued feature is truncated, leaks into the next value, or into the size. C70_feature_map_partial and C70_sharers_partial hold for all sequences without such calls and without the removals of C71. |
| C71 Removing a font feature does not affect any other feature | as C70; `remove_value_ok` | partial: REFUTED by C71_remove_refuted: remove_sso_fat_tag masks the values with the mask for tags. C71_remove_partial: all other removals. |
| C72 has_value tells whether a font feature is set | as C70; `has_value_ok` | partial: REFUTED by C72_has_value_refuted: has_value passes the bit id rather than the feature id to the search. C72_has_value_partial: every tag that is not multi-valued and every object in dynamic form. |
| C73 The view, the size and the equality of font feature settings depend on the settings only | `inv_lists`, `equals_ok` for all pairs of storage forms, `shrink_ok` | partial: Proved for the sequences of C70_feature_map_partial; beyond them C70_size_refuted has a view with an unwritten item. |
| C74 Boolean font features accept only 0 and 1 | case analysis of set_value with the feature info table | partial: REFUTED by C74_boolean_refuted for objects in dynamic form; C74_boolean_partial for SSO form. |
| C75 Gradient stops are always sorted, in range and at most two per offset | `Gradient_Proofs*.v`: invariant `iinv` (well formed stops, capacity, caches) for every call; induction over `reach`; order of doubles by their bit patterns proved against the numbers they stand for | proved: Invariant over all call sequences (reach), including copies and failed allocations. |
| C76 add_stop inserts after equal offsets or replaces the second stop of a pair; index_of_stop finds the first | `add_ok`, `find_ok` on top of the binary search lemmas of C06; `added_det` | proved: C76_added_unique: the specification determines the result. |
| C77 assign_stops keeps a conforming array, otherwise sorts it and keeps the first and last stop of equal offsets | `copy_unsafe_ok`: sorted array by quick sort lemma, induction over the removal of duplicates | partial: REFUTED by C77_assign_refuted: copy_unsafe_stops visits only n - 1 of the n sorted stops (gradient.cpp 159), the greatest one is lost. C77_assign_conforming is full for conforming arrays; C77_assign_partial says exactly what is kept of the others. |
| C78 Removals remove exactly the requested stops | `remove_ok`, `remove_by_offset_ok`, `remove_interval_ok` | partial: REFUTED by C78_remove_refuted: when the object is shared, the size of the new impl is never set (gradient.cpp 866-876), so all stops are lost. The _partial theorems are complete for objects that are not shared. |
| C79 replace_stop equals remove_stop followed by add_stop | `replace_ok`, `added_back`, `added_det` | partial: REFUTED by C79_replace_refuted (first stop of a pair keeps its place) and C79_failed_refuted (an invalid offset removes the stop and then fails). C79_replace_partial: all other cases of objects that are not shared. |
| C80 equals is equality of the contents | case analysis; witnesses by computation | partial: REFUTED by C80_values_refuted (values are not compared) and C80_default_refuted (the flag of static impls in the object info is compared). C80_equals_partial says exactly what is compared. |
| C81 A gradient is solid or opaque exactly when its colors are | invariant of the flag loop; masked color in terms of its bytes | proved:  |
| C82 Cached color tables belong to the current stops; objects sharing the data are not changed | cache part of `iinv`; third component of every result is the data as sharers see it | proved:  |
| C83 No call on a gradient accesses memory outside its arrays; reserve provides the capacity | `exec_ok` | partial: REFUTED by C83_reserve_refuted: reserve(n) of a shared gradient with more than max(n, 2) stops copies all stops into the smaller array; C83_capacity_refuted: the impl size wraps for n near 2^60. C83_safe_partial covers all other calls. |
| C84 Calls on the stops leave type, extend mode, transform and values unchanged | the lemmas of all calls together | partial: REFUTED by C84_values_refuted: deep_copy keeps only the values used by the current type. C84_rest_partial: everything else, and the values used by the type. |
| C85 Format descriptions are accepted exactly when they make sense | closed form of the checks (`examine_eq`), masks as sets of bits (`meets_comp`) | proved:  |
| C86 A sanitized format description is valid and its flags are true | bits of the final flags (`flags2_bit`), mirrored components keep validity (`result_valid`) | proved:  |
| C87 Sanitizing a format description does not change how pixels are read | bits of pixels read from bytes (`le_bit`, `swapped_bits`); a single-bit pixel shows the converse | partial: REFUTED by C87_byte_order_refuted: a byte-swapped 4444 format is accepted and its components are exchanged within the bytes. C87_byte_order_exact gives the exact condition under which pixels are read alike; C87_byte_order_partial: whole bytes. |
| C88 Sanitize is idempotent and keeps the built-in formats | `idem`: every flag is a fixed point and no swap remains | proved:  |
| C89 The color table of a gradient is completely written and every entry shows the stops | wrapping 32-bit steps stay in place (`advance`, `posn_facts`), one span (`span32_ok`, `span64_ok`), induction over the stops (`table_ok`) | proved:  |
| C90 Gradient stops show their own color exactly | uniqueness of the last stop at or before an entry (`last_unique`) | proved:  |
| C91 Color tables of gradients contain valid premultiplied pixels; opaque stops give opaque tables | components between those of the stops; rounding of premultiplication is monotone (`premultiplied_good`) | proved:  |
| C92 Bucket indexes computed by reciprocal multiplication are exact | error of the reciprocal bounded by a checked condition on each row (`rcp_div`, `rows_ok`) | proved:  |
| C93 The hash map of the font manager behaves as a set of nodes | invariant: each node is in the bucket of its hash code, buckets are a permutation of the list (`holds`, `perform_all_ok`) | proved:  |
| C94 A lookup does not depend on nodes that do not match | a sequence of 29 calls shows the converse; invariant of C93 for one matching node | partial: REFUTED by C94_stable_refuted: growing reverses chains, so with several matching nodes (the class permits duplicates) an unrelated insertion changes the node get() returns. C94_stable_partial: a key that matches exactly one node always finds it. |
| C95 The hash map grows when 13/14 of its buckets are used, and not before | invariant on rows and sizes (`roomy_all`); symbolic execution of 294591688 insertions (`too_early`) | partial: REFUTED by C95_growth_refuted: new_count * 13 overflows 32 bits from the prime 374358107 on, so a table with 441742621 buckets and 294591688 nodes grows again. C95_occupancy_partial: at most 13/14 of the buckets are used for up to 294591687 calls with memory available. |
| C96 JPEG Huffman tables are accepted exactly if the code exists | induction over the sixteen levels: a code of level i is 2^(i-16) of the weight used so far (`level_loop_ok`, `cds_aligned`, `accel_loop_ok`) | proved:  |
| C97 Reading a JPEG Huffman code returns the symbol whose code starts the stream | accelerator entries and the search over lengths both select the interval of the canonical code (`accel_loop_ok`, `search_ok`, `read_code_ok`); symbol 255 is never short (`last_long`) | proved:  |
| C98 The fast path for JPEG AC coefficients agrees with the two reads it replaces | shifted bit fields of the reader and of the 8-bit index agree (`shl_mod_div`, `fast_ok`); concrete stream for the converse | partial: REFUTED by C98_missing_bits_refuted: the fast path does not look at the number of bits in the reader, so a stream that ends inside a coefficient is accepted and bit_count wraps around. C98_fast_ac: with eight or more bits both paths agree. |
| C99 The JPEG bit reader delivers the bits of the segment in order | invariant: valid bits of the word followed by the unescaped rest are the unread bits (`holds`, `refill_ok`, `read_ok`, `exec_ok`) | proved:  |

## Findings: properties refuted by the code

Each is a theorem `*_refuted` with a witness a user of the API may pass.

* C03 `mul_overflow<int64_t>` (portable fallback) evaluates `INT64_MIN / -1`; `mul_overflow<int8_t>` on two negative operands overflows `int`.
* C16, C34 UTF-8 encoded surrogates are accepted by validation and converted to ill-formed UTF-16/32.
* C18 Latin-1 to UTF-8 without 2n bytes of space reports progress 0/0 on success; incomplete last UTF-16/32 units are dropped silently.
* C20 `append_word` above bit 16 of a word reads past the caller's word; `fill_words` clipped by the size loses bits; `resize` to heap
  storage leaves words uninitialised; `assign_words` of more than 3 words yields an empty array.
* C21 Every modify operation on a shared heap BLBitArray drops or leaves uninitialised the rest of its content; `reserve` overruns.
* C22 `has_bits_in_range` ending at a multiple of 32 reads one word too many; ranges within one later word shift by 32 or more.
* C24 `bl_array_resize` lacks the maximum-capacity check (size wraps, success without storage) and reads a fill value that points into
  the array after freeing it.
* C25 `bl_array_assign_data` sizes the new storage by the old size; `bl_array_replace_data` does not move the tail, does not check the
  capacity, and its overlap test multiplies counts of items where it needs bytes.
* C26 `modify_and_copy` (assign of at most 14 bytes to a shared heap string) fills the old handle and then installs a `newO` that was never
  initialised; `bl_string_reserve` lacks the maximum-size check (size wraps, overrun); `apply_op_format_v` writes into the spare
  room before it knows that the text fits: with a failing allocation the error leaves the text overwritten or unterminated.
* C28 growth does not always double small blocks (126 bytes gives 128).
* C29 `clamp_to_byte(INT_MIN)` = 255; signed `pmod` wrong (`pmod(-4, 3)` = 1); `rol` on 8/16-bit types loses bits.
* C30 BLRandom's period divides 1999641213840270 < 2^51 (documented 2^128 - 1); some states repeat after 3 draws.
* C31 INDEX chunks naming an unset slot decode differently from the QOI specification.
* C32 QOI files that lack one pixel are accepted.
* C35 result codes: UTF-16 copy of an odd byte count gives NO_SPACE_LEFT; `E2 41` gives DATA_TRUNCATED.
* C37 `calculate_interlace_steps` (PNG) multiplies 32-bit values without overflow checks; the image size limit is only checked after the
  inverse filter has run: a 65535 x 32769 grey+alpha header with 98303 bytes of data, or a 2^29 x 1 RGBA header with one byte of data,
  makes the filter write outside of the heap buffer.
* C38 `deinterlace_bits<2>` loses pixels in the tails of image rows 2, 4 and 6 (modulo 8); `deinterlace_bits<4>` skips a byte of pass 6 in
  every row 4 (modulo 8) when the width is 5 modulo 8, which shifts the pass for the rest of the image.
* C39 `decoder_read_info_internal` reads a chunk header behind the end of a file that consists of signature and IHDR only (33 bytes).
* C39 `advance(kPngChunkBaseSize + chunk_size)` (pngcodec.cpp:1212) adds in 32 bits: a chunk of 2^32 - 12 bytes in a file above 4 GB does
  not advance, and `read_frame` never returns.
* C40 Indexed PNG images without PLTE are decoded with the uninitialised palette of the decoder (or with that of the previous file).
* C41 `previous_pixel_buffer` is never constructed: any APNG frame with dispose operation PREVIOUS makes the decoder use an uninitialised
  BLArray.  Frame 0 with PREVIOUS never saves pixels, but frame 1 restores them.  An animation whose default image is not a frame stops
  with INVALID_DATA instead of starting over, one frame short.
* C44 A stored block after a block whose end-of-block code has fewer than 5 bits: bits that a whole-word refill left above the bit length
  survive the direct copy of the stored bytes and corrupt the next block header; the valid stream is rejected.
* C44 The fast loop assumes that a literal, a length with extra bits, a distance code and its extra bits fit in the bits of one refill; with
  long codes they do not, and a valid stream decodes to other bytes with BL_SUCCESS.
* C45 With an output that exactly fills a never-reallocate array, decode can return OUT_OF_MEMORY when a call ends inside the code of the end
  of block (the room is tested before the number of bits).
* C47 Heap overflow: the fast loop bounds its iterations by room / 8 although one iteration can emit two literals and a match; a
  valid stream whose output fits the array is written past its end (the excess grows with the array, the 1024 scratch bytes of the PNG
  decoder do not cover it).
* C47 The fast loop does not check distance entries for validity: static distance symbol 30 (or 31) makes it read past the end
  of the distance table.
* C48 `DecoderState::kDone` falls through to the growth path: decode after the end of a stream never returns (`reserve` of
  capacity that is already there succeeds without change).
* C49 Absolute RLE runs that cross the right edge of a BMP: only the visible pixels are consumed, the rest of the run is executed as commands.
* C50 Out-of-bounds write: an RLE move to the row after the last one (dy up to the height is allowed) clears the pixels left of the pen
  there; for bottom-up files that is memory before the image.
* C51 `kHeaderSizeWIN_V5` is 12 instead of 124: BMP files with a V5 header are rejected as unknown.
* C51 BMP files with a V2..V4 header, more than 8 bits and compression 0 are required to have valid channel masks, which the format only
  defines for bit fields; files with zero masks are rejected.
* C51 For more than 8 bits per pixel the compression field is not checked: a JPEG or PNG payload is decoded as raw pixels.
* C54 `validate_sub_table` reads `group_array[0]` of a format 12/13 sub-table before checking that there is a group: 8 bytes behind the table
  when such a sub-table with `count = 0` ends the table.
* C55 Format 4: `idDelta` is added also when the entry of glyphIdArray is 0; such a missing character gets glyph `idDelta` and is not counted as undefined.
* C56 Format 6: the length check uses the size of the format 10 header (20) instead of 10, every format 6 sub-table of the specified
  length is rejected.
* C56 Format 10: `first + count > 0x10FFFF` rejects tables whose last character is U+10FFFF.
* C57 The diagnostics flag `WRONG_CMAP_FORMAT` is never set: sub-tables of an unsupported format are skipped before `validate_sub_table`
  could report them.
* C58 The coverage contains whole format 4/12/13 segments, also characters whose glyph is 0.
* `bl_font_map_text_to_glyphs` with an empty glyph buffer returns without writing `state_out` (`core/font.cpp` 437); read, not modelled.
* C59 `GlobalState::fetch_add` for targets without 64-bit atomics reads `_hi` before `_lo`. A thread that stops in between and continues
  after another thread went over the threshold returns an id (a block of 256 with TLS) that was returned before.
* C60 `dst-in` with a transparent source over XRGB32 is simplified to `dst-copy` (a no-operation) instead of a fill with opaque black; `dst_in`
  over PRGB32 is right. Reached by filling with `BLRgba32(0)`, whose format becomes ZERO32.
* C60 `color-dodge` with an A8 source is simplified to `src-over`, black destination pixels become white instead of staying black.
* C61 `plus` and `linear-burn` are flagged type A (mask by scaling the source), which clamping makes false: results under partial masks differ
  from the documented interpolation. `multiply` has `kNopIfDaEq0` although it copies the source there (no code reads that flag).
* C64 `fillgeneric_p.h` 127-131: between two spans of a mask command row that do not touch, `spanAdvanceX` moves the fetcher but `dst_ptr` stays, so everything after the gap is drawn too far left. `C64_fill_mask_refuted`. Latent: no producer of mask commands leaves gaps today; the JIT filler moves the destination as well.

* C66 (not a defect today): FillAnalytic needs an unused bit behind the last pixel of every row; `L_BitScan_End` shifts by 64 and the jump from
  the gap code to `L_BitScan_Next` reads (and clears) the first word of the next row when the last bit of a row is set. The row sizes of the
  render command processor always leave such a bit (proved in C66_fill_analytic).
* C70 `bl_font_feature_settings_set_value` in SSO form compares the value with `kSSOFatFeatureTagBitMask` (255) instead of the 4-bit value mask:
  16..255 for a multi-valued feature returns success but is truncated, leaks into the value of the next feature, or (4th slot) into the size field,
  after which get_view exposes an item that was never written.
* C71 `remove_sso_fat_tag` masks the values with `tags_lsb_mask`: removing the 2nd or 3rd multi-valued feature zeroes the value of the next one.
* C72 `bl_font_feature_settings_has_value` passes the bit id (63) rather than the feature id to `find_sso_fat_tag`: false for every multi-valued
  feature that is set, and true for all multi-valued features when `cv42` (id 63) is set.
* C74 The documented `BL_ERROR_INVALID_VALUE` for values above 1 of boolean tags is not given once the object is in dynamic form.
* C77 `copy_unsafe_stops` (gradient.cpp 159) loops to `n - 1`: assigning an unsorted array (or one with three equal offsets) silently drops the stop with the greatest offset.
* C78 `bl_gradient_remove_stops_by_index` (gradient.cpp 866-876) never sets the size of the new impl: removing one stop of a gradient that has a copy removes all stops.
* C79 `replace_stop` of the first stop of a pair at the same offset is not the same as remove and add; with an invalid offset it removes the stop and then returns an error.
* C80 `bl_gradient_equals` ignores the values, so gradients with different points are equal; it compares the R flag of the object info, so a default gradient differs from an emptied one.
* C83 `bl_gradient_reserve` on a shared gradient with more than max(n, 2) stops copies past the end of the new array; near 2^60 the size wraps and reserve succeeds without capacity.
* C84 `deep_copy` clears the values that the current type does not use.
* C87 `bl_format_info_sanitize` resolves `BL_FORMAT_FLAG_BYTE_SWAP` for formats whose components stay inside of a byte by `shift = depth - shift - size`. This mirrors the bits of the pixel and is a byte swap only for components in the middle of their byte (`2 * (shift % 8) + size = 8`, for example whole bytes). The right shift is `8 * (depth / 8 - 1 - shift / 8) + shift % 8`. A byte-swapped ARGB 4444 format is accepted as success, loses the flag, and then reads red for alpha and green for blue (`C87_byte_order_refuted`, `C87_ex_4444`).
* C94 The order of nodes with equal keys in the hash map is reversed by each rehash (`C94_stable_refuted`). The class
  documents that duplicates may be inserted; which of them `get()` returns changes when unrelated nodes are inserted.
* C95 `_bucket_grow = (new_count * 13) / 14` is computed in 32 bits. The comment beside it says that the multiplication
  does not overflow, but 14 of the 129 primes are larger than 2^32 / 13 (`C95_growth_refuted`). Only speed is affected.
* C98 The branch "Fast AC" of `decoder_read_baseline_block` (jpegcodec.cpp 763-773) calls `reader.drop(s)` without `require_bits(s)`.
  A stream that ends inside a coefficient is accepted with zero bits for the missing ones, and the unsigned `bit_count` wraps around,
  after which `require_bits` does not fail any more (`C98_missing_bits_refuted`). The other branch refuses the same stream.

Code read but not turned into a theorem: `BLBitArray` append on dynamic storage lacks the `UINT32_MAX` size check; the two-argument SIMD
`cvt_prgb32/64` swizzle in `scalar_p.h` is wrong but unused.

## Assumptions per theorem

As printed by `Print Assumptions`.

Closed under the global context: `C01_adler32_correct`, `C01_adler32_incremental`, `C02_crc32_correct`, `C02_crc32_is_polynomial_remainder`, `C02_crc32_incremental`, `C03_add_overflow_exact`, `C03_sub_overflow_exact`, `C03_mul_overflow_int64_refuted`, `C03_mul_overflow_int8_refuted`, `C03_mul_overflow_exact_partial`, `C03_uadd_saturate`, `C03_usub_saturate`, `C03_umul_saturate`, `C04_align_up`, `C04_align_down`, `C04_align_up_diff`, `C04_is_aligned`, `C04_is_power_of_2`, `C04_align_up_power_of_2`, `C04_align_up_power_of_2_unrepresentable`, `C04_is_bit_mask_consecutive`, `C05_pop_count`, `C05_clz`, `C05_ctz`, `C05_harley_seal_history`, `C05_simple_counter`, `C29_clamp_refuted`, `C29_clamp_signed_partial`, `C29_clamp_unsigned`, `C29_pmod_refuted`, `C29_pmod_unsigned_partial`, `C29_rol_refuted`, `C29_rol_partial`, `C29_ror_partial`, `C06_quick_sort`, `C06_insertion_sort`, `C06_sort_integers`, `C07_lower_bound`, `C07_closest_first`, `C07_closest_last`, `C07_binary_search`, `C07_bounds_sorted`, `C08_reset_nonzero`, `C08_next_nonzero`, `C08_next_bijective`, `C08_next_uint32`, `C30_period_refuted`, `C30_full_period_refuted`, `C30_period_three_refuted`, `C30_returns_partial`, `C09_udiv255_exact`, `C09_udiv65535_exact`, `C09_udiv65535_packed_exact`, `C09_round_div_nearest`, `C09_premultiply32`, `C09_premultiply64`, `C09_premultiply_bounds`, `C10_unpremultiply_roundtrip`, `C10_unpremultiply_exact`, `C11_expand`, `C11_replicate`, `C12_round_trip_prgb32`, `C12_round_trip_xrgb32`, `C12_round_trip_a8`, `C13_encoder_bound`, `C14_decoder_safe`, `C15_decoder_spec`, `C31_any_index_refuted`, `C31_no_index_partial`, `C32_short_stream_refuted`, `C16_utf8_wellformed_refuted`, `C16_utf8_partial`, `C33_validate_exact`, `C33_validate_lengths`, `C17_transcode`, `C17_there_and_back`, `C17_encodings_injective`, `C18_progress_refuted`, `C18_consumed_refuted`, `C18_progress_partial`, `C19_bounds`, `C34_output_wellformed_refuted`, `C34_round_trip_refuted`, `C34_output_wellformed_partial`, `C35_no_space_refuted`, `C35_truncated_refuted`, `C35_codes_partial`, `C20_bit_list_refuted`, `C20_fill_words_refuted`, `C20_resize_refuted`, `C20_assign_words_refuted`, `C20_bit_list_partial`, `C21_copy_keeps_bits_refuted`, `C21_copy_uninitialized_refuted`, `C21_copy_reserve_refuted`, `C21_others_unchanged`, `C21_copies_partial`, `C22_has_bits_in_range_refuted`, `C22_single_word_range_refuted`, `C22_queries_partial`, `C22_first_last`, `C23_compare_lex`, `C23_total_order`, `C27_lifetime`, `C27_impl_fixed`, `C28_never_less`, `C28_doubles_refuted`, `C28_power_of_two_partial`, `C28_amortized`, `C24_resize_overflow_refuted`, `C24_resize_alias_refuted`, `C24_array_programs_partial`, `C25_assign_data_refuted`, `C25_replace_data_refuted`, `C25_replace_capacity_refuted`, `C25_replace_overlap_refuted`, `C25_bulk_partial`, `C24_reserve`, `C26_short_assign_refuted`, `C26_reserve_refuted`, `C26_format_oom_refuted`, `C26_format_assign_oom_refuted`, `C26_string_programs_partial`, `C26_queries`, `C26_construct`, `C26_reserve`, `C36_inverse_filter`, `C37_large_image_refuted`, `C37_wide_image_refuted`, `C37_filter_safe_partial`, `C38_2bpp_refuted`, `C38_4bpp_refuted`, `C38_decode_partial`, `C38_image_unique`, `C39_short_file_refuted`, `C39_endless_refuted`, `C39_header`, `C39_decoder_safe_partial`, `C40_missing_palette_refuted`, `C40_first_frame_partial`, `C41_dispose_previous_refuted`, `C41_default_image_refuted`, `C41_frame_pixels_partial`, `C42_litlen_table`, `C42_offset_table`, `C42_precode_table`, `C42_complete_codes`, `C43_tables_fit`, `C44_inflate_partial`, `C44_invalid_is_final_partial`, `C44_stored_after_short_code_refuted`, `C44_fast_loop_wrong_bytes_refuted`, `C45_chunking_partial`, `C45_one_call_refuted`, `C45_exact_fit_refuted`, `C46_append_only`, `C47_safe_partial`, `C47_overflow_refuted`, `C47_table_read_refuted`, `C48_invalid_stays`, `C48_done_stays_partial`, `C48_done_returns_refuted`, `C49_rle_picture_partial`, `C49_rle_meaning`, `C49_clipped_run_refuted`, `C50_rle_bounds_partial`, `C50_plain_bounds`, `C50_write_outside_refuted`, `C51_header_total`, `C51_header_sound`, `C51_header_accepts_partial`, `C51_v5_refuted`, `C51_v4_refuted`, `C51_compression_refuted`, `C52_read_frame`, `C52_decoder_sessions`, `C53_write`, `C53_round_trip`, `C54_init_safe_partial`, `C54_map_safe`, `C54_declared_length`, `C54_init_refuted`, `C55_mapping_partial`, `C55_pointwise`, `C55_missing_glyph_refuted`, `C56_accepts_partial`, `C56_format6_rejected`, `C56_format6_refuted`, `C56_format10_refuted`, `C57_selection`, `C57_flags`, `C58_coverage_partial`, `C58_coverage_refuted`, `C59_unique64`, `C59_unique32_partial`, `C59_unique32_refuted`, `C60_defined`, `C60_simplify_partial`, `C60_dst_in_refuted`, `C60_color_dodge_refuted`, `C61_type_a_partial`, `C61_plus_refuted`, `C61_linear_burn_refuted`, `C61_type_b`, `C61_uses`, `C61_nop_partial`, `C61_multiply_nop_refuted`, `C62_pixel`, `C62_alpha`, `C63_premultiplied`, `C63_mask_ends`, `C63_alpha_mask_ends`, `C63_src_over_ends`, `C64_fill_box`, `C64_fill_mask_partial`, `C64_fill_mask_refuted`, `C64_masked_box`, `C65_box_coverage`, `C65_box_mask_range`, `C65_operators`, `C66_fill_analytic`, `C66_spare_bit_needed`, `C67_fill_rules`, `C68_tag_ids`, `C68_tables_increasing`, `C68_feature_ids_injective`, `C69_valid_tag`, `C69_tag_to_ascii`, `C70_feature_map_partial`, `C70_sharers_partial`, `C70_set_value_refuted`, `C70_other_value_refuted`, `C70_size_refuted`, `C71_remove_partial`, `C71_remove_refuted`, `C72_has_value_partial`, `C72_has_value_refuted`, `C73_view_partial`, `C73_equals_partial`, `C73_shrink_partial`, `C74_boolean_partial`, `C74_boolean_refuted`, `C75_stops_sorted`, `C76_add_stop`, `C76_added_unique`, `C76_index_of_stop`, `C77_assign_conforming`, `C77_assign_partial`, `C77_assign_refuted`, `C78_remove_index_partial`, `C78_remove_offset_partial`, `C78_remove_first_partial`, `C78_remove_interval_partial`, `C78_remove_refuted`, `C79_replace_partial`, `C79_replace_refuted`, `C79_failed_refuted`, `C80_equals_partial`, `C80_values_refuted`, `C80_default_refuted`, `C81_solid_opaque`, `C82_caches`, `C82_sharers`, `C83_safe_partial`, `C83_reserve_partial`, `C83_reserve_refuted`, `C83_capacity_refuted`, `C84_rest_partial`, `C84_values_refuted`, `C85_accepts`, `C85_rejects`, `C86_result`, `C86_flags`, `C87_byte_order_exact`, `C87_byte_order_partial`, `C87_byte_order_refuted`, `C88_idempotent`, `C88_query`, `C89_table32`, `C89_table64`, `C90_stops32`, `C90_stops64`, `C91_pixels32`, `C91_pixels64`, `C91_opaque32`, `C91_opaque64`, `C92_exact_remainder`, `C93_map`, `C94_stable_refuted`, `C94_stable_partial`, `C95_growth_refuted`, `C95_occupancy_partial`, `C96_build`, `C97_prefix_free`, `C97_read_code`, `C97_total`, `C98_fast_ac`, `C98_missing_bits_refuted`, `C99_in_order`, `C99_refill_suffices`, `C100_round_trip`.

* `C08_next_double`: `ClassicalDedekindReals.sig_not_dec`, `Classical_Prop.classic` (Coq standard library)
