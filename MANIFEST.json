{
 "claims": [
  {
   "property": "C01",
   "status": "proved",
   "theorems": [
    "C01_adler32_correct",
    "C01_adler32_incremental"
   ],
   "note": "Reference implementation (adler32_update_ref); SIMD variants not modelled."
  },
  {
   "property": "C02",
   "status": "proved",
   "theorems": [
    "C02_crc32_correct",
    "C02_crc32_is_polynomial_remainder",
    "C02_crc32_incremental"
   ],
   "note": "Reference implementation; bit-serial and polynomial-remainder specifications. SIMD variants not modelled."
  },
  {
   "property": "C03",
   "status": "partial",
   "theorems": [
    "C03_add_overflow_exact",
    "C03_sub_overflow_exact",
    "C03_mul_overflow_int64_refuted",
    "C03_mul_overflow_int8_refuted",
    "C03_mul_overflow_exact_partial",
    "C03_uadd_saturate",
    "C03_usub_saturate",
    "C03_umul_saturate"
   ],
   "note": "REFUTED for mul_overflow in the portable build: int64_t fallback divides INT64_MIN by -1 (undefined) for x=-1,y=INT64_MIN; int8_t product of two negative operands overflows int after promotion. All other operand pairs, add/sub and the saturating variants are proved exact."
  },
  {
   "property": "C04",
   "status": "proved",
   "theorems": [
    "C04_align_up",
    "C04_align_down",
    "C04_align_up_diff",
    "C04_is_aligned",
    "C04_is_power_of_2",
    "C04_align_up_power_of_2",
    "C04_align_up_power_of_2_unrepresentable",
    "C04_is_bit_mask_consecutive"
   ],
   "note": "Generic word width; narrow types with integer promotion covered for is_bit_mask_consecutive."
  },
  {
   "property": "C05",
   "status": "proved",
   "theorems": [
    "C05_pop_count",
    "C05_clz",
    "C05_ctz",
    "C05_harley_seal_history",
    "C05_simple_counter"
   ],
   "note": "Portable fallbacks for 8/16/32/64-bit words; compiler intrinsics not modelled."
  },
  {
   "property": "C06",
   "status": "proved",
   "theorems": [
    "C06_quick_sort",
    "C06_insertion_sort",
    "C06_sort_integers"
   ],
   "note": "Any total preorder, any length below 2^64; includes explicit-stack bound. Comparators modelled as pure functions."
  },
  {
   "property": "C07",
   "status": "proved",
   "theorems": [
    "C07_lower_bound",
    "C07_closest_first",
    "C07_closest_last",
    "C07_binary_search",
    "C07_bounds_sorted"
   ],
   "note": "lower_bound, binary_search, binary_search_closest_first/last; generic monotone predicate and sorted integer arrays."
  },
  {
   "property": "C08",
   "status": "proved",
   "theorems": [
    "C08_reset_nonzero",
    "C08_next_nonzero",
    "C08_next_bijective",
    "C08_next_uint32",
    "C08_next_double"
   ],
   "note": "Portable next_double (SSE2 variant performs the same lane-0 operations, not modelled); binary64 via Flocq."
  },
  {
   "property": "C09",
   "status": "proved",
   "theorems": [
    "C09_udiv255_exact",
    "C09_udiv65535_exact",
    "C09_udiv65535_packed_exact",
    "C09_round_div_nearest",
    "C09_premultiply32",
    "C09_premultiply64",
    "C09_premultiply_bounds"
   ],
   "note": "Scalar code paths; SIMD variants not modelled."
  },
  {
   "property": "C10",
   "status": "proved",
   "theorems": [
    "C10_unpremultiply_roundtrip",
    "C10_unpremultiply_exact"
   ],
   "note": "All premultiplied pixels (components <= alpha); also that the result is the nearest quotient."
  },
  {
   "property": "C100",
   "status": "proved",
   "theorems": [
    "C100_round_trip"
   ],
   "note": ""
  },
  {
   "property": "C11",
   "status": "proved",
   "theorems": [
    "C11_expand",
    "C11_replicate"
   ],
   "note": "All 65536 inputs of each of the three formats."
  },
  {
   "property": "C12",
   "status": "proved",
   "theorems": [
    "C12_round_trip_prgb32",
    "C12_round_trip_xrgb32",
    "C12_round_trip_a8"
   ],
   "note": "All sizes 1..65535, all strides (also negative), all contents; image create succeeds is assumed."
  },
  {
   "property": "C13",
   "status": "proved",
   "theorems": [
    "C13_encoder_bound"
   ],
   "note": "write_frame in the model is UB when the output outgrows max_size; holds for non-premultiplied PRGB32 content too."
  },
  {
   "property": "C14",
   "status": "proved",
   "theorems": [
    "C14_decoder_safe"
   ],
   "note": "Out-of-bounds reads and writes are UB in the model; the theorem excludes UB and fuel exhaustion for every byte string."
  },
  {
   "property": "C15",
   "status": "proved",
   "theorems": [
    "C15_decoder_spec"
   ],
   "note": "Streams following the reference encoder discipline (index_ok); see C31 for arbitrary index chunks."
  },
  {
   "property": "C16",
   "status": "partial",
   "theorems": [
    "C16_utf8_wellformed_refuted",
    "C16_utf8_partial"
   ],
   "note": "REFUTED: UTF-8 encoded surrogates (e.g. ED A0 80) are accepted. Everything else of the claim is proved (C16_utf8_partial)."
  },
  {
   "property": "C17",
   "status": "proved",
   "theorems": [
    "C17_transcode",
    "C17_there_and_back",
    "C17_encodings_injective"
   ],
   "note": "All Unicode texts (sequences of scalar values; Latin-1: 0..255), all supported pairs, every sufficient capacity. Ill-formed sources: see C34."
  },
  {
   "property": "C18",
   "status": "partial",
   "theorems": [
    "C18_progress_refuted",
    "C18_consumed_refuted",
    "C18_progress_partial"
   ],
   "note": "REFUTED twice: Latin-1 to UTF-8 without 2n bytes of space reports indexes 0/0 on success; UTF-16/32 sources with an incomplete last unit succeed without consuming it. The rest is proved."
  },
  {
   "property": "C19",
   "status": "proved",
   "theorems": [
    "C19_bounds"
   ],
   "note": "All pairs, sources and capacities."
  },
  {
   "property": "C20",
   "status": "partial",
   "theorems": [
    "C20_bit_list_refuted",
    "C20_fill_words_refuted",
    "C20_resize_refuted",
    "C20_assign_words_refuted",
    "C20_bit_list_partial"
   ],
   "note": "REFUTED: append_word at an offset above 16 in its word reads past the caller buffer; fill_words clipped by the size loses bits; resize to heap storage leaves words uninitialized; assign_words of more than 3 words yields an empty array. C20_bit_list_partial proves the claim for programs avoiding exactly these calls."
  },
  {
   "property": "C21",
   "status": "partial",
   "theorems": [
    "C21_copy_keeps_bits_refuted",
    "C21_copy_uninitialized_refuted",
    "C21_copy_reserve_refuted",
    "C21_others_unchanged",
    "C21_copies_partial"
   ],
   "note": "REFUTED: set_bit (and every modify operation) on a shared heap array drops or leaves uninitialized the rest of its content; reserve on a shared array overruns. C21_others_unchanged (no other handle is ever affected) holds without restriction; C21_copies_partial covers programs over any number of handles that modify bits only through unshared handles."
  },
  {
   "property": "C22",
   "status": "partial",
   "theorems": [
    "C22_has_bits_in_range_refuted",
    "C22_single_word_range_refuted",
    "C22_queries_partial",
    "C22_first_last"
   ],
   "note": "REFUTED: has_bits_in_range ending at a multiple of 32 reads one word too many; ranges within one word other than the first shift by 32 or more (also cardinality_in_range). subsumes, intersects, get_range proved for all arrays, the rest in C22_queries_partial."
  },
  {
   "property": "C23",
   "status": "proved",
   "theorems": [
    "C23_compare_lex",
    "C23_total_order"
   ],
   "note": "All pairs of well-formed arrays in any storage."
  },
  {
   "property": "C24",
   "status": "partial",
   "theorems": [
    "C24_resize_overflow_refuted",
    "C24_resize_alias_refuted",
    "C24_array_programs_partial",
    "C24_reserve"
   ],
   "note": "C24_reserve: a successful reserve leaves unshared storage with room. REFUTED: resize(n) with n*item_size beyond 2^64 reports success without storage; resize with a fill value inside of the array reads freed memory. C24_array_programs_partial: programs of any length over any number of handles without these calls (POD items of 1..32 bytes)."
  },
  {
   "property": "C25",
   "status": "partial",
   "theorems": [
    "C25_assign_data_refuted",
    "C25_replace_data_refuted",
    "C25_replace_capacity_refuted",
    "C25_replace_overlap_refuted",
    "C25_bulk_partial"
   ],
   "note": "REFUTED: assign_data of more items than the array has overruns the new storage; replace_data does not move the tail, does not check the capacity and mixes bytes with items in its overlap test. C25_bulk_partial covers the calls that avoid these paths."
  },
  {
   "property": "C26",
   "status": "partial",
   "theorems": [
    "C26_short_assign_refuted",
    "C26_reserve_refuted",
    "C26_format_oom_refuted",
    "C26_format_assign_oom_refuted",
    "C26_string_programs_partial",
    "C26_queries",
    "C26_construct",
    "C26_reserve"
   ],
   "note": "C26_reserve: a successful reserve leaves unshared storage with room. REFUTED: assigning a short text to a string with shared storage replaces it by an uninitialised variable; reserve(SIZE_MAX) overruns; formatting without memory damages the text although it reports the error. C26_string_programs_partial: programs of any length over any number of handles without these calls; queries and construction hold for all strings."
  },
  {
   "property": "C27",
   "status": "proved",
   "theorems": [
    "C27_lifetime",
    "C27_impl_fixed"
   ],
   "note": "Sequential histories of the atomic operations."
  },
  {
   "property": "C28",
   "status": "partial",
   "theorems": [
    "C28_never_less",
    "C28_doubles_refuted",
    "C28_power_of_two_partial",
    "C28_amortized"
   ],
   "note": "REFUTED for \"at least doubles\" (126 bytes requested gives 128). Never-less, 37.5% growth above the limit and the amortized bound (at most 6 bytes moved per byte stored) are proved."
  },
  {
   "property": "C29",
   "status": "partial",
   "theorems": [
    "C29_clamp_refuted",
    "C29_clamp_signed_partial",
    "C29_clamp_unsigned",
    "C29_pmod_refuted",
    "C29_pmod_unsigned_partial",
    "C29_rol_refuted",
    "C29_rol_partial",
    "C29_ror_partial"
   ],
   "note": "REFUTED: clamp_to_byte(INT_MIN)=255; signed pmod wrong (pmod(-4,3)=1); rol on 8/16-bit types loses bits. Proved for all other clamp inputs, unsigned pmod, 32/64-bit rotations."
  },
  {
   "property": "C30",
   "status": "partial",
   "theorems": [
    "C30_period_refuted",
    "C30_full_period_refuted",
    "C30_period_three_refuted",
    "C30_returns_partial"
   ],
   "note": "REFUTED: every state returns to itself after 1999641213840270 (< 2^51) draws, some non-zero states after 3; the code shifts data[1] before storing it to data[0], which is not XORSHIFT+."
  },
  {
   "property": "C31",
   "status": "partial",
   "theorems": [
    "C31_any_index_refuted",
    "C31_no_index_partial"
   ],
   "note": "REFUTED: an INDEX chunk naming an unset slot does not re-store the transparent pixel in slot 0, so a later INDEX 0 decodes to a different pixel. The partial theorem covers streams without INDEX chunks, C15 those with the encoder discipline."
  },
  {
   "property": "C32",
   "status": "partial",
   "theorems": [
    "C32_short_stream_refuted"
   ],
   "note": "REFUTED: the second half of an INDEX pair may consume the first byte of the end marker, so a file lacking one pixel is accepted."
  },
  {
   "property": "C33",
   "status": "proved",
   "theorems": [
    "C33_validate_exact",
    "C33_validate_lengths"
   ],
   "note": "Lengths below 2^63 bytes."
  },
  {
   "property": "C34",
   "status": "partial",
   "theorems": [
    "C34_output_wellformed_refuted",
    "C34_round_trip_refuted",
    "C34_output_wellformed_partial"
   ],
   "note": "REFUTED for UTF-8 sources containing encoded surrogates; proved for all other source encodings."
  },
  {
   "property": "C35",
   "status": "partial",
   "theorems": [
    "C35_no_space_refuted",
    "C35_truncated_refuted",
    "C35_codes_partial"
   ],
   "note": "REFUTED: UTF-16 copy of an odd number of bytes reports NO_SPACE_LEFT; E2 41 reports DATA_TRUNCATED. The rest is proved."
  },
  {
   "property": "C36",
   "status": "proved",
   "theorems": [
    "C36_inverse_filter"
   ],
   "note": "Portable filters; the SIMD variants are not modelled."
  },
  {
   "property": "C37",
   "status": "partial",
   "theorems": [
    "C37_large_image_refuted",
    "C37_wide_image_refuted",
    "C37_filter_safe_partial"
   ],
   "note": "REFUTED: calculate_interlace_steps does not check w*sample_depth and bpl*h for overflow: 65535x32769 grey+alpha wraps to 98303 bytes, 2^29x1 RGBA to 1 byte, and the inverse filter then runs outside of the buffer. C37_filter_safe_partial: width below 2^28 and data below 4 GB."
  },
  {
   "property": "C38",
   "status": "partial",
   "theorems": [
    "C38_2bpp_refuted",
    "C38_4bpp_refuted",
    "C38_decode_partial",
    "C38_image_unique"
   ],
   "note": "REFUTED: interlaced 2 bpp images (tails of rows 2, 4 and 6 modulo 8) and 4 bpp images of width 5 modulo 8 get wrong pixels. C38_decode_partial: all other images (interlace_sound), any size below the limits of C37."
  },
  {
   "property": "C39",
   "status": "partial",
   "theorems": [
    "C39_short_file_refuted",
    "C39_endless_refuted",
    "C39_header",
    "C39_decoder_safe_partial"
   ],
   "note": "REFUTED: a file that ends with its IHDR chunk (33 bytes) makes read_info read outside of the file; in a file above 4 GB a chunk of 2^32-12 bytes makes read_frame loop forever (32-bit step). C39_header is proved in full for files not cut off after the header; C39_decoder_safe_partial: all call sequences over files up to 4 GB that are long enough, have no dispose-previous frame and respect the limits of C37/C38 (file_ok)."
  },
  {
   "property": "C40",
   "status": "partial",
   "theorems": [
    "C40_missing_palette_refuted",
    "C40_first_frame_partial"
   ],
   "note": "REFUTED: an indexed image without PLTE is accepted and uses the uninitialised palette. C40_first_frame_partial: everything else, for all files with file_ok."
  },
  {
   "property": "C41",
   "status": "partial",
   "theorems": [
    "C41_dispose_previous_refuted",
    "C41_default_image_refuted",
    "C41_frame_pixels_partial"
   ],
   "note": "REFUTED: dispose-previous uses a BLArray that was never constructed (UB) and an animation whose default image is not a frame stops with INVALID_DATA. C41_frame_pixels_partial: pixels of every later frame in every reachable state; blending of frames with blend_op OVER is not implemented by the library."
  },
  {
   "property": "C42",
   "status": "proved",
   "theorems": [
    "C42_litlen_table",
    "C42_offset_table",
    "C42_precode_table",
    "C42_complete_codes"
   ],
   "note": "Three tables, against the canonical code of RFC 1951 3.2.2. The merged entries of build_fast_table are not part of this claim."
  },
  {
   "property": "C43",
   "status": "proved",
   "theorems": [
    "C43_tables_fit"
   ],
   "note": ""
  },
  {
   "property": "C44",
   "status": "partial",
   "theorems": [
    "C44_inflate_partial",
    "C44_invalid_is_final_partial",
    "C44_stored_after_short_code_refuted",
    "C44_fast_loop_wrong_bytes_refuted"
   ],
   "note": "REFUTED: (1) a valid stream in which a stored block follows a block with an end-of-block code below 5 bits is rejected; (2) a call of 176 bytes or more (fast loop) decodes a valid stream to wrong bytes with success. C44_inflate_partial: everything else in full for calls below 176 bytes and streams outside of (1) without distance codes for symbols 30/31 (plain), all inputs valid or not."
  },
  {
   "property": "C45",
   "status": "partial",
   "theorems": [
    "C45_chunking_partial",
    "C45_one_call_refuted",
    "C45_exact_fit_refuted"
   ],
   "note": "REFUTED: the fast loop of larger calls overruns the array on a stream that small calls decode; an output that fills the array exactly can give OUT_OF_MEMORY depending on the cut. C45_chunking_partial: all cuts into calls below 176 bytes, plain streams."
  },
  {
   "property": "C46",
   "status": "proved",
   "theorems": [
    "C46_append_only"
   ],
   "note": "Includes the fast loop and every invalid input. About runs that do not reach undefined behaviour (see C47)."
  },
  {
   "property": "C47",
   "status": "partial",
   "theorems": [
    "C47_safe_partial",
    "C47_overflow_refuted",
    "C47_table_read_refuted"
   ],
   "note": "REFUTED: the fast loop writes past the end of the array on a valid stream whose output fits, and reads past the end of the distance table for static distance symbol 30. C47_safe_partial: calls below 176 bytes on plain streams; C43 covers the table construction for all inputs."
  },
  {
   "property": "C48",
   "status": "partial",
   "theorems": [
    "C48_invalid_stays",
    "C48_done_stays_partial",
    "C48_done_returns_refuted"
   ],
   "note": "REFUTED: after the end of the stream decode never returns if reserve succeeds. C48_invalid_stays holds in full; C48_done_stays_partial for arrays that must not be reallocated."
  },
  {
   "property": "C49",
   "status": "partial",
   "theorems": [
    "C49_rle_picture_partial",
    "C49_rle_meaning",
    "C49_clipped_run_refuted"
   ],
   "note": "REFUTED by C49_clipped_run_refuted: an absolute run that crosses the right edge leaves its unread bytes to be read as commands. C49_rle_picture_partial: every stream without such a run and without a move through the last row with the pen not in column 0 (see C50)."
  },
  {
   "property": "C50",
   "status": "partial",
   "theorems": [
    "C50_rle_bounds_partial",
    "C50_plain_bounds",
    "C50_write_outside_refuted"
   ],
   "note": "REFUTED by C50_write_outside_refuted: a move to the row after the last one clears pixels there, before the image for bottom-up files. C50_rle_bounds_partial: every stream stays inside of memory that has one more row; C50_plain_bounds: plain streams stay inside of the image."
  },
  {
   "property": "C51",
   "status": "partial",
   "theorems": [
    "C51_header_total",
    "C51_header_sound",
    "C51_header_accepts_partial",
    "C51_v5_refuted",
    "C51_v4_refuted",
    "C51_compression_refuted"
   ],
   "note": "REFUTED: 124-byte headers are rejected (the constant is 12), 108-byte headers with compression 0 and zero masks are rejected, unknown compressions of 16/24/32-bit files are read as raw pixels. Totality and soundness (C51_header_total, C51_header_sound) in full; C51_header_accepts_partial for the rest."
  },
  {
   "property": "C52",
   "status": "proved",
   "theorems": [
    "C52_read_frame",
    "C52_decoder_sessions"
   ],
   "note": "Files that are not RLE-compressed (see C49, C50); the pixel converter and image allocation are parameters with stated contracts."
  },
  {
   "property": "C53",
   "status": "proved",
   "theorems": [
    "C53_write",
    "C53_round_trip"
   ],
   "note": "The pixel converter is a parameter that must do three conversions (converter_ok). A8 images of more than 2^29 pixels can be written but not read back: the decoded 32-bit image would exceed the size limit."
  },
  {
   "property": "C54",
   "status": "partial",
   "theorems": [
    "C54_init_safe_partial",
    "C54_map_safe",
    "C54_declared_length",
    "C54_init_refuted"
   ],
   "note": "REFUTED by C54_init_refuted: a format 12/13 sub-table without groups at the end of the table makes validation read the first group behind the table. C54_init_safe_partial: every other table; C54_map_safe: mapping and coverage in full."
  },
  {
   "property": "C55",
   "status": "partial",
   "theorems": [
    "C55_mapping_partial",
    "C55_pointwise",
    "C55_missing_glyph_refuted"
   ],
   "note": "REFUTED by C55_missing_glyph_refuted: in format 4 idDelta is added also to a glyphIdArray entry 0 (missing glyph). C55_mapping_partial: every character but those and U+FFFF (format 4); C55_pointwise: independence of neighbours and mapping state for all texts."
  },
  {
   "property": "C56",
   "status": "partial",
   "theorems": [
    "C56_accepts_partial",
    "C56_format6_rejected",
    "C56_format6_refuted",
    "C56_format10_refuted"
   ],
   "note": "REFUTED: no well-formed format 6 sub-table is accepted (C56_format6_rejected, C56_format6_refuted), nor format 10 up to U+10FFFF (C56_format10_refuted). C56_accepts_partial: formats 0, 4, 10 (below U+10FFFF), 12, 13 (at most 0x10FFFF groups)."
  },
  {
   "property": "C57",
   "status": "proved",
   "theorems": [
    "C57_selection",
    "C57_flags"
   ],
   "note": "usable includes that validation succeeds; which sub-tables that are is C56."
  },
  {
   "property": "C58",
   "status": "partial",
   "theorems": [
    "C58_coverage_partial",
    "C58_coverage_refuted"
   ],
   "note": "REFUTED by C58_coverage_refuted: a whole segment is reported although its glyphIdArray holds 0. C58_coverage_partial: contains every mapped character, exact for formats 0, 6, 10, union of the segments otherwise."
  },
  {
   "property": "C59",
   "status": "partial",
   "theorems": [
    "C59_unique64",
    "C59_unique32_partial",
    "C59_unique32_refuted"
   ],
   "note": "REFUTED for targets without 64-bit atomics by C59_unique32_refuted (old high part combined with a low part after the threshold was cleared). C59_unique64: full statement with 64-bit atomics. C59_unique32_partial: 32-bit atomics before the threshold. Sequentially consistent atomics, as in the code."
  },
  {
   "property": "C60",
   "status": "partial",
   "theorems": [
    "C60_defined",
    "C60_simplify_partial",
    "C60_dst_in_refuted",
    "C60_color_dodge_refuted"
   ],
   "note": "REFUTED twice: dst-in of a transparent source over XRGB32 is a no-operation (C60_dst_in_refuted), color-dodge of an A8 source paints black pixels white (C60_color_dodge_refuted). C60_simplify_partial: every other entry. Exact arithmetic (rationals), not the rounding of the pipelines."
  },
  {
   "property": "C61",
   "status": "partial",
   "theorems": [
    "C61_type_a_partial",
    "C61_plus_refuted",
    "C61_linear_burn_refuted",
    "C61_type_b",
    "C61_uses",
    "C61_nop_partial",
    "C61_multiply_nop_refuted"
   ],
   "note": "REFUTED: plus and linear burn are not type A (C61_plus_refuted, C61_linear_burn_refuted), multiply is not a no-operation over a transparent destination (C61_multiply_nop_refuted). C61_type_a_partial, C61_nop_partial: everything else; C61_type_b, C61_uses in full."
  },
  {
   "property": "C62",
   "status": "proved",
   "theorems": [
    "C62_pixel",
    "C62_alpha"
   ],
   "note": "PRGB32 and A8 pixels, SrcCopy, SrcOver and Plus of the reference pipelines."
  },
  {
   "property": "C63",
   "status": "proved",
   "theorems": [
    "C63_premultiplied",
    "C63_mask_ends",
    "C63_alpha_mask_ends",
    "C63_src_over_ends"
   ],
   "note": "As C62."
  },
  {
   "property": "C64",
   "status": "partial",
   "theorems": [
    "C64_fill_box",
    "C64_fill_mask_partial",
    "C64_fill_mask_refuted",
    "C64_masked_box"
   ],
   "note": "REFUTED for spans with a gap between them by C64_fill_mask_refuted: the reference filler skips the gap in the fetcher only, not in the destination (no caller emits such commands today; the JIT filler moves both). C64_fill_box, C64_masked_box in full, C64_fill_mask_partial for spans without gaps."
  },
  {
   "property": "C65",
   "status": "proved",
   "theorems": [
    "C65_box_coverage",
    "C65_box_mask_range",
    "C65_operators"
   ],
   "note": "Fetchers are abstract: the source pixel is a function of the position."
  },
  {
   "property": "C66",
   "status": "proved",
   "theorems": [
    "C66_fill_analytic",
    "C66_spare_bit_needed"
   ],
   "note": "64-bit words in LSB order (x86-64). C66_spare_bit_needed shows that the spare bit which the row sizes leave behind the last pixel is necessary: without it the filler shifts a word by its size."
  },
  {
   "property": "C67",
   "status": "proved",
   "theorems": [
    "C67_fill_rules"
   ],
   "note": "fill_mask_of is linked to the code by C66_fill_analytic."
  },
  {
   "property": "C68",
   "status": "proved",
   "theorems": [
    "C68_tag_ids",
    "C68_tables_increasing",
    "C68_feature_ids_injective"
   ],
   "note": "Tables are transcribed from fonttagdataids.cpp."
  },
  {
   "property": "C69",
   "status": "proved",
   "theorems": [
    "C69_valid_tag",
    "C69_tag_to_ascii"
   ],
   "note": "32-bit tags."
  },
  {
   "property": "C70",
   "status": "partial",
   "theorems": [
    "C70_feature_map_partial",
    "C70_sharers_partial",
    "C70_set_value_refuted",
    "C70_other_value_refuted",
    "C70_size_refuted"
   ],
   "note": "REFUTED: C70_set_value_refuted, C70_other_value_refuted, C70_size_refuted. In SSO form set_value compares with the 8-bit tag mask instead of the 4-bit value mask, so 16..255 for a multi-valued feature is truncated, leaks into the next value, or into the size. C70_feature_map_partial and C70_sharers_partial hold for all sequences without such calls and without the removals of C71."
  },
  {
   "property": "C71",
   "status": "partial",
   "theorems": [
    "C71_remove_partial",
    "C71_remove_refuted"
   ],
   "note": "REFUTED by C71_remove_refuted: remove_sso_fat_tag masks the values with the mask for tags. C71_remove_partial: all other removals."
  },
  {
   "property": "C72",
   "status": "partial",
   "theorems": [
    "C72_has_value_partial",
    "C72_has_value_refuted"
   ],
   "note": "REFUTED by C72_has_value_refuted: has_value passes the bit id rather than the feature id to the search. C72_has_value_partial: every tag that is not multi-valued and every object in dynamic form."
  },
  {
   "property": "C73",
   "status": "partial",
   "theorems": [
    "C73_view_partial",
    "C73_equals_partial",
    "C73_shrink_partial"
   ],
   "note": "Proved for the sequences of C70_feature_map_partial; beyond them C70_size_refuted has a view with an unwritten item."
  },
  {
   "property": "C74",
   "status": "partial",
   "theorems": [
    "C74_boolean_partial",
    "C74_boolean_refuted"
   ],
   "note": "REFUTED by C74_boolean_refuted for objects in dynamic form; C74_boolean_partial for SSO form."
  },
  {
   "property": "C75",
   "status": "proved",
   "theorems": [
    "C75_stops_sorted"
   ],
   "note": "Invariant over all call sequences (reach), including copies and failed allocations."
  },
  {
   "property": "C76",
   "status": "proved",
   "theorems": [
    "C76_add_stop",
    "C76_added_unique",
    "C76_index_of_stop"
   ],
   "note": "C76_added_unique: the specification determines the result."
  },
  {
   "property": "C77",
   "status": "partial",
   "theorems": [
    "C77_assign_conforming",
    "C77_assign_partial",
    "C77_assign_refuted"
   ],
   "note": "REFUTED by C77_assign_refuted: copy_unsafe_stops visits only n - 1 of the n sorted stops (gradient.cpp 159), the greatest one is lost. C77_assign_conforming is full for conforming arrays; C77_assign_partial says exactly what is kept of the others."
  },
  {
   "property": "C78",
   "status": "partial",
   "theorems": [
    "C78_remove_index_partial",
    "C78_remove_offset_partial",
    "C78_remove_first_partial",
    "C78_remove_interval_partial",
    "C78_remove_refuted"
   ],
   "note": "REFUTED by C78_remove_refuted: when the object is shared, the size of the new impl is never set (gradient.cpp 866-876), so all stops are lost. The _partial theorems are complete for objects that are not shared."
  },
  {
   "property": "C79",
   "status": "partial",
   "theorems": [
    "C79_replace_partial",
    "C79_replace_refuted",
    "C79_failed_refuted"
   ],
   "note": "REFUTED by C79_replace_refuted (first stop of a pair keeps its place) and C79_failed_refuted (an invalid offset removes the stop and then fails). C79_replace_partial: all other cases of objects that are not shared."
  },
  {
   "property": "C80",
   "status": "partial",
   "theorems": [
    "C80_equals_partial",
    "C80_values_refuted",
    "C80_default_refuted"
   ],
   "note": "REFUTED by C80_values_refuted (values are not compared) and C80_default_refuted (the flag of static impls in the object info is compared). C80_equals_partial says exactly what is compared."
  },
  {
   "property": "C81",
   "status": "proved",
   "theorems": [
    "C81_solid_opaque"
   ],
   "note": ""
  },
  {
   "property": "C82",
   "status": "proved",
   "theorems": [
    "C82_caches",
    "C82_sharers"
   ],
   "note": ""
  },
  {
   "property": "C83",
   "status": "partial",
   "theorems": [
    "C83_safe_partial",
    "C83_reserve_partial",
    "C83_reserve_refuted",
    "C83_capacity_refuted"
   ],
   "note": "REFUTED by C83_reserve_refuted: reserve(n) of a shared gradient with more than max(n, 2) stops copies all stops into the smaller array; C83_capacity_refuted: the impl size wraps for n near 2^60. C83_safe_partial covers all other calls."
  },
  {
   "property": "C84",
   "status": "partial",
   "theorems": [
    "C84_rest_partial",
    "C84_values_refuted"
   ],
   "note": "REFUTED by C84_values_refuted: deep_copy keeps only the values used by the current type. C84_rest_partial: everything else, and the values used by the type."
  },
  {
   "property": "C85",
   "status": "proved",
   "theorems": [
    "C85_accepts",
    "C85_rejects"
   ],
   "note": ""
  },
  {
   "property": "C86",
   "status": "proved",
   "theorems": [
    "C86_result",
    "C86_flags"
   ],
   "note": ""
  },
  {
   "property": "C87",
   "status": "partial",
   "theorems": [
    "C87_byte_order_exact",
    "C87_byte_order_partial",
    "C87_byte_order_refuted"
   ],
   "note": "REFUTED by C87_byte_order_refuted: a byte-swapped 4444 format is accepted and its components are exchanged within the bytes. C87_byte_order_exact gives the exact condition under which pixels are read alike; C87_byte_order_partial: whole bytes."
  },
  {
   "property": "C88",
   "status": "proved",
   "theorems": [
    "C88_idempotent",
    "C88_query"
   ],
   "note": ""
  },
  {
   "property": "C89",
   "status": "proved",
   "theorems": [
    "C89_table32",
    "C89_table64"
   ],
   "note": ""
  },
  {
   "property": "C90",
   "status": "proved",
   "theorems": [
    "C90_stops32",
    "C90_stops64"
   ],
   "note": ""
  },
  {
   "property": "C91",
   "status": "proved",
   "theorems": [
    "C91_pixels32",
    "C91_pixels64",
    "C91_opaque32",
    "C91_opaque64"
   ],
   "note": ""
  },
  {
   "property": "C92",
   "status": "proved",
   "theorems": [
    "C92_exact_remainder"
   ],
   "note": ""
  },
  {
   "property": "C93",
   "status": "proved",
   "theorems": [
    "C93_map"
   ],
   "note": ""
  },
  {
   "property": "C94",
   "status": "partial",
   "theorems": [
    "C94_stable_refuted",
    "C94_stable_partial"
   ],
   "note": "REFUTED by C94_stable_refuted: growing reverses chains, so with several matching nodes (the class permits duplicates) an unrelated insertion changes the node get() returns. C94_stable_partial: a key that matches exactly one node always finds it."
  },
  {
   "property": "C95",
   "status": "partial",
   "theorems": [
    "C95_growth_refuted",
    "C95_occupancy_partial"
   ],
   "note": "REFUTED by C95_growth_refuted: new_count * 13 overflows 32 bits from the prime 374358107 on, so a table with 441742621 buckets and 294591688 nodes grows again. C95_occupancy_partial: at most 13/14 of the buckets are used for up to 294591687 calls with memory available."
  },
  {
   "property": "C96",
   "status": "proved",
   "theorems": [
    "C96_build"
   ],
   "note": ""
  },
  {
   "property": "C97",
   "status": "proved",
   "theorems": [
    "C97_prefix_free",
    "C97_read_code",
    "C97_total"
   ],
   "note": ""
  },
  {
   "property": "C98",
   "status": "partial",
   "theorems": [
    "C98_fast_ac",
    "C98_missing_bits_refuted"
   ],
   "note": "REFUTED by C98_missing_bits_refuted: the fast path does not look at the number of bits in the reader, so a stream that ends inside a coefficient is accepted and bit_count wraps around. C98_fast_ac: with eight or more bits both paths agree."
  },
  {
   "property": "C99",
   "status": "proved",
   "theorems": [
    "C99_in_order",
    "C99_refill_suffices"
   ],
   "note": ""
  }
 ]
}
