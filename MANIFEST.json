{
 "claims": [
  {
   "property": "C01",
   "status": "proved",
   "theorems": [
    "C01_noise_up_to_one_step_is_absorbed"
   ],
   "note": "exact real arithmetic; quantised values at least 3 away from the i64 limits"
  },
  {
   "property": "C02",
   "status": "proved",
   "theorems": [
    "C02_f64_noise_claim_refuted",
    "C02_f64_noise_outside_guard_band",
    "C02_f64_noiseless"
   ],
   "note": "refutation witness plus guard-band theorem in IEEE binary64; a nonnegative disturbed value may be as near to zero as it likes"
  },
  {
   "property": "C03",
   "status": "proved",
   "theorems": [
    "C03_exact_correction_capability",
    "C03_f64_unit_step_correction_capability",
    "C03_f64_far_features_are_not_restored"
   ],
   "note": "Exact arithmetic for every step; binary64 for step 1.0 (iff) and for every step (necessity), outside the guard band of C02."
  },
  {
   "property": "C04",
   "status": "proved",
   "theorems": [
    "C04_shape_contract",
    "C04_i64_min_panics"
   ],
   "note": ""
  },
  {
   "property": "C05",
   "status": "proved",
   "theorems": [
    "C05_meaning_of_bits",
    "C05_first_bits_determine_mod_4",
    "C05_first_bits_of_the_quantised_value",
    "C05_f64_meaning_of_bits",
    "C05_f64_unit_step_is_exact"
   ],
   "note": "Exact arithmetic and binary64."
  },
  {
   "property": "C06",
   "status": "proved",
   "theorems": [
    "C06_perturbation_bytes_roundtrip"
   ],
   "note": "vectors shorter than 2^53 bits"
  },
  {
   "property": "C07",
   "status": "proved",
   "theorems": [
    "C07_watermark_roundtrip"
   ],
   "note": ""
  },
  {
   "property": "C08",
   "status": "proved",
   "theorems": [
    "C08_watermark_serialize_domain"
   ],
   "note": ""
  },
  {
   "property": "C09",
   "status": "proved",
   "theorems": [
    "C09_watermark_parser_exact",
    "C09_reserialise"
   ],
   "note": ""
  },
  {
   "property": "C10",
   "status": "proved",
   "theorems": [
    "C10_payload_frame"
   ],
   "note": ""
  },
  {
   "property": "C100",
   "status": "proved",
   "theorems": [
    "C100_f64_pixels_beyond_the_payload_are_unchanged",
    "C100_f64_the_rest_of_the_picture_is_not_read",
    "C100_carrying_blocks_of_512",
    "C100_f64_the_lower_half_of_512_is_unchanged",
    "C100_f64_the_lower_half_of_512_is_not_read"
   ],
   "note": "Whole pictures through either front end (depth 100 or 500, 11 features, 3 levels). Unchanged pixels: for every picture for which watermark returns, also black or white ones. Not read: the received channel is any channel that agrees with the marked one on the carrying blocks up to t levels and up to the blocks the code repairs. carrying_blocks n = 8 * size of the encoded payload; 2048 at n = 512. C100_instance: white upper half, black lower half, any lower half pasted in."
  },
  {
   "property": "C101",
   "status": "proved",
   "theorems": [
    "C101_f64_upside_down_pictures_have_small_features",
    "C101_f64_any_upper_half_can_be_forged",
    "C101_f64_from_one_upside_down_picture_everything_is_forged"
   ],
   "note": "An attack proved to work, in binary64, for every donor picture with features below 3/2 (all point-symmetric pictures have features at most 1/128) and every target of any side whose upper half holds the marks (512 among them). The forger uses extract, deserialize, serialize and embed only; no signing key. C101_instance: flat colour picture as donor, stripes as target, both front ends."
  },
  {
   "property": "C102",
   "status": "proved",
   "theorems": [
    "C102_mixing_marked_colours_is_marking_the_mixture",
    "C102_exchanged_colours",
    "C102_one_colour_as_a_grey_picture"
   ],
   "note": "For every picture, LDPC library, signature scheme, equalisation and feature extractor: what comes out is bit for bit what marking the mixture gives, and each channel keeps its verdict (also panics and errors). Specification: assemble, colour. C102_instance: an even picture of three different colours through either front end, red and blue exchanged."
  },
  {
   "property": "C103",
   "status": "proved",
   "theorems": [
    "C103_f64_a_yes_means_an_issued_picture_or_a_forgery",
    "C103_f64_only_issued_pictures_are_accepted",
    "C103_f64_only_issued_colour_pictures_are_accepted"
   ],
   "note": "Soundness of the shipped scheme in binary64 for every received square picture of even side up to 65536, at every depth and level count, with 1 to 11 features; nothing is assumed about the signature library: the alternative is that the picture carries a signature accepted on a vector that was never signed. Specification: nearly_equal, issued_message, carries_no_forgery. libm accuracy is a hypothesis. C103_instance: the forged picture of C101."
  },
  {
   "property": "C104",
   "status": "proved",
   "theorems": [
    "C104_f64_freshly_chosen_bits_are_accepted",
    "C104_f64_no_bits_reach_further"
   ],
   "note": "For every feature extractor and equalisation, step 1.0, features up to 2^28; features of the received picture at least 2^-20 from the integers (0 may be approached from above). Ed25519 laws (a signature verifies) are hypotheses of the first theorem only. C104_instance: signed features 1.25, received 2.5; refused with the stored bits, accepted with fresh ones."
  },
  {
   "property": "C105",
   "status": "proved",
   "theorems": [
    "C105_f64_blocks_of_any_marked_pictures",
    "C105_which_shifts_are_harmless",
    "C105_f64_brightened_pictures_get_the_same_verdict"
   ],
   "note": "Binary64. The first theorem: every square picture, depth 1..4096, three levels, each carrying block from a marked picture of its own, with a coder that corrects e wrong bits. The last: the shipped scheme at the depths of the two front ends; hypotheses on LDPC, Ed25519 and libm as in C83; brightening is lossless (no byte leaves 0..255). C105_instance: +12 and +25 at depth 100, +50 at depth 500."
  },
  {
   "property": "C106",
   "status": "proved",
   "theorems": [
    "C106_tiled_pictures_show_one_bit",
    "C106_tiled_pictures_hold_no_data",
    "C106_no_verdict_on_tiled_pictures",
    "C106_f64_flat_pictures_kill_the_authenticator",
    "C106_f64_pictures_of_zeros_hold_no_data",
    "C106_f64_channels_of_zeros_kill_the_authenticator",
    "C106_f64_flat_channels_of_zeros",
    "C106_which_flat_pictures_show_zeros"
   ],
   "note": "The first three theorems hold in any arithmetic, at any depth and level count, for any features, keys and equalisation. The LDPC decoder is an oracle: hypothesis keeps_uniform (it leaves the all-zero word, and for the theorems about every tiled picture also the all-one word, alone). The theorems about zeros need the all-zero word only, which is a codeword of every linear code. C106_instance: every flat 512x512 picture with the toy coder."
  },
  {
   "property": "C107",
   "status": "proved",
   "theorems": [
    "C107_f64_the_program_rejects_its_own_picture",
    "C107_f64_pictures_of_one_colour_are_rejected",
    "C107_which_levels",
    "C107_how_many_levels"
   ],
   "note": "Binary64, 512x512, features_amount = 1 (a parameter of the public watermark(); the two front ends pass 11, for which the moment is of order 21 and its value on the marked picture depends on the code word), step 1.0. Hypotheses on LDPC, Ed25519 and libm as in C83. Without assuming anything about forgeries: a yes on the untouched result exhibits a second vector that the signature fits. C107_instance: the picture of level 80 at both depths."
  },
  {
   "property": "C108",
   "status": "proved",
   "theorems": [
    "C108_moved_originals_get_the_same_watermark",
    "C108_f64_moved_originals_get_the_same_watermark",
    "C108_f64_moved_originals_are_marked_without_the_key"
   ],
   "note": "Equalisation is shown to commute with the moves (it depends on pixel frequencies only), the features are invariant (C46), and watermark_channel is shown to factor into a payload computed from the features and an embedding. Instance: C108_instance, a 512 x 512 channel of four quarters and its mirror image, both front ends."
  },
  {
   "property": "C109",
   "status": "proved",
   "theorems": [
    "C109_f64_the_front_ends_can_reject_their_own_picture",
    "C109_f64_whole_pictures",
    "C109_which_levels",
    "C109_how_many_levels"
   ],
   "note": "A concrete family of pictures (a flat level with fourteen squares one level darker, 28 levels at depth 100 and 32 at depth 500) is signed by the library exactly as both front ends call it (eleven features, step 1) and the untouched result is rejected, for every key, code and grey level of the family. The moment sums are evaluated by the kernel on exact integers. In floating point the verdict is proved false when the signature fits only the signed vector; instance C109_instance."
  },
  {
   "property": "C11",
   "status": "proved",
   "theorems": [
    "C11_integer_bytes"
   ],
   "note": ""
  },
  {
   "property": "C110",
   "status": "proved",
   "theorems": [
    "C110_f64_only_the_sums_of_the_blocks_matter",
    "C110_f64_thumbnails_hold_the_watermark"
   ],
   "note": "Binary64, both front ends, square pictures of a usable size; hypotheses on LDPC, Ed25519 and libm as in C83 (corrects e for the first theorem). The first theorem subsumes the reading parts of C99, C100 and C105: it constrains only the sums of the blocks that carry data and are not among those the code repairs. Thumbnails and the enlarging are those of the specification (rounded block mean, pixel replication), not of an image library. The verdict itself depends on the half bins of the features of the received channel (C99). The instance is a flat 512x512 picture."
  },
  {
   "property": "C111",
   "status": "proved",
   "theorems": [
    "C111_f64_mixing_with_the_original"
   ],
   "note": "Binary64, both front ends, square pictures of a usable size and the stated distance from black and white; hypotheses on LDPC, Ed25519 and libm as in C83. The shares (23 and 31 percent) are sufficient, not claimed to be the largest ones. The instance mixes a marked flat 512x512 picture with its original."
  },
  {
   "property": "C112",
   "status": "proved",
   "theorems": [
    "C112_the_condition_on_the_depth_is_sharp"
   ],
   "note": "Exact arithmetic (in binary64 the coefficients of these pictures lie on the rounding ties up to noise, so nothing is claimed there). For every error-correcting code, every payload, every flat picture of even brightness and every number of levels. The received bits are exactly the complement of the stored ones; what the decoder makes of the complement is the code's business. Instance: mid-grey 128x128 picture, depth 16."
  },
  {
   "property": "C113",
   "status": "proved",
   "theorems": [
    "C113_f64_the_bits_of_a_negative",
    "C113_f64_negatives_of_marked_pictures"
   ],
   "note": "In binary64. The first theorem is for every depth, code and payload: a negative keeps (inverts) the bits of the blocks that withstand t when 16320 is within t of an odd (even) multiple of four depths. The second is for the two front ends with the colour margins of C83: for the command line the negative shows the watermark and gets a verdict decided by the half bins of the features, but the theorem does not say which verdict (equalisation of a negative is not the negative of the equalisation); for the web page every stored bit is read inverted, what the decoder makes of that is the code's business. Instances: a 512x512 picture for each front end."
  },
  {
   "property": "C114",
   "status": "proved",
   "theorems": [
    "C114_jpeg_moves_the_sum_of_a_block_by",
    "C114_jpeg_moves_the_sums_of_a_block_in_colour_by",
    "C114_f64_jpeg",
    "C114_f64_colour_jpeg"
   ],
   "note": "In binary64, both front ends, margins of C83. JPEG is modelled by its cosine transform and (in colour) the JFIF conversion over the reals (ITU-T T.81, not code of /repo), without chroma subsampling; clipping of decoded pixels to 0..255 counts as decoding error (decoder, rounding). The qualities named allow for the rounding of the final pixels only; rounding inside coder and decoder enters through the parameters. The file writer (main.rs:57-63) is the image crate's encoder, outside /repo; the theorems are about any coder that meets the stated bounds. Features of the received component may differ from those of the original: the verdict is decided by their half bins, not claimed to be authentic."
  },
  {
   "property": "C115",
   "status": "proved",
   "theorems": [
    "C115_small_depths_embed_nothing",
    "C115_f64_small_depths_embed_nothing",
    "C115_f64_small_depths_leave_the_picture",
    "C115_f64_faint_watermarks_are_none"
   ],
   "note": "Exact arithmetic for every number of levels; binary64 for up to 10 levels with 769 depth < 511 2^levels and depth >= 1/1024 (three levels: depth <= 5); whole pictures in binary64. That the call returns Ok is proved for the Zernike features of the front ends (C115_f64_faint_watermarks_are_none); the others assume Ok. Depth 6 changing pixels is a concrete example (C115_depth_6_changes_pixels)."
  },
  {
   "property": "C116",
   "status": "proved",
   "theorems": [
    "C116_f64_specks"
   ],
   "note": "In binary64, both front ends, margins of C83; one component at a time. C116_bounds shows the two sizes named, C116_instance a concrete picture. The Zernike features of the received component may differ: the verdict is the one the half bins give."
  },
  {
   "property": "C117",
   "status": "proved",
   "theorems": [
    "C117_f64_halftones"
   ],
   "note": "In binary64, both front ends, margins of C83; one component at a time. The printing and scanning themselves are not code of /repo: the theorem is about any received component with the stated numbers of white pixels. C117_instance is a concrete placement of dots."
  },
  {
   "property": "C118",
   "status": "proved",
   "theorems": [
    "C118_f64_a_block_near_a_centre_is_not_marked",
    "C118_f64_pictures_that_cannot_be_marked",
    "C118_f64_from_17_on_marks_can_be_read",
    "C118_f64_watermarking_changes_nothing",
    "C118_f64_mosaics_stay_unmarked"
   ],
   "note": "In binary64, three levels. For whole pictures with the features, step and number of features of the front ends (their depths are 100 and 500: the depth is a parameter of the library). That the call returns Ok is proved, under the hypotheses on LDPC, Ed25519 and libm of C83. Nothing is claimed about depth 16. Instances: colour512 at depth 6, a picture half black and half white at depth 15."
  },
  {
   "property": "C119",
   "status": "proved",
   "theorems": [
    "C119_large_depths_read_ones",
    "C119_f64_large_depths_read_ones",
    "C119_f64_useless_depths_read_zeros",
    "C119_f64_useless_depths_read_the_same_from_all_pictures",
    "C119_f64_depth_zero_blackens",
    "C119_f64_watermarking_with_depth_zero_blackens"
   ],
   "note": "The first theorem is in exact arithmetic for every number of levels, the others in binary64 (large depths: up to ten levels). What the decoder makes of a word of ones or zeros is the code's business: the theorems say that it is the same for all pictures. Blackening is proved for depth +0, -0 and NaN, not for infinite depths; for whole pictures with the features, step and number of features of the front ends, whose depths are 100 and 500. The upper half of 512 x 512 is C100_carrying_blocks_of_512."
  },
  {
   "property": "C12",
   "status": "proved",
   "theorems": [
    "C12_hex_codec"
   ],
   "note": ""
  },
  {
   "property": "C120",
   "status": "proved",
   "theorems": [
    "C120_f64_useless_steps_quantise_everything_alike",
    "C120_f64_useless_steps_restore_everything_alike",
    "C120_f64_useless_steps_verdict_ignores_the_picture",
    "C120_f64_useless_steps_same_verdict_on_all_pictures",
    "C120_f64_useless_steps_one_signature_for_all",
    "C120_f64_useless_steps_accept_every_picture"
   ],
   "note": "In binary64. The front ends pass step 1: the step is a parameter of the library. For step 0 the features must be positive (a feature 0 gives 0/0, read as 0; a negative one i64::MIN). That authentication does depend on the picture for ordinary steps is C37, C104 and C108. Instances: features 1.25 and 2.5, which step 1 tells apart (C104)."
  },
  {
   "property": "C121",
   "status": "proved",
   "theorems": [
    "C121_enormous_depths_print_a_bar_code",
    "C121_f64_enormous_depths_print_a_bar_code",
    "C121_f64_the_negative_of_the_bar_code_is_read",
    "C121_f64_watermarking_prints_bar_codes"
   ],
   "note": "The first theorem is in exact arithmetic for every number of levels, the others in binary64 (bar code: up to ten levels; reading and whole pictures: three). For whole pictures with the features, step and number of features of the front ends, under the hypotheses on LDPC, Ed25519 and libm of C83. What binary64 does beyond a depth of 2^20 is not claimed."
  },
  {
   "property": "C122",
   "status": "proved",
   "theorems": [
    "C122_f64_large_steps_tell_no_features_apart",
    "C122_f64_large_steps_one_signature_for_all_pictures",
    "C122_f64_large_steps_accept_every_picture"
   ],
   "note": "In binary64, with the features and equalisation of the front ends, under the hypotheses on Ed25519 and libm of C83. The front ends pass step 1: the step is a parameter of the library. 1000 is the proved bound of the features, not the largest value any picture reaches, so smaller steps may be large already; unlike C120 the bits must be the ones signed with."
  },
  {
   "property": "C123",
   "status": "proved",
   "theorems": [
    "C123_f64_scaled_sums_are_read_at_the_scaled_depth",
    "C123_f64_faded_pictures_are_read_at_the_faded_depth"
   ],
   "note": "In binary64, for three levels, with the features, step and number of features of the front ends, under the hypotheses on LDPC, Ed25519 and libm of C83. Both front ends read at one fixed depth only, so it is the library that reads faded pictures; the verdict is decided by the half bins of the features of the faded picture (C99). Contrast raised above 1 is covered by the first theorem (num above den), if nothing is cut."
  },
  {
   "property": "C124",
   "status": "proved",
   "theorems": [
    "C124_scaled_pictures_are_read_at_the_scaled_depth",
    "C124_reduced_pictures_are_read_with_fewer_levels",
    "C124_enlarged_pictures_are_read_with_more_levels",
    "C124_the_rounded_means_are_a_reduced_picture"
   ],
   "note": "In exact arithmetic, for every levels parameter of one or more (levels 0 is excluded), under the hypotheses on LDPC of C30. Both front ends read three levels at one depth only, so it is the library function that reads reduced and enlarged pictures."
  },
  {
   "property": "C13",
   "status": "proved",
   "theorems": [
    "C13_utf8_roundtrip"
   ],
   "note": ""
  },
  {
   "property": "C14",
   "status": "proved",
   "theorems": [
    "C14_encode_decode_roundtrip"
   ],
   "note": "relative to the LDPC laws"
  },
  {
   "property": "C15",
   "status": "proved",
   "theorems": [
    "C15_uncoded_never_roundtrips"
   ],
   "note": ""
  },
  {
   "property": "C16",
   "status": "proved",
   "theorems": [
    "C16_length_header_wraps",
    "C16_65536_bytes_decode_to_nothing"
   ],
   "note": ""
  },
  {
   "property": "C17",
   "status": "proved",
   "theorems": [
    "C17_encoded_size",
    "C17_unreadable_capacities"
   ],
   "note": ""
  },
  {
   "property": "C18",
   "status": "proved",
   "theorems": [
    "C18_correctable_errors"
   ],
   "note": ""
  },
  {
   "property": "C19",
   "status": "proved",
   "theorems": [
    "C19_placement_is_bijective",
    "C19_square_cells_written_and_read",
    "C19_wide_domain_collides",
    "C19_tall_domain_panics_at_bit_cols"
   ],
   "note": "Any arithmetic (record of float operations). Cell count below 2^53."
  },
  {
   "property": "C20",
   "status": "proved",
   "theorems": [
    "C20_tall_domain_panics",
    "C20_wide_domain_loses_data"
   ],
   "note": "Any arithmetic; wide domains lose every payload whose bits 0 and rows differ."
  },
  {
   "property": "C21",
   "status": "proved",
   "theorems": [
    "C21_written_bytes_are_read_back",
    "C21_bytes_behind_the_payload_are_kept",
    "C21_reading_after_writing"
   ],
   "note": "Exact real arithmetic, every positive depth; the part on the bytes behind the payload holds in every arithmetic and for every depth."
  },
  {
   "property": "C22",
   "status": "proved",
   "theorems": [
    "C22_f64_written_bytes_are_read_back",
    "C22_f64_reading_after_writing"
   ],
   "note": "binary64; depth in [2^-500,2^500], coefficients at most 2^40 depths."
  },
  {
   "property": "C23",
   "status": "proved",
   "theorems": [
    "C23_write_moves_used_cells_by_at_most_3_4_depth",
    "C23_f64_write_moves_used_cells_by_at_most_3_4_depth"
   ],
   "note": "Exact, and binary64 with 2^-11 depth of slack."
  },
  {
   "property": "C24",
   "status": "proved",
   "theorems": [
    "C24_capacity_check_is_exact"
   ],
   "note": ""
  },
  {
   "property": "C25",
   "status": "proved",
   "theorems": [
    "C25_noise_below_quarter_depth",
    "C25_f64_noise_below_quarter_depth"
   ],
   "note": "Exact, and binary64 with 2^-9 depth of slack."
  },
  {
   "property": "C26",
   "status": "proved",
   "theorems": [
    "C26_negative_depth_inverts_every_bit",
    "C26_reading_after_writing_with_negative_depth",
    "C26_f64_negative_depth_inverts_every_bit"
   ],
   "note": "Exact arithmetic and binary64."
  },
  {
   "property": "C27",
   "status": "proved",
   "theorems": [
    "C27_backward_of_forward_is_identity",
    "C27_forward_of_backward_is_identity"
   ],
   "note": "Exact arithmetic; up to 31 levels (beyond, the code's i32 power overflows)."
  },
  {
   "property": "C28",
   "status": "proved",
   "theorems": [
    "C28_low_pass_band_is_scaled_block_sum",
    "C28_f64_low_pass_band_is_nearly_the_scaled_block_sum"
   ],
   "note": "Exact arithmetic for all matrices; binary64 for 8-bit pictures and up to 10 levels, to within 2^-24 and never negative."
  },
  {
   "property": "C29",
   "status": "proved",
   "theorems": [
    "C29_f64_transform_reproduces_8bit_images"
   ],
   "note": "binary64, up to 10 levels (the library uses 3)."
  },
  {
   "property": "C30",
   "status": "proved",
   "theorems": [
    "C30_embed_then_extract_returns_the_payload"
   ],
   "note": "Exact arithmetic, 1..30 levels, relative to the LDPC laws; the saturation margin is required only of pixels in blocks that carry data."
  },
  {
   "property": "C31",
   "status": "proved",
   "theorems": [
    "C31_f64_embed_then_extract_returns_the_payload"
   ],
   "note": "binary64, up to 10 levels, depth between 65/64*2^(levels+1) and 2^20."
  },
  {
   "property": "C32",
   "status": "proved",
   "theorems": [
    "C32_pixel_change_bound",
    "C32_f64_pixel_change_bound",
    "C32_f64_pixel_change_of_the_front_ends"
   ],
   "note": "Exact; binary64; and the two front-end depths."
  },
  {
   "property": "C33",
   "status": "proved",
   "theorems": [
    "C33_unused_blocks_are_unchanged",
    "C33_f64_unused_blocks_are_unchanged"
   ],
   "note": ""
  },
  {
   "property": "C34",
   "status": "proved",
   "theorems": [
    "C34_black_image_reads_zero_bits_as_ones",
    "C34_black_image_forgets_the_payload",
    "C34_f64_black_image_reads_zero_bits_as_ones",
    "C34_f64_black_image_forgets_the_payload"
   ],
   "note": "Exact arithmetic for every depth; binary64 for depths 1..2^20 (first) and 65/64*2^(levels+1)..2^20 (second), up to 10 levels."
  },
  {
   "property": "C35",
   "status": "proved",
   "theorems": [
    "C35_embed_keeps_the_shape",
    "C35_small_domains_are_rejected"
   ],
   "note": ""
  },
  {
   "property": "C36",
   "status": "proved",
   "theorems": [
    "C36_watermarked_channel_authenticates",
    "C36_f64_watermarked_channel_authenticates"
   ],
   "note": "exact reals with noise up to one step; f64 (levels <= 10) with the guard band of C02 and for unchanged features; any feature extractor and equalisation; relative to the LDPC and Ed25519 laws"
  },
  {
   "property": "C37",
   "status": "proved",
   "theorems": [
    "C37_authentic_iff_signature_on_restored_features",
    "C37_only_images_close_to_signed_features_authenticate",
    "C37_f64_only_images_close_to_signed_features_authenticate"
   ],
   "note": "iff-characterisation for any arithmetic; consequences under unforgeability in reals and f64"
  },
  {
   "property": "C38",
   "status": "proved",
   "theorems": [
    "C38_verdict_ignores_the_text",
    "C38_text_can_be_replaced_without_the_key",
    "C38_f64_text_can_be_replaced_without_the_key"
   ],
   "note": "Exact arithmetic and binary64."
  },
  {
   "property": "C39",
   "status": "proved",
   "theorems": [
    "C39_watermarking_returns_iff_the_payload_fits",
    "C39_eleven_features",
    "C39_below_1024_only_side_512_can_authenticate",
    "C39_f64_below_1024_only_side_512_can_authenticate"
   ],
   "note": ""
  },
  {
   "property": "C40",
   "status": "proved",
   "theorems": [
    "C40_more_than_85_features_panic",
    "C40_zernike_feature_amounts",
    "C40_f64_zernike_feature_amounts",
    "C40_watermark_panics_on_inadmissible_amounts",
    "C40_f64_watermark_panics_on_inadmissible_amounts"
   ],
   "note": "for any extractor that returns the requested number of features, for the Zernike extractor over exact reals and in binary64 (every mathematical library), and for whole images in both"
  },
  {
   "property": "C41",
   "status": "proved",
   "theorems": [
    "C41_sign_then_verify",
    "C41_verify_domain",
    "C41_sign_domain",
    "C41_generated_keys_work",
    "C41_sizes"
   ],
   "note": "C41_sizes takes the sizes of Ed25519 keys and signatures as a hypothesis on the oracle."
  },
  {
   "property": "C42",
   "status": "proved",
   "theorems": [
    "C42_watermark_preserves_size_layout_and_alpha",
    "C42_watermark_returns_iff_the_channels_do"
   ],
   "note": "double precision; any colour layout including 16-bit/float inputs read through get_pixel"
  },
  {
   "property": "C43",
   "status": "proved",
   "theorems": [
    "C43_gray_result_is_the_watermarked_channel",
    "C43_luma_of_a_gray_pixel"
   ],
   "note": ""
  },
  {
   "property": "C44",
   "status": "proved",
   "theorems": [
    "C44_number_and_indices_of_features",
    "C44_degenerate_requests",
    "C44_moments_are_zernike_moments",
    "C44_f64_number_and_indices_of_features",
    "C44_f64_degenerate_requests",
    "C44_one_program_two_arithmetics"
   ],
   "note": "exact reals: all images with dim1 <= dim0, all amounts a usize can express, the moments equal the textbook formula; binary64: number and order of the features for every mathematical library, amounts up to 2^50"
  },
  {
   "property": "C45",
   "status": "proved",
   "theorems": [
    "C45_point_symmetric_images_have_zero_features",
    "C45_f64_point_symmetric_images_have_small_features"
   ],
   "note": "exact reals, all n >= 2: zero; binary64, up to 11 features and side 65536: at most 1/128, for every accurate mathematical library"
  },
  {
   "property": "C46",
   "status": "proved",
   "theorems": [
    "C46_rotation_by_90_degrees",
    "C46_mirroring",
    "C46_transposition",
    "C46_f64_rotation_mirroring_transposition"
   ],
   "note": "exact reals: equal; generators of the dihedral group; binary64 up to 11 features: within 1/64, for every accurate mathematical library"
  },
  {
   "property": "C47",
   "status": "proved",
   "theorems": [
    "C47_features_scale_and_ignore_offset",
    "C47_f64_features_scale_and_ignore_offset"
   ],
   "note": "exact reals; integer factor and offset; binary64 up to 11 features within (|factor|+1)/128"
  },
  {
   "property": "C48",
   "status": "proved",
   "theorems": [
    "C48_radial_is_the_polynomial_and_normalised",
    "C48_pixels_lie_in_the_unit_disk"
   ],
   "note": "all orders/indices of equal parity, not only odd ones"
  },
  {
   "property": "C49",
   "status": "proved",
   "theorems": [
    "C49_tall_images_are_rejected",
    "C49_f64_tall_images_are_rejected",
    "C49_f64_tall_pictures_are_rejected"
   ],
   "note": "exact reals and binary64 (every mathematical library); whole pictures taller than wide can be neither watermarked nor checked"
  },
  {
   "property": "C50",
   "status": "proved",
   "theorems": [
    "C50_factorial_of_naturals",
    "C50_factorial_of_negative_integers_does_not_return",
    "C50_factorial_of_non_integers",
    "C50_f64_factorial_of_negative_integers_does_not_return",
    "C50_f64_factorial_exact_up_to_22",
    "C50_f64_factorial_of_23_is_inexact"
   ],
   "note": "exact reals, plus f64: non-termination on negative integers, exactness up to 22!"
  },
  {
   "property": "C51",
   "status": "proved",
   "theorems": [
    "C51_f64_unit_values",
    "C51_f64_generate_stays_in_the_closed_range",
    "C51_f64_upper_end_can_be_returned",
    "C51_f64_large_seeds_repeat",
    "C51_exact_values",
    "C51_exact_period",
    "C51_reseeding_restarts_the_sequence",
    "C51_draws_advance_the_seed",
    "C51_seed_overflow"
   ],
   "note": "double precision and exact reals; 32- and 64-bit usize, checked and unchecked builds"
  },
  {
   "property": "C52",
   "status": "proved",
   "theorems": [
    "C52_only_outputs_are_touched",
    "C52_every_input_gets_its_output",
    "C52_outputs_collide_iff_names_agree",
    "C52_names_without_extension"
   ],
   "note": "file system and picture codecs are oracles; path splitting is modelled byte by byte; argument parsing is C74"
  },
  {
   "property": "C53",
   "status": "proved",
   "theorems": [
    "C53_no_suffix_no_effect",
    "C53_main_effects",
    "C53_output_is_no_folder",
    "C53_failing_input_keeps_earlier_outputs",
    "C53_unusable_input_changes_nothing",
    "C53_failed_write_loses_the_old_file"
   ],
   "note": ""
  },
  {
   "property": "C54",
   "status": "proved",
   "theorems": [
    "C54_display_is_a_truncation",
    "C54_display_is_monotone"
   ],
   "note": ""
  },
  {
   "property": "C55",
   "status": "proved",
   "theorems": [
    "C55_models_hold_four_bytes_per_pixel",
    "C55_shown_pictures_differ_little",
    "C55_undecodable_input_panics"
   ],
   "note": "image decoding is an oracle"
  },
  {
   "property": "C56",
   "status": "proved",
   "theorems": [
    "C56_index_arithmetic_exact",
    "C56_bound_is_sharp"
   ],
   "note": ""
  },
  {
   "property": "C57",
   "status": "proved",
   "theorems": [
    "C57_ragged_sizes_always_panic",
    "C57_uncoded_sizes_never_return_the_payload",
    "C57_f64_uncoded_sizes_never_return_the_payload",
    "C57_usable_sides_below_1024",
    "C57_usable_sides_from_1024"
   ],
   "note": ""
  },
  {
   "property": "C58",
   "status": "proved",
   "theorems": [
    "C58_only_the_stored_number_of_features_is_checked"
   ],
   "note": ""
  },
  {
   "property": "C59",
   "status": "proved",
   "theorems": [
    "C59_visible_change_is_bounded"
   ],
   "note": "double precision"
  },
  {
   "property": "C60",
   "status": "proved",
   "theorems": [
    "C60_every_colour_channel_of_a_watermarked_image_authenticates"
   ],
   "note": "double precision; relative to the LDPC and Ed25519 laws, any feature extractor and equalisation"
  },
  {
   "property": "C61",
   "status": "proved",
   "theorems": [
    "C61_embedding_in_closed_form",
    "C61_extraction_in_closed_form",
    "C61_f64_agrees_with_the_closed_form_off_ties"
   ],
   "note": "exact reals for every picture; binary64 (levels <= 10, depth in [1, 2^20]) off rounding ties"
  },
  {
   "property": "C62",
   "status": "proved",
   "theorems": [
    "C62_embedding_again_changes_nothing",
    "C62_a_second_payload_replaces_the_first",
    "C62_f64_embedding_again_changes_nothing",
    "C62_f64_a_second_payload_replaces_the_first"
   ],
   "note": "exact reals; binary64 (idempotence off ties)"
  },
  {
   "property": "C63",
   "status": "proved",
   "theorems": [
    "C63_small_block_changes_keep_the_payload",
    "C63_small_pixel_changes_keep_the_payload",
    "C63_f64_small_block_changes_keep_the_payload",
    "C63_f64_small_pixel_changes_keep_the_payload",
    "C63_f64_tolerance_of_the_front_ends",
    "C63_brightening_by_half_a_depth_inverts_every_bit",
    "C63_f64_brightening_by_half_a_depth_inverts_every_bit"
   ],
   "note": "exact reals and binary64; noiseless-channel LDPC law"
  },
  {
   "property": "C64",
   "status": "proved",
   "theorems": [
    "C64_slightly_changed_channel_authenticates",
    "C64_f64_slightly_changed_channel_authenticates"
   ],
   "note": "exact reals and binary64; relative to the LDPC and Ed25519 laws, any feature extractor and equalisation"
  },
  {
   "property": "C65",
   "status": "proved",
   "theorems": [
    "C65_embedding_into_a_rectangle_panics",
    "C65_wide_channels_panic",
    "C65_channels_that_are_not_square_panic",
    "C65_pictures_that_are_not_square_panic",
    "C65_f64_channels_that_are_not_square_panic",
    "C65_f64_pictures_that_are_not_square_panic"
   ],
   "note": "wide pictures: any arithmetic and extractor; high pictures: the Zernike extractor over exact reals and in binary64 (every mathematical library)"
  },
  {
   "property": "C66",
   "status": "proved",
   "theorems": [
    "C66_radial_values_are_bounded",
    "C66_features_are_stable",
    "C66_features_are_bounded",
    "C66_f64_features_are_stable",
    "C66_f64_features_are_bounded"
   ],
   "note": "exact reals: every order and picture size; binary64: up to 11 features, side up to 65536, accurate mathematical library"
  },
  {
   "property": "C67",
   "status": "proved",
   "theorems": [
    "C67_zernike_channel_authenticates",
    "C67_pixels_of_a_watermarked_channel",
    "C67_f64_zernike_channel_authenticates",
    "C67_f64_pixels_of_a_watermarked_channel",
    "C67_f64_every_colour_channel_authenticates"
   ],
   "note": "exact reals and binary64, there also for the colour channels of whole pictures; relative to the LDPC and Ed25519 laws and, in binary64, an accurate mathematical library; equalisation only assumed to map grey rasters to grey rasters of the same size"
  },
  {
   "property": "C68",
   "status": "proved",
   "theorems": [
    "C68_f64_features_are_accurate",
    "C68_f64_features_agree_between_libraries"
   ],
   "note": "binary64; the accuracy of the mathematical library is the hypothesis `accurate` (LibmSpec.v), met by exact_libm (LibmExact.v); no axiom"
  },
  {
   "property": "C69",
   "status": "proved",
   "theorems": [
    "C69_features_ignore_point_symmetric_changes",
    "C69_point_symmetric_changes_keep_the_features",
    "C69_f64_features_ignore_point_symmetric_changes",
    "C69_extraction_sees_block_totals_only",
    "C69_same_verdict",
    "C69_chessboard_keeps_the_verdict",
    "C69_f64_altered_channel_authenticates"
   ],
   "note": "equal verdicts in exact arithmetic; binary64 for watermarked channels, relative to the LDPC and Ed25519 laws and an accurate mathematical library; the chessboard theorem takes the features of the channel itself (equalisation is the identity), C69_same_verdict any equalisation"
  },
  {
   "property": "C70",
   "status": "proved",
   "theorems": [
    "C70_the_library_gets_the_bytes_of_the_file",
    "C70_other_file_types_are_refused",
    "C70_what_any_text_stands_for",
    "C70_one_reading_of_a_text",
    "C70_blanks_change_nothing"
   ],
   "note": "atob as WHATWG's forgiving-base64 decode; FileReader's data URL is the specification data_url; base64_text in PropsBase64.v is the bit-level specification of accepted texts"
  },
  {
   "property": "C71",
   "status": "proved",
   "theorems": [
    "C71_the_library_is_called_only_when_ready",
    "C71_the_last_successful_load_to_finish_is_shown",
    "C71_without_the_built_in_picture_the_page_stays_empty",
    "C71_an_older_selection_can_win",
    "C71_the_last_selection_wins_if_it_finishes_last",
    "C71_what_selected_files_load_as"
   ],
   "note": "the library is an arbitrary function that may throw; React's batching of state updates is not modelled"
  },
  {
   "property": "C72",
   "status": "proved",
   "theorems": [
    "C72_the_canvases_get_every_pixel",
    "C72_what_any_bytes_draw"
   ],
   "note": "the decoder oracle returns well-formed pictures"
  },
  {
   "property": "C73",
   "status": "proved",
   "theorems": [
    "C73_fields_of_models_persist",
    "C73_the_format_of_a_process_persists",
    "C73_a_model_given_away_is_gone",
    "C73_models_of_a_process_share_the_array_only",
    "C73_a_slice_is_private",
    "C73_the_page_gets_what_the_library_computed",
    "C73_an_array_holds_what_was_last_written",
    "C73_a_freed_process_is_gone",
    "C73_watermarked_models_share_the_array_only",
    "C73_a_process_hands_out_the_models_it_was_given",
    "C73_setters_of_a_process"
   ],
   "note": "wasm-bindgen's handles: the pointer behind an object passed by value or freed is nulled"
  },
  {
   "property": "C74",
   "status": "proved",
   "theorems": [
    "C74_arguments_mean_what_they_say",
    "C74_run",
    "C74_spelling"
   ],
   "note": "getopts 0.2 is third party code, modelled from its documented behaviour for the three options the tool declares"
  },
  {
   "property": "C75",
   "status": "proved",
   "theorems": [
    "C75_overwritten_file_is_never_read",
    "C75_input_name_is_an_output_name_iff",
    "C75_no_input_overwrites_itself",
    "C75_every_input_is_read_as_the_earlier_ones_left_it",
    "C75_an_output_that_is_a_later_input_is_watermarked_again"
   ],
   "note": "file system and picture codecs are oracles"
  },
  {
   "property": "C76",
   "status": "proved",
   "theorems": [
    "C76_equalisation_keeps_grey",
    "C76_equalised_value_is_the_share_of_darker_pixels",
    "C76_equalisation_is_monotone",
    "C76_order_determines_the_equalised_picture",
    "C76_tone_curves_keep_the_order",
    "C76_tone_curves_keep_the_features",
    "C76_same_order_same_payload_same_verdict",
    "C76_f64_tone_curves_keep_the_verdict"
   ],
   "note": "imageproc's equalize_histogram is third party code, modelled from its documented behaviour in binary32 (Equalize.v)"
  },
  {
   "property": "C77",
   "status": "proved",
   "theorems": [
    "C77_flat_rasters_become_white",
    "C77_equalisation_amplifies",
    "C77_flat_channels_have_zero_features",
    "C77_one_grey_level_can_move_a_feature_by_14"
   ],
   "note": "equalisation in binary32 as compiled; features in exact arithmetic"
  },
  {
   "property": "C78",
   "status": "proved",
   "theorems": [
    "C78_f64_a_watermark_is_tied_to_its_features",
    "C78_f64_nothing_far_from_the_original_authenticates",
    "C78_f64_tampering_beyond_the_tolerance_is_detected"
   ],
   "note": "Binary64. Cryptography enters as a reduction: the vector on which the stored signature would have to verify is named and differs from the signed one."
  },
  {
   "property": "C79",
   "status": "proved",
   "theorems": [
    "C79_a_verdict_is_returned_iff",
    "C79_f64_crafted_channels_make_the_authenticator_panic"
   ],
   "note": "The signature-length part uses the sizes of Ed25519 (standard_sizes) as a hypothesis on the oracle."
  },
  {
   "property": "C80",
   "status": "proved",
   "theorems": [
    "C80_one_line_per_completed_input",
    "C80_a_line_can_be_read_back",
    "C80_messages_without_effect",
    "C80_the_number_counts_the_values_per_pixel",
    "C80_lines_among_all_messages"
   ],
   "note": "getopts's layout of the usage screen and panic texts are not modelled; how floats, bit vectors and strings look in the library's diagnostics is an oracle."
  },
  {
   "property": "C81",
   "status": "proved",
   "theorems": [
    "C81_accepted_numbers",
    "C81_vectors_are_compared_up_to_the_actual_length",
    "C81_matrices_are_compared_where_the_actual_one_has_cells",
    "C81_complex_numbers"
   ],
   "note": "assert_approx_eq! is modelled from its documented expansion"
  },
  {
   "property": "C82",
   "status": "proved",
   "theorems": [
    "C82_nested_vectors_as_arrays",
    "C82_add"
   ],
   "note": ""
  },
  {
   "property": "C83",
   "status": "proved",
   "theorems": [
    "C83_f64_the_scheme_as_shipped",
    "C83_512_is_usable"
   ],
   "note": "imageproc's equalisation is modelled (Equalize.v); libm by its accuracy specification; LDPC and Ed25519 by their laws"
  },
  {
   "property": "C84",
   "status": "proved",
   "theorems": [
    "C84_f64_the_verdict_of_the_shipped_scheme"
   ],
   "note": "unforgeability is a hypothesis where it is needed (signs_only); the features are those the compiled extractor computes"
  },
  {
   "property": "C85",
   "status": "proved",
   "theorems": [
    "C85_embedding_forgets_the_history",
    "C85_f64_embedding_forgets_the_history"
   ],
   "note": "in binary64 for pictures off the ties of rounding; the shipped LDPC code enters by its laws"
  },
  {
   "property": "C86",
   "status": "proved",
   "theorems": [
    "C86_embedding_in_integers",
    "C86_extraction_in_integers",
    "C86_f64_embedding_in_integers",
    "C86_f64_every_block",
    "C86_f64_extraction_in_integers",
    "C86_ties_of_the_front_ends"
   ],
   "note": "exact arithmetic: no exception; binary64: every block whose sum is not a tie; on ties one of the two nearest values"
  },
  {
   "property": "C87",
   "status": "proved",
   "theorems": [
    "C87_f64_watermarking_again_and_again"
   ],
   "note": "off the ties of C86; libm, LDPC and Ed25519 by their specifications"
  },
  {
   "property": "C88",
   "status": "proved",
   "theorems": [
    "C88_f64_how_much_cutting_is_harmless",
    "C88_f64_the_shipped_scheme_with_cut_pixels",
    "C88_a_few_bright_or_dark_pixels_are_harmless",
    "C88_strongest",
    "C88_f64_dark_blocks_turn_zeros_into_ones",
    "C88_flat_dark_blocks"
   ],
   "note": "binary64; budget per 8x8 block in integers; white blocks; dark blocks; instances: white, speckled and dark pictures"
  },
  {
   "property": "C89",
   "status": "proved",
   "theorems": [
    "C89_wrong_bits_are_repaired",
    "C89_f64_destroyed_blocks_are_repaired",
    "C89_f64_painted_over_blocks_are_repaired",
    "C89_f64_the_shipped_scheme_with_destroyed_blocks"
   ],
   "note": "the number e of bits the third-party LDPC decoder repairs is a hypothesis (corrects); a single-error-correcting code with the same sizes shows it can be met; binary64 pictures"
  },
  {
   "property": "C90",
   "status": "proved",
   "theorems": [
    "C90_f64_what_another_depth_reads",
    "C90_f64_reading_at_a_fraction_of_the_depth",
    "C90_f64_at_five_times_the_depth_most_bits_are_lost",
    "C90_reading_at_a_fraction_of_the_depth",
    "C90_f64_web_pictures_are_read_at_the_command_line_depth"
   ],
   "note": "binary64 with whole depths and three levels (the shipped use), exact reals for all levels and depths"
  },
  {
   "property": "C91",
   "status": "proved",
   "theorems": [
    "C91_moved_pictures_show_moved_bits",
    "C91_f64_moved_pictures_show_moved_bits",
    "C91_f64_moved_marked_pictures"
   ],
   "note": "exact reals for all levels; binary64 with three levels and whole depths"
  },
  {
   "property": "C92",
   "status": "proved",
   "theorems": [
    "C92_f64_watermarks_can_be_copied"
   ],
   "note": "binary64; libm, LDPC and Ed25519 by their specifications"
  },
  {
   "property": "C93",
   "status": "proved",
   "theorems": [
    "C93_printing_changes_nothing",
    "C93_what_a_watermarked_channel_prints",
    "C93_what_a_watermarked_picture_prints",
    "C93_what_a_checked_channel_prints",
    "C93_how_many_lines",
    "C93_every_message_is_labelled",
    "C93_messages_give_the_payload_away",
    "C93_how_numbers_look",
    "C93_how_structures_look"
   ],
   "note": "The look of floats, bit vectors and strings in {:?} is an oracle; integers and vectors of integers are modelled and characterised by C93_how_numbers_look (specification numeral, items, bracketed)."
  },
  {
   "property": "C94",
   "status": "proved",
   "theorems": [
    "C94_output_that_holds",
    "C94_output_that_breaks",
    "C94_messages_without_a_run"
   ],
   "note": "A message (one println!) either gets through or panics; the panic text goes to standard error."
  },
  {
   "property": "C95",
   "status": "proved",
   "theorems": [
    "C95_what_is_displayed_for_a_file",
    "C95_what_the_page_displays",
    "C95_the_selected_file_is_displayed",
    "C95_the_lines_can_be_read_back"
   ],
   "note": "instance: C95_instance; specification: shows, says_format, says_size at the top of PropsPreview.v; React's rendering and the canvas element themselves are trusted"
  },
  {
   "property": "C96",
   "status": "proved",
   "theorems": [
    "C96_running_again_after_an_interruption",
    "C96_running_twice",
    "C96_an_interruption_damages_at_most_one_output",
    "C96_two_commands",
    "C96_order_of_the_inputs",
    "C96_running_twice_with_outputs_as_inputs"
   ],
   "note": "instance: C96_instance; a half-written file holds arbitrary bytes; a file system that loses completed writes on a power failure is not modelled"
  },
  {
   "property": "C97",
   "status": "proved",
   "theorems": [
    "C97_when_a_history_runs_through",
    "C97_untouched_positions",
    "C97_the_last_write_counts",
    "C97_f64_the_last_write_counts",
    "C97_writing_in_pieces",
    "C97_replacing_a_byte",
    "C97_a_reader_reads_once"
   ],
   "note": "specification: tape, fits, reads_the_tape at the top of PropsWriter.v; positions below 2^53; instance C97_instance"
  },
  {
   "property": "C98",
   "status": "proved",
   "theorems": [
    "C98_code_for_reading",
    "C98_code_for_writing",
    "C98_code_of_a_capacity",
    "C98_the_minimum_is_nine_bytes"
   ],
   "note": "instance C98_instance; get_code_for_decode and write_byte_at are not called anywhere in /repo"
  },
  {
   "property": "C99",
   "status": "proved",
   "theorems": [
    "C99_f64_the_verdict_whenever_the_watermark_is_read",
    "C99_f64_the_verdict_on_painted_over_pictures"
   ],
   "note": "specification: decided_by_half_bins, shows_watermark, painted_over; the number e of bits the LDPC decoder repairs per codeword, libm accuracy and Ed25519 laws are hypotheses; instance C99_instance"
  }
 ]
}