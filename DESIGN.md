# Formal model of Zhuvikin/sia-watermarking-rust in Rocq (Coq 8.16.1)

## Approach

* The Rust code is transcribed function by function into total Gallina functions. A panic is an explicit value
  (`Panic reason`); behaviour that depends on a violated precondition of a third-party crate is `Outside` (the model
  claims nothing about it). Every definition cites the file and lines it models and says what is simplified.
* f64 arithmetic is transcribed once, over a record `FOps` of the operations the code uses (`Floats.v`), and instantiated
  twice: `Rops` (exact reals) and `Bops` (IEEE-754 binary64 of Flocq, round to nearest even, NaN and infinities included,
  executable). A theorem named `..._f64_...` or stated at `Bops` is about what the program computes; one at `Rops` is the
  idealised reading and says so. Index arithmetic the code routes through f64 is always the binary64 one (`IndexArith.v`).
* Third-party code (LDPC, Ed25519, histogram equalisation, picture decoders and encoders, the file system, getopts,
  the gamma function) is passed as an argument; what is assumed about it is a hypothesis of the theorem that needs it.
* Statements use a small vocabulary defined next to them (`Props*.v`), not the proof helpers. After each group of theorems
  an `Example` shows that a non-trivial case meets the hypotheses.
* `Replay.v` runs the repository's own unit test expectations on the model. These are tests of the transcription, not proofs.

## Files

* Model: `Outcome Floats Bits IndexArith Quantization Codecs Encoding Matrix Haar Stego Embedding Signature Process Image
  Zernike ZernikeGen Random Timer Web WebHeap Front Preview Cli Interrupt Getopts Console Diagnostics WriterObject
  Equalize Utils`.
* Proof libraries: `FloatFacts ListFacts MatrixFacts IndexArithProofs QuantProofs QuantReal QuantFloat CodecProofs
  WatermarkProofs EncodingProofs StegoProofs StegoMarks HaarProofs HaarReal HaarFloat EmbeddingProofs EmbeddingEffect
  ZernikeProofs ZernikeBound ZernikeGenProofs ZernikeF64 RelError LibmExact ZernikeAcc ZernikeAcc2..6 ProcessProofs EqualizeProofs Toy` (`LibmExact`: a mathematical library
  meeting the accuracy specification; `Toy`: a concrete code and signature scheme for the witnesses).
* Specifications: `LibmSpec` (accuracy of the mathematical library) and the vocabulary at the head of each `Props*.v`.
* Theorems: `Props*.v`.

## Trusted base

1. Coq 8.16.1's kernel (including its `vm_compute`), and the standard library. `Print Assumptions` of the theorems lists at
   most these four axioms of the standard library (through `Reals`): `ClassicalDedekindReals.sig_not_dec`,
   `ClassicalDedekindReals.sig_forall_dec`, `FunctionalExtensionality.functional_extensionality_dep`, `Classical_Prop.classic`.
   Theorems about byte codecs, the code table, file names and the timer use fewer or none. No axiom is added. Flocq and
   Coquelicot are used as libraries of definitions and theorems; they add none.
2. The transcription of the Rust text into the model, by hand, function by function.
3. Facts about third-party crates that are built into definitions (all cited at the definition):
   * `funty::Fundamental::as_bool` on `bool` negates (the repository's tests only pass with this reading);
   * `bitvec` Lsb0 layout; unspecified dead bits of the last byte are a parameter `pad` of the theorems;
   * `dwt` 0.5: one Haar step computes `c*a + c*b`, `c*a - c*b` with `c = FRAC_1_SQRT_2`; lengths not divisible are `Outside`;
   * `ndarray` row-major arrays, `from_shape_vec`, views;
   * `imageproc` `equalize_histogram` (`Equalize.v`, used by C76, C77, C83 and C84; elsewhere equalisation is a parameter): cumulative histogram as u32,
     `(255f32 * (h[p] as f32 / total as f32)).min(255) as u8`;
   * `getopts` 0.2 (`Getopts.v`, used by C74 and C80 only);
   * `image` 0.24: `get_pixel`, `into_rgba8`, the integer Rec. 709 luma weights, `ImageFormat::from_path` by extension;
   * browser and `wasm-bindgen` behaviour (`Front`, `WebHeap`): `atob` per WHATWG, `FileReader` data URLs, typed arrays by reference,
     handles nulled when an object is passed by value;
   * `std::path` file names on Unix, UTF-8 strings, `as` casts saturate, `%` on f64 is exact.
4. Hypotheses on oracles, visible in the statements:
   * LDPC (`labrador_ldpc`): code words have length n, decoding a code word returns its message (`ldpc_shape`, `ldpc_decodes`), in C89 only: any e wrong bits are repaired (`corrects`);
     C18 also takes the set of correctable error patterns as a parameter;
   * Ed25519: a signature has 64 bytes and parses back, the two embedded key strings are a key pair and a signature made with the
     private key verifies (`signature_format`, `key_pair`); C37's closeness consequences assume that only signed messages
     verify (`unforgeable`);
   * the mathematical library (powf, sqrt, atan2, exp, cos, sin, hypot): errors of at most four units in the last place
     (`accurate`, only in C45-C47, C66, C67 in f64 and C68);
   * picture codecs, file system, histogram equalisation, gamma: arbitrary functions.
5. Not modelled: the text of panics and the layout of the usage screen (the other console output is, in `Console.v`, and the library's own diagnostics in `Diagnostics.v`; how floats, bit vectors and strings look in `{:?}` is an oracle there), the logging of the page, the look of the React pages, React's batching and rendering, the random key generator,
   memory exhaustion and stack depth (except the unbounded recursion of `factorial`), file system races. The f64
   results of `powf, sqrt, atan2, exp, cos, sin, hypot` are not specified by Rust: in the f64 model of the Zernike extractor
   (`ZernikeGen.v`) they are the fields of a record `libm`, and theorems hold for every such record or state the accuracy they
   need. The exact-real model (`Zernike.v`) is proved equal to the real reading of the f64 model (`gen_real`); it does not cover
   arrays of one pixel (division by zero) and has no signed zeros.

## Findings (proved facts about the code that a user may not expect)

* C02: in f64 noise of up to one step is *not* always absorbed; values within a rounding error of a half-bin boundary fail.
* C15, C57: at capacities without a code, the payload never comes back although every stored bit is read correctly; below 1024
  pixels only sides 128, 256 and 512 can carry any payload and (C39) only 512 the tool's own watermark with 11 features.
* C98: the capacity check that asks for 16 bytes accepts 9.
* C16: the encoder's 16-bit length header wraps silently; 65536 bytes decode to nothing.
* C19, C20: row and column are computed with different divisors: tall domains panic, wide domains lose data.
* C100: at 512 x 512 pixels the lower half of a picture is neither marked nor read: it comes back unchanged, and replacing it leaves the watermark readable.
* C101: from one marked point-symmetric picture anybody can, without a key, make a picture with any upper half that authenticates.
* C102: nothing ties the colour channels together: red and blue of a marked picture can be exchanged, or colours of several marked pictures mixed, unnoticed.
* C104: the correction bits are not signed; choosing them afresh widens what a copied signature accepts from two half bins to a whole neighbouring bin.
* C106: an unmarked flat (or tiled) picture makes the authenticator panic instead of answering no.
* C107: with one feature, flat 512x512 pictures of about a fifth of the grey levels are rejected by the authenticator straight after watermarking (the mark darkens exactly the upper half, equalisation blows that up).
* C112: nothing checks that the depth is large enough: at depth 2^(levels+1) (16 for the library's three levels) every bit written into a flat picture of even brightness is read back inverted; C30's condition is sharp.
* C113: the negative (255 - v) of a channel marked by the command line (depth 100) still shows the watermark and is judged; at the web page's depth 500 every bit of the negative is read inverted.
* C114: stored as JPEG (grey component, usual luminance table), the watermark of the command line survives every quality from 24 up and that of the web page every quality from 4 up, whatever happens to the other 63 coefficients of each block. In colour (no subsampling): from 64 and from 10 up.
* C115: with a depth of at most 5 `watermark` returns Ok and the unchanged picture, whatever the picture: there is no watermark in it and no error.
* C116, C117: a marked picture may be speckled (web page: three arbitrary pixels in each block) or reduced to black and white dots and still shows its watermark.
* C118: with a depth from 6 to 15 there are pictures (mosaics whose colours are multiples of the depth) that `watermark` returns unchanged, with Ok.
* C119: depth 0 (or NaN) makes `watermark` black out the blocks it uses and return Ok; with depth 0, NaN, infinite or above 4080 the same bits are read from every picture.
* C120: with step 0, infinite or NaN the quantiser maps all (positive) features to one constant: the signature of any picture is accepted on every other one.
* C121: depths from 16384 on turn every used block black or white (a bar code of the payload); the call returns Ok and the depth used cannot read it back.
* C122: features never exceed 1000, so a quantisation step of 1001 or more quantises everything to 0: one signature for all pictures, and any picture that shows the watermark of another one is authentic.
* C123: what is read at one depth is read from a faded picture at the depth faded alike: marked pictures may be squeezed into 52 (command line) or 10 (web page) grey levels.
* C124: a marked picture may be halved or doubled in size: it is then read with one level fewer or more, at half or twice the depth.
* C110: a 64 x 64 thumbnail of a marked 512 x 512 picture still holds the whole watermark, and the pixels of every 8 x 8 block may be rearranged at will: only the sums of the blocks are read.
* C109: even with the shipped eleven features there are pictures (a flat level with fourteen squares one level darker) that both front ends sign and then reject untouched, whatever the key: the mark moves the last feature by more than two steps.
* C105: making a marked picture brighter or darker by 10-15 or 23-27 (depth 100), 48-77 (depth 500) levels goes entirely unnoticed, by 4-8 levels at depth 100 every bit is inverted (C63).
* C34: an all-black picture forgets the payload (saturation).
* C37, C41: authentication panics, rather than returning false, on malformed signatures, frames or keys.
* C38: the text is not authenticated. C58: only the number of features stored in the watermark is checked.
* C40: more than 85 features always panic. C49: pictures taller than wide panic in the feature extractor.
* C45: point-symmetric pictures have all-zero features and are indistinguishable to the scheme.
* C70: the page refuses files whose MIME type is not image/<letters and digits>, e.g. image/x-ms-bmp or image/svg+xml.
* C71: selections race: an earlier, slower file read replaces the picture selected later; if the built-in picture cannot be loaded the page
  says "Loading..." for ever.
* C69: any point-symmetric change of the equalised picture that keeps the block sums, such as a chessboard of any contrast, is invisible
  to authentication.
* C51: `generate(a, b)` can return `b` in f64; seeds from 2^54 on repeat neighbouring values.
* C52, C53: inputs of equal name in different folders overwrite each other's output; a failed encoding loses the old output file.

## Per property: what is modelled, how it is proved

| id | property | status | how | theorems |
|----|----|----|----|----|
| C01 | Quantisation absorbs noise up to one step (exact arithmetic) | proved | quantiser at exact reals; case analysis on half bins and floor arithmetic; exact real arithmetic; quantised values at least 3 away from the i64 limits | `C01_noise_up_to_one_step_is_absorbed` |
| C02 | Quantisation absorbs noise in f64 outside a rounding guard band, and only there | proved | quantiser at binary64; Flocq rounding error bounds; the unrestricted claim is refuted by a computed witness; refutation witness plus guard-band theorem in IEEE binary64; a nonnegative disturbed value may be as near to zero as it likes | `C02_f64_noise_claim_refuted`, `C02_f64_noise_outside_guard_band`, `C02_f64_noiseless` |
| C03 | Exact correction capability of the three bits | proved | characterisation of the restored bin for all noise; exact reals; Exact arithmetic for every step; binary64 for step 1.0 (iff) and for every step (necessity), outside the guard band of C02. | `C03_exact_correction_capability`, `C03_f64_unit_step_correction_capability`, `C03_f64_far_features_are_not_restored` |
| C04 | Shape contract of quantisation and dequantisation | proved | any arithmetic; induction on the vectors | `C04_shape_contract`, `C04_i64_min_panics` |
| C05 | Meaning of the perturbation bits | proved | case analysis; exact reals; Exact arithmetic and binary64. | `C05_meaning_of_bits`, `C05_first_bits_determine_mod_4`, `C05_first_bits_of_the_quantised_value`, `C05_f64_meaning_of_bits`, `C05_f64_unit_step_is_exact` |
| C06 | Perturbation vector byte packing round-trips | proved | induction on chunks of 8 bits; vectors shorter than 2^53 bits | `C06_perturbation_bytes_roundtrip` |
| C07 | Watermark serialisation round-trips and ignores trailing bytes | proved | slice algebra over the serialised form | `C07_watermark_roundtrip` |
| C08 | Watermark serialisation rejects exactly the oversize watermarks | proved | case analysis on the three lengths | `C08_watermark_serialize_domain` |
| C09 | Watermark parser accepts exactly the well-formed inputs | proved | iff-characterisation of the accepted byte strings | `C09_watermark_parser_exact`, `C09_reserialise` |
| C10 | Payload frame round-trips for 1..65535 bytes | proved | slice algebra | `C10_payload_frame` |
| C100 | Only the leading blocks of a picture carry the watermark: in a 512 x 512 picture the lower half is neither changed nor needed to read it | proved | C33 lifted to whole pictures for the unchanged pixels; C89 with the bound on the block numbers kept, then C99, for the replaced ones; the number of carrying blocks at 512 by computation (PropsUnused.v); Whole pictures through either front end (depth 100 or 500, 11 features, 3 levels). Unchanged pixels: for every picture for which watermark returns, also black or white ones. Not read: the received channel is any channel that agrees with the marked one on the carrying blocks up to t levels and up to the blocks the code repairs. carrying_blocks n = 8 * size of the encoded payload; 2048 at n = 512. C100_instance: white upper half, black lower half, any lower half pasted in. | `C100_f64_pixels_beyond_the_payload_are_unchanged`, `C100_f64_the_rest_of_the_picture_is_not_read`, `C100_carrying_blocks_of_512`, `C100_f64_the_lower_half_of_512_is_unchanged`, `C100_f64_the_lower_half_of_512_is_not_read` |
| C101 | One watermarked picture with small features lets anybody forge pictures of his choice | proved | C45 in f64 through the equalisation (a map over the raster, so it commutes with reversing it); then C100's reading of a picture whose lower half was replaced and C99's rule: half bins of nearly zero features agree with those of any features below 3/2 (PropsForged.v); An attack proved to work, in binary64, for every donor picture with features below 3/2 (all point-symmetric pictures have features at most 1/128) and every target of any side whose upper half holds the marks (512 among them). The forger uses extract, deserialize, serialize and embed only; no signing key. C101_instance: flat colour picture as donor, stripes as target, both front ends. | `C101_f64_upside_down_pictures_have_small_features`, `C101_f64_any_upper_half_can_be_forged`, `C101_f64_from_one_upside_down_picture_everything_is_forged` |
| C102 | The colours of a picture are marked and judged each for itself | proved | unfolding of watermark over the three channels (C42, C43); the channels enter only through watermark_channel and authenticate_channel (PropsMixed.v); For every picture, LDPC library, signature scheme, equalisation and feature extractor: what comes out is bit for bit what marking the mixture gives, and each channel keeps its verdict (also panics and errors). Specification: assemble, colour. C102_instance: an even picture of three different colours through either front end, red and blue exchanged. | `C102_mixing_marked_colours_is_marking_the_mixture`, `C102_exchanged_colours`, `C102_one_colour_as_a_grey_picture` |
| C103 | What a positive verdict means | proved | C37 (a yes is an accepted signature on the restored vector) and C78 (the restored vector is near the measured features), with the bounds of C66 and C68 on the features; case distinction on whether the vector was signed (PropsSound.v); Soundness of the shipped scheme in binary64 for every received square picture of even side up to 65536, at every depth and level count, with 1 to 11 features; nothing is assumed about the signature library: the alternative is that the picture carries a signature accepted on a vector that was never signed. Specification: nearly_equal, issued_message, carries_no_forgery. libm accuracy is a hypothesis. C103_instance: the forged picture of C101. | `C103_f64_a_yes_means_an_issued_picture_or_a_forgery`, `C103_f64_only_issued_pictures_are_accepted`, `C103_f64_only_issued_colour_pictures_are_accepted` |
| C104 | The correction bits are not signed | proved | for each feature a pretended value in the signed bin, in the half next to the received one, then C03; conversely restored integers are within one of the received bin whatever the bits (PropsBits.v); For every feature extractor and equalisation, step 1.0, features up to 2^28; features of the received picture at least 2^-20 from the integers (0 may be approached from above). Ed25519 laws (a signature verifies) are hypotheses of the first theorem only. C104_instance: signed features 1.25, received 2.5; refused with the stored bits, accepted with fresh ones. | `C104_f64_freshly_chosen_bits_are_accepted`, `C104_f64_no_bits_reach_further` |
| C105 | Brightened and patched pictures keep the watermark | proved | From C86 (embedding in integers) and C88 (what cutting leaves over) each block sum of a marked picture is 8*depth*(r+1/4 or 3/4) up to the margin; adding a multiple of 8*depth changes r only, so C90's bit_of_sum reads the same bit; the coder repairs the rest (C89). Brightening adds 64c to each sum and keeps the order of the pixels, so by C76 equalisation, features and hence the verdict are unchanged. The harmless amounts are worked out by linear integer arithmetic.; Binary64. The first theorem: every square picture, depth 1..4096, three levels, each carrying block from a marked picture of its own, with a coder that corrects e wrong bits. The last: the shipped scheme at the depths of the two front ends; hypotheses on LDPC, Ed25519 and libm as in C83; brightening is lossless (no byte leaves 0..255). C105_instance: +12 and +25 at depth 100, +50 at depth 500. | `C105_f64_blocks_of_any_marked_pictures`, `C105_which_shifts_are_harmless`, `C105_f64_brightened_pictures_get_the_same_verdict` |
| C106 | Flat and tiled pictures kill the authenticator | proved | Induction over the levels: after a forward iteration on a matrix that is periodic with period 2p in both directions the low-pass quarter is periodic with period p, in any arithmetic; after all levels it is constant, so all bits agree. The word of equal bits is decoded to itself; zeros announce an empty frame, ones a frame of 65535 bytes that is never complete; the empty payload is no watermark. For zeros the closed form of C86 gives the bits from the block sums.; The first three theorems hold in any arithmetic, at any depth and level count, for any features, keys and equalisation. The LDPC decoder is an oracle: hypothesis keeps_uniform (it leaves the all-zero word, and for the theorems about every tiled picture also the all-one word, alone). The theorems about zeros need the all-zero word only, which is a codeword of every linear code. C106_instance: every flat 512x512 picture with the toy coder. | `C106_tiled_pictures_show_one_bit`, `C106_tiled_pictures_hold_no_data`, `C106_no_verdict_on_tiled_pictures`, `C106_f64_flat_pictures_kill_the_authenticator`, `C106_f64_pictures_of_zeros_hold_no_data`, `C106_f64_channels_of_zeros_kill_the_authenticator`, `C106_f64_flat_channels_of_zeros`, `C106_which_flat_pictures_show_zeros` |
| C107 | The library rejects what it has just signed | proved | PropsRejects.v. Integer description of embedding (C86) on a flat picture: both possible shifts are negative, so the 2048 carrying blocks, the upper half, get darker whatever the bits; equalisation (rank function, C76) leaves them at 127 or below and makes the lower half 255; the exact linear Zernike moment (C44) is bounded below by that of the black-over-white edge; binary64 features within 1/128 (C68); extraction by C88; the verdict by C99 and C78.; Binary64, 512x512, features_amount = 1 (a parameter of the public watermark(); the two front ends pass 11, for which the moment is of order 21 and its value on the marked picture depends on the code word), step 1.0. Hypotheses on LDPC, Ed25519 and libm as in C83. Without assuming anything about forgeries: a yes on the untouched result exhibits a second vector that the signature fits. C107_instance: the picture of level 80 at both depths. | `C107_f64_the_program_rejects_its_own_picture`, `C107_f64_pictures_of_one_colour_are_rejected`, `C107_which_levels`, `C107_how_many_levels` |
| C108 | A picture and its turned or mirrored versions get the same watermark | proved | PropsSame.v: moves permute the pixels (place_of is injective), so the histogram, hence the equalised raster, moves along; C46 gives equal exact features, C68 the 1/64 in binary64, unit_halves the equality of bits off the borders; watermark_factors splits watermark_channel into payload_for (features only) and with_payload.; Equalisation is shown to commute with the moves (it depends on pixel frequencies only), the features are invariant (C46), and watermark_channel is shown to factor into a payload computed from the features and an embedding. Instance: C108_instance, a 512 x 512 channel of four quarters and its mirror image, both front ends. | `C108_moved_originals_get_the_same_watermark`, `C108_f64_moved_originals_get_the_same_watermark`, `C108_f64_moved_originals_are_marked_without_the_key` |
| C109 | The configuration of both front ends can reject the very picture it has just produced | proved | PowerMoment.v, SpottedMoment.v, PropsRejects2.v. The last feature is the moment of order and index 21, R(r) = r^21, so it is kappa times a sum of pixel * (a - ib)^21 over odd integers a, b: an exact Gaussian-integer sum. It is folded into the upper left quarter by the two mirror symmetries, summed per 8x8 block through sums of powers, and evaluated by the kernel. Original after equalisation: dark squares 13, rest 255 (rank function, C76), feature at least 4.25. Marked picture: upper half some block-wise constant levels in 0..127 - nothing else is known of them - lower half 135/255: real part bounded by 127 times the positive (negative) parts, imaginary likewise, so the feature is at most 1.97. Embedding by C86, extraction by C88, accuracy by C68, verdict by C99/C78.; A concrete family of pictures (a flat level with fourteen squares one level darker, 28 levels at depth 100 and 32 at depth 500) is signed by the library exactly as both front ends call it (eleven features, step 1) and the untouched result is rejected, for every key, code and grey level of the family. The moment sums are evaluated by the kernel on exact integers. In floating point the verdict is proved false when the signature fits only the signed vector; instance C109_instance. | `C109_f64_the_front_ends_can_reject_their_own_picture`, `C109_f64_whole_pictures`, `C109_which_levels`, `C109_how_many_levels` |
| C11 | Integer/byte vector conversions are inverse and injective | proved | induction on the digits | `C11_integer_bytes` |
| C110 | Thumbnails and scrambled blocks keep the watermark | proved | PropsBlockwise.v. The carrier coefficient of a block is its pixel sum over 8, so C105's general theorem (every carrying block has, up to margin and period, the sum of a marked block) applies as soon as sums are kept; together with C99 it gives watermark and verdict. The enlarged thumbnail's block sums are 64*round(mean), within 32 of the original, and 32 <= 2*depth-33; permuting a block's pixels leaves the sum alone.; Binary64, both front ends, square pictures of a usable size; hypotheses on LDPC, Ed25519 and libm as in C83 (corrects e for the first theorem). The first theorem subsumes the reading parts of C99, C100 and C105: it constrains only the sums of the blocks that carry data and are not among those the code repairs. Thumbnails and the enlarging are those of the specification (rounded block mean, pixel replication), not of an image library. The verdict itself depends on the half bins of the features of the received channel (C99). The instance is a flat 512x512 picture. | `C110_f64_only_the_sums_of_the_blocks_matter`, `C110_f64_thumbnails_hold_the_watermark` |
| C111 | A marked picture may be mixed with its original | proved | PropsBlend.v. Marking moves a pixel by at most 9 (47) levels (C59), so mixing percent of the original back in moves a block sum by at most 64*(percent*9+50)/100 <= 2*100-33 at 23 percent (and 64*(percent*47+50)/100 <= 2*500-33 at 31 percent); C110 does the rest.; Binary64, both front ends, square pictures of a usable size and the stated distance from black and white; hypotheses on LDPC, Ed25519 and libm as in C83. The shares (23 and 31 percent) are sufficient, not claimed to be the largest ones. The instance mixes a marked flat 512x512 picture with its original. | `C111_f64_mixing_with_the_original` |
| C112 | The smallest usable depth | proved | PropsThreshold.v. In a flat picture of brightness 2h the coefficient is 2h*2^L, exactly h times the depth 2^(L+1); writing a bit asks for a shift of +-1/2 grey level, and rounding half away from zero turns this into +1 or 0. The closed forms of C61 then give: brightness 2h+1 is read as 0, 2h as 1.; Exact arithmetic (in binary64 the coefficients of these pictures lie on the rounding ties up to noise, so nothing is claimed there). For every error-correcting code, every payload, every flat picture of even brightness and every number of levels. The received bits are exactly the complement of the stored ones; what the decoder makes of the complement is the code's business. Instance: mid-grey 128x128 picture, depth 16. | `C112_the_condition_on_the_depth_is_sharp` |
| C113 | Negatives | proved | block sums mirrored at 16320 through the marked sums (C88) and extraction in integers (C86); the command line through C110; In binary64. The first theorem is for every depth, code and payload: a negative keeps (inverts) the bits of the blocks that withstand t when 16320 is within t of an odd (even) multiple of four depths. The second is for the two front ends with the colour margins of C83: for the command line the negative shows the watermark and gets a verdict decided by the half bins of the features, but the theorem does not say which verdict (equalisation of a negative is not the negative of the equalisation); for the web page every stored bit is read inverted, what the decoder makes of that is the code's business. Instances: a 512x512 picture for each front end. | `C113_f64_the_bits_of_a_negative`, `C113_f64_negatives_of_marked_pictures` |
| C114 | A marked photograph survives being stored as JPEG | proved | cosine transform of the 8x8 block over the reals (orthogonality of the waves by telescoping sines): the constant coefficient is the block sum and no other coefficient touches it; then C110 with the margin lemma; the table of DC steps by computation over the qualities 1..100; instance: the enlarged thumbnail is a JPEG of quality 75; in colour by linearity of the conversion (its inverse undoes it exactly), each colour's sum moves by at most the bound for brightness plus 1.772 times that for the differences; instance: a picture that keeps only the mean colour of each block; In binary64, both front ends, margins of C83. JPEG is modelled by its cosine transform and (in colour) the JFIF conversion over the reals (ITU-T T.81, not code of /repo), without chroma subsampling; clipping of decoded pixels to 0..255 counts as decoding error (decoder, rounding). The qualities named allow for the rounding of the final pixels only; rounding inside coder and decoder enters through the parameters. The file writer (main.rs:57-63) is the image crate's encoder, outside /repo; the theorems are about any coder that meets the stated bounds. Features of the received component may differ from those of the original: the verdict is decided by their half bins, not claimed to be authentic. | `C114_jpeg_moves_the_sum_of_a_block_by`, `C114_jpeg_moves_the_sums_of_a_block_in_colour_by`, `C114_f64_jpeg`, `C114_f64_colour_jpeg` |
| C115 | Depths below 16/3 embed nothing | proved | from the bound on the change of a pixel (C32): a change below one of an integer is none; existence of the result by running embed on the payload (C36's payload lemmas); depth 6 by the integer form of C86 on a picture whose block sums are all 26; Exact arithmetic for every number of levels; binary64 for up to 10 levels with 769 depth < 511 2^levels and depth >= 1/1024 (three levels: depth <= 5); whole pictures in binary64. That the call returns Ok is proved for the Zernike features of the front ends (C115_f64_faint_watermarks_are_none); the others assume Ok. Depth 6 changing pixels is a concrete example (C115_depth_6_changes_pixels). | `C115_small_depths_embed_nothing`, `C115_f64_small_depths_embed_nothing`, `C115_f64_small_depths_leave_the_picture`, `C115_f64_faint_watermarks_are_none` |
| C116 | Specks do not remove a watermark | proved | C110 (only block sums matter): COUNT arbitrary pixels move a block sum by 255*COUNT at most, the others by 64*SMALL; induction over the list of pixels of a block; In binary64, both front ends, margins of C83; one component at a time. C116_bounds shows the two sizes named, C116_instance a concrete picture. The Zernike features of the received component may differ: the verdict is the one the half bins give. | `C116_f64_specks` |
| C117 | A watermark survives printing in black and white dots | proved | C110: the sum of a block of black and white dots is 255 times the number of white ones, within 128 of the block it stands for, and 128 <= 2*depth-33 for both front ends; In binary64, both front ends, margins of C83; one component at a time. The printing and scanning themselves are not code of /repo: the theorem is about any received component with the stated numbers of white pixels. C117_instance is a concrete placement of dots. | `C117_f64_halftones` |
| C118 | Depths from 6 to 15 silently fail for mosaics; from 17 on marks can be read | proved | from C86_f64_every_block: near the centre of its bin a block needs a change of less than half a grey level for either bit; whole pictures as C115; from depth 17 on C31; In binary64, three levels. For whole pictures with the features, step and number of features of the front ends (their depths are 100 and 500: the depth is a parameter of the library). That the call returns Ok is proved, under the hypotheses on LDPC, Ed25519 and libm of C83. Nothing is claimed about depth 16. Instances: colour512 at depth 6, a picture half black and half white at depth 15. | `C118_f64_a_block_near_a_centre_is_not_marked`, `C118_f64_pictures_that_cannot_be_marked`, `C118_f64_from_17_on_marks_can_be_read`, `C118_f64_watermarking_changes_nothing`, `C118_f64_mosaics_stay_unmarked` |
| C119 | Useless depths: too large, zero, infinite, not a number | proved | closed form of extraction (C61) when the coefficient is below half a depth; in binary64 induction over the levels shows that the low-pass coefficients are never negative; NaN is followed through the inverse transform level by level; The first theorem is in exact arithmetic for every number of levels, the others in binary64 (large depths: up to ten levels). What the decoder makes of a word of ones or zeros is the code's business: the theorems say that it is the same for all pictures. Blackening is proved for depth +0, -0 and NaN, not for infinite depths; for whole pictures with the features, step and number of features of the front ends, whose depths are 100 and 500. The upper half of 512 x 512 is C100_carrying_blocks_of_512. | `C119_large_depths_read_ones`, `C119_f64_large_depths_read_ones`, `C119_f64_useless_depths_read_zeros`, `C119_f64_useless_depths_read_the_same_from_all_pictures`, `C119_f64_depth_zero_blackens`, `C119_f64_watermarking_with_depth_zero_blackens` |
| C12 | Hex codec round-trips and its acceptance set | proved | induction on the string | `C12_hex_codec` |
| C120 | Useless steps: with step 0, infinity or NaN one signature fits every picture | proved | case analysis of the binary64 division, floor and cast for the special steps (on the feature and on the feature shifted by a step), then the general description of what dequantisation can restore, and the run equations of both calls; In binary64. The front ends pass step 1: the step is a parameter of the library. For step 0 the features must be positive (a feature 0 gives 0/0, read as 0; a negative one i64::MIN). That authentication does depend on the picture for ordinary steps is C37, C104 and C108. Instances: features 1.25 and 2.5, which step 1 tells apart (C104). | `C120_f64_useless_steps_quantise_everything_alike`, `C120_f64_useless_steps_restore_everything_alike`, `C120_f64_useless_steps_verdict_ignores_the_picture`, `C120_f64_useless_steps_same_verdict_on_all_pictures`, `C120_f64_useless_steps_one_signature_for_all`, `C120_f64_useless_steps_accept_every_picture` |
| C121 | Enormous depths print a bar code | proved | closed form of embedding (C61) and the effect of embedding in binary64: the nearest multiple of the depth is 0, so the shift is a quarter depth minus the coefficient, more than the range of the pixels; for reading, the sums of plain blocks and the signs of the coefficients (C119); The first theorem is in exact arithmetic for every number of levels, the others in binary64 (bar code: up to ten levels; reading and whole pictures: three). For whole pictures with the features, step and number of features of the front ends, under the hypotheses on LDPC, Ed25519 and libm of C83. What binary64 does beyond a depth of 2^20 is not claimed. | `C121_enormous_depths_print_a_bar_code`, `C121_f64_enormous_depths_print_a_bar_code`, `C121_f64_the_negative_of_the_bar_code_is_read`, `C121_f64_watermarking_prints_bar_codes` |
| C122 | Large steps: with a step above 1000 the watermark of one picture authenticates every other one | proved | bound of the features (C99), value of the binary64 quotient by a large step (its floor is 0), and the guard-band theorem of the quantiser (C02): features from 0 to 1000 are at most (1 - 2^-20) steps apart and away from all multiples of the step but 0; then the run equations of both calls; In binary64, with the features and equalisation of the front ends, under the hypotheses on Ed25519 and libm of C83. The front ends pass step 1: the step is a parameter of the library. 1000 is the proved bound of the features, not the largest value any picture reaches, so smaller steps may be large already; unlike C120 the bits must be the ones signed with. | `C122_f64_large_steps_tell_no_features_apart`, `C122_f64_large_steps_one_signature_for_all_pictures`, `C122_f64_large_steps_accept_every_picture` |
| C123 | Faded pictures are read at the faded depth | proved | the sum of a marked block is 2 depths off a multiple of 8 depths, up to 32 (C88); a proportional sum is as close to the same place of the scaled grid, and C86 says what the extractor makes of a sum; fading moves 64 pixels by half a level each; In binary64, for three levels, with the features, step and number of features of the front ends, under the hypotheses on LDPC, Ed25519 and libm of C83. Both front ends read at one fixed depth only, so it is the library that reads faded pictures; the verdict is decided by the half bins of the features of the faded picture (C99). Contrast raised above 1 is covered by the first theorem (num above den), if nothing is cut. | `C123_f64_scaled_sums_are_read_at_the_scaled_depth`, `C123_f64_faded_pictures_are_read_at_the_faded_depth` |
| C124 | Reduced and enlarged pictures are read with fewer or more levels | proved | block sums of 2^k times larger blocks are sums of block sums, so a reduced picture has block sums off the scaled ones by half a level for each of its pixels, an enlarged one none; the place of a sum within a period of 8 depths is scaled alike (as C123), and C86 says what the extractor makes of it; In exact arithmetic, for every levels parameter of one or more (levels 0 is excluded), under the hypotheses on LDPC of C30. Both front ends read three levels at one depth only, so it is the library function that reads reduced and enlarged pictures. | `C124_scaled_pictures_are_read_at_the_scaled_depth`, `C124_reduced_pictures_are_read_with_fewer_levels`, `C124_enlarged_pictures_are_read_with_more_levels`, `C124_the_rounded_means_are_a_reduced_picture` |
| C13 | UTF-8 text survives the byte codec | proved | case analysis on the code point ranges, induction on the text | `C13_utf8_roundtrip` |
| C14 | Error-correcting encoding round-trips at coded capacities | proved | LDPC oracle with the two laws of the trusted base; induction on code words; relative to the LDPC laws | `C14_encode_decode_roundtrip` |
| C15 | Uncoded capacities never round-trip | proved | no code for the capacity: the two header bytes stay | `C15_uncoded_never_roundtrips` |
| C16 | The 16-bit length header silently wraps | proved | modular arithmetic | `C16_length_header_wraps`, `C16_65536_bytes_decode_to_nothing` |
| C17 | Size of the encoded data and when it fits | proved | division arithmetic on chunk counts | `C17_encoded_size`, `C17_unreadable_capacities` |
| C18 | Errors correctable by the code do not change the decoded data | proved | per code word, then induction | `C18_correctable_errors` |
| C19 | Bit placement is a bijection exactly on square domains | proved | Euclidean division; invariant over the bit loop; Any arithmetic (record of float operations). Cell count below 2^53. | `C19_placement_is_bijective`, `C19_square_cells_written_and_read`, `C19_wide_domain_collides`, `C19_tall_domain_panics_at_bit_cols` |
| C20 | Non-square domains cannot carry data | proved | first offending bit of the loop; Any arithmetic; wide domains lose every payload whose bits 0 and rows differ. | `C20_tall_domain_panics`, `C20_wide_domain_loses_data` |
| C21 | Written bits are read back (exact arithmetic) | proved | invariant over the write loop; rounding arithmetic on reals; Exact real arithmetic, every positive depth; the part on the bytes behind the payload holds in every arithmetic and for every depth. | `C21_written_bytes_are_read_back`, `C21_bytes_behind_the_payload_are_kept`, `C21_reading_after_writing` |
| C22 | Written bits are read back (f64) | proved | the same at binary64 with error bounds; binary64; depth in [2^-500,2^500], coefficients at most 2^40 depths. | `C22_f64_written_bytes_are_read_back`, `C22_f64_reading_after_writing` |
| C23 | Writing changes each used coefficient by at most 3/4 of the depth and nothing else | proved | invariant over the write loop; Exact, and binary64 with 2^-11 depth of slack. | `C23_write_moves_used_cells_by_at_most_3_4_depth`, `C23_f64_write_moves_used_cells_by_at_most_3_4_depth` |
| C24 | Capacity check is exact | proved | C56 plus the write loop | `C24_capacity_check_is_exact` |
| C25 | The channel tolerates coefficient noise below depth/4 | proved | rounding arithmetic; Exact, and binary64 with 2^-9 depth of slack. | `C25_noise_below_quarter_depth`, `C25_f64_noise_below_quarter_depth` |
| C26 | Negative depth inverts every bit | proved | rounding arithmetic; Exact arithmetic and binary64. | `C26_negative_depth_inverts_every_bit`, `C26_reading_after_writing_with_negative_depth`, `C26_f64_negative_depth_inverts_every_bit` |
| C27 | The wavelet transform reconstructs perfectly (exact arithmetic) | proved | row/column algebra per level, induction on levels; Exact arithmetic; up to 31 levels (beyond, the code's i32 power overflows). | `C27_backward_of_forward_is_identity`, `C27_forward_of_backward_is_identity` |
| C28 | The low-pass band is the scaled block sum | proved | induction on levels; Exact arithmetic for all matrices; binary64 for 8-bit pictures and up to 10 levels, to within 2^-24 and never negative. | `C28_low_pass_band_is_scaled_block_sum`, `C28_f64_low_pass_band_is_nearly_the_scaled_block_sum` |
| C29 | f64 transform reproduces 8-bit images exactly | proved | forward error analysis of all levels; binary64, up to 10 levels (the library uses 3). | `C29_f64_transform_reproduces_8bit_images` |
| C30 | Embedding then extracting returns the payload (exact arithmetic) | proved | composition of C10, C14, C21, C25, C27, C28; Exact arithmetic, 1..30 levels, relative to the LDPC laws; the saturation margin is required only of pixels in blocks that carry data. | `C30_embed_then_extract_returns_the_payload` |
| C31 | Embedding then extracting returns the payload (f64) | proved | composition of C10, C14, C22, C25, C29; binary64, up to 10 levels, depth between 65/64*2^(levels+1) and 2^20. | `C31_f64_embed_then_extract_returns_the_payload` |
| C32 | Embedding changes no pixel by more than 3/4*depth/2^L (rounded) | proved | linearity and locality of the inverse transform; Exact; binary64; and the two front-end depths. | `C32_pixel_change_bound`, `C32_f64_pixel_change_bound`, `C32_f64_pixel_change_of_the_front_ends` |
| C33 | Pixels of unused blocks are unchanged | proved | the same | `C33_unused_blocks_are_unchanged`, `C33_f64_unused_blocks_are_unchanged` |
| C34 | Saturation can destroy the payload | proved | computation of the all-black image symbolically; Exact arithmetic for every depth; binary64 for depths 1..2^20 (first) and 65/64*2^(levels+1)..2^20 (second), up to 10 levels. | `C34_black_image_reads_zero_bits_as_ones`, `C34_black_image_forgets_the_payload`, `C34_f64_black_image_reads_zero_bits_as_ones`, `C34_f64_black_image_forgets_the_payload` |
| C35 | Embedding preserves the image shape and rejects small domains | proved | composition; code table | `C35_embed_keeps_the_shape`, `C35_small_domains_are_rejected` |
| C36 | A watermarked channel authenticates | proved | composition of C01/C02, C07, C30/C31, C41; exact reals with noise up to one step; f64 (levels <= 10) with the guard band of C02 and for unchanged features; any feature extractor and equalisation; relative to the LDPC and Ed25519 laws | `C36_watermarked_channel_authenticates`, `C36_f64_watermarked_channel_authenticates` |
| C37 | Authentication implies a valid signature on the recovered features | proved | unfolding to an iff; then C03 under unforgeability; iff-characterisation for any arithmetic; consequences under unforgeability in reals and f64 | `C37_authentic_iff_signature_on_restored_features`, `C37_only_images_close_to_signed_features_authenticate`, `C37_f64_only_images_close_to_signed_features_authenticate` |
| C38 | The embedded text is not authenticated | proved | two payloads that differ in the text only; Exact arithmetic and binary64. | `C38_verdict_ignores_the_text`, `C38_text_can_be_replaced_without_the_key`, `C38_f64_text_can_be_replaced_without_the_key` |
| C39 | Payload size and minimal image size | proved | C08, C10, C17, C24 and the code table | `C39_watermarking_returns_iff_the_payload_fits`, `C39_eleven_features`, `C39_below_1024_only_side_512_can_authenticate`, `C39_f64_below_1024_only_side_512_can_authenticate` |
| C40 | More than 85 features can never be watermarked | proved | C08 and C44; for any extractor that returns the requested number of features, for the Zernike extractor over exact reals and in binary64 (every mathematical library), and for whole images in both | `C40_more_than_85_features_panic`, `C40_zernike_feature_amounts`, `C40_f64_zernike_feature_amounts`, `C40_watermark_panics_on_inadmissible_amounts`, `C40_f64_watermark_panics_on_inadmissible_amounts` |
| C41 | Signature API contract | proved | oracle laws; C12; C41_sizes takes the sizes of Ed25519 keys and signatures as a hypothesis on the oracle. | `C41_sign_then_verify`, `C41_verify_domain`, `C41_sign_domain`, `C41_generated_keys_work`, `C41_sizes` |
| C42 | Watermarking preserves dimensions, colour layout and alpha | proved | pointwise on the pixel lists; double precision; any colour layout including 16-bit/float inputs read through get_pixel | `C42_watermark_preserves_size_layout_and_alpha`, `C42_watermark_returns_iff_the_channels_do` |
| C43 | Grayscale output equals the watermarked luma channel | proved | pointwise; integer arithmetic | `C43_gray_result_is_the_watermarked_channel`, `C43_luma_of_a_gray_pixel` |
| C44 | Number and indices of the features | proved | finite sums over reals; the textbook definition of the moment; exact reals: all images with dim1 <= dim0, all amounts a usize can express, the moments equal the textbook formula; binary64: number and order of the features for every mathematical library, amounts up to 2^50 | `C44_number_and_indices_of_features`, `C44_degenerate_requests`, `C44_moments_are_zernike_moments`, `C44_f64_number_and_indices_of_features`, `C44_f64_degenerate_requests`, `C44_one_program_two_arithmetics` |
| C45 | Point-symmetric images have all-zero features | proved | sums paired by the point reflection; exact reals, all n >= 2: zero; binary64, up to 11 features and side 65536: at most 1/128, for every accurate mathematical library | `C45_point_symmetric_images_have_zero_features`, `C45_f64_point_symmetric_images_have_small_features` |
| C46 | Features are invariant under 90-degree rotations and mirroring | proved | permutation of the pixel sums, rotation of the angle; exact reals: equal; generators of the dihedral group; binary64 up to 11 features: within 1/64, for every accurate mathematical library | `C46_rotation_by_90_degrees`, `C46_mirroring`, `C46_transposition`, `C46_f64_rotation_mirroring_transposition` |
| C47 | Features scale with brightness | proved | linearity; the offset vanishes by C45; exact reals; integer factor and offset; binary64 up to 11 features within (|factor|+1)/128 | `C47_features_scale_and_ignore_offset`, `C47_f64_features_scale_and_ignore_offset` |
| C48 | Radial polynomial is normalised and coordinates stay in the unit disk | proved | induction on the order for the value at 1; geometry of the coordinates; all orders/indices of equal parity, not only odd ones | `C48_radial_is_the_polynomial_and_normalised`, `C48_pixels_lie_in_the_unit_disk` |
| C49 | Tall images are rejected by the feature extractor | proved | the first pixel beyond the matrix; exact reals and binary64 (every mathematical library); whole pictures taller than wide can be neither watermarked nor checked | `C49_tall_images_are_rejected`, `C49_f64_tall_images_are_rejected`, `C49_f64_tall_pictures_are_rejected` |
| C50 | factorial is the factorial on naturals and never returns on negative integers | proved | induction on n; measure argument for non-termination; exact reals, plus f64: non-termination on negative integers, exactness up to 22! | `C50_factorial_of_naturals`, `C50_factorial_of_negative_integers_does_not_return`, `C50_factorial_of_non_integers`, `C50_f64_factorial_of_negative_integers_does_not_return`, `C50_f64_factorial_exact_up_to_22`, `C50_f64_factorial_of_23_is_inexact` |
| C51 | Pseudo-random generator range and determinism | proved | modular arithmetic on exact values, Flocq for binary64; induction on the operations; double precision and exact reals; 32- and 64-bit usize, checked and unchecked builds | `C51_f64_unit_values`, `C51_f64_generate_stays_in_the_closed_range`, `C51_f64_upper_end_can_be_returned`, `C51_f64_large_seeds_repeat`, `C51_exact_values`, `C51_exact_period`, `C51_reseeding_restarts_the_sequence`, `C51_draws_advance_the_seed`, `C51_seed_overflow` |
| C52 | CLI writes exactly one file per distinct output name | proved | induction on the inputs over a file map; path splitting proved against a declarative reading of names; file system and picture codecs are oracles; path splitting is modelled byte by byte; argument parsing is C74 | `C52_only_outputs_are_touched`, `C52_every_input_gets_its_output`, `C52_outputs_collide_iff_names_agree`, `C52_names_without_extension` |
| C53 | CLI without suffix has no effect; a failing input keeps earlier outputs | proved | the same | `C53_no_suffix_no_effect`, `C53_main_effects`, `C53_output_is_no_folder`, `C53_failing_input_keeps_earlier_outputs`, `C53_unusable_input_changes_nothing`, `C53_failed_write_loses_the_old_file` |
| C54 | Elapsed-time display is a truncation | proved | decimal printing parsed back; arithmetic | `C54_display_is_a_truncation`, `C54_display_is_monotone` |
| C55 | Web image model holds 4 bytes per pixel | proved | composition with C42 and C59; image decoding is an oracle | `C55_models_hold_four_bytes_per_pixel`, `C55_shown_pictures_differ_little`, `C55_undecodable_input_panics` |
| C56 | f64 index arithmetic equals integer arithmetic | proved | Flocq: division error never crosses an integer | `C56_index_arithmetic_exact`, `C56_bound_is_sharp` |
| C57 | Only few picture sizes can carry a payload | proved | code table, composition; decision of the sides below 1024 by computation over all of them | `C57_ragged_sizes_always_panic`, `C57_uncoded_sizes_never_return_the_payload`, `C57_f64_uncoded_sizes_never_return_the_payload`, `C57_usable_sides_below_1024`, `C57_usable_sides_from_1024` |
| C58 | Only the stored number of features is checked | proved | chunk structure of the dequantiser | `C58_only_the_stored_number_of_features_is_checked` |
| C59 | The visible change of a watermarked picture is bounded | proved | C32 at binary64 for the two front ends, C42; double precision | `C59_visible_change_is_bounded` |
| C60 | Every colour channel of a watermarked picture authenticates | proved | C36 at binary64 per channel, C42; double precision; relative to the LDPC and Ed25519 laws, any feature extractor and equalisation | `C60_every_colour_channel_of_a_watermarked_image_authenticates` |
| C61 | Embedding and extraction have a closed form | proved | linearity and locality of the transform give the effect on each pixel; exact reals for every picture; binary64 (levels <= 10, depth in [1, 2^20]) off rounding ties | `C61_embedding_in_closed_form`, `C61_extraction_in_closed_form`, `C61_f64_agrees_with_the_closed_form_off_ties` |
| C62 | Embedding is idempotent, and a second payload replaces the first | proved | the marked picture lies on the quarter points, so its shift vanishes; exact reals; binary64 (idempotence off ties) | `C62_embedding_again_changes_nothing`, `C62_a_second_payload_replaces_the_first`, `C62_f64_embedding_again_changes_nothing`, `C62_f64_a_second_payload_replaces_the_first` |
| C63 | Extraction survives small changes and is inverted by large ones | proved | block means of the marked picture stay in their half bin; exact reals and binary64; noiseless-channel LDPC law | `C63_small_block_changes_keep_the_payload`, `C63_small_pixel_changes_keep_the_payload`, `C63_f64_small_block_changes_keep_the_payload`, `C63_f64_small_pixel_changes_keep_the_payload`, `C63_f64_tolerance_of_the_front_ends`, `C63_brightening_by_half_a_depth_inverts_every_bit`, `C63_f64_brightening_by_half_a_depth_inverts_every_bit` |
| C64 | A slightly altered watermarked channel still authenticates | proved | C63 composed with C36; exact reals and binary64; relative to the LDPC and Ed25519 laws, any feature extractor and equalisation | `C64_slightly_changed_channel_authenticates`, `C64_f64_slightly_changed_channel_authenticates` |
| C65 | Pictures that are not square can never be watermarked | proved | first missing row of the write loop; C49; wide pictures: any arithmetic and extractor; high pictures: the Zernike extractor over exact reals and in binary64 (every mathematical library) | `C65_embedding_into_a_rectangle_panics`, `C65_wide_channels_panic`, `C65_channels_that_are_not_square_panic`, `C65_pictures_that_are_not_square_panic`, `C65_f64_channels_that_are_not_square_panic`, `C65_f64_pictures_that_are_not_square_panic` |
| C66 | Zernike features are bounded and stable | proved | the radial value is a matrix coefficient of a rotation acting on binary forms; its apolar norm is constant (derivative zero); exact reals: every order and picture size; binary64: up to 11 features, side up to 65536, accurate mathematical library | `C66_radial_values_are_bounded`, `C66_features_are_stable`, `C66_features_are_bounded`, `C66_f64_features_are_stable`, `C66_f64_features_are_bounded` |
| C67 | Watermarked channels authenticate end to end with Zernike features | proved | C64 with C66; exact reals and binary64, there also for the colour channels of whole pictures; relative to the LDPC and Ed25519 laws and, in binary64, an accurate mathematical library; equalisation only assumed to map grey rasters to grey rasters of the same size | `C67_zernike_channel_authenticates`, `C67_pixels_of_a_watermarked_channel`, `C67_f64_zernike_channel_authenticates`, `C67_f64_pixels_of_a_watermarked_channel`, `C67_f64_every_colour_channel_authenticates` |
| C68 | The compiled feature extractor is accurate | proved | forward error analysis through coordinates, powers, coefficients, radial sums, kernel, integral and modulus with Flocq; the library is any record meeting LibmSpec.accurate, witnessed by rounding the exact functions; C45, C46, C47, C66, C67 are carried over from the reals by it; binary64; the accuracy of the mathematical library is the hypothesis `accurate` (LibmSpec.v), met by exact_libm (LibmExact.v); no axiom | `C68_f64_features_are_accurate`, `C68_f64_features_agree_between_libraries` |
| C69 | Alterations the scheme cannot see | proved | the order-(k+i+1), repetition-(k-i) integrals are odd under the half turn; extraction in closed form (C61); noise by blocks (C63) and C68 for doubles; equal verdicts in exact arithmetic; binary64 for watermarked channels, relative to the LDPC and Ed25519 laws and an accurate mathematical library; the chessboard theorem takes the features of the channel itself (equalisation is the identity), C69_same_verdict any equalisation | `C69_features_ignore_point_symmetric_changes`, `C69_point_symmetric_changes_keep_the_features`, `C69_f64_features_ignore_point_symmetric_changes`, `C69_extraction_sees_block_totals_only`, `C69_same_verdict`, `C69_chessboard_keeps_the_verdict`, `C69_f64_altered_channel_authenticates` |
| C70 | Uploaded bytes reach the library unchanged | proved | structural induction on the bytes, three at a time; for arbitrary texts, four digits at a time, with the bit identities of one group checked for all 64x64 pairs of digits by computation (PropsBase64.v); atob as WHATWG's forgiving-base64 decode; FileReader's data URL is the specification data_url; base64_text in PropsBase64.v is the bit-level specification of accepted texts | `C70_the_library_gets_the_bytes_of_the_file`, `C70_other_file_types_are_refused`, `C70_what_any_text_stands_for`, `C70_one_reading_of_a_text`, `C70_blanks_change_nothing` |
| C71 | What the web page shows under every schedule | proved | invariant over all event sequences; explicit racing schedule; the library is an arbitrary function that may throw; React's batching of state updates is not modelled | `C71_the_library_is_called_only_when_ready`, `C71_the_last_successful_load_to_finish_is_shown`, `C71_without_the_built_in_picture_the_page_stays_empty`, `C71_an_older_selection_can_win`, `C71_the_last_selection_wins_if_it_finishes_last`, `C71_what_selected_files_load_as` |
| C72 | The canvases get every pixel | proved | composition with C55; the decoder oracle returns well-formed pictures | `C72_the_canvases_get_every_pixel`, `C72_what_any_bytes_draw` |
| C73 | Objects handed to JavaScript | proved | frame lemma per call, induction on the history; wasm-bindgen's handles: the pointer behind an object passed by value or freed is nulled | `C73_fields_of_models_persist`, `C73_the_format_of_a_process_persists`, `C73_a_model_given_away_is_gone`, `C73_models_of_a_process_share_the_array_only`, `C73_a_slice_is_private`, `C73_the_page_gets_what_the_library_computed`, `C73_an_array_holds_what_was_last_written`, `C73_a_freed_process_is_gone`, `C73_watermarked_models_share_the_array_only`, `C73_a_process_hands_out_the_models_it_was_given`, `C73_setters_of_a_process` |
| C74 | What a command line means | proved | the recursive parser against a grammar of command lines: soundness by induction on the items, completeness by induction on the number of arguments; getopts 0.2 is third party code, modelled from its documented behaviour for the three options the tool declares | `C74_arguments_mean_what_they_say`, `C74_run`, `C74_spelling` |
| C75 | Outputs that are inputs of the same run | proved | two runs related by an invariant (equal except in one file) over the list of inputs; file system and picture codecs are oracles | `C75_overwritten_file_is_never_read`, `C75_input_name_is_an_output_name_iff`, `C75_no_input_overwrites_itself`, `C75_every_input_is_read_as_the_earlier_ones_left_it`, `C75_an_output_that_is_a_later_input_is_watermarked_again` |
| C76 | Only the order of the pixels enters what is signed | proved | ranks: the cumulative histogram is the number of pixels not brighter; binary32 error analysis with Flocq; the verdict depends on the picture only through ranks and the extracted payload (C63); imageproc's equalize_histogram is third party code, modelled from its documented behaviour in binary32 (Equalize.v) | `C76_equalisation_keeps_grey`, `C76_equalised_value_is_the_share_of_darker_pixels`, `C76_equalisation_is_monotone`, `C76_order_determines_the_equalised_picture`, `C76_tone_curves_keep_the_order`, `C76_tone_curves_keep_the_features`, `C76_same_order_same_payload_same_verdict`, `C76_f64_tone_curves_keep_the_verdict` |
| C77 | Flat pictures and amplification by equalisation | proved | equalised half-and-half raster in closed form, first moment as an arithmetic series; equalisation in binary32 as compiled; features in exact arithmetic | `C77_flat_rasters_become_white`, `C77_equalisation_amplifies`, `C77_flat_channels_have_zero_features`, `C77_one_grey_level_can_move_a_feature_by_14` |
| C78 | Changes beyond the tolerance are not covered by the signature | proved | the dequantiser moves by at most half a bin pattern (C03 in binary64), so the restored vector differs; the verdict is unfolded to the signature check; Binary64. Cryptography enters as a reduction: the vector on which the stored signature would have to verify is named and differs from the signed one. | `C78_f64_a_watermark_is_tied_to_its_features`, `C78_f64_nothing_far_from_the_original_authenticates`, `C78_f64_tampering_beyond_the_tolerance_is_detected` |
| C79 | When the authenticator gives a verdict at all | proved | case analysis of every step of the authenticator; the payload that breaks it is hidden with the write theorems of C28; The signature-length part uses the sizes of Ed25519 (standard_sizes) as a hypothesis on the oracle. | `C79_a_verdict_is_returned_iff`, `C79_f64_crafted_channels_make_the_authenticator_panic` |
| C80 | What the command line prints | proved | induction over the inputs with the printed lines as ghost state; the line format is parsed from its right end; getopts's layout of the usage screen and panic texts are not modelled; how floats, bit vectors and strings look in the library's diagnostics is an oracle. | `C80_one_line_per_completed_input`, `C80_a_line_can_be_read_back`, `C80_messages_without_effect`, `C80_the_number_counts_the_values_per_pixel`, `C80_lines_among_all_messages` |
| C81 | What the approximate comparison helpers of the tests accept | proved | Flocq correctness of subtraction and comparison around 1e-4; induction over the actual vector or matrix; assert_approx_eq! is modelled from its documented expansion | `C81_accepted_numbers`, `C81_vectors_are_compared_up_to_the_actual_length`, `C81_matrices_are_compared_where_the_actual_one_has_cells`, `C81_complex_numbers` |
| C82 | Nested vectors as arrays | proved | induction over the rows; ragged rows whose total matches are exhibited | `C82_nested_vectors_as_arrays`, `C82_add` |
| C83 | The scheme as it is shipped | proved | composition of C31, C42, C59, C63, C66/C68 (bounded features), C76 (equalisation keeps grey) and totality of the dequantiser; imageproc's equalisation is modelled (Equalize.v); libm by its accuracy specification; LDPC and Ed25519 by their laws | `C83_f64_the_scheme_as_shipped`, `C83_512_is_usable` |
| C84 | The verdict of the shipped scheme | proved | C83 with the exact half-bin rule of the unit step (C03 in binary64) for the measured features; unforgeability is a hypothesis where it is needed (signs_only); the features are those the compiled extractor computes | `C84_f64_the_verdict_of_the_shipped_scheme` |
| C85 | Embedding again and again leaves no trace of the earlier payloads | proved | an invariant over the history: every block has moved by whole grey levels and its coefficient has stayed in its bin, so the next payload's target is the same absolute level whatever came before; in binary64 for pictures off the ties of rounding; the shipped LDPC code enters by its laws | `C85_embedding_forgets_the_history`, `C85_f64_embedding_forgets_the_history` |
| C86 | The embedding is an integer formula on the sums of the 8x8 blocks | proved | C61's closed form with coefficient = sum/8: the numbers compared with the rounding borders are integer ratios, so away from exact ties they are further away than the accumulated floating-point error of the transform; exact arithmetic: no exception; binary64: every block whose sum is not a tie; on ties one of the two nearest values | `C86_embedding_in_integers`, `C86_extraction_in_integers`, `C86_f64_embedding_in_integers`, `C86_f64_every_block`, `C86_f64_extraction_in_integers`, `C86_ties_of_the_front_ends` |
| C87 | Watermarking again and again does not wear the picture out | proved | the invariant of C85 carried through watermark_channel and the assembly of the image; the hidden payload of every run equals embedding it into the original, so C63's tolerance applies to the original; off the ties of C86; libm, LDPC and Ed25519 by their specifications | `C87_f64_watermarking_again_and_again` |
| C88 | How much cutting at black and white the watermark survives | proved | From the integer form of the compiled embedding (C86_f64_every_block) the sum of a marked block is bounded by the missing amount, 32 for the rounding and the total that is cut; reading is the test of the sum modulo 8D. The shipped version replaces the distance-from-black-and-white hypothesis of C83 by this per-block condition (shipped_channel_gen, shipped_image). PropsClipping.v, PropsClipping2.v.; binary64; budget per 8x8 block in integers; white blocks; dark blocks; instances: white, speckled and dark pictures | `C88_f64_how_much_cutting_is_harmless`, `C88_f64_the_shipped_scheme_with_cut_pixels`, `C88_a_few_bright_or_dark_pixels_are_harmless`, `C88_strongest`, `C88_f64_dark_blocks_turn_zeros_into_ones`, `C88_flat_dark_blocks` |
| C89 | Destroyed blocks are repaired by the error-correcting code | proved | From C18 on bytes: split received bytes and error positions by code word (received_words); on pictures: every block outside the list is read correctly by the argument of C88, so the bytes read agree with the encoded ones outside the list. Witness coder: message plus two copies of the xor of the numbers of its one bits (repairing_corrects). PropsRepair.v, PropsRepair2.v.; the number e of bits the third-party LDPC decoder repairs is a hypothesis (corrects); a single-error-correcting code with the same sizes shows it can be met; binary64 pictures | `C89_wrong_bits_are_repaired`, `C89_f64_destroyed_blocks_are_repaired`, `C89_f64_painted_over_blocks_are_repaired`, `C89_f64_the_shipped_scheme_with_destroyed_blocks` |
| C90 | Reading with another depth | proved | Writing at depth qD puts the sum of a carrying block near 8qDr +- 2qD (C86, C88); for odd q this is 8Dr' +- 2D with the same sign iff q mod 4 = 1 (seen_near), so bit_read at D sees the bit or its opposite. For reading at 5D the sum stays in the half interval of its r. Whole pictures: written_channel/written_image with different depths for writing and reading (PropsShipped.v). PropsDepth.v, PropsDepth2.v.; binary64 with whole depths and three levels (the shipped use), exact reals for all levels and depths | `C90_f64_what_another_depth_reads`, `C90_f64_reading_at_a_fraction_of_the_depth`, `C90_f64_at_five_times_the_depth_most_bits_are_lost`, `C90_reading_at_a_fraction_of_the_depth`, `C90_f64_web_pictures_are_read_at_the_command_line_depth` |
| C91 | Turned, mirrored and transposed pictures | proved | The moves map 8x8 blocks to 8x8 blocks (from_blocks) and do not change sums over a block (square_moves), and the bit read depends on the block sum only (C61, C86); for marked pictures the block sum is near a bit's middle (readable_sum). PropsTurn.v.; exact reals for all levels; binary64 with three levels and whole depths | `C91_moved_pictures_show_moved_bits`, `C91_f64_moved_pictures_show_moved_bits`, `C91_f64_moved_marked_pictures` |
| C92 | Watermarks can be copied to other pictures without a key | proved | C83 gives the watermark read from the donor; serialising it again gives the same payload, C31 and C32 embed it in the target; the verdict follows from authenticate_run and the exact correction capability (C03, unit step) as in C84. PropsTransplant.v.; binary64; libm, LDPC and Ed25519 by their specifications | `C92_f64_watermarks_can_be_copied` |
| C93 | What the library prints | proved | `Diagnostics.v` repeats the functions that print in a writer monad (messages so far, outcome). Proved: erasing the messages gives the functions of the other files; the explicit list of messages of a watermarked channel; every message carries a label of the list, also in runs that panic; integers and vectors of integers can be read back, so two runs that print the same signed the same numbers and hid the same bytes.; The look of floats, bit vectors and strings in {:?} is an oracle; integers and vectors of integers are modelled and characterised by C93_how_numbers_look (specification numeral, items, bracketed). | `C93_printing_changes_nothing`, `C93_what_a_watermarked_channel_prints`, `C93_what_a_watermarked_picture_prints`, `C93_what_a_checked_channel_prints`, `C93_how_many_lines`, `C93_every_message_is_labelled`, `C93_messages_give_the_payload_away`, `C93_how_numbers_look`, `C93_how_structures_look` |
| C94 | Standard output that breaks | proved | The loop of the command line again with a budget of messages; printing beyond it is a panic. Induction on the inputs, counting announcements.; A message (one println!) either gets through or panics; the panic text goes to standard error. | `C94_output_that_holds`, `C94_output_that_breaks`, `C94_messages_without_a_run` |
| C95 | From the file to the screen | proved | Preview.v models the two lines and two canvases of src/WatermarkingPreview and src/Canvas, and the function the page calls (page_library); PropsPreview.v composes C71 (which load wins), C70 (file bytes reach the library), C55 (models hold the pictures) and C42/C72 (drawing), so the statement runs from the event history to the bytes on the canvases. An accepted picture is shown to have at least one pixel (picture_not_empty), because a smaller one panics in the capacity computation.; instance: C95_instance; specification: shows, says_format, says_size at the top of PropsPreview.v; React's rendering and the canvas element themselves are trusted | `C95_what_is_displayed_for_a_file`, `C95_what_the_page_displays`, `C95_the_selected_file_is_displayed`, `C95_the_lines_can_be_read_back` |
| C96 | Interrupted, repeated, split and reordered runs | proved | Interrupt.v gives the crash points of the loop of main.rs as an inductive relation between file systems; induction over the inputs with the invariant that two file systems agree on every input and on every location the run does not write; instance: C96_instance; a half-written file holds arbitrary bytes; a file system that loses completed writes on a power failure is not modelled | `C96_running_again_after_an_interruption`, `C96_running_twice`, `C96_an_interruption_damages_at_most_one_output`, `C96_two_commands`, `C96_order_of_the_inputs`, `C96_running_twice_with_outputs_as_inputs` |
| C97 | The bit writer and reader as objects | proved | WriterObject.v models the writer and reader with their offsets; a history of calls is folded; the specification is a tape of last-written bits. f64: a marked coefficient keeps its nearest multiple of the depth, so marking it again moves it between the two quarter points only.; specification: tape, fits, reads_the_tape at the top of PropsWriter.v; positions below 2^53; instance C97_instance | `C97_when_a_history_runs_through`, `C97_untouched_positions`, `C97_the_last_write_counts`, `C97_f64_the_last_write_counts`, `C97_writing_in_pieces`, `C97_replacing_a_byte`, `C97_a_reader_reads_once` |
| C98 | The tables of codes | proved | case analysis on the borders of the tables against extremal characterisations; instance C98_instance; get_code_for_decode and write_byte_at are not called anywhere in /repo | `C98_code_for_reading`, `C98_code_for_writing`, `C98_code_of_a_capacity`, `C98_the_minimum_is_nine_bytes` |
| C99 | The verdict whenever the watermark can be read | proved | the analysis of C84 with the survival of the watermark as a hypothesis (shows_watermark) instead of a bound on the pixel changes; combined with C89 for painted-over blocks (PropsVerdict.v); specification: decided_by_half_bins, shows_watermark, painted_over; the number e of bits the LDPC decoder repairs per codeword, libm accuracy and Ed25519 laws are hypotheses; instance C99_instance | `C99_f64_the_verdict_whenever_the_watermark_is_read`, `C99_f64_the_verdict_on_painted_over_pictures` |
