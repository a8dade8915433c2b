{"id": "C01", "title": "Quantisation absorbs noise up to one step (exact arithmetic)", "statement": "For every positive step and every feature vector, if each feature is disturbed by at most one step in either direction, three_bit_dequantization applied to the disturbed features and to the bits returned by three_bit_quantization for the originals returns exactly the original quantised integers (as long as those fit an i64).", "quantifier": "all feature vectors of any length, all steps > 0, all per-feature noises with |noise| <= step", "why_tests_cant": "The unit test samples 1023 pseudo-random features for 14 steps; the claim is about a continuum of features, steps and noises, and the failures sit at bin boundaries.", "anchors": ["lib/sia/rust/three-bit-quantization/src/lib.rs: three_bit_quantization, three_bit_dequantization"]}
{"id": "C02", "title": "Quantisation absorbs noise in f64 outside a rounding guard band, and only there", "statement": "With the f64 arithmetic the code really uses, C01 is false as stated: there are features, a step of 1.0 and a disturbance below one step for which the restored integer is wrong (the re-quantised sum rounds up to the next bin). Outside a guard band of 2^-20 of a step around bin boundaries and around the noise limit, for ordinary magnitudes, the f64 code restores the original integers.", "quantifier": "all finite f64 features/steps in the stated magnitude range and all disturbed values outside the guard band; plus one witness inside it", "why_tests_cant": "The failing inputs are a handful of ulps wide; random testing essentially never hits them, and the positive claim ranges over ~2^128 pairs.", "anchors": ["lib/sia/rust/three-bit-quantization/src/lib.rs: three_bit_dequantization (lines 143-170)", "lib/sia/rust/three-bit-quantization/src/lib.rs: quantize"]}
{"id": "C03", "title": "Exact correction capability of the three bits", "statement": "A disturbed feature is restored to its original integer if and only if its half-bin index (two half-bins per step) is within 2 of the original's half-bin index; in particular restoration never moves a value by more than one bin from its own plain quantisation. The same holds in f64 with the front ends' step 1.0 outside the guard band of C02; for every f64 step a feature that moved by at least 3/2 + 2^-20 steps is never restored.", "quantifier": "all features, all disturbed features (arbitrarily far), all steps > 0", "why_tests_cant": "An if-and-only-if over two real variables cannot be sampled, in particular the 'never restored' direction.", "anchors": ["lib/sia/rust/three-bit-quantization/src/lib.rs: three_bit_dequantization"]}
{"id": "C04", "title": "Shape contract of quantisation and dequantisation", "statement": "three_bit_quantization returns one integer per feature and exactly three bits per feature. three_bit_dequantization returns one integer per complete 3-bit group, and panics exactly when the bit vector is not a multiple of three bits long or has more groups than there are features (a feature whose quantised value saturates to the smallest i64 makes a build with overflow checks panic as well).", "quantifier": "all feature vectors and all bit vectors of any lengths", "why_tests_cant": "The panic boundary ranges over all pairs of lengths; the tests only use matching lengths.", "anchors": ["lib/sia/rust/three-bit-quantization/src/lib.rs: three_bit_quantization, three_bit_dequantization (lines 108-125)"]}
{"id": "C05", "title": "Meaning of the perturbation bits", "statement": "For each feature x with quantised value q = floor(x/step), the three published bits are, in order, the high and the low bit of (q-1) mod 4 and the flag 'x lies in the upper half of its bin'; hence the two first bits always determine q modulo 4, also for negative q. In f64 the first two bits are exact, bin and half are right up to 2^-22 of a step, and exact for the front ends' step 1.0.", "quantifier": "all real features, all steps > 0", "why_tests_cant": "Negative features and every residue class must be covered for all magnitudes.", "anchors": ["lib/sia/rust/three-bit-quantization/src/lib.rs: three_bit_quantization, mod_four, two_bits_from_integer, integer_from_two_bits"]}
{"id": "C06", "title": "Perturbation vector byte packing round-trips", "statement": "perturbation_vector_from_bytes(perturbation_vector_as_bytes(v), v.len()) = v for every bit vector, whatever the unused bits of the last byte are, and the packed form has ceil(len/8) bytes.", "quantifier": "all bit vectors of any length; all contents of the padding bits", "why_tests_cant": "Tests cover two literals of 12 and 15 bits; lengths that are multiples of 8, zero and arbitrary padding are not covered.", "anchors": ["lib/sia/rust/three-bit-quantization/src/lib.rs: perturbation_vector_as_bytes, perturbation_vector_from_bytes"]}
{"id": "C07", "title": "Watermark serialisation round-trips and ignores trailing bytes", "statement": "For every watermark whose perturbation vector, signature and UTF-8 text are each at most 255 units long, deserialize(serialize(w) ++ rest) = w for every rest.", "quantifier": "all watermarks within the limits, all Unicode texts, all trailing bytes", "why_tests_cant": "One literal is tested; the property ranges over every length combination and every Unicode string.", "anchors": ["lib/sia/rust/watermarking/src/watermark.rs: Watermark::serialize, deserialize"]}
{"id": "C08", "title": "Watermark serialisation rejects exactly the oversize watermarks", "statement": "serialize panics iff one of the three lengths exceeds 255, and otherwise returns exactly 3 + ceil(p/8) + s + t bytes starting with the three lengths.", "quantifier": "all watermarks", "why_tests_cant": "Boundary over three independent unbounded lengths.", "anchors": ["lib/sia/rust/watermarking/src/watermark.rs: Watermark::serialize"]}
{"id": "C09", "title": "Watermark parser accepts exactly the well-formed inputs", "statement": "deserialize never returns for an input shorter than its own header announces or whose text section is not valid UTF-8 (it panics), and returns for every other input; what it returns re-serialises to the consumed prefix of the input up to the unused bits of the last perturbation byte.", "quantifier": "all byte strings", "why_tests_cant": "Every malformed input must be covered; extraction from unmarked images feeds the parser arbitrary bytes.", "anchors": ["lib/sia/rust/watermarking/src/watermark.rs: deserialize"]}
{"id": "C10", "title": "Payload frame round-trips for 1..65535 bytes", "statement": "deserialize(serialize(d) ++ rest) = d for every payload of 1 to 65535 bytes; a longer payload makes serialize panic; and an empty payload with nothing after it makes deserialize panic, so an empty payload does not round-trip.", "quantifier": "all payloads of any length, all trailing bytes", "why_tests_cant": "Tests use one 445-byte string; the boundary cases 0, 65535, 65536 and all contents are not covered.", "anchors": ["lib/sia/rust/embedding/src/io/data.rs: Data::serialize, deserialize"]}
{"id": "C11", "title": "Integer/byte vector conversions are inverse and injective", "statement": "vec_i64_from_bytes(vec_i64_to_bytes(v)) = v and likewise for u16; the encodings have 8 (2) bytes per integer, little-endian two's complement; different vectors have different encodings (so the signed message determines the quantised features); ragged input panics.", "quantifier": "all vectors of i64 / u16 values, all byte vectors", "why_tests_cant": "2^64 values per element and all lengths.", "anchors": ["lib/sia/rust/utils/src/bytes.rs: vec_i64_to_bytes, vec_i64_from_bytes, vec_u16_to_bytes, vec_u16_from_bytes"]}
{"id": "C12", "title": "Hex codec round-trips and its acceptance set", "statement": "decode_hex(encode_hex(b)) = Ok(b) for every byte string; encode_hex yields 2 lower-case hex digits per byte; decode_hex of an even-length ASCII string is Ok exactly when each pair is two hex digits of either case or '+' followed by one hex digit (so it also accepts e.g. \"+f\"), and an odd-length string panics or errors, never decodes.", "quantifier": "all byte strings, all ASCII strings", "why_tests_cant": "The over-acceptance is only visible on inputs nobody tests; totality ranges over all strings.", "anchors": ["lib/sia/rust/utils/src/format.rs: decode_hex, encode_hex"]}
{"id": "C13", "title": "UTF-8 text survives the byte codec", "statement": "Decoding the bytes of any Unicode string gives the string back, and any byte string that decodes is the encoding of the result (no overlong or surrogate encodings are accepted).", "quantifier": "all sequences of Unicode scalar values, all byte strings", "why_tests_cant": "1.1M scalar values and all sequences.", "anchors": ["lib/sia/rust/watermarking/src/watermark.rs: Watermark::serialize (as_bytes), deserialize (String::from_utf8)"]}
{"id": "C14", "title": "Error-correcting encoding round-trips at coded capacities", "statement": "If the capacity selects an LDPC code and that code decodes its own codewords, decode(encode(bytes) ++ padding) = bytes for every input of at most 65535 bytes and every padding that is a whole number of codewords.", "quantifier": "all inputs up to 65535 bytes, all capacities that select a code, all trailing codeword-sized blocks", "why_tests_cant": "Tests cover 15 literal lengths at 3 capacities.", "anchors": ["lib/sia/rust/encoding/src/lib.rs: encode, decode, get_code_by_codeword_length"]}
{"id": "C15", "title": "Uncoded capacities never round-trip", "statement": "For every capacity that selects no LDPC code (e.g. 72 bytes, a 192x192 image), decode(encode(bytes)) is different from bytes for every input: the two length bytes are added but never removed; for every payload shorter than 256 bytes the payload parser then panics or returns a different payload.", "quantifier": "all capacities outside the code table, all inputs", "why_tests_cant": "It is a universally quantified failure: no input works; tests only use power-of-two capacities.", "anchors": ["lib/sia/rust/encoding/src/lib.rs: encode (line 69), decode (line 113)", "lib/sia/rust/embedding/src/lib.rs: embed, extract"]}
{"id": "C16", "title": "The 16-bit length header silently wraps", "statement": "encode never panics on an input of 65536 bytes or more at a coded capacity, but its decoding yields only the first (length mod 65536) bytes; in particular an input of exactly 65536 bytes decodes to the empty vector.", "quantifier": "all inputs of length >= 65536", "why_tests_cant": "Needs inputs over 64 KiB for every length class.", "anchors": ["lib/sia/rust/encoding/src/lib.rs: encode (line 53)"]}
{"id": "C17", "title": "Size of the encoded data and when it fits", "statement": "At a coded capacity encode returns ceil((len+2)/(k/8)) codewords of n/8 bytes; decode panics on data that is not a whole number of codewords; so a domain can be read back only if its capacity is a multiple of the codeword length: capacities of 1025..2047 bytes, for instance, can be written but never extracted.", "quantifier": "all inputs and capacities", "why_tests_cant": "Ranges over all image sizes.", "anchors": ["lib/sia/rust/encoding/src/lib.rs: encode, decode", "lib/sia/rust/embedding/src/lib.rs: embed, extract"]}
{"id": "C18", "title": "Errors correctable by the code do not change the decoded data", "statement": "If in every received codeword the error pattern is one the LDPC decoder corrects, decode returns the same bytes as without errors.", "quantifier": "all inputs, all error patterns in the decoder's correctable set, per codeword independently", "why_tests_cant": "Exponentially many error patterns.", "anchors": ["lib/sia/rust/encoding/src/lib.rs: decode"]}
{"id": "C19", "title": "Bit placement is a bijection exactly on square domains", "statement": "On a square n x n coefficient domain the i-th written bit goes to a distinct in-range cell for all i < n*n, every cell is used once, and the same cell is used by the reader; on a domain with fewer rows than columns two of the first (rows+1) bits collide; on one with more rows than columns the writer panics at bit number columns.", "quantifier": "all domain shapes, all offsets", "why_tests_cant": "Over all shapes; tests only use 4x4 and 32x32.", "anchors": ["lib/sia/rust/embedding/src/io/steganography.rs: get_column_and_row, write_bit, read_bit"]}
{"id": "C20", "title": "Non-square domains cannot carry data", "statement": "Writing to a domain with more rows than columns panics whenever more bits are written than there are columns; writing to a domain with fewer rows than columns succeeds, but there are payloads which read back differently.", "quantifier": "all non-square domain shapes", "why_tests_cant": "Over all shapes and payloads.", "anchors": ["lib/sia/rust/embedding/src/io/steganography.rs: write, read"]}
{"id": "C21", "title": "Written bits are read back (exact arithmetic)", "statement": "For every positive depth and every square domain, reading after writing returns the written bytes followed by exactly the bytes that were read at those places before writing.", "quantifier": "all coefficient matrices, all payloads up to capacity, all depths > 0", "why_tests_cant": "Real-valued coefficients and depth.", "anchors": ["lib/sia/rust/embedding/src/io/steganography.rs: write, read"]}
{"id": "C22", "title": "Written bits are read back (f64)", "statement": "Same as C21 with f64 arithmetic, for depths and coefficients of ordinary magnitude.", "quantifier": "all f64 coefficients and depths in the stated range", "why_tests_cant": "2^64 coefficients.", "anchors": ["lib/sia/rust/embedding/src/io/steganography.rs: write, read"]}
{"id": "C23", "title": "Writing changes each used coefficient by at most 3/4 of the depth and nothing else", "statement": "After write, each of the first 8*len cells (in placement order) has moved by at most 0.75*depth (exact arithmetic; in f64 2^-11 of a depth more for coefficients of ordinary magnitude), all other cells are untouched, and the matrix keeps its shape.", "quantifier": "all domains, payloads, depths > 0", "why_tests_cant": "Real-valued.", "anchors": ["lib/sia/rust/embedding/src/io/steganography.rs: write_bit"]}
{"id": "C24", "title": "Capacity check is exact", "statement": "write panics iff the payload is longer than floor(rows*cols/8) bytes (on a square domain), and read always returns exactly floor(rows*cols/8) bytes.", "quantifier": "all square domains and payload lengths", "why_tests_cant": "All sizes; the computation goes through f64.", "anchors": ["lib/sia/rust/embedding/src/io/steganography.rs: get_capacity, write, read"]}
{"id": "C25", "title": "The channel tolerates coefficient noise below depth/4", "statement": "If after writing every used coefficient is disturbed by strictly less than depth/4, the written bytes are still read back (exact arithmetic; in f64 up to (1/4 - 2^-9) of the depth).", "quantifier": "all domains, payloads, depths > 0, all disturbances < depth/4", "why_tests_cant": "Continuum of disturbances.", "anchors": ["lib/sia/rust/embedding/src/io/steganography.rs: read_bit"]}
{"id": "C26", "title": "Negative depth inverts every bit", "statement": "With a negative depth every bit written is read back as its complement (exact arithmetic, and f64 for depths between -2^500 and -2^-500); the bytes behind the payload read as before.", "quantifier": "all domains, payloads and depths < 0", "why_tests_cant": "Real-valued; the API does not reject negative depth.", "anchors": ["lib/sia/rust/embedding/src/io/steganography.rs: write_bit, read_bit"]}
{"id": "C27", "title": "The wavelet transform reconstructs perfectly (exact arithmetic)", "statement": "For every matrix whose sides are divisible by 2^levels and every levels >= 1, the backward transform of the forward transform is the matrix itself, and vice versa.", "quantifier": "all real matrices, all numbers of levels", "why_tests_cant": "All matrices and depths of recursion.", "anchors": ["lib/sia/rust/embedding/src/haar/mod.rs: dwt_2d, dwt_1d"]}
{"id": "C28", "title": "The low-pass band is the scaled block sum", "statement": "After L forward levels cell (i,j) of the top-left band is 2^-L times the sum of the 2^L x 2^L pixel block (i,j); computed in double precision from an 8-bit picture it is within 2^-24 of that number and never negative.", "quantifier": "all matrices, all levels", "why_tests_cant": "All matrices.", "anchors": ["lib/sia/rust/embedding/src/haar/mod.rs: dwt_2d"]}
{"id": "C29", "title": "f64 transform reproduces 8-bit images exactly", "statement": "For every 8-bit image with sides divisible by 2^L, L <= 10 (the library uses L = 3), rounding the backward transform of the forward transform computed in f64 returns exactly the original pixels.", "quantifier": "all 8-bit images, all sizes, all supported levels", "why_tests_cant": "256^(w*h) images.", "anchors": ["lib/sia/rust/embedding/src/haar/mod.rs: dwt_2d", "lib/sia/rust/embedding/src/lib.rs: embed (line 54)"]}
{"id": "C30", "title": "Embedding then extracting returns the payload (exact arithmetic)", "statement": "For every square image with sides divisible by 2^L, every depth > 2^(L+1), every payload of 1..65533 bytes whose encoding fits a capacity that is a whole number of codewords, and pixels far enough from 0 and 255 that no pixel saturates (at least 3*depth/2^(L+2) away), extract(embed(image, bytes, depth, L), depth, L) = bytes.", "quantifier": "all images meeting the margin, all payloads, depths and levels", "why_tests_cant": "All images, sizes, payloads.", "anchors": ["lib/sia/rust/embedding/src/lib.rs: embed, extract"]}
{"id": "C31", "title": "Embedding then extracting returns the payload (f64)", "statement": "Same as C30 for the f64 implementation at the library's three levels, with a small additional margin on the depth.", "quantifier": "all 8-bit images meeting the margin, all payloads, all f64 depths in range", "why_tests_cant": "All images.", "anchors": ["lib/sia/rust/embedding/src/lib.rs: embed, extract"]}
{"id": "C32", "title": "Embedding changes no pixel by more than 3/4*depth/2^L (rounded)", "statement": "For every square image, payload and depth, every output pixel differs from the input pixel by at most 3*depth/2^(L+2) + 1/2; with the CLI's depth 100 by at most 9 grey levels, and with the web front-end's depth 500 by at most 47.", "quantifier": "all images, payloads, depths", "why_tests_cant": "All images.", "anchors": ["lib/sia/rust/embedding/src/lib.rs: embed", "lib/sia/rust/cli/src/main.rs: process (line 35)"]}
{"id": "C33", "title": "Pixels of unused blocks are unchanged", "statement": "Pixels of 2^L x 2^L blocks to which no data bit is assigned are returned unchanged.", "quantifier": "all images, payloads, depths, levels", "why_tests_cant": "All images.", "anchors": ["lib/sia/rust/embedding/src/lib.rs: embed"]}
{"id": "C34", "title": "Saturation can destroy the payload", "statement": "The pixel margin of C30 is necessary: for a black image a written 0-bit is read back as 1 for every depth > 0, whatever the size; once the depth passes twice the block side the outcome of extract no longer depends on the payload. Both also hold of the double-precision code for depths from 1 (or that bound) to 2^20.", "quantifier": "all square black images, all depths", "why_tests_cant": "Universally quantified failure.", "anchors": ["lib/sia/rust/embedding/src/lib.rs: embed (line 54)"]}
{"id": "C35", "title": "Embedding preserves the image shape and rejects small domains", "statement": "embed returns an image of the same shape; for a low-pass band of fewer than 72 cells (capacity below 9 bytes) both embed and extract panic instead of returning.", "quantifier": "all images, payloads, levels", "why_tests_cant": "All shapes.", "anchors": ["lib/sia/rust/embedding/src/lib.rs: embed, extract, get_domain_capacity"]}
{"id": "C36", "title": "A watermarked channel authenticates", "statement": "If watermark_channel returns, the image margin of C31 holds, and the features of the watermarked channel stay within the quantiser's correction range of the original ones, authenticate_channel returns true (assuming the signature scheme verifies its own signatures and the LDPC code decodes its own codewords).", "quantifier": "all channels, parameters and feature functions", "why_tests_cant": "All images; composition of six components.", "anchors": ["lib/sia/rust/watermarking/src/process.rs: watermark_channel, authenticate_channel"]}
{"id": "C37", "title": "Authentication implies a valid signature on the recovered features", "statement": "If authenticate_channel returns true, the public key verifies the extracted signature on the little-endian encoding of the features restored from the image itself; hence, if the scheme verifies only messages signed with the private key, exactly that integer vector has been signed.", "quantifier": "all images, including forged ones", "why_tests_cant": "Adversarial inputs.", "anchors": ["lib/sia/rust/watermarking/src/process.rs: authenticate_channel", "lib/sia/rust/signature/src/lib.rs: verify"]}
{"id": "C38", "title": "The embedded text is not authenticated", "statement": "The verdict does not depend on the text stored in the payload: replacing the text by any other text leaves the verdict unchanged.", "quantifier": "all extracted payloads, all texts", "why_tests_cant": "All texts.", "anchors": ["lib/sia/rust/watermarking/src/process.rs: authenticate_channel", "lib/sia/rust/watermarking/src/watermark.rs: deserialize"]}
{"id": "C39", "title": "Payload size and minimal image size", "statement": "With the library's parameters (n features, 64-byte signature, 12-byte text) the payload has 79 + ceil(3n/8) bytes, and watermarking returns exactly when its coded size fits the low-pass band (otherwise it panics with the capacity error). With 11 features a 256x256 image always panics with the capacity error and a 512x512 one never does; of all square sides below 1024 only 512 can be watermarked and then give an authentication verdict (depth above 16, pixels of the marked blocks keeping the margin of C31 from black and white).", "quantifier": "all images of the given sizes", "why_tests_cant": "All images.", "anchors": ["lib/sia/rust/watermarking/src/process.rs: watermark_channel", "lib/sia/rust/encoding/src/lib.rs: encode"]}
{"id": "C40", "title": "More than 85 features can never be watermarked", "statement": "watermark panics for every non-empty image when features_amount > 85 or features_amount = 0, since 3*features_amount bits exceed the one-byte length.", "quantifier": "all images, all features_amount up to 2^50 in double precision and 2^63 in exact arithmetic (longer vectors exist on no machine)", "why_tests_cant": "All images.", "anchors": ["lib/sia/rust/watermarking/src/process.rs: watermark_channel", "lib/sia/rust/watermarking/src/watermark.rs: serialize", "lib/sia/rust/zernike/src/lib.rs: get_order_by_features_amount"]}
{"id": "C41", "title": "Signature API contract", "statement": "For a valid key pair, verify(data, sign(data, sk, pk), pk) = true for every data; verify returns (true or false) exactly for well-formed keys and signatures, and panics on every signature that is not 64 well-formed bytes rather than returning false.", "quantifier": "all data, keys and signatures", "why_tests_cant": "All messages.", "anchors": ["lib/sia/rust/signature/src/lib.rs: sign, verify"]}
{"id": "C42", "title": "Watermarking preserves dimensions, colour layout and alpha", "statement": "watermark returns an 8-bit image of the same size and the same has-colour/has-alpha layout; the alpha channel is exactly the input's; each colour channel of the result is exactly the watermarked colour channel, independent of the other channels; the filler alpha used for opaque images never reaches the output.", "quantifier": "all images of any colour type", "why_tests_cant": "All images.", "anchors": ["lib/sia/rust/watermarking/src/lib.rs: watermark"]}
{"id": "C43", "title": "Grayscale output equals the watermarked luma channel", "statement": "For gray images the conversion of the intermediate RGBA image back to gray is lossless for every pixel value.", "quantifier": "all gray images", "why_tests_cant": "All images.", "anchors": ["lib/sia/rust/watermarking/src/lib.rs: watermark (lines 101-106)"]}
{"id": "C44", "title": "Number and indices of the features", "statement": "calculate_features for the Zernike type returns exactly features_amount values for every square image and features_amount >= 1 (moments of order 2n-1 and indices 1,3,...,2n-1); amount 0 panics; the two other feature types always return an empty vector.", "quantifier": "all images and amounts up to 2^50 in double precision and 2^63 in exact arithmetic", "why_tests_cant": "All amounts and sizes.", "anchors": ["lib/sia/rust/zernike/src/lib.rs: calculate_features, get_order_by_features_amount", "lib/sia/rust/image-features/src/lib.rs: calculate_features"]}
{"id": "C45", "title": "Point-symmetric images have all-zero features", "statement": "Every image invariant under a 180-degree rotation has all features equal to 0 (exact arithmetic), so any two such images are indistinguishable to the authenticator.", "quantifier": "all point-symmetric square images of any size, all amounts", "why_tests_cant": "All images.", "anchors": ["lib/sia/rust/zernike/src/calc.rs: calculate_zernike_image_moment, get_zernike_matrix, v"]}
{"id": "C46", "title": "Features are invariant under 90-degree rotations and mirroring", "statement": "Rotating the image by 90 degrees or transposing/mirroring it leaves every feature unchanged (exact arithmetic).", "quantifier": "all square images", "why_tests_cant": "All images.", "anchors": ["lib/sia/rust/zernike/src/calc.rs: calculate_zernike_image_moment, to_polar"]}
{"id": "C47", "title": "Features scale with brightness", "statement": "Adding an image constant-wise or multiplying all pixels by a factor: features are homogeneous (|factor| times) and unchanged by adding a constant to every pixel (exact arithmetic).", "quantifier": "all images, factors and constants", "why_tests_cant": "All images.", "anchors": ["lib/sia/rust/zernike/src/calc.rs: calculate_zernike_image_moment"]}
{"id": "C48", "title": "Radial polynomial is normalised and coordinates stay in the unit disk", "statement": "The radial polynomial of every odd order and every admissible index is 1 at radius 1, and every pixel of an n x n image (n >= 2) is mapped into the closed unit disk, corners exactly onto the unit circle.", "quantifier": "all orders, indices and image sizes", "why_tests_cant": "All orders.", "anchors": ["lib/sia/rust/zernike/src/calc.rs: radial, f, to_polar"]}
{"id": "C49", "title": "Tall images are rejected by the feature extractor", "statement": "For an image array with more columns than rows (a picture taller than wide) feature extraction, hence watermarking, always panics.", "quantifier": "all non-square images with height > width, all amounts up to 2^50 in double precision and 2^63 in exact arithmetic", "why_tests_cant": "All images.", "anchors": ["lib/sia/rust/zernike/src/calc.rs: calculate_zernike_image_moment (line 23)"]}
{"id": "C50", "title": "factorial is the factorial on naturals and never returns on negative integers", "statement": "factorial(n) = n! for every natural n (exact arithmetic), and the recursion never reaches its base case for a negative integer.", "quantifier": "all integers", "why_tests_cant": "Non-termination cannot be tested.", "anchors": ["lib/sia/rust/utils/src/math.rs: factorial"]}
{"id": "C51", "title": "Pseudo-random generator range and determinism", "statement": "In double precision generate_unit is in [0,1) and generate(a,b) in the closed range [a,b] for every seed below the maximum of usize and finite a<=b of ordinary size; the upper end b can be returned, it is excluded only in exact arithmetic. The sequence is a function of the seed; re-seeding restarts the same sequence; between 2^54 and 2^55 every fourth pair of neighbouring seeds gives equal values; drawing at the maximum of usize panics in a checked build and restarts at 0 otherwise.", "quantifier": "all seeds, all ranges", "why_tests_cant": "All 2^64 seeds.", "anchors": ["lib/sia/rust/utils/src/pseudo_random.rs: PseudoRandom"]}
{"id": "C52", "title": "CLI writes exactly one file per distinct output name", "statement": "With -s SUFFIX every input a/b/stem.ext is written to stem-SUFFIX.ext in the output folder (or current folder), the last input with a given stem and extension wins, so inputs of equal file name in different folders silently overwrite each other (and only those); no other file is touched, however the run ends.", "quantifier": "all input lists, all file systems", "why_tests_cant": "All lists of paths.", "anchors": ["lib/sia/rust/cli/src/main.rs: process"]}
{"id": "C53", "title": "CLI without suffix has no effect; a failing input keeps earlier outputs", "statement": "Without -s, with -h or without inputs no file is read or written; an existing output path that is no folder gives exit code 1 and no effect. If processing input i panics, the outputs of inputs before i are complete, inputs after i have no effect and only the output of i may differ; it is untouched if i cannot be read, decoded or watermarked, and its old content is lost if encoding fails.", "quantifier": "all input lists, all failure points", "why_tests_cant": "All failure points.", "anchors": ["lib/sia/rust/cli/src/main.rs: process"]}
{"id": "C54", "title": "Elapsed-time display is a truncation", "statement": "The displayed duration never exceeds the real one and is less than one displayed unit below it, for every duration.", "quantifier": "all durations", "why_tests_cant": "All durations.", "anchors": ["lib/sia/rust/cli/src/timer.rs: Elapsed::fmt"]}
{"id": "C55", "title": "Web image model holds 4 bytes per pixel", "statement": "get_watermarking_process returns source and watermarked models of identical width and height with exactly 4*width*height data bytes each; the source model is the RGBA form of the decoded input.", "quantifier": "all decodable inputs", "why_tests_cant": "All images.", "anchors": ["lib/sia/rust/web/src/lib.rs: get_watermarking_process, get_image_model"]}
{"id": "C56", "title": "f64 index arithmetic equals integer arithmetic", "statement": "The capacities, byte counts and row numbers the code computes through f64 division with floor/ceil equal the integer quotients for all operands below 2^53 (2^51 for rows).", "quantifier": "all operands below the bound", "why_tests_cant": "2^100 pairs.", "anchors": ["lib/sia/rust/embedding/src/io/steganography.rs: get_capacity, get_column_and_row", "lib/sia/rust/watermarking/src/watermark.rs: deserialize (line 64)", "lib/sia/rust/three-bit-quantization/src/lib.rs: perturbation_vector_as_bytes (line 11)"]}
{"id": "C57", "title": "Only few picture sizes can carry a payload", "statement": "At a coded capacity that is not a whole number of code words extract panics for every image; at a capacity without a code an embedded payload is never returned although all stored bits are read correctly; with the library's three levels the only square sides below 1024 pixels at which a payload can come back are 128, 256 and 512.", "quantifier": "all image sizes, all images, all payloads", "why_tests_cant": "All sizes and images.", "anchors": ["lib/sia/rust/embedding/src/lib.rs: embed, extract, get_domain_capacity", "lib/sia/rust/encoding/src/lib.rs: get_code_by_codeword_length"]}
{"id": "C58", "title": "Only the stored number of features is checked", "statement": "With 3k perturbation bits in the extracted watermark the verdict of authenticate_channel depends only on the first k features of the image, whatever number of features the caller asks for: the remaining features are not authenticated.", "quantifier": "all images, payloads and feature counts", "why_tests_cant": "All images and payloads.", "anchors": ["lib/sia/rust/watermarking/src/process.rs: authenticate_channel", "lib/sia/rust/three-bit-quantization/src/lib.rs: three_bit_dequantization"]}
{"id": "C59", "title": "The visible change of a watermarked picture is bounded", "statement": "For a square picture whose side is a multiple of 8, watermark at the command line's depth 100 moves no colour value of any pixel by more than 9 grey levels, at the web page's depth 500 by no more than 47 (double precision, rounding and clamping included), and never changes an alpha value.", "quantifier": "all pictures, all colour layouts, all payloads and all steps", "why_tests_cant": "All images.", "anchors": ["lib/sia/rust/watermarking/src/lib.rs: watermark", "lib/sia/rust/embedding/src/lib.rs: embed"]}
{"id": "C60", "title": "Every colour channel of a watermarked picture authenticates", "statement": "If no colour channel saturates in the blocks that carry data, watermark returns, and each of the three colour channels of the returned picture is accepted by authenticate_channel with the same parameters, provided the features moved by less than one quantisation step.", "quantifier": "all square pictures of a usable size, all depths and steps in the stated range", "why_tests_cant": "All images and features.", "anchors": ["lib/sia/rust/watermarking/src/lib.rs: watermark", "lib/sia/rust/watermarking/src/process.rs: watermark_channel, authenticate_channel"]}
{"id": "C61", "title": "Embedding and extraction have a closed form", "statement": "For a square picture whose side is a multiple of 2^levels, embed changes a grey value v only by rounding and clamping v plus a shift that is the same for all pixels of a 2^levels block: blocks that carry a payload bit move (2^levels times) their mean to the quarter point above (bit 1) or below (bit 0) the nearest multiple of the depth, all other blocks have shift 0; extract reads bit k as 1 exactly when 2^levels times block k's mean lies at or above the nearest multiple of the depth, and decodes the bytes so read. In double precision embed produces this very picture whenever no block lies within a tiny distance of a rounding tie.", "quantifier": "all pictures, levels, depths and payloads", "why_tests_cant": "All images.", "anchors": ["lib/sia/rust/embedding/src/lib.rs: embed, extract", "lib/sia/rust/embedding/src/io/steganography.rs: write, read", "lib/sia/rust/embedding/src/haar/mod.rs: dwt_2d"]}
{"id": "C62", "title": "Embedding is idempotent, and a second payload replaces the first", "statement": "Embedding the same payload again at the same depth returns the same picture, pixel by pixel (exact arithmetic, and double precision away from rounding ties); embedding another payload into a marked picture makes extract return the second payload, whatever the first was.", "quantifier": "all non-saturating pictures, all pairs of payloads", "why_tests_cant": "All images and histories of two embeddings.", "anchors": ["lib/sia/rust/embedding/src/lib.rs: embed, extract"]}
{"id": "C63", "title": "Extraction survives small changes and is inverted by large ones", "statement": "If every pixel of a marked picture is changed by at most t grey levels with 2^levels*(t+1/2) < depth/4 (or the block means by less than the same budget) extract still returns the payload; in double precision with a margin of depth/512, so that 2 grey levels are tolerated at the command line's depth 100 and 15 at the web page's 500. Brightening the whole picture by about depth/2^(levels+1) inverts every stored bit.", "quantifier": "all marked pictures, all bounded modifications", "why_tests_cant": "All modifications of all images.", "anchors": ["lib/sia/rust/embedding/src/lib.rs: embed, extract", "lib/sia/rust/embedding/src/io/steganography.rs: read"]}
{"id": "C64", "title": "A slightly altered watermarked channel still authenticates", "statement": "After watermark_channel, changing every grey value by at most t with 2^levels*(t+1/2) below a quarter of the depth (in double precision with a margin of depth/512, for at most ten levels and depths up to 2^20) leaves the channel authentic, as long as its features stay within one quantisation step of the original ones.", "quantifier": "all channels of a usable size, all bounded modifications, all extractors", "why_tests_cant": "All images and all modifications of them.", "anchors": ["lib/sia/rust/watermarking/src/process.rs: watermark_channel, authenticate_channel", "lib/sia/rust/embedding/src/lib.rs: embed, extract", "lib/sia/rust/embedding/src/io/steganography.rs: read"]}
{"id": "C65", "title": "Pictures that are not square can never be watermarked", "statement": "If width and height are different multiples of 8 (height below 65536), watermark with Zernike features panics for every picture content, depth, step and feature count: a picture wider than high fails while its bits are written, whatever the extractor and arithmetic, and one higher than wide fails in the feature extractor.", "quantifier": "all non-square pictures of fewer than 2^53 pixels, all amounts up to 2^50 in double precision and 2^63 in exact arithmetic", "why_tests_cant": "All sizes and contents.", "anchors": ["lib/sia/rust/watermarking/src/lib.rs: watermark", "lib/sia/rust/embedding/src/io/steganography.rs: get_column_and_row, write", "lib/sia/rust/zernike/src/lib.rs: calculate_features, calculate_moment"]}
{"id": "C66", "title": "Zernike features are bounded and stable", "statement": "For every order and index of equal parity the radial value on [0,1] is at most 1 in absolute value; consequently each of the features of a square grey picture lies between 0 and 255*amount/PI, and if a picture is changed by a constant grey shift c plus a perturbation of mean absolute value m no feature moves by more than 2*amount/PI*m (exact arithmetic; in double precision, for up to 11 features and sides up to 65536, with 1/64 added).", "quantifier": "all orders, all picture sizes, all pictures and perturbations", "why_tests_cant": "All orders and images.", "anchors": ["lib/sia/rust/zernike/src/calc.rs: radial, calculate_zernike_image_moment", "lib/sia/rust/zernike/src/lib.rs: calculate_features"]}
{"id": "C67", "title": "Watermarked channels authenticate end to end with Zernike features", "statement": "With the Zernike extractor, a non-saturating channel of a usable size is watermarked successfully, every grey value moves by at most 3*depth/2^(levels+2)+1/2, and any later channel whose grey values differ from the marked ones by at most t (2^levels*(t+1/2) < depth/4) and whose equalised pixels differ from the original equalised pixels, up to a constant, by a mean of at most step*PI/(2*amount) is authentic: no assumption about the computed features is left (exact arithmetic; in double precision for up to 11 features, with 1/64 added to the feature movement and the exact features of the received channel not within 1/128 of a positive multiple of the step).", "quantifier": "all channels of a usable size, all bounded modifications, up to 85 features", "why_tests_cant": "All images and modifications.", "anchors": ["lib/sia/rust/watermarking/src/process.rs: watermark_channel, authenticate_channel", "lib/sia/rust/zernike/src/lib.rs: calculate_features"]}
{"id": "C68", "title": "The compiled feature extractor is accurate", "statement": "For a square grey picture of side 2 to 65536 and 1 to 11 features, calculate_features in double precision returns as many finite nonnegative numbers as requested, each within 1/128 of the exact Zernike feature, for every mathematical library whose powf, sqrt, atan2, exp, cos, sin and hypot err by at most four units in the last place (2^-51 relative; 2^-49 absolute for the angle); two such libraries (for instance the native and the WebAssembly one) never disagree by more than 1/64.", "quantifier": "all square grey pictures, all sufficiently accurate mathematical libraries", "why_tests_cant": "Rounding errors must be bounded for every picture, pixel position and library.", "anchors": ["lib/sia/rust/zernike/src/lib.rs: calculate_features", "lib/sia/rust/zernike/src/calc.rs: calculate_zernike_image_moment, get_zernike_matrix, to_polar, radial, f, v"]}
{"id": "C69", "title": "Alterations the scheme cannot see", "statement": "The Zernike features react to no point-symmetric change of the equalised picture, however strong, and extraction reads the sums of the 2^levels-sided blocks only. So two channels with equal block sums whose equalised rasters differ by a point-symmetric pattern get the same verdict (or panic) from authenticate, for instance a channel and the same channel under a chessboard of any contrast (exact arithmetic); in double precision a watermarked channel stays authentic under every alteration that moves the block sums by little and that, up to some point-symmetric pattern of any strength, moves the equalised pixels by little on average.", "quantifier": "all pictures, all alterations, all point-symmetric patterns", "why_tests_cant": "Security limit over all pictures and all alterations.", "anchors": ["lib/sia/rust/watermarking/src/process.rs: authenticate_channel", "lib/sia/rust/embedding/src/lib.rs: extract", "lib/sia/rust/zernike/src/lib.rs: calculate_features"]}
{"id": "C70", "title": "Uploaded bytes reach the library unchanged", "statement": "For every file content, a file whose MIME type is image/ followed by letters and digits, read by the browser as a base64 data URL, reaches get_watermarking_process byte for byte, both for the built-in picture and for a selected file (whose prefix is removed twice); files of every other MIME type without parameters (image/svg+xml, image/x-ms-bmp, application/octet-stream, ...) never reach it: decoding throws. More generally a text is accepted exactly if, after removing such a prefix (once) and all blanks, it consists of base64 digits, not one more than a multiple of four, and at most two '=' that complete a group of four; it then stands for the bits of its digits cut after the last whole byte, so blanks and missing padding change nothing.", "quantifier": "all file contents, all MIME types, all texts", "why_tests_cant": "All contents and types; base64 padding and prefix edge cases.", "anchors": ["src/Content/utils.ts: removeMime, base64ToUInt8Array, fileToBase64"]}
{"id": "C71", "title": "What the web page shows under every schedule", "statement": "For every order in which initialisation, the load of the built-in picture, file selections and file reads happen, succeed or fail: the library is never called before its module is initialised; the page shows the result of the last load to finish among those that succeeded, a failed load changes nothing; until the built-in picture has loaded no file can be selected; of two files selected one after the other the one selected first stays on the page if its read finishes last.", "quantifier": "all schedules of events, one or two runs of the effect (React.StrictMode), all files", "why_tests_cant": "Asynchronous interleavings; races are not reproducible in tests.", "anchors": ["src/Content/Content.tsx: Content, loadImageFromFile", "src/index.tsx"]}
{"id": "C72", "title": "The canvases get every pixel", "statement": "For every upload the library accepts whose picture has at least one pixel, drawing the source and the watermarked canvas does not throw and each canvas receives exactly the model's bytes, four per pixel.", "quantifier": "all uploads, all library oracles", "why_tests_cant": "All pictures.", "anchors": ["src/Canvas/Canvas.tsx: Canvas", "lib/sia/rust/web/src/lib.rs: get_image_model"]}
{"id": "C73", "title": "Objects handed to JavaScript", "statement": "Over every sequence of calls on ImageModel and WatermarkingProcess objects and on the arrays: a field keeps its value until its own setter is called or the object is given away, and setters are read back (sizes modulo 2^32); a model passed to a constructor or setter, or freed, is gone for good and every later call on it throws, and so is a freed process; an array holds what was last written to each place (modulo 256); each model got from a process is a new object with its own size but shares one array with the process and all other such models; the copies the page makes (slice) are private, have the computed format, sizes and bytes, and leave the uploaded array untouched.", "quantifier": "all sequences of calls, all objects", "why_tests_cant": "Aliasing over unbounded call histories.", "anchors": ["lib/sia/rust/web/src/image_model.rs: ImageModel", "lib/sia/rust/web/src/watermarking_process.rs: WatermarkingProcess", "src/Content/utils.ts: toImageModel, toWatermarkingProcess"]}
{"id": "C74", "title": "What a command line means", "statement": "The arguments are accepted exactly when they consist of file names, -s/-o with a value (attached, in the next word, or as --s=V), -h/--help, rows of these letters and an optional -- after which everything is a file, with no option given twice. They then mean the same in whatever order options and files stand: -h or no files gives no effect, otherwise the files are processed in the order given with that suffix and output folder. All other arguments panic without effect.", "quantifier": "all argument lists, all file systems", "why_tests_cant": "Argument lists are unbounded in length and content; order and clustering of options give infinitely many cases", "anchors": ["lib/sia/rust/cli/src/main.rs: main, process"]}
{"id": "C75", "title": "Outputs that are inputs of the same run", "statement": "Without an output folder the output of an input has the name of another input exactly when that input's stem is the first one's with -SUFFIX appended; no input overwrites itself. If such an input comes later on the command line, its old content is overwritten before it is read: it has no influence on the run, for every position and whatever else is processed. Every input is read as the inputs before it left it, so such an input is the earlier output, watermarked again.", "quantifier": "all command lines, all pairs of file systems that differ in that one file, all points where the run can stop", "why_tests_cant": "needs two runs over all file contents compared", "anchors": ["lib/sia/rust/cli/src/main.rs: process"]}
{"id": "C76", "title": "Only the order of the pixels enters what is signed", "statement": "Before features are computed every pixel is replaced by 255 times the share of the pixels that are not brighter (truncated; binary32 as compiled, error at most 2^-14). So two channels of equal size in which any two pixels compare alike - a picture and the same picture through any strictly increasing tone curve - have the same features, and if the watermark can be read the same verdict. In binary64: a watermarked channel brightened, darkened or tone-mapped by at most t grey levels gets exactly the verdict of the untouched one, for every t with 2^levels (t + 1/2 + 1/1024) < (1/4 - 1/512) depth, with no assumption on the features.", "quantifier": "all rasters of bytes of any size below 2^24 pixels, all strictly increasing tone curves, all extractors, all depths, steps and levels in range", "why_tests_cant": "ranges over all pictures and all tone curves", "anchors": ["lib/sia/rust/watermarking/src/process.rs: watermark_channel, authenticate_channel (equalize_histogram)"]}
{"id": "C77", "title": "Flat pictures and amplification by equalisation", "statement": "Every flat channel becomes white and has zero features whatever its grey level, so all flat channels sign alike. Equalisation is not stable: raising half of the pixels of a flat channel of even side by a single grey level moves half of the equalised pixels by 128 and, when one feature is requested, that feature from 0 to more than 14, fourteen quantisation steps of the front ends.", "quantifier": "all grey levels, all sides (even sides up to 4096 for the second part)", "why_tests_cant": "two-run statement over all sizes and grey levels; the feature is a real-valued sum", "anchors": ["lib/sia/rust/watermarking/src/process.rs: watermark_channel, authenticate_channel", "lib/sia/rust/zernike/src/lib.rs: calculate_features, calculate_moment"]}
{"id": "C78", "title": "Changes beyond the tolerance are not covered by the signature", "statement": "In binary64: if the watermark read from a received channel is the one made for features F, and some feature of the received channel is off by at least 3/2 + 2^-20 steps from F, then the verdict is exactly the signature check on a vector of 64-bit integers other than the signed one (so it is false unless that very vector and signature are a forgery). Consequently: watermark a channel, change its pixels by so little that the watermark is still read; if the change moves some feature by at least 3/2 + 2^-20 steps, the verdict is false whenever the signature fits the signed vector only. And whatever an attacker stores in a channel: a true verdict with some feature off by at least 2 + 2^-20 steps from given features means the stored signature was accepted on a vector other than theirs.", "quantifier": "all channels, originals and received, all extractors, depths, steps, levels and features of ordinary size; the received features away from bin boundaries for the first two parts", "why_tests_cant": "ranges over all alterations and all contents of the received channel; a test shows one alteration rejected", "anchors": ["lib/sia/rust/watermarking/src/process.rs: watermark_channel, authenticate_channel", "lib/sia/rust/three-bit-quantization/src/lib.rs: three_bit_quantization, three_bit_dequantization", "lib/sia/rust/signature/src/lib.rs: verify"]}
{"id": "C79", "title": "When the authenticator gives a verdict at all", "statement": "authenticate_channel returns true or false exactly when the raster has the declared size, the features can be computed, a payload can be extracted that is a well-formed watermark, the number of stored bits is a multiple of three covering at most the computed features, and keys and stored signature parse; the verdict is then the signature check on the restored features. In every other case it does not return false but panics. Bytes that break it - one zero byte is enough, or an empty watermark - can be hidden without any key in every picture with room for them, so anybody can make a picture on which the authenticator dies (binary64).", "quantifier": "all received channels, all payloads of 1..65533 bytes, all depths, steps, amounts and levels in range", "why_tests_cant": "ranges over all received pictures and hidden payloads", "anchors": ["lib/sia/rust/watermarking/src/process.rs: authenticate_channel", "lib/sia/rust/watermarking/src/watermark.rs: deserialize", "lib/sia/rust/signature/src/lib.rs: verify"]}
{"id": "C80", "title": "What the command line prints", "statement": "While it processes files the tool itself prints exactly one line for each input it completed (every other line on standard output is a labelled diagnostic of the library, C93, and none of those starts like such a line), in the order of the inputs, naming the output file and the number of channels before and after, which are always equal; so wherever a run stops the lines tell which inputs are finished. From a line the path, the counts and the displayed time can be read back whatever characters the path contains. Without -s it prints only 'No output image', for an output that is no folder only that message, for -h or no inputs only the usage, for refused arguments nothing; in these cases no file is touched.", "quantifier": "all command lines, file systems, clocks and points where the run can stop", "why_tests_cant": "all file systems and failures", "anchors": ["lib/sia/rust/cli/src/main.rs: process, print_usage, main", "lib/sia/rust/cli/src/timer.rs: Elapsed"]}
{"id": "C81", "title": "What the approximate comparison helpers of the tests accept", "statement": "The helper that compares two f64 accepts only finite numbers that differ by less than 1e-4 (give or take one rounding of that constant) and all finite numbers that differ by a little less; NaN and infinities never pass, not even against themselves; swapping the arguments changes nothing. Complex numbers and pairs pass when both parts do. Vectors and matrices are compared only where the actual one has elements: an actual vector or matrix with missing elements, rows or columns passes - even an empty one -, one with surplus elements fails by an index error.", "quantifier": "all pairs of doubles (NaN, infinities, subnormals), all vectors and matrices", "why_tests_cant": "ranges over all doubles and all shapes; a test of a test helper tries two numbers", "anchors": ["lib/sia/rust/utils/src/lib.rs: assert_approximately_equal, assert_approximately_equal_complex, assert_approximately_equal_tuple, assert_approximately_equals_1d, assert_approximately_equals_2d, assert_approximately_equals_2d_complex"]}
{"id": "C82", "title": "Nested vectors as arrays", "statement": "Turning a vector of rows into a matrix succeeds exactly when there is a first row and the total number of elements is the number of rows times the length of the first; the elements keep their reading order, and rows of equal length keep their places. Rows of different lengths are therefore not always refused: their elements are then moved to other cells. The placeholder add of the pseudo-zernike crate returns the sum exactly when it fits 64 bits; otherwise it panics in checked builds and wraps in release builds.", "quantifier": "all vectors of vectors, all pairs of 64-bit numbers", "why_tests_cant": "ranges over all shapes", "anchors": ["lib/sia/rust/utils/src/lib.rs: vector_2d_as_nd_array", "lib/sia/rust/pseudo-zernike/src/lib.rs: add"]}
{"id": "C83", "title": "The scheme as it is shipped", "statement": "With the configuration of either front end (histogram equalisation, compiled Zernike features, step 1.0, 11 features, three levels; depth 100.0 on the command line, 500.0 on the web page), every square picture of a usable size (512 x 512 is one) whose colour values keep 10 (web: 47) grey levels away from black and white is watermarked without a panic; no colour value moves by more than 9 (47) and alpha stays. Whatever happens to a colour channel afterwards, as long as no pixel changes by more than 2 (15) grey levels, the hidden bits, signature and text are read back exactly and authenticate_channel returns a verdict - it does not panic -, namely the signature check on the restored features, true if these are the signed ones. Nothing is assumed about the features or the equalisation (binary64).", "quantifier": "all pictures of usable size and colour range, all later changes within the tolerance, all mathematical libraries meeting the accuracy specification, all codes and signature schemes meeting the stated laws", "why_tests_cant": "ranges over all pictures and all later alterations", "anchors": ["lib/sia/rust/cli/src/main.rs: process", "src/Content/Content.tsx", "lib/sia/rust/watermarking/src/lib.rs: watermark", "lib/sia/rust/watermarking/src/process.rs: watermark_channel, authenticate_channel"]}
{"id": "C84", "title": "The verdict of the shipped scheme", "statement": "Watermark a picture with the command line (depth 100, step 1, 11 features) or the web page (depth 500); hypotheses on size and colours as in C83. Then alter one colour channel by at most 2 (command line) or 15 (web page) levels per pixel. If no feature of the altered channel lies within 2^-20 of a positive integer, authenticate_channel answers true whenever every feature lies within two half steps of the half step its original lay in; otherwise its answer is the check of the embedded signature on integers other than the signed ones. So if the signature fits no other vector the answer is true if and only if no feature moved by more than two half steps, and false otherwise.", "quantifier": "all pictures of usable size, all alterations within the tolerance, all error-correcting codes and signature schemes meeting their contracts, all accurate mathematical libraries, double precision", "why_tests_cant": "ranges over all pictures and all alterations; the unit test authenticates one unaltered picture", "anchors": ["lib/sia/rust/watermarking/src/process.rs: watermark_channel, authenticate_channel", "lib/sia/rust/three-bit-quantization/src/lib.rs: three_bit_dequantization", "lib/sia/rust/cli/src/main.rs: process", "src/Content/Content.tsx"]}
{"id": "C85", "title": "Embedding again and again leaves no trace of the earlier payloads", "statement": "Embedding any sequence of payloads one after the other into a picture, each into the result of the one before, gives exactly the picture that embedding the last payload alone into the original gives, when the last payload is the longest and the original keeps away from black and white by one embedding's worth. So the last payload is read back, and the changes to the pixels do not add up however often the picture is marked.", "quantifier": "every sequence of payloads of any length, every last payload at least as long as each of them, every square 8-bit picture with room for one embedding, every depth above 2^(levels+1) (exact arithmetic), and in binary64 every picture off the ties of rounding", "why_tests_cant": "a test embeds one or two payloads; the number of embeddings is unbounded, and accumulation or left-over bits would only show for particular histories", "anchors": ["lib/sia/rust/embedding/src/lib.rs: embed, extract", "lib/sia/rust/embedding/src/io/steganography.rs", "lib/sia/rust/embedding/src/haar/mod.rs"]}
{"id": "C86", "title": "The embedding is an integer formula on the sums of the 8x8 blocks", "statement": "With three levels and a whole number D as depth, embedding changes a picture exactly as follows, in the compiled arithmetic as well as in exact arithmetic: bit k belongs to the k-th 8x8 block of pixels (row by row); with T the sum of the block's 64 pixels and r = (T + 4D) div 8D, every pixel of the block gets (8Dr +- 2D - T + 32) div 64 added (plus for a one, minus for a zero) and is cut to 0..255; blocks without a bit keep their pixels. Extraction reads the bit 1 from a block exactly if T mod 8D < 4D. In double precision this holds for each block unless the rounding has to break an exact tie (T mod 8D = 4D or an amount half-way between integers, for reading T mod 4D = 0); on a tie embedding takes one of the two nearest values, nothing else; with the depths of the two front ends there is no tie unless T mod 8D = 4D or T mod 16 = 8.", "quantifier": "every 8-bit square picture of any size divisible by 8, every payload, every whole depth (1..4096 in double precision), every pixel and every block", "why_tests_cant": "the formula has to hold for every block content; the transform goes through irrational factors and floating point, and a deviation on some block sums would not show on sample pictures", "anchors": ["lib/sia/rust/embedding/src/lib.rs: embed, extract", "lib/sia/rust/embedding/src/io/steganography.rs", "lib/sia/rust/embedding/src/haar/mod.rs", "lib/sia/rust/watermarking/src/lib.rs: DWT_LEVELS"]}
{"id": "C87", "title": "Watermarking again and again does not wear the picture out", "statement": "Watermarking a picture any number of times with one of the front ends (each run on the result of the one before) always succeeds when the first run has room; no colour value is ever further from the original than the bound of a single run (9 levels for the command line, 47 for the web page) and alpha never changes; and after each run every colour channel carries exactly the watermark of that run - the bits and the signature of the features of the picture it was given - readable with the same tolerance to further changes as after a first run.", "quantifier": "every number of runs, every picture of a usable size whose colours keep the front end's distance from black and white and whose block sums are no ties, both front ends, every colour channel, every later change within the tolerance", "why_tests_cant": "the number of runs is unbounded and each run signs new features, so drift or left-overs would only show along particular histories", "anchors": ["lib/sia/rust/watermarking/src/lib.rs: watermark", "lib/sia/rust/watermarking/src/process.rs: watermark_channel, authenticate_channel", "lib/sia/rust/embedding/src/lib.rs: embed, extract", "lib/sia/rust/cli/src/main.rs", "src/Content/Content.tsx"]}
{"id": "C88", "title": "How much cutting at black and white the watermark survives", "statement": "Embedding cuts pixels that would leave 0..255. With three levels and whole depth D, each pixel moves by at most m = (6D+32) div 64 levels (9 on the command line, 47 on the web page). If in every 8x8 block that carries a bit the pixels, moved up by m, exceed white by at most 2D-33-t in total, and moved down by m fall short of black by at most as much - for instance because at most 18 (web: 20) pixels of the block are that near to white and at most as many near black -, the payload is read back in double precision, even after the sums of the blocks changed by up to t; blocks that are white altogether do no harm either at the depths of the front ends (t up to 191). So pictures that reach black and white are watermarked and read by the shipped scheme under this condition. A block that is dark altogether (all flat blocks of value 0..6 on the command line, 0..31 on the web page) cannot hold a zero: it becomes black and is read as a one.", "quantifier": "every picture of a usable size, payload, depth 1..4096, later change within the budget", "why_tests_cant": "ranges over all pictures, payloads and later changes; whether clipping destroys a bit depends on the distribution of all 64 pixels of a block", "anchors": ["lib/sia/rust/embedding/src/lib.rs: embed, extract", "lib/sia/rust/watermarking/src/lib.rs: watermark", "lib/sia/rust/watermarking/src/process.rs: watermark_channel, authenticate_channel"]}
{"id": "C89", "title": "Destroyed blocks are repaired by the error-correcting code", "statement": "Each 8x8 block carries one bit of the stored code words, in row order; 8 x codeword-size consecutive blocks make one code word. If the coder repairs any e wrong bits in a code word, then the payload is read back although up to e of the blocks of every code word are destroyed: because they were too dark or too bright for the embedding to write its bit, or because they were painted over with anything later - provided the other carrying blocks withstand the cutting (C88) with t to spare and their sums (pixels) change by at most t. On bytes: decode returns the encoded input whenever the received bytes differ from the encoded ones in at most e bits of each code word, whatever follows. A picture with up to e hopeless blocks per code word in every channel is watermarked by the shipped scheme like any other (C83, C88) and its watermark stays readable.", "quantifier": "every e, coder that corrects e bits, picture, payload, depth 1..4096, set of destroyed blocks, content painted there and change elsewhere within the tolerance", "why_tests_cant": "ranges over all sets of destroyed blocks and everything that could be painted there", "anchors": ["lib/sia/rust/encoding/src/lib.rs: encode, decode", "lib/sia/rust/embedding/src/lib.rs: embed, extract", "lib/sia/rust/watermarking/src/process.rs: watermark_channel, authenticate_channel"]}
{"id": "C90", "title": "Reading with another depth", "statement": "The depth given to the reader need not be the one used for writing. If the picture was marked with a depth that is 1, 5, 9, ... times the reader's depth, extract returns the payload all the same, with the reader's (smaller) tolerance to later changes; with 3, 7, 11, ... times, every stored bit is seen inverted. So a picture watermarked by the web page (depth 500) is read and checked at the command line's depth 100: same bits, signature and text, a verdict of authenticate_channel, up to 2 levels of later change per pixel. The other way round it does not work: a picture marked at depth D and read at 5D shows, in every carrying block whose sum lies between 4D and 36D (other than 20D) modulo 40D, a bit that does not depend on what was stored.", "quantifier": "every picture of a usable size, payload, pair of whole depths up to 4096 with an odd quotient (double precision, three levels), later change within the tolerance; in exact arithmetic every number of levels and real depth", "why_tests_cant": "ranges over all pictures, payloads and pairs of depths", "anchors": ["lib/sia/rust/embedding/src/lib.rs: embed, extract", "lib/sia/rust/embedding/src/io/steganography.rs: write, read", "lib/sia/rust/cli/src/main.rs: main", "lib/sia/rust/web/src/lib.rs: get_watermarking_process", "lib/sia/rust/watermarking/src/process.rs: watermark_channel, authenticate_channel"]}
{"id": "C91", "title": "Turned, mirrored and transposed pictures", "statement": "Turning a picture by quarter turns, mirroring or transposing it (in any sequence) does not destroy the hidden bits but moves them: reading the moved picture gives, at block (i, j), the bit that the unmoved picture holds at the block from which (i, j) came. In exact arithmetic this holds for every picture, number of levels and depth; in double precision (three levels, whole depth) for every block whose sum is not exactly on the border between two bits, and for every carrying block of a marked picture, even if the moved picture is changed a little afterwards. The payload is therefore only found if the moves are undone before extraction.", "quantifier": "every picture of a usable size, sequence of moves, payload, depth and change within the tolerance", "why_tests_cant": "ranges over all pictures, payloads and sequences of moves", "anchors": ["lib/sia/rust/embedding/src/lib.rs: embed, extract", "lib/sia/rust/embedding/src/io/steganography.rs: read"]}
{"id": "C92", "title": "Watermarks can be copied to other pictures without a key", "statement": "The watermark is not tied to the picture except through 11 coarse numbers. From a colour channel watermarked by one of the front ends anybody can read the watermark (extract, deserialize) and hide it again (serialize, embed) in a channel of any other picture of a usable size, which is changed no more than by watermarking; no key is involved. authenticate_channel then returns a verdict about the copy: true if every feature of the copy lies within two half steps of the half step the donor's original lay in, otherwise the check of the donor's signature on a vector it was not made for (no feature of the copy within 2^-20 of a positive integer).", "quantifier": "every picture watermarked by either front end, colour channel, and target channel of any usable size, double precision", "why_tests_cant": "ranges over all pairs of donor and target pictures", "anchors": ["lib/sia/rust/watermarking/src/process.rs: watermark_channel, authenticate_channel", "lib/sia/rust/embedding/src/lib.rs: embed, extract", "lib/sia/rust/watermarking/src/watermark.rs: serialize, deserialize"]}
{"id": "C93", "title": "What the library prints", "statement": "Watermarking and authenticating print diagnostics to standard output and printing changes no result. A watermarked channel prints a fixed sequence of 15 lines (13 where the block code does not apply): the indices of the measured moments, the features, the quantised numbers, the perturbation bits, the signature, the watermark, the payload, the capacity, the data before and after each wrapping and the code used; a picture prints the lines of its colour channels one after the other. A checked channel prints 16 lines (13). Every line printed, also by a run that panics, starts with one of 25 fixed words. The lines give the watermark away: two runs that print the same lines signed the same numbers, with the same signature, and hid the same bytes.", "quantifier": "every picture, parameter, arithmetic, key, clock and rendering of floats, bits and strings, including runs that panic", "why_tests_cant": "which lines appear and that none of them influences or is confused with another is a statement about all inputs and all failure points", "anchors": ["lib/sia/rust/watermarking/src/process.rs: watermark_channel, authenticate_channel", "lib/sia/rust/embedding/src/lib.rs: embed, extract", "lib/sia/rust/embedding/src/io/data.rs: serialize, deserialize", "lib/sia/rust/encoding/src/lib.rs: encode, decode", "lib/sia/rust/zernike/src/lib.rs: calculate_features", "lib/sia/rust/image-features/src/lib.rs: calculate_features"]}
{"id": "C94", "title": "Standard output that breaks", "statement": "If standard output stops accepting lines (a closed pipe) the command line tool stops at the first line it cannot print. The files are then exactly those of a run on the first k inputs, where k is the number of inputs announced, or one more if the lost line was the announcement of a finished file: no output is half written because of it, at most one finished file is unannounced. If every line gets through nothing changes. Without -s, and for an output that is no folder, a broken output changes only how the program ends.", "quantifier": "every number of lines that get through, every list of inputs, file system and codec", "why_tests_cant": "the break can come at any line of any run", "anchors": ["lib/sia/rust/cli/src/main.rs: process"]}
{"id": "C95", "title": "From the file to the screen", "statement": "Whatever the page displays, after any clicks, file reads and module loads in any order, belongs to one single load: the last one that worked (before any has worked the page says it is loading, and failed loads never blank or alter the display). For that load, the left canvas shows exactly the decoded picture and the right canvas exactly the picture that watermarking it with depth 500, step 1 and 11 moments produces - every pixel of each, four bytes red, green, blue, alpha, rows from the top - the first line names the format in which the file was recognised, in capitals, and the second its width and height; both lines determine what they name. A selected picture file that the library accepts and whose read finishes last is what the user sees.", "quantifier": "every decoder, error-correcting code, signer, equaliser and extractor; every order of page events; every selected file and every picture", "why_tests_cant": "the display is the end of a chain of asynchronous reads, decoding, watermarking and drawing; a test shows one file in one order of events", "anchors": ["src/WatermarkingPreview/WatermarkingPreview.tsx WatermarkingPreview", "src/Canvas/Canvas.tsx Canvas", "src/Content/Content.tsx Content", "src/Content/utils.ts toWatermarkingProcess", "lib/sia/rust/web/src/lib.rs getWatermarkingProcess"]}
{"id": "C96", "title": "Interrupted, repeated, split and reordered runs", "statement": "If no file is both an input and an output of a command: whenever the tool is killed, running the same command again ends the same way and leaves exactly the files that the uninterrupted run would have left, also if that run would have failed; running a finished command once more changes no file. A killed run has completed its inputs in the order given up to some point, and compared with that at most one file differs: the output of the next input. Two commands one after the other do the same as one command with all the inputs, and the order of usable inputs with different outputs does not matter. If an input is the output of a later input, running the command twice watermarks that file a second time.", "quantifier": "every point at which a run is killed, every content of a half-written file, every list of inputs, file system, picture and decoder", "why_tests_cant": "crash points, half-written files and repeated runs: tests run the tool to the end on a fresh folder", "anchors": ["lib/sia/rust/cli/src/main.rs process"]}
{"id": "C97", "title": "The bit writer and reader as objects", "statement": "A writer keeps its position between calls. For every history of writes and byte replacements on a square domain: the history runs through iff every call is not longer than the capacity and ends inside the domain, and the first one that is not panics (with the capacity message only if that single call is longer than the whole capacity); afterwards every position reads as the last bit written to it (exact arithmetic, and f64 for coefficients of ordinary magnitude, however often a position is overwritten), all other positions read as before and keep their value. Writing in pieces gives the same matrix as writing the concatenation; a byte of a written payload can be replaced without disturbing the others; a reader can be used once, a second read on it panics.", "quantifier": "all histories of calls on one writer, all square domains, depths > 0, payloads", "why_tests_cant": "Histories of any length over all matrices; the library itself makes one call per writer.", "anchors": ["lib/sia/rust/embedding/src/io/steganography.rs: write, write_byte_at, close, read"]}
{"id": "C98", "title": "The tables of codes", "statement": "The table for reading picks, for every number of received bits, the largest code whose word fits. The table for messages has no entry below 9 and otherwise picks the smallest code that holds that many message bits, or the largest code if none does. Wherever the table used by the encoder and the decoder has an entry for a capacity, it agrees with the table for reading. Since the capacity check hands bytes to the table that counts bits, domains are accepted from 9 bytes on, although the panic message asks for 16.", "quantifier": "all lengths and capacities", "why_tests_cant": "All natural numbers.", "anchors": ["lib/sia/rust/encoding/src/lib.rs: get_code_by_codeword_length, get_code_for_encode, get_code_for_decode", "lib/sia/rust/embedding/src/lib.rs: get_domain_capacity"]}
{"id": "C99", "title": "The verdict whenever the watermark can be read", "statement": "Let a channel show the watermark that was made for some original channel (the bits of its features and the tool's signature on them), whatever was done in between. Then checking it returns a verdict, and unless a feature of the checked channel is within 2^-20 of an integer the verdict is true if no feature is more than two half bins away from the original's, and otherwise it is the check of the signature on another message, hence false if the signature fits no other message. In particular: watermark a picture with either front end, paint over as many 8x8 blocks per codeword as the error-correcting code repairs and change all other pixels by up to the tolerance: the half bins of the features alone decide.", "quantifier": "all pairs of channels, all ways one may have become the other, all pictures of usable sizes, all painted-over regions the code can repair", "why_tests_cant": "All pictures and all manipulations; the manipulation is unknown to the checker.", "anchors": ["lib/sia/rust/watermarking/src/process.rs: watermark_channel, authenticate_channel", "lib/sia/rust/watermarking/src/lib.rs: watermark"]}
{"id": "C100", "title": "Only the leading blocks of a picture carry the watermark: in a 512 x 512 picture the lower half is neither changed nor needed to read it", "statement": "The watermark of a colour channel lies in the first 8 x 8 blocks (row by row), eight blocks per byte of the encoded payload; for a 512 x 512 picture with the shipped settings that is exactly the upper half. All pixels outside these blocks, including alpha, come back from watermarking bit for bit as they were, whatever the picture. Conversely, authenticating a channel whose carrying blocks are those of a marked picture (up to the tolerance, and up to as many destroyed blocks as the error-correcting code repairs) and whose other blocks are anything at all - for instance the lower half of another picture - still reads the watermark and gives a verdict, which is decided by the half bins of the features alone.", "quantifier": "every picture (any usable side; any layout), both front ends, every replacement of the non-carrying blocks, every accurate math library, error-correcting code and signature scheme meeting their interface contracts", "why_tests_cant": "ranges over all pictures and all contents of the unprotected half; unit tests use single fixtures", "anchors": ["lib/sia/rust/embedding/src/io/steganography.rs", "lib/sia/rust/embedding/src/lib.rs: embed, extract", "lib/sia/rust/watermarking/src/lib.rs: watermark", "lib/sia/rust/watermarking/src/process.rs: watermark_channel, authenticate_channel"]}
{"id": "C101", "title": "One watermarked picture with small features lets anybody forge pictures of his choice", "statement": "Point-symmetric pictures (the same upside down) have features of at most 1/128 in double precision, also after equalisation. Take one picture with features below one and a half steps, such as a point-symmetric one, marked by either front end. Without any key, its watermark can be read from a colour channel and hidden in any other channel whose upper half keeps the usual distance from black and white; replacing the lower half of the outcome by its upper half turned by 180 degrees gives a channel that authenticate_channel declares authentic (true), although its upper half is the chosen picture up to the usual small change (9 levels for the command line, 47 for the web page).", "quantifier": "every donor picture with small features, both front ends, all three colour channels, every target channel of side 512 (or another side whose upper half holds the marks), double precision with every accurate math library", "why_tests_cant": "an attack that has to succeed for every target picture; tests can only try some", "anchors": ["lib/sia/rust/watermarking/src/process.rs: watermark_channel, authenticate_channel", "lib/sia/rust/watermarking/src/watermark.rs: serialize, deserialize", "lib/sia/rust/embedding/src/lib.rs: embed, extract", "lib/sia/rust/zernike/src/calc.rs"]}
{"id": "C102", "title": "The colours of a picture are marked and judged each for itself", "statement": "If the red, green and blue of a new picture are taken from arbitrary colours of three watermarked pictures of the same size (with any alphas), the result is bit for bit what watermarking the picture with those original colours would have given, and each of its channels gets the verdict the channel it was taken from gets. So exchanging red and blue of a watermarked picture, mixing the colours of several, or saving one colour as a grey picture is not noticed.", "quantifier": "all RGB and RGBA pictures of equal size, all choices of the three colours, all alphas, all depths and steps, all LDPC and signature libraries, equalisations and feature extractors", "why_tests_cant": "a test mixes a few pictures; that nothing at all ties the channels of a picture together is a statement about every picture and every mixture", "anchors": ["lib/sia/rust/watermarking/src/lib.rs: watermark", "lib/sia/rust/watermarking/src/process.rs: watermark_channel, authenticate_channel"]}
{"id": "C103", "title": "What a positive verdict means", "statement": "Whoever made a picture and however: if a channel of it authenticates, then either some channel that was watermarked with the key has features all of which differ by less than 2 (but for rounding) from those of the received channel, or the picture carries a signature that is accepted on a vector of integers that was never signed. So, unless signatures are forged, only pictures with nearly the same 11 features as an issued one are accepted, and all 11 features are checked.", "quantifier": "all lists of issued pictures, all received square pictures of even side up to 65536 (chosen by an attacker), all depths, all level counts, 1 to 11 features, all signature and LDPC libraries", "why_tests_cant": "the statement is about every picture an attacker could construct and every history of issued pictures", "anchors": ["lib/sia/rust/watermarking/src/process.rs: authenticate_channel, watermark_channel", "lib/sia/rust/three-bit-quantization/src/lib.rs: three_bit_dequantization", "lib/sia/rust/signature/src/lib.rs: verify"]}
{"id": "C104", "title": "The correction bits are not signed", "statement": "The three bits per feature stored beside the signature are not covered by it. For a picture each of whose features lies in the same or a neighbouring bin of a signed picture's there are bits, computable without the key, with which the copied signature makes it authentic, even where the bits stored by the signer lead to a refusal; but no choice of bits makes a picture authentic one of whose features lies two or more bins away, if the signature fits no other vector.", "quantifier": "all signed feature vectors, all received pictures and their features, all choices of bits, depths and levels, all feature extractors", "why_tests_cant": "the attacker may choose all bits; tests try the stored ones", "anchors": ["lib/sia/rust/watermarking/src/process.rs: watermark_channel, authenticate_channel", "lib/sia/rust/three-bit-quantization/src/lib.rs: three_bit_quantization, three_bit_dequantization"]}
{"id": "C105", "title": "Brightened and patched pictures keep the watermark", "statement": "Only the sum of each 8x8 block modulo eight depths matters to the extractor: a picture each of whose blocks has, up to the margin and up to multiples of eight depths, the sum of the same block of some picture into which the payload was embedded, yields that payload. Hence adding the same amount to all pixels of a watermarked channel (without clipping) leaves payload and verdict exactly as they were, whenever the amount is within the margin of a multiple of depth/8: at depth 100 that is 0-2, 10-15 and 23-27 levels and so on, at depth 500 it is 0-15, 48-77, 110-140 levels.", "quantifier": "all square pictures of usable size, all payloads that fit, every choice of a source picture for each block, all amounts c, all three channels, both front ends", "why_tests_cant": "A test can brighten a few pictures by a few amounts; which amounts are harmless for every picture follows only from the arithmetic of the transform.", "anchors": ["lib/sia/rust/embedding/src/lib.rs: extract", "lib/sia/rust/embedding/src/io/steganography.rs: read", "lib/sia/rust/watermarking/src/process.rs: authenticate_channel"]}
{"id": "C106", "title": "Flat and tiled pictures kill the authenticator", "statement": "In a picture that repeats one tile of 2^L x 2^L pixels - a flat picture above all - the extractor reads the same bit at every place, whatever the arithmetic and the depth. Such a picture holds no data: extraction panics or yields an empty payload, provided the decoder leaves words of equal bits alone. Hence authenticate_channel never returns a verdict on it: it does not say no, it panics, for every flat picture of a side from 72 on divisible by 8. With nothing but the all-zero codeword this is so for every picture whose 8x8 block sums all show zeros, e.g. flat pictures of the levels 7-12, 19-24, 32-37, ... at depth 100, and 32-62, 94-124, 157-187, 219-249 at depth 500.", "quantifier": "all tiled pictures of any size and level count, all arithmetics, depths, steps, feature extractors, keys; all grey levels", "why_tests_cant": "That every grey level at every size and depth fails cannot be enumerated; it follows from the periodicity of the transform and the framing of the data.", "anchors": ["lib/sia/rust/embedding/src/lib.rs: extract", "lib/sia/rust/embedding/src/haar/mod.rs: dwt_2d", "lib/sia/rust/encoding/src/lib.rs: decode", "lib/sia/rust/embedding/src/io/data.rs: deserialize", "lib/sia/rust/watermarking/src/process.rs: authenticate_channel"]}
{"id": "C107", "title": "The library rejects what it has just signed", "statement": "A flat 512x512 channel whose grey level g makes both bit values darken its blocks (at depth 100 these are 47 of the 256 levels, among them 17-18, 29-31, 42-43, 54-56; at depth 500 they are 35 levels, among them 79-93), watermarked with one feature, is not accepted afterwards although not a byte of the result was touched: watermarking returns, the watermark is read back exactly, but only the upper half of the picture was darkened, histogram equalisation turns that into black against white, the feature moves by more than 13 steps from the signed 0, and authenticate_channel answers false - or the signature fits another vector too. The same holds for each colour of a picture of one colour given to watermark().", "quantifier": "all such grey levels and colours, all depths from 17 to 4096, all keys and signature schemes meeting the stated laws, all codes, all accurate maths libraries", "why_tests_cant": "the round-trip tests use photographs; that a whole class of inputs is rejected follows only from the bit-independent analysis of marking, equalisation and the Zernike moment together", "anchors": ["lib/sia/rust/watermarking/src/process.rs: watermark_channel, authenticate_channel", "lib/sia/rust/watermarking/src/lib.rs: watermark", "lib/sia/rust/zernike/src/lib.rs"]}
{"id": "C108", "title": "A picture and its turned or mirrored versions get the same watermark", "statement": "Turn, mirror or transpose an original (any sequence of such moves) before watermarking a channel of it: exactly the same bytes are hidden - same perturbation bits, same signature - as in the unmoved channel, for every depth, step, number of features and of levels (exact arithmetic). In double precision the measured features differ by at most 1/64 and the bytes are the same whenever no feature of the original lies within 1/64 of a multiple of half a step. So the watermark does not tell a picture from its mirror image: reading the payload from the marked original and embedding it, without any key, in the mirrored original gives bit for bit what the library with its key produces for the mirrored original.", "quantifier": "all square channels, all sequences of quarter turns, mirrorings and transpositions, all depths and (exact) steps, 1..11 features in double precision; the last statement for channels with room, both front ends", "why_tests_cant": "a test compares one picture with one rotation; the statement is about all pictures, all eight symmetries and the rounding of the compiled arithmetic", "anchors": ["lib/sia/rust/watermarking/src/process.rs: watermark_channel", "lib/sia/rust/image-features/src/lib.rs: calculate_features", "lib/sia/rust/embedding/src/lib.rs: embed, extract"]}
{"id": "C109", "title": "The configuration of both front ends can reject the very picture it has just produced", "statement": "There are pictures - 512 x 512, one grey level with fourteen squares of 32 x 32 pixels that are one level darker - for which watermarking with the shipped configuration (eleven features, step 1, either front end's depth) succeeds, the watermark is read back without an error from the result saved without loss, and authenticating that untouched result answers no: the last feature of the original is above 4.2 and that of the marked picture below 2, more than the three bits stored per feature can bridge. This holds for every key pair whose signature fits only the signed vector, every error-correcting code that decodes, every maths library accurate to the assumed bound, and 28 grey levels at the command line's depth, 32 at the web page's.", "quantifier": "every depth from 17 to 4096, every grey level for which flat blocks of it and of the next darker level sink whichever bit they store and nothing is cut off at black or white, every key pair, code, padding, build profile and accurate libm; the listed levels for the two front ends", "why_tests_cant": "A test shows one key and one code; the payload bits (hence the pixels of the marked half) depend on the signature, and the claim is about all of them: the bound on the feature of the result must hold for all 2^2048 possible markings.", "anchors": ["/repo/lib/sia/rust/watermarking/src/process.rs: watermark_channel, authenticate_channel", "/repo/lib/sia/rust/zernike/src/lib.rs", "/repo/lib/sia/rust/utils/src/lib.rs", "/repo/lib/sia/rust/quantization/src/lib.rs"]}
{"id": "C110", "title": "Thumbnails and scrambled blocks keep the watermark", "statement": "What is read from a colour channel depends only on the sums of its 8 x 8 blocks: any picture whose carrying blocks have, up to the margin and up to multiples of eight depths (and but for as many blocks per codeword as the error-correcting code repairs), the sums of a channel watermarked by one of the front ends shows the same watermark, and checking it returns a verdict decided by the half bins of the features alone. Hence the pixels of every block may be rearranged in any way, and a thumbnail with one pixel per block (the rounded mean) still holds the whole watermark: enlarged again by pixel replication it is read and judged.", "quantifier": "all pictures of a usable size at the stated distance from black and white, both front ends, all received channels whose block sums agree, all rearrangements, all keys and salts", "why_tests_cant": "The space of pictures with equal block sums is astronomically large; tests cover a few edits.", "anchors": ["lib/sia/rust/embedding/src/lib.rs: extract", "lib/sia/rust/embedding/src/haar/mod.rs: dwt_2d", "lib/sia/rust/watermarking/src/process.rs: watermark_channel, authenticate_channel"]}
{"id": "C111", "title": "A marked picture may be mixed with its original", "statement": "If every pixel of a colour channel is replaced by percent percent of the original and the rest of the watermarked value, rounded to a nearest integer, with up to 23 percent of the original for the command line and up to 31 percent for the web page, the watermark is still read unchanged and checking returns a verdict decided by the half bins of the features alone.", "quantifier": "all pictures of a usable size at the stated distance from black and white, both front ends, all shares up to the bound, all ways of rounding ties, all keys and salts", "why_tests_cant": "The property ranges over all pictures and all mixtures; a test blends one picture.", "anchors": ["lib/sia/rust/embedding/src/lib.rs: embed, extract", "lib/sia/rust/watermarking/src/process.rs: watermark_channel, authenticate_channel"]}
{"id": "C112", "title": "The smallest usable depth", "statement": "Embedding followed by extraction returns the payload when the depth is more than 2^(levels+1) (C30, given room to black and white); this bound cannot be lowered, and embed does not check it: with depth exactly 2^(levels+1), whatever payload is embedded into whatever flat picture of even brightness, embed succeeds or fails as usual, but every bit that was written is read back inverted (exact arithmetic).", "quantifier": "all numbers of levels, all picture sizes, all flat pictures of even brightness, all payloads, all error-correcting codes", "why_tests_cant": "The bound is a limit over all pictures and payloads; a test checks single depths.", "anchors": ["lib/sia/rust/embedding/src/lib.rs: embed, extract", "lib/sia/rust/embedding/src/io/steganography.rs: write_bit, read_bit"]}
{"id": "C113", "title": "Negatives", "statement": "Let every pixel v of a watermarked channel be replaced by 255 - v, the photographic negative. If the picture was marked by the command line (depth 100) and its colours left room, the negative still shows the watermark, and authenticating it gives a verdict that the half bins of the measured features decide. If it was marked by the web page (depth 500), every bit of the hidden data is read inverted. In general the bits of a negative are kept (inverted) when 16320 is close to an odd (even) multiple of four depths.", "quantifier": "all square pictures of an admissible size with room to black and white, both front ends; for the general statement all depths from 1 to 4096, all pictures, payloads and error-correcting codes", "why_tests_cant": "The claim ranges over all pictures, and the two front ends behave in opposite ways for a reason that is only visible in the arithmetic of the block sums.", "anchors": ["lib/sia/rust/embedding/src/lib.rs: embed, extract", "lib/sia/rust/watermarking/src/process.rs: watermark_channel, authenticate_channel", "lib/sia/rust/cli/src/main.rs: the depth 100", "lib/sia/rust/web/src/lib.rs: the depth 500"]}
{"id": "C114", "title": "A marked photograph survives being stored as JPEG", "statement": "Take a square photograph with the colour margins of C83 and mark it with either front end. If a colour component of the marked picture is stored as JPEG and decoded again, the component received still shows the same watermark and authenticating it gets a verdict decided by the half bins of the features, whatever became of the 63 non-constant coefficients of each 8x8 block, provided that four times the quantisation step of the constant coefficient plus 64 times the mean error of coding plus 64 times the error of decoding is at most twice the depth minus 33. With rounding of the decoded pixels alone this covers the usual luminance table at every quality from 24 up for the command line and from 4 up for the web page. In colour - brightness and two colour differences stored instead of red, green and blue, without subsampling - the same holds for red, green and blue with the usual tables from quality 64 up for the command line and from 10 up for the web page.", "quantifier": "every square photograph with the margins (sides divisible by 8), every component, every quantisation step and error bounds within the limit, every decoded picture whose blocks are the inverse cosine transform of coefficients of which only the constant one is constrained", "why_tests_cant": "a test decodes a few files written by one encoder; the claim is for all choices of the 63 other coefficients of every block", "anchors": ["lib/sia/rust/cli/src/main.rs:57-63 write_to", "lib/sia/rust/embedding/src/lib.rs:embed", "lib/sia/rust/embedding/src/lib.rs:extract", "lib/sia/rust/watermarking/src/process.rs:authenticate_channel"]}
{"id": "C115", "title": "Depths below 16/3 embed nothing", "statement": "The embedding depth is a parameter of the library and is not checked. If three depths are less than 2^(levels+1), embed returns Ok with exactly the picture it was given, whatever the picture and the payload. For the three levels of the library this means every depth up to 5: watermark succeeds on every square picture with room for the payload and returns it without a single pixel changed - no watermark is in it and nothing tells the caller. Depth 6 can change pixels.", "quantifier": "all pictures, payloads, numbers of levels, error-correcting codes and depths within the bound (positive; in binary64 at least 1/1024)", "why_tests_cant": "that no pixel of any picture changes under any payload cannot be seen from examples", "anchors": ["lib/sia/rust/embedding/src/lib.rs: embed", "lib/sia/rust/watermarking/src/lib.rs: watermark", "lib/sia/rust/watermarking/src/process.rs: watermark_channel"]}
{"id": "C116", "title": "Specks do not remove a watermark", "statement": "Mark a square picture with the colour margins of C83 with either front end. In a component of the marked picture, change in every 8x8 block up to COUNT pixels to anything at all (dust, dead pixels, a thin line, ink) and every other pixel by at most SMALL grey levels: if 64*SMALL + 255*COUNT is at most twice the depth minus 33, the component received shows the same watermark and authenticating it gets a verdict decided by the half bins of the features. For the web page (depth 500) this allows three arbitrary pixels in every block together with an error of three grey levels in all others; for the command line (depth 90) an error of two grey levels everywhere.", "quantifier": "every square picture with the margins (sides divisible by 8), every component, every choice of the specks and of their values, every SMALL and COUNT within the bound", "why_tests_cant": "a test can try a few positions and values of specks; the claim is for every choice in every block at once", "anchors": ["lib/sia/rust/embedding/src/lib.rs: extract", "lib/sia/rust/watermarking/src/process.rs: authenticate_channel"]}
{"id": "C117", "title": "A watermark survives printing in black and white dots", "statement": "Mark a square picture with the colour margins of C83 with either front end. If a component of the marked picture is replaced by one that has only black (0) and white (255) pixels - a halftone, as in a newspaper - and in every 8x8 block the number of white pixels times 255 is as near as possible (within half of 255) to the sum of the pixels of the marked block, then, wherever in the block the white dots are placed, the watermark read is the one that was embedded and authenticating the component gets a verdict decided by the half bins of the features.", "quantifier": "every square picture with the margins (sides divisible by 8), every component, every placement of the dots", "why_tests_cant": "a test can halftone a few pictures with one dithering algorithm; the claim is for every placement of the dots in every block", "anchors": ["lib/sia/rust/embedding/src/lib.rs: extract", "lib/sia/rust/watermarking/src/process.rs: authenticate_channel"]}
{"id": "C118", "title": "Depths from 6 to 15 silently fail for mosaics; from 17 on marks can be read", "statement": "With an embedding depth from 6 to 15 an 8x8 block whose sum of pixels lies within 31 minus two depths of a multiple of eight depths is not changed by embed, whatever bit it should carry. So if all blocks of the three colours are like that, for instance in a mosaic in which every block has one colour whose values are multiples of the depth (black and white at depth 15), watermark with a depth from 6 to 15 returns Ok and the picture it was given: no watermark is in it and nothing tells the caller. From depth 17 on this cannot happen: every payload that is embedded is read back (given room to black and white).", "quantifier": "every depth from 6 to 15, every picture whose block sums are near multiples of eight depths, every payload, key and error-correcting code; every whole depth from 17 to 2^20 for the converse", "why_tests_cant": "that no payload whatever changes any picture of the class, and that every payload is read back from depth 17 on, cannot be seen from examples", "anchors": ["lib/sia/rust/embedding/src/lib.rs: embed, extract", "lib/sia/rust/watermarking/src/lib.rs: watermark", "lib/sia/rust/watermarking/src/process.rs: watermark_channel"]}
{"id": "C119", "title": "Useless depths: too large, zero, infinite, not a number", "statement": "The library takes any number as embedding depth and checks none. With a depth above 510 * 2^levels (above 4080 for its three levels; in binary64 from 511 * 2^levels) extract finds every bit set, in every picture, marked or not; with a depth that is zero, infinite or not a number it finds every bit clear. So with any of these depths extract gives the same answer for all pictures of one size and no payload can be told from another. Embedding with zero or no number as depth returns Ok and sets every pixel of every block it uses to black: watermark with depth zero returns Ok and a picture whose first blocks (the upper half of a 512 x 512 picture) are black in all three colours, alpha unchanged.", "quantifier": "all pictures, payloads, error-correcting codes, keys; every depth in the classes named; every number of levels (in binary64 up to ten)", "why_tests_cant": "that no picture whatever is read differently cannot be seen from examples", "anchors": ["lib/sia/rust/embedding/src/lib.rs: embed, extract", "lib/sia/rust/embedding/src/io/steganography.rs", "lib/sia/rust/watermarking/src/lib.rs: watermark", "lib/sia/rust/watermarking/src/process.rs: watermark_channel"]}
{"id": "C120", "title": "Useless steps: with step 0, infinity or NaN one signature fits every picture", "statement": "The library takes any number as quantisation step and checks none. With a step that is infinite (of either sign) or not a number every feature of every picture is quantised to 0; with step 0 every positive feature is quantised to 9223372036854775807 (i64::MAX). So watermark signs the same bytes for all pictures, and authenticate restores the same integers whatever the received picture and whatever bits its watermark holds: the verdict is the check of the shown signature against these constants. Two received pictures that show the same watermark get the same verdict, however different they are, and the signature made for any picture is accepted on every other one.", "quantifier": "every step in the classes named; all features (for step 0: all positive features), pictures, stored bits, depths, numbers of levels and features; every error-correcting code, key pair, equalisation and feature extraction; with and without overflow checks", "why_tests_cant": "that no picture whatever is refused cannot be seen from examples", "anchors": ["lib/sia/rust/three-bit-quantization/src/lib.rs: quantize, three_bit_quantization, three_bit_dequantization", "lib/sia/rust/watermarking/src/process.rs: watermark_channel, authenticate_channel"]}
{"id": "C121", "title": "Enormous depths print a bar code", "statement": "With an embedding depth from 512 * 2^(levels + 2) on (16384 for the library's three levels) embed replaces every block it uses by a plain one: white if the block's bit is set and black if not, whatever was there; the other blocks stay as they are. watermark with such a depth returns Ok and a picture in whose first blocks every colour of every pixel is 0 or 255, alpha unchanged. The depth used does not read these bits back (C119), but nothing is lost: the negative of the result is read, with the payload as it was, at every whole depth from 2041 to 4079.", "quantifier": "all pictures, payloads, keys and error-correcting codes; every depth from 512 * 2^(levels + 2) to 2^20 in binary64 (in exact arithmetic from 511 * 2^(levels + 2) on, without a limit); every number of levels (in binary64 up to ten)", "why_tests_cant": "that every pixel of every used block is black or white for all pictures and payloads cannot be seen from examples", "anchors": ["lib/sia/rust/embedding/src/lib.rs: embed, extract", "lib/sia/rust/embedding/src/io/steganography.rs", "lib/sia/rust/watermarking/src/lib.rs: watermark", "lib/sia/rust/watermarking/src/process.rs: watermark_channel"]}
{"id": "C122", "title": "Large steps: with a step above 1000 the watermark of one picture authenticates every other one", "statement": "Nothing relates the quantisation step, a parameter of the library, to the features, which lie between 0 and 1000 for every picture. With any step from 1001 on (up to 2^500) all features of all pictures are quantised to 0: watermark puts the signature of the same bytes, all zeros, into every picture, and authenticate answers true for every picture that shows the watermark made for any other one, whatever the two pictures are.", "quantifier": "every pair of pictures of sides up to 65536 (not related in any way), every step from 1001 to 2^500, depth, number of levels, 1 to 11 features, text; every error-correcting code and key pair; every sufficiently accurate libm; with and without overflow checks", "why_tests_cant": "that no picture whatever is told apart from another cannot be seen from examples", "anchors": ["lib/sia/rust/three-bit-quantization/src/lib.rs: quantize, three_bit_quantization, three_bit_dequantization", "lib/sia/rust/zernike/src/lib.rs: calculate_features", "lib/sia/rust/watermarking/src/process.rs: watermark_channel, authenticate_channel"]}
{"id": "C123", "title": "Faded pictures are read at the faded depth", "statement": "The depth at which a picture is read scales with its contrast: whenever the sums of the carrying 8 x 8 blocks of a received picture are, up to the margin and up to multiples of eight reading depths, a fixed multiple of the sums of a channel watermarked by one of the front ends (but for as many blocks per codeword as the error-correcting code repairs), extracting at that multiple of the marking depth returns the watermark, and checking it returns a verdict decided by the half bins of the features alone. Hence a picture watermarked by the command line (depth 100) whose pixels are all multiplied by r/100 and rounded to whole levels is read at depth r for every r from 20 to 100, one from the web page (depth 500) multiplied by r/500 at depth r for every r from 18 to 500: 256 levels may be squeezed into 10.", "quantifier": "all pictures whose colours keep the margin of C83 from black and white, both front ends, every factor in these ranges; for the first part all received pictures, whole marking and reading depths and ratios; every key pair and error-correcting code, every sufficiently accurate libm; with and without overflow checks", "why_tests_cant": "that no block of any faded picture is misread cannot be seen from examples", "anchors": ["lib/sia/rust/embedding/src/lib.rs: embed, extract", "lib/sia/rust/embedding/src/io/steganography.rs", "lib/sia/rust/watermarking/src/process.rs: watermark_channel, authenticate_channel"]}
{"id": "C124", "title": "Reduced and enlarged pictures are read with fewer or more levels", "statement": "The number of levels with which a picture is read follows its size: a picture marked with some number of levels at some depth and then reduced by 2^k (every square of 2^k x 2^k pixels replaced by its rounded mean, k smaller than the number of levels) returns the payload when extracted with k fewer levels at depth/2^k, whenever the depth exceeds 2^(levels + 2); enlarged by 2^k (every pixel repeated 2^k times in both directions) it returns the payload with k more levels at depth times 2^k, whenever the depth exceeds 2^(levels + 1). In general every picture with as many blocks, of any size, returns the payload at a reading depth if the sums of its carrying blocks, divided by the side of its blocks, are within a margin those of the marked picture scaled by the ratio of the depths.", "quantifier": "all pictures with room for the mark, payloads, levels (1 or more), factors 2^k and depths above the bounds; for the general part all received pictures with as many blocks, depths and margins", "why_tests_cant": "that no block of any reduced or enlarged picture is misread cannot be seen from examples", "anchors": ["lib/sia/rust/embedding/src/lib.rs: embed, extract", "lib/sia/rust/embedding/src/io/steganography.rs", "lib/sia/rust/embedding/src/haar/mod.rs: dwt_2d"]}
