(** Model of lib/sia/rust/watermarking/src/process.rs. *)
From Coq Require Import String Ascii.
From Verif Require Import Outcome Floats Bits Quantization Codecs Encoding Matrix Embedding Signature.
Open Scope Z_scope.

(** A string literal as its (ASCII) scalar values. *)
Definition str (s : string) : list Z := map (fun a => Z.of_N (N_of_ascii a)) (list_ascii_of_string s).

(** lib/sia/rust/watermarking/src/process.rs:14-15 *)
Definition PRIVATE_KEY : list Z := str "e1ec991518bead7d94b60bf64469b98d866315b3676d4fa5b4e7c36dc4951d60".
Definition PUBLIC_KEY : list Z := str "a7fd235002f60fad1a7077d74cfd62dd8922963ebc713c385ad37596fba5a7d6".
(** lib/sia/rust/watermarking/src/process.rs:57 (scalar values of an ASCII literal) *)
Definition WATERMARK_TEXT : list Z := str "Hello world!".

(** image::GrayImage: dimensions and row-major pixels. *)
Record gray := mkGray { gwidth : nat; gheight : nat; gray_raw : list Z }.

Section Process.
Context {F : Type} (O : FOps F) (L : ldpc) (E : ed25519).
(** imageproc::contrast::equalize_histogram on the pixel values (oracle), and image_features::calculate_features for
    MomentsZernike (modelled over exact reals in Zernike.v; a parameter here). *)
Context (equalize : list Z -> list Z) (features_of : array2 Z -> nat -> outcome (list F)).
(** overflow checks of the build profile; dead bits of a collected BitVec (see Bits.v) *)
Context (checks : bool) (pad : list bool).

(** lib/sia/rust/watermarking/src/process.rs:26-38 / 77-91: both functions build the [width, height]-shaped arrays from the row-major
    pixels and compute the features of the equalised channel. *)
Definition channel_features (channel : gray) (features_amount : nat) : outcome (array2 Z * list F) :=
  pixels_array <- from_shape_vec (gwidth channel) (gheight channel) (gray_raw channel) ;;
  equalized_image_array <- from_shape_vec (gwidth channel) (gheight channel) (equalize (gray_raw channel)) ;;
  features <- features_of equalized_image_array features_amount ;;
  Ok (pixels_array, features).

(** lib/sia/rust/watermarking/src/process.rs:17-68 *)
Definition watermark_channel (channel : gray) (embedding_depth features_quantization_step : F)
    (features_amount dwt_levels : nat) : outcome gray :=
  '(pixels_array, features) <- channel_features channel features_amount ;;
  '(quantized_features, perturbation_vector) <-
      three_bit_quantization O checks features features_quantization_step ;;
  signature <- sign E (vec_i64_to_bytes quantized_features) PRIVATE_KEY PUBLIC_KEY ;;
  let watermark := mkWatermark perturbation_vector signature WATERMARK_TEXT in
  watermark_data <- watermark_serialize pad watermark ;;
  watermarked <- embed O L pixels_array watermark_data embedding_depth dwt_levels ;;
  let watermarked_raw := into_raw_vec watermarked in
  if Nat.leb (gwidth channel * gheight channel) (length watermarked_raw)
  then Ok (mkGray (gwidth channel) (gheight channel) watermarked_raw)
  else Panic UnwrapNone.

(** lib/sia/rust/watermarking/src/process.rs:70-115 *)
Definition authenticate_channel (channel : gray) (embedding_depth features_quantization_step : F)
    (features_amount dwt_levels : nat) : outcome bool :=
  '(pixels_array, features) <- channel_features channel features_amount ;;
  extracted_data <- extract O L pixels_array embedding_depth dwt_levels ;;
  watermark <- watermark_deserialize extracted_data ;;
  quantized_features <-
      three_bit_dequantization O checks features (perturbation_vector watermark) features_quantization_step ;;
  let quantized_features_bytes := vec_i64_to_bytes quantized_features in
  verify E quantized_features_bytes (signature watermark) PUBLIC_KEY.
End Process.
