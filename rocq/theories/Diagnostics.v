(** Model of the diagnostics the library prints (the `println!` calls outside the tests) and of standard output as a whole: the functions of
    Process.v, Embedding.v, Encoding.v, Codecs.v, Image.v and Cli.v again, with what they print.  A message is the text of one `println!`.
    `{:?}` of integers and vectors of integers is modelled; of floats, bit vectors and strings it is an oracle. *)
From Coq Require Import String Ascii.
From Verif Require Import Outcome Floats Bits Quantization Codecs Encoding Matrix Haar Stego Embedding Signature Process Zernike Image Cli Getopts Timer Console.
Open Scope Z_scope.
Open Scope list_scope.

Definition message := list Z.
(** What was printed until the computation returned or panicked, and its outcome. *)
Definition logged (A : Type) : Type := (list message * outcome A)%type.
(** One `println!`; a computation that prints nothing; sequencing of printing computations.  Modelling conventions. *)
Definition say (text : list Z) : logged unit := ([text ++ newline], Ok tt).
Definition quiet {A} (x : outcome A) : logged A := ([], x).
Definition lbind {A B} (x : logged A) (k : A -> logged B) : logged B :=
  match snd x with
  | Ok a => (fst x ++ fst (k a), snd (k a))
  | Panic r => (fst x, Panic r)
  | Outside => (fst x, Outside)
  end.
Declare Scope logged_scope.
Notation "x <~ e ;; k" := (lbind e (fun x => k)) (at level 61, e at next level, right associativity) : logged_scope.
Notation "' p <~ e ;; k" := (lbind e (fun p => k)) (at level 61, p pattern, e at next level, right associativity) : logged_scope.
Notation "'print' t ;; k" := (lbind (say t) (fun _ => k)) (at level 61, t at level 60, right associativity) : logged_scope.
Open Scope logged_scope.

(** `{:?}` of integers, of Vec<u8>, Vec<i64>: "[1, 2, 3]" *)
Definition debug_int (n : Z) : list Z := if n <? 0 then 45 :: bytes_of_string (show (- n)) else bytes_of_string (show n).
(** `{:?}` of a vector: the elements separated by a comma and a space. *)
Fixpoint join (l : list (list Z)) : list Z :=
  match l with [] => [] | [a] => a | a :: t => a ++ [44; 32] ++ join t end.
Definition debug_ints (l : list Z) : list Z := [91] ++ join (map debug_int l) ++ [93].
Definition debug_nat (n : nat) : list Z := debug_int (Z.of_nat n).
(** `{:?}` of Vec<f64>, BitVec and str (oracles) *)
Record debug_text (F : Type) := mkDebug { debug_f64s : list F -> list Z; debug_bits : list bool -> list Z; debug_str : list Z -> list Z }.
Arguments debug_f64s {F}. Arguments debug_bits {F}. Arguments debug_str {F}.
(** derive(Debug), lib/sia/rust/embedding/src/io/data.rs:4-7 *)
Definition debug_data (payload : list Z) : list Z := bytes_of_string "Data { bytes: " ++ debug_ints payload ++ bytes_of_string " }".

Section Logged.
Context {F : Type} (O : FOps F) (L : ldpc) (E : ed25519) (D : debug_text F).
Context (equalize : list Z -> list Z) (features_of : array2 Z -> nat -> outcome (list F)) (checks : bool) (pad : list bool).

(** derive(Debug), lib/sia/rust/watermarking/src/watermark.rs:5-10 *)
Definition debug_watermark (w : Watermark) : list Z :=
  bytes_of_string "Watermark { perturbation_vector: " ++ debug_bits D (perturbation_vector w) ++ bytes_of_string ", signature: " ++ debug_ints (signature w)
  ++ bytes_of_string ", text: " ++ debug_str D (text w) ++ bytes_of_string " }".

(** lib/sia/rust/embedding/src/io/data.rs:14-26 *)
Definition data_serialize_logged (payload : list Z) : logged (list Z) :=
  print bytes_of_string "data: " ++ debug_data payload ;;
  data <~ quiet (data_serialize payload) ;;
  print bytes_of_string "serialized data bytes: " ++ debug_ints data ;;
  quiet (Ok data).

(** lib/sia/rust/embedding/src/io/data.rs:29-50 *)
Definition data_deserialize_logged (bytes : list Z) : logged (list Z) :=
  print bytes_of_string "serialized data bytes: " ++ debug_ints bytes ;;
  if Nat.ltb (length bytes) 3 then quiet (Panic TooShort) else
  data_length_bytes <~ quiet (slice bytes 0 2) ;;
  ints <~ quiet (vec_u16_from_bytes data_length_bytes) ;;
  data_length <~ quiet (unwrap (nth_error ints 0)) ;;
  print bytes_of_string "data length: " ++ debug_int data_length ;;
  let data_start := 2%nat in
  let data_end := (data_start + Z.to_nat data_length)%nat in
  print bytes_of_string "data bytes: (" ++ debug_nat data_start ++ bytes_of_string " - " ++ debug_nat data_end ++ bytes_of_string ")" ;;
  data <~ quiet (slice bytes data_start data_end) ;;
  print bytes_of_string "deserialized data: " ++ debug_data data ;;
  quiet (Ok data).

(** "use LDPC code: (k, n)", lib/sia/rust/encoding/src/lib.rs:73, 117 *)
Definition ldpc_line (c : code) : list Z :=
  bytes_of_string "use LDPC code: (" ++ debug_nat (8 * k_bytes c) ++ bytes_of_string ", " ++ debug_nat (8 * n_bytes c) ++ bytes_of_string ")".

(** lib/sia/rust/encoding/src/lib.rs:51-96 *)
Definition encode_logged (input : list Z) (codeword_length : nat) : logged (list Z) :=
  let bytes_length := Z.of_nat (length input) mod 65536 in
  let '(length_byte1, length_byte2) := u16_to_bytes bytes_length in
  let bytes := [length_byte1; length_byte2] ++ input in
  print bytes_of_string "bytes to be encoded with length header: " ++ debug_ints bytes ;;
  print bytes_of_string "binary length of the data to be encoded: " ++ debug_nat (length (bits_of_bytes bytes)) ;;
  match get_code_by_codeword_length codeword_length with
  | None => quiet (Ok bytes)
  | Some c =>
      let words := chunks (k_bytes c) bytes in
      print ldpc_line c ;;
      print bytes_of_string "words to be encoded: " ++ debug_nat (length words) ;;
      encoded <~ quiet (mapM (encode_word L c) words) ;;
      quiet (Ok (concat encoded))
  end.

(** lib/sia/rust/encoding/src/lib.rs:104-144 *)
Definition decode_logged (bytes : list Z) (codeword_length : nat) : logged (list Z) :=
  print bytes_of_string "bits length: " ++ debug_nat (length (bits_of_bytes bytes)) ;;
  match get_code_by_codeword_length codeword_length with
  | None => quiet (Ok bytes)
  | Some c =>
      let code_words := chunks (n_bytes c) bytes in
      print ldpc_line c ;;
      print bytes_of_string "codewords to be decoded: " ++ debug_nat (length code_words) ;;
      decoded <~ quiet (mapM (decode_word L c) code_words) ;;
      let decoded_bytes := concat decoded in
      match decoded_bytes with
      | b0 :: b1 :: _ =>
          let bytes_length := Z.to_nat (bytes_to_u16 b0 b1) in
          print bytes_of_string "expected data bytes length: " ++ debug_nat bytes_length ;;
          quiet (slice decoded_bytes 2 (bytes_length + 2))
      | _ => quiet (Panic SliceRange)
      end
  end.

(** lib/sia/rust/embedding/src/lib.rs:11-20 *)
Definition get_domain_capacity_logged (domain_width domain_height : nat) : logged nat :=
  print bytes_of_string "domain capacity: " ++ debug_nat (get_capacity domain_width domain_height) ++ bytes_of_string " bytes" ;;
  quiet (get_domain_capacity domain_width domain_height).

(** lib/sia/rust/embedding/src/lib.rs:22-55 *)
Definition embed_logged (image_matrix : array2 Z) (bytes : list Z) (depth : F) (dwt_levels : nat) : logged (array2 Z) :=
  let width := dim0 image_matrix in
  let height := dim1 image_matrix in
  let input_float_matrix := mapv (f_of_Z O) image_matrix in
  dwt_coefficients <~ quiet (dwt_2d O input_float_matrix dwt_levels false) ;;
  ll3_width <~ quiet (ll_side width dwt_levels) ;;
  ll3_height <~ quiet (ll_side height dwt_levels) ;;
  domain_capacity <~ get_domain_capacity_logged ll3_width ll3_height ;;
  serialized_data <~ data_serialize_logged bytes ;;
  encoded <~ encode_logged serialized_data domain_capacity ;;
  dwt_coefficients' <~ quiet (write O dwt_coefficients ll3_width ll3_height encoded depth) ;;
  restored <~ quiet (dwt_2d O dwt_coefficients' dwt_levels true) ;;
  quiet (Ok (mapv (fun elem => f_to_u8 O (f_round O elem)) restored)).

(** lib/sia/rust/embedding/src/lib.rs:57-82 *)
Definition extract_logged (image_matrix : array2 Z) (depth : F) (dwt_levels : nat) : logged (list Z) :=
  let width := dim0 image_matrix in
  let height := dim1 image_matrix in
  let input_float_matrix := mapv (f_of_Z O) image_matrix in
  dwt_coefficients <~ quiet (dwt_2d O input_float_matrix dwt_levels false) ;;
  ll3_width <~ quiet (ll_side width dwt_levels) ;;
  ll3_height <~ quiet (ll_side height dwt_levels) ;;
  extracted <~ quiet (read O dwt_coefficients ll3_width ll3_height depth) ;;
  domain_capacity <~ get_domain_capacity_logged ll3_width ll3_height ;;
  decoded <~ decode_logged extracted domain_capacity ;;
  data_deserialize_logged decoded.

(** lib/sia/rust/watermarking/src/process.rs:26-39 / 77-92 ; the indices are printed by lib/sia/rust/zernike/src/lib.rs:21 before anything is measured, the moments by
    lib/sia/rust/image-features/src/lib.rs:18.  Without a number of features (amount 0) get_order_by_features_amount panics before line 21 or wraps. *)
Definition indices_logged (features_amount : nat) : logged unit :=
  match get_order_by_features_amount checks features_amount with
  | Ok order => say (bytes_of_string "Zernike moments indices: " ++ debug_ints (map Z.of_nat (moments_indices order)))
  | _ => quiet (Ok tt)
  end.
(** lib/sia/rust/watermarking/src/process.rs:26-39 / 77-92 with the messages of the feature extractor *)
Definition channel_features_logged (channel : gray) (features_amount : nat) : logged (array2 Z * list F) :=
  pixels_array <~ quiet (from_shape_vec (gwidth channel) (gheight channel) (gray_raw channel)) ;;
  equalized_image_array <~ quiet (from_shape_vec (gwidth channel) (gheight channel) (equalize (gray_raw channel))) ;;
  _ <~ indices_logged features_amount ;;
  features <~ quiet (features_of equalized_image_array features_amount) ;;
  print bytes_of_string "Zernike moments: " ++ debug_f64s D features ;;
  print bytes_of_string "features: " ++ debug_f64s D features ;;
  quiet (Ok (pixels_array, features)).

(** lib/sia/rust/watermarking/src/process.rs:17-68 *)
Definition watermark_channel_logged (channel : gray) (embedding_depth features_quantization_step : F)
    (features_amount dwt_levels : nat) : logged gray :=
  '(pixels_array, features) <~ channel_features_logged channel features_amount ;;
  '(quantized_features, perturbation_vector) <~ quiet (three_bit_quantization O checks features features_quantization_step) ;;
  print bytes_of_string "quantized_features: " ++ debug_ints quantized_features ;;
  print bytes_of_string "perturbation_vector: " ++ debug_bits D perturbation_vector ;;
  signature <~ quiet (sign E (vec_i64_to_bytes quantized_features) PRIVATE_KEY PUBLIC_KEY) ;;
  print bytes_of_string "signature: " ++ debug_ints signature ;;
  let watermark := mkWatermark perturbation_vector signature WATERMARK_TEXT in
  print bytes_of_string "watermark: " ++ debug_watermark watermark ;;
  watermark_data <~ quiet (watermark_serialize pad watermark) ;;
  print bytes_of_string "watermark data: " ++ debug_ints watermark_data ;;
  watermarked <~ embed_logged pixels_array watermark_data embedding_depth dwt_levels ;;
  let watermarked_raw := into_raw_vec watermarked in
  quiet (if Nat.leb (gwidth channel * gheight channel) (length watermarked_raw)
         then Ok (mkGray (gwidth channel) (gheight channel) watermarked_raw)
         else Panic UnwrapNone).

(** lib/sia/rust/watermarking/src/process.rs:70-115 *)
Definition authenticate_channel_logged (channel : gray) (embedding_depth features_quantization_step : F)
    (features_amount dwt_levels : nat) : logged bool :=
  '(pixels_array, features) <~ channel_features_logged channel features_amount ;;
  extracted_data <~ extract_logged pixels_array embedding_depth dwt_levels ;;
  print bytes_of_string "extracted watermark data: " ++ debug_ints extracted_data ;;
  watermark <~ quiet (watermark_deserialize extracted_data) ;;
  print bytes_of_string "deserialized watermark data: " ++ debug_watermark watermark ;;
  quantized_features <~ quiet (three_bit_dequantization O checks features (perturbation_vector watermark) features_quantization_step) ;;
  print bytes_of_string "restored quantized features: " ++ debug_ints quantized_features ;;
  let quantized_features_bytes := vec_i64_to_bytes quantized_features in
  print bytes_of_string "restored quantized features bytes: " ++ debug_ints quantized_features_bytes ;;
  quiet (verify E quantized_features_bytes (signature watermark) PUBLIC_KEY).

(** lib/sia/rust/watermarking/src/lib.rs:13-112: the channels in the order red, green, blue *)
Definition watermark_logged (image : dynimage) (embedding_depth features_quantization_step : F) (features_amount : nat) : logged dynimage :=
  let wm_channel channel := watermark_channel_logged channel embedding_depth features_quantization_step features_amount DWT_LEVELS in
  let color := has_color image in
  let alpha := has_alpha image in
  let '(width, height) := dimensions image in
  let px := get_pixels image in
  let red0 := channel_of true ch1 px in
  let green0 := channel_of color ch2 px in
  let blue0 := channel_of color ch3 px in
  let alpha0 := channel_of alpha ch4 px in
  red <~ wm_channel (mkGray width height red0) ;;
  green <~ (if color then wm_channel (mkGray width height green0) else quiet (Ok (mkGray width height green0))) ;;
  blue <~ (if color then wm_channel (mkGray width height blue0) else quiet (Ok (mkGray width height blue0))) ;;
  let out := zip4 color alpha (gray_raw red) (gray_raw green) (gray_raw blue) alpha0 in
  quiet (Ok (if negb color && alpha then ImageLumaA8 width height (grayscale_alpha out)
      else if color && alpha then ImageRgba8 width height out
      else if negb color then ImageLuma8 width height (grayscale out)
      else ImageRgb8 width height (to_rgb out))).

(** ** Standard output of the command line tool *)
Context {format : Type} (os : platform format) (clock : list (list Z) -> Z * Z).
Notation process_input := (Cli.process_input O L E equalize features_of checks pad os).
Notation prepare := (Cli.prepare O L E equalize features_of checks pad os).

(** lib/sia/rust/cli/src/main.rs:31-36: what is printed before the output file is created *)
Definition diagnostics_of_input (w : world) (input : list Z) : list message :=
  match open_image os w input with
  | Ok input_image => fst (watermark_logged input_image (f_of_Z O 100) (f_of_Z O 1) 11)
  | _ => []
  end.
(** main.rs:65-71: the line at the end of a turn of the loop *)
Definition announcement_of_input (w : world) (input suffix : list Z) (output_option : option (list Z)) (elapsed : Z * Z) : list message :=
  match open_image os w input, prepare w input suffix output_option, process_input w input suffix output_option with
  | Ok input_image, Ok (watermarked, output_path), (_, Done) => [watermarked_line output_path (channel_count input_image) (channel_count watermarked) elapsed]
  | _, _, _ => []
  end.
(** main.rs:31-72 *)
Fixpoint messages_of_inputs (w : world) (inputs : list (list Z)) (suffix : list Z) (output_option : option (list Z)) : list message :=
  match inputs with
  | [] => []
  | input :: rest =>
      diagnostics_of_input w input ++ announcement_of_input w input suffix output_option (clock inputs) ++
      match process_input w input suffix output_option with
      | (w', Done) => messages_of_inputs w' rest suffix output_option
      | _ => []
      end
  end.
(** main.rs:16-76 *)
Definition messages_of_process (w : world) (inputs : list (list Z)) (suffix_option output_option : option (list Z)) : list message :=
  match suffix_option with
  | None => [no_output_line]
  | Some suffix =>
      match output_option with
      | None => messages_of_inputs w inputs suffix None
      | Some output =>
          match kind os output with
          | OtherKind => [no_folder_line output]
          | _ => if can_make_folder os output then messages_of_inputs (mkWorld (content w) (output :: folders_requested w)) inputs suffix output_option else []
          end
      end
  end.

(** ** The same run when standard output breaks: [limit] messages get through, printing the next one panics (`println!` on a closed pipe). *)
Inductive ending_or_broken := Ended (e : ending) | OutputBroken.
Fixpoint process_inputs_until (limit : nat) (w : world) (inputs : list (list Z)) (suffix : list Z) (output_option : option (list Z)) : world * ending_or_broken :=
  match inputs with
  | [] => (w, Ended Done)
  | input :: rest =>
      let diagnostics := length (diagnostics_of_input w input) in
      if Nat.ltb limit diagnostics then (w, OutputBroken) else
      match process_input w input suffix output_option with
      | (w', Done) => if Nat.eqb limit diagnostics then (w', OutputBroken) else process_inputs_until (limit - diagnostics - 1) w' rest suffix output_option
      | (w', e) => (w', Ended e)
      end
  end.
(** main.rs:16-76; `std::process::exit(1)` comes after the message, `create_dir_all` before the loop *)
Definition process_until (limit : nat) (w : world) (inputs : list (list Z)) (suffix_option output_option : option (list Z)) : world * ending_or_broken :=
  match suffix_option with
  | None => (w, if Nat.eqb limit 0 then OutputBroken else Ended Done)
  | Some suffix =>
      match output_option with
      | None => process_inputs_until limit w inputs suffix None
      | Some output =>
          match kind os output with
          | OtherKind => (w, if Nat.eqb limit 0 then OutputBroken else Ended (ExitCode 1))
          | _ => let w' := mkWorld (content w) (output :: folders_requested w) in
                 if can_make_folder os output then process_inputs_until limit w' inputs suffix output_option
                 else (w', Ended (Panicked UnwrapErr))
          end
      end
  end.
End Logged.
