(** Model of lib/sia/rust/web/src/{lib,image_model,watermarking_process}.rs.  Logging to the console is not modelled. *)
From Verif Require Import Outcome Floats Bits Encoding Matrix Signature Process Image.
Open Scope Z_scope.

(** lib/sia/rust/web/src/image_model.rs:4-10 *)
Record image_model := mkImageModel { model_width : nat; model_height : nat; model_data : list Z }.
(** lib/sia/rust/web/src/watermarking_process.rs:4-13; the format is the Debug name of image::ImageFormat *)
Record watermarking_process (format : Type) := mkProcess { source_format : format; source_model : image_model; watermarked_model : image_model }.
Arguments mkProcess {format}. Arguments source_format {format}. Arguments source_model {format}. Arguments watermarked_model {format}.

(** `into_rgba8().into_raw()`: four bytes per pixel, row-major (image 0.24; for 16-bit and float layouts the same conversion as
    `get_pixel`, see Image.v). *)
Definition into_rgba8_raw (image : dynimage) : list Z := flat_map (fun p : rgba => [ch1 p; ch2 p; ch3 p; ch4 p]) (get_pixels image).

(** lib/sia/rust/web/src/lib.rs:40-58; `Uint8Array::new` of an array of numbers keeps each modulo 256. *)
Definition get_image_model (image : dynimage) : image_model :=
  let '(width, height) := dimensions image in
  mkImageModel width height (map (fun x => x mod 256) (into_rgba8_raw image)).

Section Web.
Context {F : Type} (O : FOps F) (L : ldpc) (E : ed25519) (equalize : list Z -> list Z)
  (features_of : array2 Z -> nat -> outcome (list F)) (checks : bool) (pad : list bool).
(** image::io::Reader: the guessed format and the decoded picture (oracle) *)
Context {format : Type} (guess : list Z -> option format) (decode_image : format -> list Z -> option dynimage).

(** lib/sia/rust/web/src/lib.rs:60-67 (`with_guessed_format` cannot fail on an in-memory cursor) *)
Definition get_source (blob : list Z) : outcome (dynimage * format) :=
  fmt <- unwrap (guess blob) ;;
  image <- match decode_image fmt blob with Some i => Ok i | None => Panic UnwrapErr end ;;
  Ok (image, fmt).

(** lib/sia/rust/web/src/lib.rs:69-80 *)
Definition get_watermarked (original : dynimage) (embedding_depth features_quantization_step : F) : outcome dynimage :=
  watermark_image O L E equalize features_of checks pad original embedding_depth features_quantization_step 11.

(** lib/sia/rust/web/src/lib.rs:18-38 *)
Definition get_watermarking_process (blob : list Z) (embedding_depth features_quantization_step : F)
    : outcome (watermarking_process format) :=
  '(source, fmt) <- get_source blob ;;
  watermarked <- get_watermarked source embedding_depth features_quantization_step ;;
  Ok (mkProcess fmt (get_image_model source) (get_image_model watermarked)).
End Web.
