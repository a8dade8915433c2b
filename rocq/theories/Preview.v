(** Model of what the web page displays: src/WatermarkingPreview/WatermarkingPreview.tsx, src/Canvas/Canvas.tsx, src/Content/Content.tsx:44-59, and
    of the function the page calls for each picture (src/Content/Content.tsx:12-23, src/Content/utils.ts:33-49, 59-70).
    The markup around the two lines and the two canvases is not modelled. *)
From Coq Require Import String Ascii.
From Verif Require Import Outcome Floats Bits Encoding Matrix Signature Process Image Web Timer Front.
Open Scope Z_scope.
Open Scope list_scope.

(** image 0.24 `ImageFormat` and its derived Debug names, used at lib/sia/rust/web/src/lib.rs:29 *)
Inductive image_format := Png | Jpeg | Gif | WebP | Pnm | Tiff | Tga | Dds | Bmp | Ico | Hdr | OpenExr | Farbfeld | Avif | Qoi.
(** `{:?}` of the format, lib/sia/rust/web/src/lib.rs:29 *)
Definition debug_name (f : image_format) : string :=
  match f with
  | Png => "Png" | Jpeg => "Jpeg" | Gif => "Gif" | WebP => "WebP" | Pnm => "Pnm" | Tiff => "Tiff" | Tga => "Tga" | Dds => "Dds" | Bmp => "Bmp" | Ico => "Ico"
  | Hdr => "Hdr" | OpenExr => "OpenExr" | Farbfeld => "Farbfeld" | Avif => "Avif" | Qoi => "Qoi"
  end.

(** `toUpperCase` of an ASCII string *)
Definition upper (c : Z) : Z := if (97 <=? c) && (c <=? 122) then c - 32 else c.

(** src/Canvas/Canvas.tsx:18-29: a canvas element of the given width and height whose pixels are those of an ImageData of the same size: byte c of the
    pixel in column x of row y is byte 4 * (y * width + x) + c of its data; None: drawing throws *)
Record canvas := mkCanvas { canvas_width : nat; canvas_height : nat; canvas_data : list Z }.
(** src/Canvas/Canvas.tsx:18-29 *)
Definition draw (width height : nat) (data : list Z) : option canvas :=
  match canvas_bytes width height data with Some drawn => Some (mkCanvas width height drawn) | None => None end.
(** One byte of a pixel of a canvas. *)
Definition canvas_byte (c : canvas) (x y component : nat) : option Z := nth_error (canvas_data c) (4 * (y * canvas_width c + x) + component).

(** src/WatermarkingPreview/WatermarkingPreview.tsx:14-32: the two lines of text, and what the canvases (source, watermarked) draw; None: drawing throws *)
Record preview := mkPreview { format_line : list Z; size_line : list Z; left_canvas : option canvas; right_canvas : option canvas }.
(** src/WatermarkingPreview/WatermarkingPreview.tsx: the canvas of one model; a number in a template string. *)
Definition canvas_of (m : image_model) : option canvas := draw (model_width m) (model_height m) (model_data m).
Definition number (n : nat) : list Z := str (show (Z.of_nat n)).
Definition render (p : Web.watermarking_process image_format) : preview :=
  mkPreview (str "Format: " ++ map upper (str (debug_name (source_format p))))
            (str "Size: " ++ number (model_width (source_model p)) ++ str "x" ++ number (model_height (source_model p)))
            (canvas_of (source_model p)) (canvas_of (watermarked_model p)).
(** src/Content/Content.tsx:44-46: without a process the page says "Loading..." (None) *)
Definition displayed (s : @page (Web.watermarking_process image_format)) : option preview :=
  match Front.watermarking_process s with None => None | Some p => Some (render p) end.

Section Library.
Context {F : Type} (O : FOps F) (L : ldpc) (E : ed25519) (equalize : list Z -> list Z)
  (features_of : array2 Z -> nat -> outcome (list F)) (checks : bool) (pad : list bool).
Context (guess : list Z -> option image_format) (decode_image : image_format -> list Z -> option dynimage).
(** src/Content/Content.tsx:12-23 and utils.ts:59-70: depth 500.0, step 1.0; `toWatermarkingProcess` (utils.ts:33-49) copies the fields.  A panic of the
    library is an exception in JavaScript. *)
Definition page_library (content : list Z) : option (Web.watermarking_process image_format) :=
  match get_watermarking_process O L E equalize features_of checks pad guess decode_image content (f_of_Z O 500) (f_of_Z O 1) with
  | Ok p => Some p
  | _ => None
  end.
End Library.
