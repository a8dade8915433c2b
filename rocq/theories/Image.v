(** Model of lib/sia/rust/watermarking/src/lib.rs. *)
From Verif Require Import Outcome Floats Bits Encoding Matrix Signature Process.
Open Scope Z_scope.

(** image::Rgba<u8>: red, green, blue, alpha. *)
Definition rgba : Type := Z * Z * Z * Z.

(** image::DynamicImage (image 0.24): the 8-bit layouts with their pixels in row-major order; any other layout (16-bit,
    float) is given by its colour flags and by the Rgba<u8> values `get_pixel` returns for it. *)
Inductive dynimage : Type :=
| ImageLuma8 (w h : nat) (px : list Z)
| ImageLumaA8 (w h : nat) (px : list (Z * Z))
| ImageRgb8 (w h : nat) (px : list (Z * Z * Z))
| ImageRgba8 (w h : nat) (px : list rgba)
| ImageOther (color alpha : bool) (w h : nat) (px : list rgba).

(** `image.dimensions()` *)
Definition dimensions (i : dynimage) : nat * nat :=
  match i with
  | ImageLuma8 w h _ | ImageLumaA8 w h _ | ImageRgb8 w h _ | ImageRgba8 w h _ | ImageOther _ _ w h _ => (w, h)
  end.
(** `image.color().has_color()` / `has_alpha()` *)
Definition has_color (i : dynimage) : bool :=
  match i with ImageLuma8 _ _ _ | ImageLumaA8 _ _ _ => false | ImageRgb8 _ _ _ | ImageRgba8 _ _ _ => true
             | ImageOther c _ _ _ _ => c end.
Definition has_alpha (i : dynimage) : bool :=
  match i with ImageLuma8 _ _ _ | ImageRgb8 _ _ _ => false | ImageLumaA8 _ _ _ | ImageRgba8 _ _ _ => true
             | ImageOther _ a _ _ _ => a end.
(** all `image.get_pixel(x, y)` (Rgba<u8>), in row-major order *)
Definition get_pixels (i : dynimage) : list rgba :=
  match i with
  | ImageLuma8 _ _ px => map (fun v => (v, v, v, 255)) px
  | ImageLumaA8 _ _ px => map (fun p => let '(v, a) := p in (v, v, v, a)) px
  | ImageRgb8 _ _ px => map (fun p => let '(r, g, b) := p in (r, g, b, 255)) px
  | ImageRgba8 _ _ px => px
  | ImageOther _ _ _ _ px => px
  end.

(** image 0.24 `rgb_to_luma` for u8: integer Rec. 709 weights. *)
Definition rgb_to_luma (r g b : Z) : Z := (2126 * r + 7152 * g + 722 * b) / 10000.
(** imageops::grayscale / grayscale_alpha on an RGBA buffer *)
Definition grayscale (px : list rgba) : list Z := map (fun p => let '(r, g, b, _) := p in rgb_to_luma r g b) px.
Definition grayscale_alpha (px : list rgba) : list (Z * Z) :=
  map (fun p => let '(r, g, b, a) := p in (rgb_to_luma r g b, a)) px.
(** `DynamicImage::new_rgb8(..).copy_from(&out)`: drops alpha *)
Definition to_rgb (px : list rgba) : list (Z * Z * Z) := map (fun p => let '(r, g, b, _) := p in (r, g, b)) px.

(** lib/sia/rust/watermarking/src/lib.rs:11 *)
Definition DWT_LEVELS : nat := 3.

Section Watermark.
(** `watermark_channel(&channel, embedding_depth, features_quantization_step, features_amount, DWT_LEVELS)` *)
Context (wm_channel : gray -> outcome gray).

(** Copying one channel, lib/sia/rust/watermarking/src/lib.rs:35-49; a channel that is not copied stays all zero. *)
Definition channel_of (present : bool) (sel : rgba -> Z) (px : list rgba) : list Z :=
  map (fun p => if present then sel p else 0) px.
(** `rgba.channels4()`, lib/sia/rust/watermarking/src/lib.rs:39 *)
Definition ch1 (p : rgba) : Z := let '(r, _, _, _) := p in r.
Definition ch2 (p : rgba) : Z := let '(_, g, _, _) := p in g.
Definition ch3 (p : rgba) : Z := let '(_, _, b, _) := p in b.
Definition ch4 (p : rgba) : Z := let '(_, _, _, a) := p in a.

(** Assembly of one output pixel, lib/sia/rust/watermarking/src/lib.rs:78-99. *)
Definition out_pixel (color alpha : bool) (r g b a : Z) : rgba :=
  let green := if color then g else r in
  let blue := if color then b else r in
  let alpha' := if alpha then a else r in
  (r, green, blue, alpha').

(** All output pixels from the four channels, lib/sia/rust/watermarking/src/lib.rs:78-99 *)
Definition zip4 (color alpha : bool) (rs gs bs as_ : list Z) : list rgba :=
  map (fun q => let '(r, (g, (b, a))) := q in out_pixel color alpha r g b a)
      (combine rs (combine gs (combine bs as_))).

(** lib/sia/rust/watermarking/src/lib.rs:13-112 *)
Definition watermark (image : dynimage) : outcome dynimage :=
  let color := has_color image in
  let alpha := has_alpha image in
  let '(width, height) := dimensions image in
  let px := get_pixels image in
  let red0 := channel_of true ch1 px in
  let green0 := channel_of color ch2 px in
  let blue0 := channel_of color ch3 px in
  let alpha0 := channel_of alpha ch4 px in
  red <- wm_channel (mkGray width height red0) ;;
  green <- (if color then wm_channel (mkGray width height green0) else Ok (mkGray width height green0)) ;;
  blue <- (if color then wm_channel (mkGray width height blue0) else Ok (mkGray width height blue0)) ;;
  let out := zip4 color alpha (gray_raw red) (gray_raw green) (gray_raw blue) alpha0 in
  Ok (if negb color && alpha then ImageLumaA8 width height (grayscale_alpha out)
      else if color && alpha then ImageRgba8 width height out
      else if negb color then ImageLuma8 width height (grayscale out)
      else ImageRgb8 width height (to_rgb out)).
End Watermark.

(** lib/sia/rust/watermarking/src/lib.rs:13-112 with its four arguments: `watermark(image, embedding_depth,
    features_quantization_step, features_amount)`. *)
Definition watermark_image {F} (O : FOps F) (L : ldpc) (E : ed25519) (equalize : list Z -> list Z)
    (features_of : array2 Z -> nat -> outcome (list F)) (checks : bool) (pad : list bool)
    (image : dynimage) (embedding_depth features_quantization_step : F) (features_amount : nat) : outcome dynimage :=
  watermark (fun channel => watermark_channel O L E equalize features_of checks pad channel embedding_depth
               features_quantization_step features_amount DWT_LEVELS) image.
