(** Model of imageproc 0.23 `contrast::equalize_histogram` (third party, modelled from its documented behaviour), as called by
    lib/sia/rust/watermarking/src/process.rs:29 and 81, with its arithmetic in IEEE binary32 (Flocq).
    Everywhere else in the model equalisation is a parameter; this file gives the function that is actually passed.
    Simplification: the u32 counters do not wrap (pictures of fewer than 2^32 pixels). *)
From Coq Require Import ZArith List Reals.
From Flocq Require Import Core BinarySingleNaN.
From Verif Require Import Floats.
Import ListNotations.
Open Scope Z_scope.

(** ** binary32 *)
Definition prec32 : Z := 24.
Definition emax32 : Z := 128.
Global Instance prec32_gt_0 : Prec_gt_0 prec32. Proof. reflexivity. Qed.
Global Instance prec32_lt_emax : Prec_lt_emax prec32 emax32. Proof. reflexivity. Qed.
Notation b32 := (binary_float 24 128).
(** `as f32` *)
Definition s_of_Z (n : Z) : b32 := binary_normalize prec32 emax32 _ _ mode_NE n 0 false.
(** `/` and `*` of f32 *)
Definition s_div : b32 -> b32 -> b32 := @Bdiv prec32 emax32 _ _ mode_NE.
Definition s_mul : b32 -> b32 -> b32 := @Bmult prec32 emax32 _ _ mode_NE.
(** `f32::min(255f32, x)`: the other operand if one is NaN *)
Definition s_min255 (x : b32) : b32 := if @Bltb prec32 emax32 x (s_of_Z 255) then x else s_of_Z 255.
(** `as u8` *)
Definition s_to_u8 (x : b32) : Z :=
  match x with
  | B754_nan => 0
  | B754_infinity true => 0
  | B754_infinity false => 255
  | _ => clamp 0 255 (Btrunc x)
  end.

(** ** histograms *)
(** `hist[p] += 1` *)
Fixpoint bump_at (hist : list Z) (p : nat) : list Z :=
  match hist, p with
  | [], _ => []
  | h :: t, O => h + 1 :: t
  | h :: t, S p' => h :: bump_at t p'
  end.
(** imageproc::stats::histogram of a grey picture *)
Definition histogram (pixels : list Z) : list Z := fold_left (fun hist p => bump_at hist (Z.to_nat p)) pixels (repeat 0 256).
(** imageproc::stats::cumulative_histogram: `for i in 1..256 { hist[i] += hist[i - 1] }` *)
Fixpoint cumulate (before : Z) (hist : list Z) : list Z :=
  match hist with [] => [] | h :: t => before + h :: cumulate (before + h) t end.
(** imageproc::stats::cumulative_histogram of a grey picture (called through lib/sia/rust/watermarking/src/process.rs:31). *)
Definition cumulative_histogram (pixels : list Z) : list Z := cumulate 0 (histogram pixels).

(** imageproc::contrast::equalize_histogram_mut: the new value of a pixel with value [p] *)
Definition equalized_level (hist : list Z) (p : Z) : Z :=
  let total := s_of_Z (nth 255 hist 0) in
  let fraction := s_div (s_of_Z (nth (Z.to_nat p) hist 0)) total in
  s_to_u8 (s_min255 (s_mul (s_of_Z 255) fraction)).
(** imageproc::contrast::equalize_histogram, as called by lib/sia/rust/watermarking/src/process.rs. *)
Definition equalize_histogram (pixels : list Z) : list Z :=
  let hist := cumulative_histogram pixels in map (equalized_level hist) pixels.
