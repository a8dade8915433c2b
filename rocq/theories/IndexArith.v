(** Index computations that the code performs through f64 (always the binary64 reading). *)
From Verif Require Import Outcome Floats.
Open Scope Z_scope.

(** `(a as f64 / b as f64).floor() as usize`
    - lib/sia/rust/embedding/src/io/steganography.rs:18-20  get_capacity: `((width*height) as f64 / 8.).floor() as usize`
    - lib/sia/rust/embedding/src/io/steganography.rs:24     row: `(offset as f64 / height as f64).floor() as usize` *)
Definition f64_floor_div (a b : nat) : nat :=
  Z.to_nat (f_to_usize Bops (f_floor Bops (f_div Bops (b_of_Z (Z.of_nat a)) (b_of_Z (Z.of_nat b))))).

(** `(a as f64 / b).ceil() as usize`
    - lib/sia/rust/three-bit-quantization/src/lib.rs:11   `(bits.len() as f64 / 8.).ceil() as usize`
    - lib/sia/rust/watermarking/src/watermark.rs:64       `(perturbation_vector_length as f64 / 8.).ceil() as usize` *)
Definition f64_ceil_div (a b : nat) : nat :=
  Z.to_nat (f_to_usize Bops (f_ceil Bops (f_div Bops (b_of_Z (Z.of_nat a)) (b_of_Z (Z.of_nat b))))).
