(** Model of lib/sia/rust/three-bit-quantization/src/lib.rs. *)
From Verif Require Import Outcome Floats Bits IndexArith.
Open Scope Z_scope.

(** `funty::Fundamental::as_bool` on a `bool`.  In the funty 2.0 release used through bitvec 1.0.1 this method
    NEGATES a bool; the repository's own unit tests (lib/sia/rust/three-bit-quantization/src/lib.rs:284-289, 316-342) only
    pass with this reading, and the code compensates with `!`.  Third-party behaviour: trusted base. *)
Definition funty_as_bool (b : bool) : bool := negb b.
(** `funty::Fundamental::as_u8` on a `bool`: `self as u8`. *)
Definition funty_as_u8 (b : bool) : Z := Z.b2z b.

(** lib/sia/rust/three-bit-quantization/src/lib.rs:9-15.  [pad]: dead bits of the last byte of the collected BitVec.
    `copy_from_slice` panics if ceil(len/8) computed in f64 differs from the raw length. *)
Definition perturbation_vector_as_bytes (pad bits : list bool) : outcome (list Z) :=
  let raw := raw_bytes pad bits in
  if Nat.eqb (f64_ceil_div (length bits) 8) (length raw) then Ok raw else Panic LenMismatch.

(** lib/sia/rust/three-bit-quantization/src/lib.rs:17-37.  The inner `break` leaves the inner loop only; since `i` is not
    incremented any more, later bytes push nothing either. *)
Definition pvfb_bit (n : nat) (st : list bool * nat) (bit : bool) : list bool * nat :=
  let '(res, i) := st in
  if Nat.ltb i n then (res ++ [negb (funty_as_bool bit)], S i) else (res, i).
(** lib/sia/rust/three-bit-quantization/src/lib.rs:17-37 *)
Definition perturbation_vector_from_bytes (bytes : list Z) (perturbation_vector_bits : nat) : list bool :=
  fst (fold_left (fun st b => fold_left (pvfb_bit perturbation_vector_bits) (byte_bits b) st) bytes ([], O)).

(** lib/sia/rust/three-bit-quantization/src/lib.rs:79-86 *)
Definition mod_four (q : Z) : Z :=
  let result := q mod 4 in   (* i64::rem_euclid(4) *)
  if result <? 0 then (result + 4) mod 256 else result mod 256.

(** lib/sia/rust/three-bit-quantization/src/lib.rs:88-92: pushes bit1 then bit0; `load_be::<u8>` of these two Lsb0 bits inside
    one element is the integer whose least significant bit is the first pushed (unit test lines 276-281). *)
Definition integer_from_two_bits (bit0 bit1 : Z) : Z :=
  bits_value [negb (bit1 =? 0); negb (bit0 =? 0)].

(** lib/sia/rust/three-bit-quantization/src/lib.rs:94-99 *)
Definition two_bits_from_integer (number : Z) : bool * bool :=
  let bit0 := negb (funty_as_bool (Z.testbit number 1)) in
  let bit1 := negb (funty_as_bool (Z.testbit number 0)) in
  (bit0, bit1).

Section Quant.
Context {F : Type} (O : FOps F).

(** lib/sia/rust/three-bit-quantization/src/lib.rs:39-44, one feature *)
Definition quantize1 (step feature : F) : Z := f_to_i64 O (f_floor O (f_div O feature step)).
(** lib/sia/rust/three-bit-quantization/src/lib.rs:39-44 *)
Definition quantize (features : list F) (step : F) : list Z := map (quantize1 step) features.

(** `*quantized_feature - 1 as i64` (line 54).  [checks] = overflow checks on (debug profile: panic); off
    (release profile): two's complement wrap-around. *)
Definition i64_minus_1 (checks : bool) (q : Z) : outcome Z :=
  if q =? i64_min then (if checks then Panic ArithOverflow else Ok i64_max) else Ok (q - 1).

(** Body of the closure, lib/sia/rust/three-bit-quantization/src/lib.rs:53-65. *)
Definition reminder_bits (checks : bool) (step feature : F) (quantized_feature : Z) : outcome (list bool) :=
  qm <- i64_minus_1 checks quantized_feature ;;
  let reminder := mod_four qm in
  let '(bit0, bit1) := two_bits_from_integer reminder in
  let b := f_mul O step (f_add O (f_of_Z O quantized_feature) (f_dyadic O 1 (-1))) in
  let bit2 := f_ge O feature b in
  Ok [bit0; bit1; bit2].

(** lib/sia/rust/three-bit-quantization/src/lib.rs:46-77.  `features.get(i).unwrap()` cannot fail (same length), so the
    enumeration is modelled by pairing each feature with its quantised value. *)
Definition three_bit_quantization (checks : bool) (features : list F) (step : F)
  : outcome (list Z * list bool) :=
  let quantized := quantize features step in
  bits <- mapM (fun p => reminder_bits checks step (fst p) (snd p)) (combine features quantized) ;;
  Ok (quantized, concat bits).

(** Body of the closure, lib/sia/rust/three-bit-quantization/src/lib.rs:116-167. *)
Definition dequantize1 (step : F) (noised_features : list F) (calculated_chunks : list (list bool))
    (i : nat) (given : list bool) : outcome F :=
  calculated <- unwrap (nth_error calculated_chunks i) ;;
  noised_feature <- unwrap (nth_error noised_features i) ;;
  g1 <- unwrap (nth_error given 0) ;;
  g2 <- unwrap (nth_error given 1) ;;
  g3 <- unwrap (nth_error given 2) ;;
  let given_bit3 := funty_as_u8 g3 in
  let given_p1p2dec := integer_from_two_bits (funty_as_u8 g1) (funty_as_u8 g2) in
  c1 <- unwrap (nth_error calculated 0) ;;
  c2 <- unwrap (nth_error calculated 1) ;;
  c3 <- unwrap (nth_error calculated 2) ;;
  let calculated_bit3 := funty_as_u8 c3 in
  let calculated_p1p2dec := integer_from_two_bits (funty_as_u8 c1) (funty_as_u8 c2) in
  let a := if calculated_p1p2dec =? (given_p1p2dec - 1) mod 4 then 0
           else if calculated_p1p2dec =? (given_p1p2dec + 1) mod 4 then 1
           else 2 in
  Ok (if (a =? 0) && (given_bit3 =? 0) then f_add O noised_feature step
      else if (a =? 0) && (given_bit3 =? 1) && (calculated_bit3 =? 1) then f_add O noised_feature step
      else if (a =? 1) && (given_bit3 =? 1) then f_sub O noised_feature step
      else if (a =? 1) && (given_bit3 =? 0) && (calculated_bit3 =? 0) then f_sub O noised_feature step
      else noised_feature).

(** lib/sia/rust/three-bit-quantization/src/lib.rs:101-171 *)
Definition three_bit_dequantization (checks : bool) (noised_features : list F)
    (given_perturbation_vector : list bool) (step : F) : outcome (list Z) :=
  '(_, calculated_perturbation_vector) <- three_bit_quantization checks noised_features step ;;
  let calculated_chunks := chunks 3 calculated_perturbation_vector in
  let given_chunks := chunks 3 given_perturbation_vector in
  restored <- mapM (fun p => dequantize1 step noised_features calculated_chunks (fst p) (snd p))
                   (combine (seq 0 (length given_chunks)) given_chunks) ;;
  Ok (quantize restored step).

End Quant.
