(** Model of lib/sia/rust/embedding/src/lib.rs. *)
From Verif Require Import Outcome Floats Bits Codecs Encoding Matrix Haar Stego.
Open Scope nat_scope.

(** lib/sia/rust/embedding/src/lib.rs:11-20 *)
Definition get_domain_capacity (domain_width domain_height : nat) : outcome nat :=
  let capacity := get_capacity domain_width domain_height in
  match get_code_for_encode capacity with
  | None => Panic MinCapacity
  | Some _ => Ok capacity
  end.

(** `x / ((2 as i32).pow(dwt_levels as u32) as usize)`, lib/sia/rust/embedding/src/lib.rs:35-36, 65-66 *)
Definition ll_side (x dwt_levels : nat) : outcome nat :=
  if Nat.leb 31 dwt_levels then Panic ArithOverflow else Ok (Nat.div x (2 ^ dwt_levels)).

Section Embed.
Context {F : Type} (O : FOps F) (L : ldpc).

(** lib/sia/rust/embedding/src/lib.rs:22-55 *)
Definition embed (image_matrix : array2 Z) (bytes : list Z) (depth : F) (dwt_levels : nat)
  : outcome (array2 Z) :=
  let width := dim0 image_matrix in
  let height := dim1 image_matrix in
  let input_float_matrix := mapv (f_of_Z O) image_matrix in
  dwt_coefficients <- dwt_2d O input_float_matrix dwt_levels false ;;
  ll3_width <- ll_side width dwt_levels ;;
  ll3_height <- ll_side height dwt_levels ;;
  domain_capacity <- get_domain_capacity ll3_width ll3_height ;;
  serialized_data <- data_serialize bytes ;;
  encoded <- encode L serialized_data domain_capacity ;;
  dwt_coefficients' <- write O dwt_coefficients ll3_width ll3_height encoded depth ;;
  restored <- dwt_2d O dwt_coefficients' dwt_levels true ;;
  Ok (mapv (fun elem => f_to_u8 O (f_round O elem)) restored).

(** lib/sia/rust/embedding/src/lib.rs:57-82 *)
Definition extract (image_matrix : array2 Z) (depth : F) (dwt_levels : nat) : outcome (list Z) :=
  let width := dim0 image_matrix in
  let height := dim1 image_matrix in
  let input_float_matrix := mapv (f_of_Z O) image_matrix in
  dwt_coefficients <- dwt_2d O input_float_matrix dwt_levels false ;;
  ll3_width <- ll_side width dwt_levels ;;
  ll3_height <- ll_side height dwt_levels ;;
  extracted <- read O dwt_coefficients ll3_width ll3_height depth ;;
  domain_capacity <- get_domain_capacity ll3_width ll3_height ;;
  decoded <- decode L extracted domain_capacity ;;
  data_deserialize decoded.
End Embed.
