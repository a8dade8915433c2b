(** Model of lib/sia/rust/embedding/src/io/steganography.rs and lib/sia/rust/embedding/src/io/mod.rs.
    The domain is the top-left view of shape (w, h) = `domain.dim()` of the coefficient matrix. *)
From Verif Require Import Outcome Floats Bits IndexArith Matrix.
Open Scope nat_scope.

(** lib/sia/rust/embedding/src/io/steganography.rs:18-20 *)
Definition get_capacity (width height : nat) : nat := f64_floor_div (width * height) 8.

(** lib/sia/rust/embedding/src/io/steganography.rs:22-26.  `offset % width` panics for width = 0 (then no bit is ever written or
    read, since the capacity is 0). *)
Definition get_column_and_row (offset width height : nat) : nat * nat :=
  (offset mod width, f64_floor_div offset height).

Section Stego.
Context {F : Type} (O : FOps F).

(** The new coefficient value, lib/sia/rust/embedding/src/io/steganography.rs:59, 66-67. *)
Definition mark (depth : F) (bit : bool) (coefficient : F) : F :=
  let reminder := if bit then f_dyadic O 1 (-2) else f_dyadic O (-1) (-2) in
  f_mul O depth (f_add O (f_round O (f_div O coefficient depth)) reminder).

(** WatermarkToDwtCoefficientsWriter: the coefficient matrix and the offset. *)
Definition writer : Type := array2 F * nat.

(** lib/sia/rust/embedding/src/io/steganography.rs:58-79 *)
Definition write_bit (w h : nat) (depth : F) (st : writer) (bit : bool) : outcome writer :=
  let '(m, offset) := st in
  let '(column, row) := get_column_and_row offset w h in
  coefficient <- unwrap (view_get m w h row column) ;;
  Ok (set_cell m row column (mark depth bit coefficient), S offset).

(** lib/sia/rust/embedding/src/io/steganography.rs:37-51 (with the fresh writer of io/mod.rs:10-18; `close` does nothing) *)
Definition write (m : array2 F) (w h : nat) (bytes : list Z) (depth : F) : outcome (array2 F) :=
  if Nat.ltb (get_capacity w h) (length bytes) then Panic NoCapacity else
  st <- foldM (write_bit w h depth) (bits_of_bytes bytes) (m, 0) ;;
  Ok (fst st).

(** The comparison of lib/sia/rust/embedding/src/io/steganography.rs:137-141. *)
Definition bit_of (depth coefficient : F) : bool :=
  f_ge O (f_sub O coefficient (f_mul O depth (f_round O (f_div O coefficient depth)))) (f_of_Z O 0).

(** lib/sia/rust/embedding/src/io/steganography.rs:129-147 *)
Definition read_bit (m : array2 F) (w h : nat) (depth : F) (offset : nat) : outcome bool :=
  let '(column, row) := get_column_and_row offset w h in
  match view_get m w h row column with
  | Some coefficient => Ok (bit_of depth coefficient)
  | None => Panic OutOfBounds
  end.

(** lib/sia/rust/embedding/src/io/steganography.rs:122-127: 8 bits pushed to an Lsb0 vector, first byte of it *)
Definition read_next (m : array2 F) (w h : nat) (depth : F) (offset : nat) : outcome Z :=
  bits <- mapM (read_bit m w h depth) (seq offset 8) ;;
  Ok (bits_value bits mod 256)%Z.

(** lib/sia/rust/embedding/src/io/steganography.rs:107-120 and io/mod.rs:20-23: the offset advances by one per bit *)
Definition read (m : array2 F) (w h : nat) (depth : F) : outcome (list Z) :=
  mapM (fun i => read_next m w h depth (8 * i)) (seq 0 (get_capacity w h)).
End Stego.
