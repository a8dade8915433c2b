(** Model of the writer and reader of lib/sia/rust/embedding/src/io/steganography.rs as objects that keep their offset between
    calls (Stego.v models the one call io/mod.rs makes on a fresh object), including `write_byte_at` and `close`, and of the
    private function `get_code_for_decode` of lib/sia/rust/encoding/src/lib.rs.  Neither `write_byte_at` nor
    `get_code_for_decode` is called anywhere in /repo. *)
From Verif Require Import Outcome Floats Bits IndexArith Matrix Encoding Stego.
Open Scope nat_scope.

Section Objects.
Context {F : Type} (O : FOps F).

(** lib/sia/rust/embedding/src/io/steganography.rs:29-35 *)
Definition writer_new (m : array2 F) : @writer F := (m, 0).

(** lib/sia/rust/embedding/src/io/steganography.rs:37-51 on a writer that may have been used before *)
Definition writer_write (w h : nat) (depth : F) (st : @writer F) (bytes : list Z) : outcome (@writer F) :=
  let capacity := get_capacity w h in
  if Nat.ltb capacity (length bytes) then Panic NoCapacity
  else foldM (write_bit O w h depth) (bits_of_bytes bytes) st.

(** lib/sia/rust/embedding/src/io/steganography.rs:53-56 *)
Definition writer_write_byte_at (w h : nat) (depth : F) (st : @writer F) (byte : Z) (offset : nat) : outcome (@writer F) :=
  writer_write w h depth (fst st, offset) [byte].

(** lib/sia/rust/embedding/src/io/steganography.rs:81-95: the body is commented out *)
Definition writer_close (st : @writer F) : @writer F := st.

(** WatermarkFromDwtCoefficientsReader: the offset; the matrix is only borrowed.
    lib/sia/rust/embedding/src/io/steganography.rs:122-127; each read_bit advances the offset by one *)
Definition reader_read_next (m : array2 F) (w h : nat) (depth : F) (offset : nat) : outcome (Z * nat) :=
  bits <- mapM (read_bit O m w h depth) (seq offset 8) ;;
  Ok ((bits_value bits mod 256)%Z, offset + 8).

(** The loop of lib/sia/rust/embedding/src/io/steganography.rs:111-119, [todo] more bytes *)
Fixpoint reader_loop (m : array2 F) (w h : nat) (depth : F) (todo offset : nat) : outcome (list Z * nat) :=
  match todo with
  | 0 => Ok ([], offset)
  | S k =>
      ' (byte, offset') <- reader_read_next m w h depth offset ;;
      ' (rest, offset'') <- reader_loop m w h depth k offset' ;;
      Ok (byte :: rest, offset'')
  end.

(** lib/sia/rust/embedding/src/io/steganography.rs:107-120 on a reader that may have been used before *)
Definition reader_read (m : array2 F) (w h : nat) (depth : F) (offset : nat) : outcome (list Z * nat) :=
  reader_loop m w h depth (get_capacity w h) offset.
End Objects.

(** lib/sia/rust/encoding/src/lib.rs:40-49 *)
Definition get_code_for_decode (length : nat) : option code :=
  let l := Z.of_nat length in
  if ((128 <=? l) && (l <=? 255))%Z then Some TC128
  else if ((256 <=? l) && (l <=? 511))%Z then Some TC256
  else if ((512 <=? l) && (l <=? 2047))%Z then Some TC512
  else if ((2048 <=? l) && (l <=? 8191))%Z then Some TM2048
  else if (8192 <=? l)%Z then Some TM8192
  else None.
