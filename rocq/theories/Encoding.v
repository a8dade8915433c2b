(** Model of lib/sia/rust/encoding/src/lib.rs. *)
From Verif Require Import Outcome Bits Codecs.
Open Scope Z_scope.

(** labrador_ldpc::LDPCCode, the variants used.  Code parameters are those of the crate (CCSDS TC/TM codes). *)
Inductive code := TC128 | TC256 | TC512 | TM2048 | TM8192.
(** `code.n() / 8` and `code.k() / 8`: codeword and message length in bytes *)
Definition n_bytes (c : code) : nat :=
  match c with TC128 => 16 | TC256 => 32 | TC512 => 64 | TM2048 => 256 | TM8192 => 1024 end.
(** `code.k() / 8` *)
Definition k_bytes (c : code) : nat :=
  match c with TC128 => 8 | TC256 => 16 | TC512 => 32 | TM2048 => 128 | TM8192 => 512 end.

(** The third-party LDPC coder: [copy_encode] returns the codeword for k/8 message bytes; [decode_bf] returns the
    contents of `rx_data` (output_len bytes) for n/8 received bytes (20 iterations).  Oracle. *)
Record ldpc := mkLdpc {
  ldpc_copy_encode : code -> list Z -> list Z;
  ldpc_decode_bf : code -> list Z -> list Z
}.

(** lib/sia/rust/encoding/src/lib.rs:8-10 *)
Definition bytes_to_u16 (byte1 byte2 : Z) : Z := Z.lor (Z.shiftl byte1 8 mod 65536) byte2.
(** lib/sia/rust/encoding/src/lib.rs:12-16 *)
Definition u16_to_bytes (number : Z) : Z * Z :=
  let second := Z.land (Z.shiftr number 8) 255 in
  let first := Z.land number 255 in
  (second, first).

(** lib/sia/rust/encoding/src/lib.rs:18-27.  `codeword_length * 8` is assumed not to overflow a usize. *)
Definition get_code_by_codeword_length (codeword_length : nat) : option code :=
  let bits := Z.of_nat codeword_length * 8 in
  if bits =? 128 then Some TC128
  else if bits =? 256 then Some TC256
  else if (bits =? 512) || (bits =? 1024) then Some TC512
  else if (bits =? 2048) || (bits =? 4096) then Some TM2048
  else if 8192 <=? bits then Some TM8192
  else None.

(** lib/sia/rust/encoding/src/lib.rs:29-38 *)
Definition get_code_for_encode (length : nat) : option code :=
  let l := Z.of_nat length in
  if (9 <=? l) && (l <=? 64) then Some TC128
  else if (65 <=? l) && (l <=? 128) then Some TC256
  else if (129 <=? l) && (l <=? 256) then Some TC512
  else if (257 <=? l) && (l <=? 1024) then Some TM2048
  else if 1025 <=? l then Some TM8192
  else None.

(** lib/sia/rust/encoding/src/lib.rs:98-102: `BitVec::resize(length, false)` *)
Definition pad_bits (input : list bool) (length' : nat) : list bool :=
  firstn length' input ++ repeat false (length' - length input).

Section WithLdpc.
Context (L : ldpc).

(** Body of the loop, lib/sia/rust/encoding/src/lib.rs:76-90.  copy_encode asserts data.len() == k/8; the n/8 byte output buffer is
    allocated by the caller. *)
Definition encode_word (c : code) (word : list Z) : outcome (list Z) :=
  let word_bits := pad_bits (bits_of_bytes word) (8 * k_bytes c) in
  let padded_word_bytes := raw_bytes zero_pad word_bits in
  if Nat.eqb (length padded_word_bytes) (k_bytes c)
  then Ok (ldpc_copy_encode L c padded_word_bytes)
  else Panic LenMismatch.

(** lib/sia/rust/encoding/src/lib.rs:51-96.  `input.len() as u16` truncates. *)
Definition encode (input : list Z) (codeword_length : nat) : outcome (list Z) :=
  let bytes_length := Z.of_nat (length input) mod 65536 in
  let '(length_byte1, length_byte2) := u16_to_bytes bytes_length in
  let bytes := [length_byte1; length_byte2] ++ input in
  match get_code_by_codeword_length codeword_length with
  | None => Ok bytes
  | Some c =>
      let words := chunks (k_bytes c) bytes in
      encoded <- mapM (encode_word c) words ;;
      Ok (concat encoded)
  end.

(** Body of the loop, lib/sia/rust/encoding/src/lib.rs:120-130.  decode_bf asserts input.len() == n/8. *)
Definition decode_word (c : code) (code_word : list Z) : outcome (list Z) :=
  if Nat.eqb (length code_word) (n_bytes c)
  then slice (ldpc_decode_bf L c code_word) 0 (k_bytes c)
  else Panic LenMismatch.

(** lib/sia/rust/encoding/src/lib.rs:104-144 *)
Definition decode (bytes : list Z) (codeword_length : nat) : outcome (list Z) :=
  match get_code_by_codeword_length codeword_length with
  | None => Ok bytes
  | Some c =>
      let code_words := chunks (n_bytes c) bytes in
      decoded <- mapM (decode_word c) code_words ;;
      let decoded_bytes := concat decoded in
      match decoded_bytes with
      | b0 :: b1 :: _ =>
          let bytes_length := Z.to_nat (bytes_to_u16 b0 b1) in
          slice decoded_bytes 2 (bytes_length + 2)
      | _ => Panic SliceRange
      end
  end.
End WithLdpc.
