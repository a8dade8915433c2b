(** Model of lib/sia/rust/utils/src/bytes.rs, lib/sia/rust/utils/src/format.rs, of the UTF-8 codec of Rust strings,
    of lib/sia/rust/watermarking/src/watermark.rs and of lib/sia/rust/embedding/src/io/data.rs. *)
From Verif Require Import Outcome Bits IndexArith Quantization.
Open Scope Z_scope.

(** `&v[a..b]` *)
Definition slice {A} (l : list A) (a b : nat) : outcome (list A) :=
  if Nat.leb a b && Nat.leb b (length l) then Ok (firstn (b - a) (skipn a l)) else Panic SliceRange.

(** ** Integers and bytes: lib/sia/rust/utils/src/bytes.rs *)

(** [n] little-endian bytes of a non-negative integer. *)
Fixpoint le_bytes (n : nat) (u : Z) : list Z :=
  match n with O => [] | S k => u mod 256 :: le_bytes k (u / 256) end.
(** The non-negative integer with these little-endian bytes (`from_le_bytes`, lib/sia/rust/utils/src/bytes.rs). *)
Fixpoint le_value (l : list Z) : Z :=
  match l with [] => 0 | b :: t => b + 256 * le_value t end.

(** `u16::to_le_bytes` / `u16::from_le_bytes`, `i64::to_le_bytes` / `i64::from_le_bytes` (two's complement). *)
Definition u16_to_le (x : Z) : list Z := le_bytes 2 (x mod 2 ^ 16).
Definition u16_from_le (l : list Z) : Z := le_value l.
Definition i64_to_le (x : Z) : list Z := le_bytes 8 (x mod 2 ^ 64).
Definition i64_from_le (l : list Z) : Z :=
  let u := le_value l in if u <? 2 ^ 63 then u else u - 2 ^ 64.

(** lib/sia/rust/utils/src/bytes.rs:1-9 *)
Definition vec_u16_to_bytes (integers : list Z) : list Z := flat_map u16_to_le integers.
(** lib/sia/rust/utils/src/bytes.rs:11-18: `chunk.try_into().unwrap()` panics on a chunk of the wrong length *)
Definition vec_u16_from_bytes (bytes : list Z) : outcome (list Z) :=
  mapM (fun c => if Nat.eqb (length c) 2 then Ok (u16_from_le c) else Panic UnwrapErr) (chunks 2 bytes).
(** lib/sia/rust/utils/src/bytes.rs:20-28 *)
Definition vec_i64_to_bytes (integers : list Z) : list Z := flat_map i64_to_le integers.
(** lib/sia/rust/utils/src/bytes.rs:30-37 *)
Definition vec_i64_from_bytes (bytes : list Z) : outcome (list Z) :=
  mapM (fun c => if Nat.eqb (length c) 8 then Ok (i64_from_le c) else Panic UnwrapErr) (chunks 8 bytes).

(** ** Hexadecimal: lib/sia/rust/utils/src/format.rs.  A `&str` is the list of its UTF-8 bytes. *)

(** `char::to_digit(16)` on an ASCII byte *)
Definition hex_digit (c : Z) : option Z :=
  if (48 <=? c) && (c <=? 57) then Some (c - 48)
  else if (97 <=? c) && (c <=? 102) then Some (c - 87)
  else if (65 <=? c) && (c <=? 70) then Some (c - 55)
  else None.

(** `u8::from_str_radix(two_byte_str, 16)`: an optional leading '+' (byte 43), then digits.  A lone sign cannot
    occur here (the string has two bytes); two hexadecimal digits cannot overflow a u8. *)
Definition u8_from_hex2 (c1 c2 : Z) : option Z :=
  if c1 =? 43 then hex_digit c2
  else match hex_digit c1, hex_digit c2 with
       | Some h, Some l => Some (16 * h + l)
       | _, _ => None
       end.

(** UTF-8 continuation byte: an index in front of one is not a char boundary. *)
Definition is_cont (b : Z) : bool := (128 <=? b) && (b <? 192).

(** lib/sia/rust/utils/src/format.rs:3-8.  `&s[i..i+2]` panics past the end or off a char boundary; `collect` into a Result stops at
    the first Err.  [Ok None] is `Err(ParseIntError)`. *)
Fixpoint decode_hex (s : list Z) : outcome (option (list Z)) :=
  match s with
  | [] => Ok (Some [])
  | [_] => Panic SliceRange
  | c1 :: c2 :: rest =>
      if is_cont c1 then Panic SliceRange
      else if (match rest with c3 :: _ => is_cont c3 | [] => false end) then Panic SliceRange
      else match u8_from_hex2 c1 c2 with
           | None => Ok None
           | Some b => r <- decode_hex rest ;; Ok (option_map (cons b) r)
           end
  end.

(** One lower-case hex digit as printed by `{:02x}`. *)
Definition hex_char (d : Z) : Z := if d <? 10 then 48 + d else 87 + d.
(** lib/sia/rust/utils/src/format.rs:10-16 *)
Definition encode_hex (bytes : list Z) : list Z := flat_map (fun b => [hex_char (b / 16); hex_char (b mod 16)]) bytes.

(** ** UTF-8.  A Rust `String` is a sequence of Unicode scalar values; `as_bytes` is its UTF-8 encoding and
    `String::from_utf8` succeeds exactly on UTF-8 encodings (Unicode 15, Table 3-7). *)
Definition scalar (c : Z) : Prop := 0 <= c < 55296 \/ 57344 <= c < 1114112.

(** UTF-8 of one scalar value; `str::as_bytes` (lib/sia/rust/watermarking/src/watermark.rs, serialisation of the text). *)
Definition utf8_encode1 (c : Z) : list Z :=
  if c <? 128 then [c]
  else if c <? 2048 then [192 + c / 64; 128 + c mod 64]
  else if c <? 65536 then [224 + c / 4096; 128 + c / 64 mod 64; 128 + c mod 64]
  else [240 + c / 262144; 128 + c / 4096 mod 64; 128 + c / 64 mod 64; 128 + c mod 64].
Definition string_as_bytes (s : list Z) : list Z := flat_map utf8_encode1 s.

(** One step of the validating decoder: first code point and the number of bytes it takes. *)
Definition utf8_decode1 (l : list Z) : option (Z * nat) :=
  match l with
  | [] => None
  | a :: t =>
    if a <? 128 then Some (a, 1%nat)
    else if (194 <=? a) && (a <=? 223) then
      match t with
      | b :: _ => if is_cont b then Some ((a - 192) * 64 + (b - 128), 2%nat) else None
      | _ => None
      end
    else if (224 <=? a) && (a <=? 239) then
      match t with
      | b :: c :: _ =>
        if ((if a =? 224 then (160 <=? b) && (b <=? 191)
             else if a =? 237 then (128 <=? b) && (b <=? 159)
             else is_cont b) && is_cont c)
        then Some ((a - 224) * 4096 + (b - 128) * 64 + (c - 128), 3%nat) else None
      | _ => None
      end
    else if (240 <=? a) && (a <=? 244) then
      match t with
      | b :: c :: d :: _ =>
        if ((if a =? 240 then (144 <=? b) && (b <=? 191)
             else if a =? 244 then (128 <=? b) && (b <=? 143)
             else is_cont b) && is_cont c && is_cont d)
        then Some ((a - 240) * 262144 + (b - 128) * 4096 + (c - 128) * 64 + (d - 128), 4%nat) else None
      | _ => None
      end
    else None
  end.
(** `String::from_utf8` (lib/sia/rust/watermarking/src/watermark.rs, parsing of the text), with fuel and with enough fuel. *)
Fixpoint utf8_decode_fuel (fuel : nat) (l : list Z) : option (list Z) :=
  match l, fuel with
  | [], _ => Some []
  | _, O => None
  | _, S f =>
    match utf8_decode1 l with
    | None => None
    | Some (c, n) => option_map (cons c) (utf8_decode_fuel f (skipn n l))
    end
  end.
Definition string_from_utf8 (l : list Z) : option (list Z) := utf8_decode_fuel (length l) l.

(** ** Watermark record: lib/sia/rust/watermarking/src/watermark.rs:5-19 (text as scalar values) *)
Record Watermark := mkWatermark {
  perturbation_vector : list bool;
  signature : list Z;
  text : list Z
}.

(** lib/sia/rust/watermarking/src/watermark.rs:21-50.  [pad]: see [perturbation_vector_as_bytes]. *)
Definition watermark_serialize (pad : list bool) (w : Watermark) : outcome (list Z) :=
  let p_length := length (perturbation_vector w) in
  if Nat.ltb 255 p_length then Panic TooLong else
  let s_length := length (signature w) in
  if Nat.ltb 255 s_length then Panic TooLong else
  let text_bytes := string_as_bytes (text w) in
  let t_length := length text_bytes in
  if Nat.ltb 255 t_length then Panic TooLong else
  perturbation_vector_bytes <- perturbation_vector_as_bytes pad (perturbation_vector w) ;;
  Ok ([Z.of_nat p_length mod 256] ++ [Z.of_nat s_length mod 256] ++ [Z.of_nat t_length mod 256]
      ++ perturbation_vector_bytes ++ signature w ++ text_bytes).

(** lib/sia/rust/watermarking/src/watermark.rs:53-82 *)
Definition watermark_deserialize (bytes : list Z) : outcome Watermark :=
  if Nat.ltb (length bytes) 3 then Panic TooShort else
  p0 <- unwrap (nth_error bytes 0) ;;
  s0 <- unwrap (nth_error bytes 1) ;;
  t0 <- unwrap (nth_error bytes 2) ;;
  let perturbation_vector_length := Z.to_nat p0 in
  let signature_length := Z.to_nat s0 in
  let text_length := Z.to_nat t0 in
  let p_start := 3%nat in
  let p_end := (p_start + f64_ceil_div perturbation_vector_length 8)%nat in
  let s_start := p_end in
  let s_end := (s_start + signature_length)%nat in
  let t_start := s_end in
  let t_end := (t_start + text_length)%nat in
  pb <- slice bytes p_start p_end ;;
  let p := perturbation_vector_from_bytes pb perturbation_vector_length in
  s <- slice bytes s_start s_end ;;
  tb <- slice bytes t_start t_end ;;
  match string_from_utf8 tb with
  | None => Panic Utf8Error
  | Some t => Ok (mkWatermark p s t)
  end.

(** ** Payload frame: lib/sia/rust/embedding/src/io/data.rs *)
(** lib/sia/rust/embedding/src/io/data.rs:14-26 *)
Definition data_serialize (payload : list Z) : outcome (list Z) :=
  let data_length := Z.of_nat (length payload) in
  if 65535 <? data_length then Panic TooLong else
  let data_length_bytes := vec_u16_to_bytes [data_length mod 65536] in
  Ok (data_length_bytes ++ payload).

(** lib/sia/rust/embedding/src/io/data.rs:29-50 *)
Definition data_deserialize (bytes : list Z) : outcome (list Z) :=
  if Nat.ltb (length bytes) 3 then Panic TooShort else
  data_length_bytes <- slice bytes 0 2 ;;
  ints <- vec_u16_from_bytes data_length_bytes ;;
  data_length <- unwrap (nth_error ints 0) ;;
  let data_start := 2%nat in
  let data_end := (data_start + Z.to_nat data_length)%nat in
  slice bytes data_start data_end.
