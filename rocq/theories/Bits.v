(** Bytes, bits (bitvec's Lsb0 order) and [slice::chunks]: vocabulary shared by the codec models.
    Bytes and integers are [Z]; being in range is the predicate [byte]. *)
From Verif Require Import Outcome.
Open Scope Z_scope.

(** Values of u8, and of Vec<u8>. *)
Definition byte (b : Z) : Prop := 0 <= b < 256.
Definition bytes (l : list Z) : Prop := Forall byte l.

(** Bits of a byte, least significant first (bitvec `BitVec<u8, Lsb0>`). *)
Definition byte_bits (b : Z) : list bool :=
  [Z.testbit b 0; Z.testbit b 1; Z.testbit b 2; Z.testbit b 3;
   Z.testbit b 4; Z.testbit b 5; Z.testbit b 6; Z.testbit b 7].

(** `BitVec::<u8, Lsb0>::from_vec(bytes)`. *)
Definition bits_of_bytes (l : list Z) : list bool := flat_map byte_bits l.

(** Integer with the given bits, least significant first. *)
Fixpoint bits_value (l : list bool) : Z :=
  match l with [] => 0 | b :: t => Z.b2z b + 2 * bits_value t end.

(** `slice::chunks(n)`, n > 0: consecutive pieces of n elements, the last one possibly shorter. *)
Fixpoint chunks_fuel {A} (fuel n : nat) (l : list A) : list (list A) :=
  match fuel, l with
  | O, _ => []
  | _, [] => []
  | S f, _ => firstn n l :: chunks_fuel f n (skipn n l)
  end.
(** `slice::chunks(n)` with enough fuel for every list. *)
Definition chunks {A} (n : nat) (l : list A) : list (list A) := chunks_fuel (length l) n l.

(** `BitVec::<u8, Lsb0>::as_raw_slice` / `into_vec`: 8 bits per byte; [pad] are the contents of the dead bits
    of the last byte (bitvec leaves them unspecified; they are zero for vectors built by push/collect/resize). *)
Definition raw_bytes (pad : list bool) (bits : list bool) : list Z :=
  map (fun c => bits_value (c ++ firstn (8 - length c) pad)) (chunks 8 bits).

(** Dead bits that are zero (see [raw_bytes]). *)
Definition zero_pad : list bool := repeat false 8.
