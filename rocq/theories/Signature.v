(** Model of lib/sia/rust/signature/src/{lib,ecdsa,keypair}.rs over an Ed25519 oracle. *)
From Verif Require Import Outcome Bits Codecs.
Open Scope Z_scope.

(** ed25519 / ed25519-dalek: key and signature parsing (None = Err), signing, verification.  Oracle. *)
Record ed25519 := mkEd {
  keypair : Type;
  pubkey : Type;
  ed_signature : Type;
  keypair_from_bytes : list Z -> option keypair;      (* Keypair::from_bytes *)
  pubkey_from_bytes : list Z -> option pubkey;        (* PublicKey::from_bytes *)
  signature_from_bytes : list Z -> option ed_signature; (* Signature::from_bytes *)
  signature_to_bytes : ed_signature -> list Z;        (* Signature::to_bytes, 64 bytes *)
  ed_sign : keypair -> list Z -> ed_signature;        (* Signer::sign *)
  ed_verify : pubkey -> list Z -> ed_signature -> bool (* Verifier::verify(..).is_ok() *)
}.

(** `decode_hex(..).unwrap()` *)
Definition decode_hex_unwrap (s : list Z) : outcome (list Z) :=
  r <- decode_hex s ;; match r with Some b => Ok b | None => Panic UnwrapErr end.
(** `Result::unwrap` (lib/sia/rust/signature/src/lib.rs). *)
Definition unwrap_err {A} (x : option A) : outcome A :=
  match x with Some a => Ok a | None => Panic UnwrapErr end.

Section WithEd.
Context (E : ed25519).

(** lib/sia/rust/signature/src/lib.rs:14-27, ecdsa.rs:14-16 *)
Definition sign (data private_key public_key : list Z) : outcome (list Z) :=
  private_key_bytes <- decode_hex_unwrap private_key ;;
  public_key_bytes <- decode_hex_unwrap public_key ;;
  let key_pair_bytes := private_key_bytes ++ public_key_bytes in
  key_pair <- unwrap_err (keypair_from_bytes E key_pair_bytes) ;;
  Ok (signature_to_bytes E (ed_sign E key_pair data)).

(** lib/sia/rust/signature/src/lib.rs:29-39, ecdsa.rs:27-33 *)
Definition verify (data signature public_key : list Z) : outcome bool :=
  public_key_bytes <- decode_hex_unwrap public_key ;;
  verify_key <- unwrap_err (pubkey_from_bytes E public_key_bytes) ;;
  sig <- unwrap_err (signature_from_bytes E signature) ;;
  Ok (ed_verify E verify_key data sig).

(** lib/sia/rust/signature/src/keypair.rs:7-13, given the 32-byte halves of the generated key pair *)
Definition generate (secret_bytes public_bytes : list Z) : list Z * list Z :=
  (encode_hex secret_bytes, encode_hex public_bytes).
End WithEd.
