(** The floating-point operations used by the modelled code, and their two readings.

    /repo computes with Rust [f64].  The model is written once over the record [FOps] of the operations
    that occur in the code, and instantiated with
    - [Bops]: IEEE-754 binary64 (Flocq), round to nearest even, with NaN and infinities: what the code does;
    - [Rops]: exact real arithmetic: the idealised reading. *)
From Coq Require Import ZArith Reals.
From Flocq Require Import Core BinarySingleNaN.
Open Scope Z_scope.

Record FOps (F : Type) : Type := mkFOps {
  f_of_Z : Z -> F;               (* integer `as f64`, integer literals *)
  f_dyadic : Z -> Z -> F;        (* literal m * 2^e: 0.25, 0.5, ... *)
  f_sqrt1_2 : F;                 (* std::f64::consts::FRAC_1_SQRT_2 *)
  f_add : F -> F -> F;
  f_sub : F -> F -> F;
  f_mul : F -> F -> F;
  f_div : F -> F -> F;
  f_neg : F -> F;
  f_floor : F -> F;              (* f64::floor *)
  f_ceil : F -> F;               (* f64::ceil *)
  f_round : F -> F;              (* f64::round: half away from zero *)
  f_ge : F -> F -> bool;         (* x >= y, false if unordered *)
  f_cast : Z -> Z -> F -> Z      (* `as` integer type [lo,hi]: truncation, saturating, NaN -> 0 *)
}.
Arguments f_of_Z {F}. Arguments f_dyadic {F}. Arguments f_sqrt1_2 {F}.
Arguments f_add {F}. Arguments f_sub {F}. Arguments f_mul {F}. Arguments f_div {F}.
Arguments f_neg {F}. Arguments f_floor {F}. Arguments f_ceil {F}. Arguments f_round {F}.
Arguments f_ge {F}. Arguments f_cast {F}.

(** Ranges of the integer types the code converts to: i64 (lib/sia/rust/three-bit-quantization/src/lib.rs:42), usize (line 11; 64-bit target). *)
Definition i64_min : Z := - 2 ^ 63.
Definition i64_max : Z := 2 ^ 63 - 1.
Definition usize_max : Z := 2 ^ 64 - 1.

(** [x as i64], [x as u8], [x as usize] (64-bit target). *)
Definition f_to_i64 {F} (O : FOps F) (x : F) : Z := f_cast O i64_min i64_max x.
Definition f_to_u8 {F} (O : FOps F) (x : F) : Z := f_cast O 0 255 x.
Definition f_to_usize {F} (O : FOps F) (x : F) : Z := f_cast O 0 usize_max x.

(** Saturation into a range, used for the saturating casts above and below. *)
Definition clamp (lo hi n : Z) : Z := Z.max lo (Z.min hi n).

(** ** binary64 *)
Definition prec64 : Z := 53.
Definition emax64 : Z := 1024.
Global Instance prec64_gt_0 : Prec_gt_0 prec64. Proof. reflexivity. Qed.
Global Instance prec64_lt_emax : Prec_lt_emax prec64 emax64. Proof. reflexivity. Qed.
Notation b64 := (binary_float 53 1024).

(** m * 2^e rounded to binary64 (a literal or constant of the code); `n as f64`; `x as <integer>` (e.g. lib/sia/rust/embedding/src/lib.rs:54, lib/sia/rust/three-bit-quantization/src/lib.rs:42). *)
Definition b_dyadic (m e : Z) : b64 := binary_normalize prec64 emax64 _ _ mode_NE m e false.
Definition b_of_Z (n : Z) : b64 := b_dyadic n 0.
Definition b_cast (lo hi : Z) (x : b64) : Z :=
  match x with
  | B754_nan => 0
  | B754_infinity true => lo
  | B754_infinity false => hi
  | _ => clamp lo hi (Btrunc x)
  end.

(** FRAC_1_SQRT_2 = 0x3FE6A09E667F3BCD = 0x16A09E667F3BCD * 2^-53. *)
Definition b_sqrt1_2 : b64 := b_dyadic 6369051672525773 (-53).

(** The operations of f64, IEEE 754 binary64 rounding to nearest even, `round` half away from zero; used wherever /repo computes with f64. *)
Definition Bops : FOps b64 := {|
  f_of_Z := b_of_Z;
  f_dyadic := b_dyadic;
  f_sqrt1_2 := b_sqrt1_2;
  f_add := @Bplus prec64 emax64 _ _ mode_NE;
  f_sub := @Bminus prec64 emax64 _ _ mode_NE;
  f_mul := @Bmult prec64 emax64 _ _ mode_NE;
  f_div := @Bdiv prec64 emax64 _ _ mode_NE;
  f_neg := @Bopp prec64 emax64;
  f_floor := @Bnearbyint prec64 emax64 _ mode_DN;
  f_ceil := @Bnearbyint prec64 emax64 _ mode_UP;
  f_round := @Bnearbyint prec64 emax64 _ mode_NA;
  f_ge := fun x y => @Bleb prec64 emax64 y x;
  f_cast := b_cast
|}.

(** ** exact reals *)
Definition Rops : FOps R := {|
  f_of_Z := IZR;
  f_dyadic := fun m e => (IZR m * bpow radix2 e)%R;
  f_sqrt1_2 := (/ sqrt 2)%R;
  f_add := Rplus;
  f_sub := Rminus;
  f_mul := Rmult;
  f_div := Rdiv;
  f_neg := Ropp;
  f_floor := fun x => IZR (Zfloor x);
  f_ceil := fun x => IZR (Zceil x);
  f_round := fun x => IZR (Znearest (fun n => Z.leb 0 n) x);
  f_ge := fun x y => Rle_bool y x;
  f_cast := fun lo hi x => clamp lo hi (Ztrunc x)
|}.
