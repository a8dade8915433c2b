(** Model of lib/sia/rust/zernike/src/{lib,calc,constants}.rs over any arithmetic: the binary64 reading of the feature extractor.

    Zernike.v models the same code over exact reals; the theorem [gen_real] (ZernikeGenProofs.v) shows that the definitions below,
    read over exact reals, are those of Zernike.v.  Here every f64 operation is kept in the order in which the code performs it.
    The library functions powf, sqrt, atan2, exp, cos, sin and hypot, whose f64 results Rust does not specify, are the fields of
    the record [libm]; theorems either hold for every such record or state the accuracy they need. *)
From Coq Require Import Reals.
From Flocq Require Import Core BinarySingleNaN.
From Verif Require Import Outcome Floats Matrix Zernike.
Open Scope Z_scope.

Record libm (F : Type) : Type := mkLibm {
  l_pi : F;                      (* std::f64::consts::PI *)
  l_powf : F -> F -> F;          (* f64::powf *)
  l_sqrt : F -> F;               (* f64::sqrt *)
  l_atan2 : F -> F -> F;         (* f64::atan2, self = y *)
  l_exp : F -> F;                (* f64::exp *)
  l_cos : F -> F;                (* f64::cos *)
  l_sin : F -> F;                (* f64::sin *)
  l_hypot : F -> F -> F          (* f64::hypot *)
}.
Arguments l_pi {F}. Arguments l_powf {F}. Arguments l_sqrt {F}. Arguments l_atan2 {F}. Arguments l_exp {F}.
Arguments l_cos {F}. Arguments l_sin {F}. Arguments l_hypot {F}.

Section Gen.
Context {F : Type} (O : FOps F) (M : libm F) (gamma : F -> F).

(** `x == y` (false if unordered) *)
Definition f_eq (x y : F) : bool := f_ge O x y && f_ge O y x.

(** num::Complex<f64>: real and imaginary part.  Operations of num-complex 0.4, impl of Mul<f64>, Mul<Complex<f64>> for f64,
    Div<f64>, Add, conj, exp (through from_polar), norm. *)
Definition cx : Type := (F * F)%type.
Definition cx_mulr (z : cx) (x : F) : cx := (f_mul O (fst z) x, f_mul O (snd z) x).
Definition cx_scale (x : F) (z : cx) : cx := (f_mul O x (fst z), f_mul O x (snd z)).
Definition cx_divr (z : cx) (x : F) : cx := (f_div O (fst z) x, f_div O (snd z) x).
Definition cx_add (z w : cx) : cx := (f_add O (fst z) (fst w), f_add O (snd z) (snd w)).
Definition cx_conj (z : cx) : cx := (fst z, f_neg O (snd z)).
Definition cx_exp (z : cx) : cx :=
  let r := l_exp M (fst z) in (f_mul O r (l_cos M (snd z)), f_mul O r (l_sin M (snd z))).
Definition cx_abs (z : cx) : F := l_hypot M (fst z) (snd z).

(** lib/sia/rust/utils/src/math.rs:3-11.  A call that returns needs at most |num| + 2 levels (ZernikeGenProofs.v for binary64). *)
Definition g_factorial (num : F) : outcome F :=
  match factorial_fuel O gamma (Z.to_nat (Z.abs (f_cast O (- 2 ^ 1100) (2 ^ 1100) num)) + 2) num with
  | Some v => Ok v
  | None => Panic StackOverflow
  end.

(** lib/sia/rust/zernike/src/calc.rs:33-46 (isize arithmetic on the exponent cannot overflow for orders below 2^62) *)
Definition g_f (order index : Z) (s r : F) : outcome F :=
  let term :=
    if f_eq r (f_of_Z O 0) && f_eq (f_sub O (f_of_Z O order) (f_mul O (f_of_Z O 2) s)) (f_of_Z O 0) then f_of_Z O 1
    else l_powf M r (f_of_Z O (order - 2 * f_to_i64 O s)) in
  numerator <- g_factorial (f_sub O (f_of_Z O order) s) ;;
  denominator_1 <- g_factorial s ;;
  denominator_2 <- g_factorial (f_sub O (f_div O (f_add O (f_of_Z O order) (f_of_Z O index)) (f_of_Z O 2)) s) ;;
  denominator_3 <- g_factorial (f_sub O (f_div O (f_sub O (f_of_Z O order) (f_of_Z O index)) (f_of_Z O 2)) s) ;;
  Ok (f_mul O (f_div O numerator (f_mul O (f_mul O denominator_1 denominator_2) denominator_3)) term).

(** lib/sia/rust/zernike/src/calc.rs:48-53 *)
Definition g_radial (order index : nat) (r : F) : outcome F :=
  let end_ := Z.to_nat (f_to_usize O (f_floor O (f_div O (f_sub O (f_of_Z O (Z.of_nat order)) (f_of_Z O (Z.of_nat index))) (f_of_Z O 2)))) in
  foldM (fun accumulator s =>
           x <- g_f (Z.of_nat order) (Z.of_nat index) (f_of_Z O (Z.of_nat s)) r ;;
           Ok (f_add O accumulator (f_mul O (l_powf M (f_of_Z O (-1)) (f_of_Z O (Z.of_nat s))) x)))
        (seq 0 (S end_)) (f_of_Z O 0).

(** lib/sia/rust/zernike/src/calc.rs:55-57, constants.rs:6 *)
Definition g_I : cx := (f_of_Z O 0, f_of_Z O 1).
Definition g_v (order index : nat) (r theta : F) : outcome cx :=
  rad <- g_radial order index r ;;
  Ok (cx_scale rad (cx_exp (cx_mulr (cx_mulr g_I (f_of_Z O (Z.of_nat index))) theta))).

(** lib/sia/rust/zernike/src/calc.rs:59-67 *)
Definition g_coordinate (x : F) (dimension : nat) : F :=
  f_div O (f_mul O (f_sqrt1_2 O) (f_sub O (f_add O (f_of_Z O 1) (f_of_Z O (Z.of_nat dimension))) (f_mul O (f_of_Z O 2) x)))
          (f_sub O (f_of_Z O 1) (f_of_Z O (Z.of_nat dimension))).
Definition g_to_polar (x y : F) (dimension : nat) : F * F :=
  let xc := g_coordinate x dimension in
  let yc := g_coordinate y dimension in
  if f_eq xc (f_of_Z O 0) && f_eq yc (f_of_Z O 0) then (f_of_Z O 0, f_of_Z O 0)
  else (l_sqrt M (f_add O (l_powf M xc (f_of_Z O 2)) (l_powf M yc (f_of_Z O 2))), l_atan2 M yc xc).

(** lib/sia/rust/zernike/src/calc.rs:69-82 *)
Definition g_element (order index dimension i : nat) : outcome cx :=
  let y := f_of_Z O (Z.of_nat (Nat.modulo i dimension + 1)) in
  let x := f_add O (f_floor O (f_div O (f_of_Z O (Z.of_nat i)) (f_of_Z O (Z.of_nat dimension)))) (f_of_Z O 1) in
  let '(radius, angle) := g_to_polar x y dimension in
  z <- g_v order index radius angle ;;
  Ok (cx_conj z).
Definition g_matrix (order index dimension : nat) : outcome (list cx) :=
  mapM (g_element order index dimension) (seq 0 (dimension * dimension)).

(** lib/sia/rust/zernike/src/calc.rs:8-31 *)
Definition g_moment (order index : nat) (image : array2 Z) : outcome cx :=
  let width := dim0 image in
  let height := dim1 image in
  matrix <- g_matrix order index width ;;
  integral <- foldM (fun accumulator p =>
                 zernike_multiplier <- unwrap (nth_error matrix (fst p)) ;;
                 Ok (cx_add accumulator (cx_mulr zernike_multiplier (f_of_Z O (snd p)))))
               (combine (seq 0 (length (into_raw_vec image))) (into_raw_vec image)) (f_of_Z O 0, f_of_Z O 0) ;;
  let multiplier := f_div O (f_add O (f_of_Z O (Z.of_nat order)) (f_of_Z O 1)) (l_pi M) in
  let pixels_amount := f_of_Z O (Z.of_nat (width * height)) in
  Ok (cx_divr (cx_scale multiplier integral) pixels_amount).

(** lib/sia/rust/zernike/src/lib.rs:13-28 (get_order_by_features_amount and the indices: see Zernike.v) *)
Definition g_zernike_features (checks : bool) (image : array2 Z) (features_amount : nat) : outcome (list F) :=
  order <- get_order_by_features_amount checks features_amount ;;
  mapM (fun index => m <- g_moment order index image ;; Ok (cx_abs m)) (moments_indices order).

(** lib/sia/rust/image-features/src/lib.rs:9-28 *)
Definition g_calculate_features (checks : bool) (image : array2 Z) (t : features_type) (features_amount : nat)
  : outcome (list F) :=
  match t with
  | MomentsZernike => g_zernike_features checks image features_amount
  | MomentsPseudoZernike => Ok []
  | CentralFiniteDifferences => Ok []
  end.
End Gen.

(** ** The two readings of the library functions *)
(** Exact reals.  powf is only used with integral exponents. *)
Definition Rlibm : libm R := {|
  l_pi := PI;
  l_powf := fun x y => powerRZ x (Zfloor y);
  l_sqrt := sqrt;
  l_atan2 := atan2;
  l_exp := exp;
  l_cos := cos;
  l_sin := sin;
  l_hypot := fun x y => sqrt (x ^ 2 + y ^ 2)%R
|}.

(** std::f64::consts::PI = 0x400921FB54442D18 = 0x1921FB54442D18 * 2^-51 *)
Definition b_pi : b64 := b_dyadic 7074237752028440 (-51).
