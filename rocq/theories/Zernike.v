(** Model of lib/sia/rust/zernike/src/{lib,calc,constants}.rs, lib/sia/rust/utils/src/math.rs,
    lib/sia/rust/moments/src/lib.rs, lib/sia/rust/feature/src/lib.rs and lib/sia/rust/image-features/src/lib.rs.

    [factorial] is written over the abstract operations (real and binary64 reading).  Everything that uses `powf`,
    `atan2`, `exp`, `sqrt` is written over exact reals only (these library functions have no specified f64 result).
    A num::Complex<f64> is Coquelicot's [C] = R * R. *)
From Coq Require Import Reals.
From Flocq Require Import Core.
From Coquelicot Require Import Complex.
From Verif Require Import Outcome Floats Matrix.
Open Scope Z_scope.

Section Factorial.
Context {F : Type} (O : FOps F).
(** puruspe::gamma, oracle; only used for a non-integral argument. *)
Context (gamma : F -> F).
(** `num.fract() != 0.0` (for finite [num]) *)
Definition has_fract (num : F) : bool := negb (f_ge O num (f_floor O num) && f_ge O (f_floor O num) num).
(** lib/sia/rust/utils/src/math.rs:3-11.  [fuel] bounds the depth of the recursion; None = the recursion is deeper. *)
Fixpoint factorial_fuel (fuel : nat) (num : F) : option F :=
  match fuel with
  | 0%nat => None
  | S fuel' =>
      if has_fract num then Some (gamma (f_add O (f_of_Z O 1) num))
      else let n := f_to_i64 O (f_round O num) in
           if (n =? 0) || (n =? 1) then Some (f_of_Z O 1)
           else option_map (fun p => f_mul O p num) (factorial_fuel fuel' (f_sub O num (f_of_Z O 1)))
  end.
End Factorial.

Section Zernike.
Context (gamma : R -> R).
Local Open Scope R_scope.

(** lib/sia/rust/utils/src/math.rs:3-11.  A call that returns needs at most |num| + 2 levels; otherwise it does not return
    (theorem C50) and overflows the stack. *)
Definition factorial (num : R) : outcome R :=
  match factorial_fuel Rops gamma (Z.to_nat (Z.abs (Ztrunc num)) + 2) num with
  | Some v => Ok v
  | None => Panic StackOverflow
  end.

(** `f64::atan2(y, x)`.  (On reals there is one zero; the two zeros of f64 only select between the angles PI and -PI.) *)
Definition atan2 (y x : R) : R :=
  if Rlt_bool 0 x then atan (y / x)
  else if Rlt_bool x 0 then (if Rle_bool 0 y then atan (y / x) + PI else atan (y / x) - PI)
  else if Rlt_bool 0 y then PI / 2
  else if Rlt_bool y 0 then - (PI / 2)
  else 0.

(** lib/sia/rust/zernike/src/calc.rs:33-46.  [s] is the loop counter converted to f64.  `powf` with an integral exponent is
    the integer power ([powerRZ]; a negative exponent cannot occur for the s used by [radial]). *)
Definition f (order index s : nat) (r : R) : outcome R :=
  let term := if Req_bool r 0 && Req_bool (INR order - 2 * INR s) 0 then 1
              else powerRZ r (Z.of_nat order - 2 * Z.of_nat s) in
  numerator <- factorial (INR order - INR s) ;;
  denominator_1 <- factorial (INR s) ;;
  denominator_2 <- factorial ((INR order + INR index) / 2 - INR s) ;;
  denominator_3 <- factorial ((INR order - INR index) / 2 - INR s) ;;
  Ok (numerator / (denominator_1 * denominator_2 * denominator_3) * term).

(** lib/sia/rust/zernike/src/calc.rs:48-53 *)
Definition radial (order index : nat) (r : R) : outcome R :=
  let end_ := Z.to_nat (f_to_usize Rops (f_floor Rops ((INR order - INR index) / 2))) in
  foldM (fun accumulator s => x <- f order index s r ;; Ok (accumulator + (-1) ^ s * x)) (seq 0 (S end_)) 0.

(** lib/sia/rust/zernike/src/calc.rs:55-57, constants.rs:6.  num's Complex::exp(re + i*im) = exp(re) * (cos im + i*sin im). *)
Definition Cexp (z : C) : C := (exp (fst z) * cos (snd z), exp (fst z) * sin (snd z)).
(** num's product of a complex with a real number (lib/sia/rust/zernike/src/calc.rs:56). *)
Definition Cscale (a : R) (z : C) : C := (a * fst z, a * snd z).
(** lib/sia/rust/zernike/src/constants.rs:6 *)
Definition I : C := (0, 1).
(** lib/sia/rust/zernike/src/calc.rs:55-57 *)
Definition v (order index : nat) (r theta : R) : outcome C :=
  rad <- radial order index r ;;
  Ok (Cscale rad (Cexp (Cscale theta (Cscale (INR index) I)))).

(** lib/sia/rust/zernike/src/calc.rs:59-67.  For dimension = 1 the code divides by zero (f64 NaN): not modelled, the theorems
    take dimension >= 2. *)
Definition to_polar (x y : R) (dimension : nat) : R * R :=
  let xc := / sqrt 2 * (1 + INR dimension - 2 * x) / (1 - INR dimension) in
  let yc := / sqrt 2 * (1 + INR dimension - 2 * y) / (1 - INR dimension) in
  if Req_bool xc 0 && Req_bool yc 0 then (0, 0)
  else (sqrt (xc ^ 2 + yc ^ 2), atan2 yc xc).

(** Body of the closure, lib/sia/rust/zernike/src/calc.rs:73-79; `index.abs() as usize` is [index] here (index : usize as isize). *)
Definition zernike_element (order index dimension i : nat) : outcome C :=
  let y := INR (Nat.modulo i dimension + 1) in
  let x := IZR (Zfloor (INR i / INR dimension)) + 1 in
  let '(radius, angle) := to_polar x y dimension in
  z <- v order index radius angle ;;
  Ok (Cconj z).
(** lib/sia/rust/zernike/src/calc.rs:69-82, as the raw vector used by the only caller. *)
Definition zernike_matrix (order index dimension : nat) : outcome (list C) :=
  mapM (zernike_element order index dimension) (seq 0 (dimension * dimension)).

(** lib/sia/rust/zernike/src/calc.rs:8-31.  `image.iter()` visits the elements in row-major order. *)
Definition calculate_zernike_image_moment (order index : nat) (image : array2 Z) : outcome C :=
  let width := dim0 image in
  let height := dim1 image in
  matrix <- zernike_matrix order index width ;;
  integral <- foldM (fun accumulator p =>
                 zernike_multiplier <- unwrap (nth_error matrix (fst p)) ;;
                 Ok (accumulator + Cscale (IZR (snd p)) zernike_multiplier)%C)
               (combine (seq 0 (length (into_raw_vec image))) (into_raw_vec image)) (0, 0) ;;
  let multiplier := (INR order + 1) / PI in
  let pixels_amount := INR (width * height) in
  Ok (Cscale (/ pixels_amount) (Cscale multiplier integral)).

(** lib/sia/rust/zernike/src/lib.rs:31-33 (usize arithmetic; the multiplication overflows only from 2^63 features on).  With
    overflow checks amount 0 panics here; without them the order wraps to 2^64-1. *)
Definition get_order_by_features_amount (checks : bool) (features_amount : nat) : outcome nat :=
  match features_amount with
  | O => if checks then Panic ArithOverflow
         else Panic CapacityOverflow (* lib/sia/rust/zernike/src/lib.rs:20: collecting 2^63 usize indices *)
  | S k => Ok (1 + 2 * k)%nat
  end.

(** `(start..=order).step_by(2).collect()`, lib/sia/rust/zernike/src/lib.rs:20 *)
Definition moments_indices (order : nat) : list nat :=
  let start_index := if Nat.eqb (Nat.modulo order 2) 1 then 1%nat else 0%nat in
  map (fun k => start_index + 2 * k)%nat (seq 0 (Nat.div (order - start_index) 2 + 1)).

(** lib/sia/rust/zernike/src/lib.rs:13-28 *)
Definition zernike_features (checks : bool) (image : array2 Z) (features_amount : nat) : outcome (list R) :=
  order <- get_order_by_features_amount checks features_amount ;;
  mapM (fun index => m <- calculate_zernike_image_moment order index image ;; Ok (Cmod m)) (moments_indices order).

(** lib/sia/rust/image-features/src/feature_types.rs:1-5, lib/sia/rust/image-features/src/lib.rs:9-28 *)
Inductive features_type := MomentsZernike | MomentsPseudoZernike | CentralFiniteDifferences.
(** lib/sia/rust/image-features/src/lib.rs:9-28 *)
Definition calculate_features (checks : bool) (image : array2 Z) (t : features_type) (features_amount : nat)
  : outcome (list R) :=
  match t with
  | MomentsZernike => zernike_features checks image features_amount
  | MomentsPseudoZernike => Ok []
  | CentralFiniteDifferences => Ok []
  end.
End Zernike.
