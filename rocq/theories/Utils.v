(** Model of lib/sia/rust/utils/src/lib.rs (the helpers the tests of all crates rely on) and lib/sia/rust/pseudo-zernike/src/lib.rs. *)
From Flocq Require Import Core BinarySingleNaN.
From Verif Require Import Outcome Floats Matrix.
Open Scope Z_scope.

(** lib/sia/rust/utils/src/lib.rs:13: 1e-4 as f64 is 0x3F1A36E2EB1C432D *)
Definition DELTA : b64 := b_dyadic 7378697629483821 (-66).
(** how an assertion helper ends *)
Inductive verdict := Passes | AssertionFails | IndexOutOfBounds.
(** One assertion after the other. *)
Definition and_then (v w : verdict) : verdict := match v with Passes => w | _ => v end.

(** `assert_approx_eq!(a, b, eps)` of the crate assert_approx_eq 1.1: `assert!((a - b).abs() < eps)` *)
Definition approx_eq (a b : b64) : verdict :=
  if @Bltb prec64 emax64 (@Babs prec64 emax64 (f_sub Bops a b)) DELTA then Passes else AssertionFails.
(** lib/sia/rust/utils/src/lib.rs:15-17 *)
Definition assert_approximately_equal (expected actual : b64) : verdict := approx_eq expected actual.
(** lib/sia/rust/utils/src/lib.rs:19-22 *)
Definition assert_approximately_equal_complex (expected actual : b64 * b64) : verdict :=
  and_then (approx_eq (fst expected) (fst actual)) (approx_eq (snd expected) (snd actual)).
(** lib/sia/rust/utils/src/lib.rs:64-69 *)
Definition assert_approximately_equal_tuple (expected actual : b64 * b64) : verdict :=
  and_then (approx_eq (fst expected) (fst actual)) (approx_eq (snd expected) (snd actual)).

(** `for (i, element) in actual.iter().enumerate()` with `expected[i]` *)
Fixpoint check_from {A} (check : A -> A -> verdict) (at_index : nat -> option A) (i : nat) (actual : list A) : verdict :=
  match actual with
  | [] => Passes
  | x :: t => and_then (match at_index i with Some e => check e x | None => IndexOutOfBounds end) (check_from check at_index (S i) t)
  end.
(** lib/sia/rust/utils/src/lib.rs:56-62 *)
Definition assert_approximately_equals_1d (expected actual : list b64) : verdict := check_from approx_eq (nth_error expected) 0 actual.
(** `expected[[i, j]]` of an ndarray: bounds checked on both axes *)
Definition at2 {A} (m : array2 A) (i j : nat) : option A :=
  if Nat.ltb i (dim0 m) && Nat.ltb j (dim1 m) then match nth_error (rows m) i with Some r => nth_error r j | None => None end else None.
(** lib/sia/rust/utils/src/lib.rs:33-41 and 43-54: rows of `actual` one after the other *)
Fixpoint check_rows {A} (check : A -> A -> verdict) (expected : array2 A) (i : nat) (rs : list (list A)) : verdict :=
  match rs with
  | [] => Passes
  | r :: t => and_then (check_from check (at2 expected i) 0 r) (check_rows check expected (S i) t)
  end.
(** lib/sia/rust/utils/src/lib.rs:33-41 and 43-54 *)
Definition assert_approximately_equals_2d (expected actual : array2 b64) : verdict := check_rows approx_eq expected 0 (rows actual).
Definition assert_approximately_equals_2d_complex (expected actual : array2 (b64 * b64)) : verdict := check_rows assert_approximately_equal_complex expected 0 (rows actual).

(** lib/sia/rust/utils/src/lib.rs:24-31 *)
Definition vector_2d_as_nd_array {A} (x1 : list (list A)) : outcome (array2 A) :=
  match x1 with
  | [] => Panic SliceRange                                   (* x1[0] *)
  | first :: _ => from_shape_vec (length x1) (length first) (concat x1)
  end.

(** lib/sia/rust/pseudo-zernike/src/lib.rs:1-3; usize of 64 bits; [checks]: overflow checks are on (debug builds) *)
Definition add (checks : bool) (left right : Z) : outcome Z :=
  if left + right <=? usize_max then Ok (left + right) else if checks then Panic ArithOverflow else Ok ((left + right) mod 2 ^ 64).
