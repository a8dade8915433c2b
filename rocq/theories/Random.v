(** Model of lib/sia/rust/utils/src/pseudo_random.rs. *)
From Coq Require Import Reals.
From Flocq Require Import Core BinarySingleNaN.
From Verif Require Import Outcome Floats.
Open Scope Z_scope.

(** The `%` of f64 (fmod): exact remainder with the sign of the dividend. *)
Definition b_rem (x y : b64) : b64 :=
  match x, y with
  | B754_nan, _ => B754_nan
  | _, B754_nan => B754_nan
  | B754_infinity _, _ => B754_nan
  | _, B754_zero _ => B754_nan
  | _, B754_infinity _ => x
  | B754_zero _, _ => x
  | B754_finite sx mx ex _, B754_finite _ my ey _ =>
      let e := Z.min ex ey in
      binary_normalize prec64 emax64 _ _ mode_NE
        (Z.rem (cond_Zopp sx (Zpos mx) * 2 ^ (ex - e)) (Zpos my * 2 ^ (ey - e))) e sx
  end.
(** The same on exact reals. *)
Definition r_rem (x y : R) : R := (x - IZR (Ztrunc (x / y)) * y)%R.

Section PseudoRandom.
Context {F : Type} (O : FOps F) (rem : F -> F -> F).
(** usize::MAX of the target; overflow checks of the build profile *)
Context (umax : Z) (checks : bool).

(** `self.seed += 1`, lib/sia/rust/utils/src/pseudo_random.rs:21; the state is the field `seed` (lines 7-9). *)
Definition bump (seed : Z) : outcome Z :=
  if Z.eqb seed umax then if checks then Panic ArithOverflow else Ok 0 else Ok (seed + 1).

(** lib/sia/rust/utils/src/pseudo_random.rs:20-24 *)
Definition generate_unit (seed : Z) : outcome (F * Z) :=
  seed' <- bump seed ;;
  let a := f_mul O (f_of_Z O seed') (f_of_Z O 15485863) in
  Ok (f_div O (rem (f_mul O (f_mul O a a) a) (f_of_Z O 2038074743)) (f_of_Z O 2038074743), seed').

(** lib/sia/rust/utils/src/pseudo_random.rs:16-18 *)
Definition generate (from to : F) (seed : Z) : outcome (F * Z) :=
  '(u, seed') <- generate_unit seed ;;
  Ok (f_add O (f_mul O u (f_sub O to from)) from, seed').

(** lib/sia/rust/utils/src/pseudo_random.rs:12-14 *)
Definition reseed (seed_number seed : Z) : Z := seed_number.

(** The trait's three operations (lib/sia/rust/utils/src/pseudo_random.rs:1-5) run in sequence on one generator; the values returned
    so far come with the final state. *)
Inductive op : Type := Seed (seed_number : Z) | Generate (from to : F) | GenerateUnit.
(** A history of calls of one generator, lib/sia/rust/utils/src/pseudo_random.rs:11-25 *)
Fixpoint run (ops : list op) (seed : Z) : outcome (list F * Z) :=
  match ops with
  | [] => Ok ([], seed)
  | Seed n :: rest => run rest (reseed n seed)
  | Generate a b :: rest => '(x, s) <- generate a b seed ;; '(xs, s') <- run rest s ;; Ok (x :: xs, s')
  | GenerateUnit :: rest => '(x, s) <- generate_unit seed ;; '(xs, s') <- run rest s ;; Ok (x :: xs, s')
  end.
End PseudoRandom.
Arguments Seed {F}. Arguments Generate {F}. Arguments GenerateUnit {F}.
