(** Specification: what the accuracy theorems (C68) assume of the mathematical library that std::f64 calls (powf, sqrt, atan2, exp, cos,
    sin, hypot).  A library that rounds the
    exact results to nearest meets it (LibmExact.v). *)
From Coq Require Import Reals.
From Flocq Require Import Core BinarySingleNaN.
From Verif Require Import Outcome Floats FloatFacts Zernike ZernikeGen.
Open Scope R_scope.

(** ** What is assumed of the mathematical library: relative error 2^-51 (four units in the last place of 2^-53) where a relative error
    makes sense, absolute error 2^-51 for sine and cosine on [-100, 100] and 2^-49 for the angle. *)
Definition eps : R := bpow radix2 (-51).
Record accurate (M : libm b64) : Prop := {
  acc_pi : l_pi M = b_pi;
  acc_powf : forall (x y : b64) (n : nat), fin x -> fin y -> toR y = INR n -> (n <= 900)%nat -> Rabs (toR x) <= 2 ->
    toR x = 0 \/ bpow radix2 (-1000) <= Rabs (toR x ^ n) ->
    fin (l_powf M x y) /\ Rabs (toR (l_powf M x y) - toR x ^ n) <= eps * Rabs (toR x ^ n);
  acc_sqrt : forall x : b64, fin x -> 0 <= toR x <= 4 ->
    fin (l_sqrt M x) /\ Rabs (toR (l_sqrt M x) - sqrt (toR x)) <= eps * sqrt (toR x);
  acc_atan2 : forall y x : b64, fin y -> fin x -> ~ (toR x = 0 /\ toR y = 0) ->
    fin (l_atan2 M y x) /\ exists t, - PI <= t <= PI
      /\ toR x = sqrt (toR x ^ 2 + toR y ^ 2) * cos t /\ toR y = sqrt (toR x ^ 2 + toR y ^ 2) * sin t
      /\ Rabs (toR (l_atan2 M y x) - t) <= bpow radix2 (-49);
  acc_exp : forall x : b64, fin x -> Rabs (toR x) <= 1 -> fin (l_exp M x) /\ Rabs (toR (l_exp M x) - exp (toR x)) <= eps * exp (toR x);
  acc_cos : forall x : b64, fin x -> Rabs (toR x) <= 100 -> fin (l_cos M x) /\ Rabs (toR (l_cos M x) - cos (toR x)) <= eps;
  acc_sin : forall x : b64, fin x -> Rabs (toR x) <= 100 -> fin (l_sin M x) /\ Rabs (toR (l_sin M x) - sin (toR x)) <= eps;
  acc_hypot : forall x y : b64, fin x -> fin y -> Rabs (toR x) <= bpow radix2 500 -> Rabs (toR y) <= bpow radix2 500 ->
    fin (l_hypot M x y) /\ Rabs (toR (l_hypot M x y) - sqrt (toR x ^ 2 + toR y ^ 2)) <= eps * sqrt (toR x ^ 2 + toR y ^ 2) + bpow radix2 (-1000);
  acc_hypot_sign : forall x y : b64, fin x -> fin y -> Rabs (toR x) <= bpow radix2 500 -> Rabs (toR y) <= bpow radix2 500 -> 0 <= toR (l_hypot M x y)
}.
