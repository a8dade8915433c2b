(** The quantiser over exact reals. *)
From Coq Require Import Reals Lra.
From Flocq Require Import Core.
From Verif Require Import Outcome Floats Bits ListFacts Quantization QuantProofs IndexArithProofs.
Open Scope Z_scope.

Section QR.
Context (step : R) (Hstep : (0 < step)%R).

Definition bin (x : R) : Z := Zfloor (x / step).
(** Index of the half-bin containing x. *)
Definition halfbin (x : R) : Z := Zfloor (2 * x / step).

Lemma quantize1_clamp x : quantize1 Rops step x = clamp i64_min i64_max (bin x).
Proof. unfold quantize1, f_to_i64. cbn [f_cast f_floor f_div Rops]. rewrite Ztrunc_IZR. reflexivity. Qed.

Definition in_i64 (q : Z) : Prop := i64_min <= q <= i64_max.
Lemma quantize1_bin x : in_i64 (bin x) -> quantize1 Rops step x = bin x.
Proof. intros H. rewrite quantize1_clamp. apply clamp_id. exact H. Qed.

Lemma div_step_mult x y : (y <= x / step <-> y * step <= x)%R.
Proof.
  split; intros H.
  - apply Rmult_le_compat_r with (r := step) in H; [|lra]. unfold Rdiv in H. rewrite Rmult_assoc, Rinv_l, Rmult_1_r in H by lra. exact H.
  - apply Rmult_le_reg_r with step; [exact Hstep|]. unfold Rdiv. rewrite Rmult_assoc, Rinv_l, Rmult_1_r by lra. exact H.
Qed.
Lemma div_step_mult_lt x y : (x / step < y <-> x < y * step)%R.
Proof.
  split; intros H.
  - apply Rnot_le_lt. intros C. apply div_step_mult in C. lra.
  - apply Rnot_le_lt. intros C. apply div_step_mult in C. lra.
Qed.

Lemma bin_iff x q : bin x = q <-> (IZR q * step <= x < (IZR q + 1) * step)%R.
Proof.
  unfold bin. split.
  - intros <-. pose proof (Zfloor_lb (x / step)) as H1. pose proof (Zfloor_ub (x / step)) as H2.
    apply div_step_mult in H1. apply div_step_mult_lt in H2. split; assumption.
  - intros (H1 & H2). apply div_step_mult in H1. apply div_step_mult_lt in H2.
    apply Zfloor_imp. rewrite plus_IZR. split; assumption.
Qed.

Lemma upper_half_iff x : in_i64 (bin x) ->
  upper_half Rops step x = true <-> ((IZR (bin x) + / 2) * step <= x)%R.
Proof.
  intros H. unfold upper_half. rewrite quantize1_bin by exact H. cbn [f_ge f_mul f_add f_of_Z f_dyadic Rops].
  replace (bpow radix2 (-1)) with (/ 2)%R by (simpl; lra). rewrite Rmult_1_l, Rmult_comm.
  split; [intros E|intros E].
  - destruct (Rle_bool_spec ((IZR (bin x) + / 2) * step) x); [assumption|discriminate].
  - apply Rle_bool_true. exact E.
Qed.

Lemma halfbin_eq x : in_i64 (bin x) -> halfbin x = 2 * bin x + Z.b2z (upper_half Rops step x).
Proof.
  intros H. pose proof (proj1 (bin_iff x _) eq_refl) as (H1 & H2).
  pose proof (upper_half_iff x H) as Hu. unfold halfbin.
  apply Zfloor_imp. rewrite !plus_IZR, mult_IZR.
  replace (2 * x / step)%R with ((2 * x) / step)%R by reflexivity.
  destruct (upper_half Rops step x); cbn [Z.b2z].
  - assert (E : ((IZR (bin x) + / 2) * step <= x)%R) by (apply Hu; reflexivity).
    split; [apply div_step_mult; lra|apply div_step_mult_lt; lra].
  - assert (E : (x < (IZR (bin x) + / 2) * step)%R).
    { apply Rnot_le_lt. intros C. apply Hu in C. discriminate. }
    split; [apply div_step_mult; lra|apply div_step_mult_lt; lra].
Qed.

Lemma bin_shift x : bin (x + step) = bin x + 1 /\ bin (x - step) = bin x - 1.
Proof.
  pose proof (proj1 (bin_iff x _) eq_refl) as (H1 & H2).
  split; apply bin_iff; rewrite ?plus_IZR, ?minus_IZR; split; lra.
Qed.

(** Bin of the restored value. *)
Lemma restore_bin x x' : in_i64 (bin x) -> in_i64 (bin x') ->
  let g := bits3 Rops step x in
  let r := bin (restore_l Rops step x' g) in
  (r = bin x <-> Z.abs (halfbin x' - halfbin x) <= 2) /\ Z.abs (r - bin x') <= 1.
Proof.
  intros Hx Hx' g r.
  rewrite (halfbin_eq x Hx), (halfbin_eq x' Hx').
  unfold r, restore_l, g, bits3. cbn [nth].
  rewrite (quantize1_bin x Hx).
  unfold restore. rewrite two_bits_roundtrip, (quantize1_bin x' Hx').
  destruct (bin_shift x') as (Ep & Em).
  set (b := upper_half Rops step x). set (b' := upper_half Rops step x').
  set (q := bin x) in *. set (q' := bin x') in *.
  cbn [f_add f_sub Rops].
  pose proof (Z.mod_pos_bound (q - 1) 4 ltac:(lia)).
  assert (M0 : ((q' - 1) mod 4 =? ((q - 1) mod 4 - 1) mod 4) = (((q' - q + 1) mod 4) =? 0)).
  { apply eq_true_iff_eq. rewrite !Z.eqb_eq. Z.to_euclidean_division_equations. lia. }
  assert (M1 : ((q' - 1) mod 4 =? ((q - 1) mod 4 + 1) mod 4) = (((q' - q - 1) mod 4) =? 0)).
  { apply eq_true_iff_eq. rewrite !Z.eqb_eq. Z.to_euclidean_division_equations. lia. }
  rewrite M0, M1.
  destruct ((q' - q + 1) mod 4 =? 0) eqn:E0; [apply Z.eqb_eq in E0|apply Z.eqb_neq in E0].
  - destruct b, b'; cbn [negb orb Z.b2z]; rewrite ?Ep; fold q';
      (split; [Z.to_euclidean_division_equations; lia|lia]).
  - destruct ((q' - q - 1) mod 4 =? 0) eqn:E1; [apply Z.eqb_eq in E1|apply Z.eqb_neq in E1].
    + destruct b, b'; cbn [negb orb Z.b2z]; rewrite ?Em; fold q';
      (split; [Z.to_euclidean_division_equations; lia|lia]).
    + fold q'. destruct b, b'; cbn [Z.b2z]; (split; [Z.to_euclidean_division_equations; lia|lia]).
Qed.

(** Noise of at most one step moves the half-bin index by at most two. *)
Lemma noise_halfbin x x' : (Rabs (x' - x) <= step)%R -> Z.abs (halfbin x' - halfbin x) <= 2.
Proof.
  intros H. apply Rabs_le_inv in H.
  assert (Hm : forall a b, (2 * a / step <= 2 * b / step + 2)%R -> Zfloor (2 * a / step) <= Zfloor (2 * b / step) + 2).
  { intros a b Hab. pose proof (Zfloor_lb (2 * a / step)). pose proof (Zfloor_ub (2 * b / step)).
    assert (IZR (Zfloor (2 * a / step)) < IZR (Zfloor (2 * b / step) + 3))%R by (rewrite plus_IZR; lra).
    apply lt_IZR in H2. lia. }
  assert (Hd : forall a b, (a <= b + step)%R -> (2 * a / step <= 2 * b / step + 2)%R).
  { intros a b Hab. apply Rmult_le_reg_r with step; [exact Hstep|].
    replace (2 * a / step * step)%R with (2 * a)%R by (field; lra).
    replace ((2 * b / step + 2) * step)%R with (2 * b + 2 * step)%R by (field; lra). lra. }
  pose proof (Hm x' x (Hd x' x ltac:(lra))). pose proof (Hm x x' (Hd x x' ltac:(lra))). unfold halfbin. lia.
Qed.
End QR.
