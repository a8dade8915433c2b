(** The last feature of eleven - the Zernike moment of order 21 and index 21 - of a picture of 512 x 512 pixels, as a sum over the 8 x 8 blocks of the upper left quarter
    with whole coefficients (lib/sia/rust/zernike/src/lib.rs, the moments of PropsZernike.v).  Helpers of property C109. *)
From Coq Require Import Reals Lra.
From Flocq Require Import Core.
From Coquelicot Require Import Complex.
From Verif Require Import Outcome Matrix MatrixFacts HaarReal PropsRobust PropsClipping PropsTurn Zernike ZernikeProofs PropsZernike RelError.
Open Scope Z_scope.

(** ** Powers of Gaussian integers *)
Fixpoint gpow (x y : Z) (m : nat) : Z * Z := match m with O => (1, 0) | S k => let '(a, b) := gpow x y k in (a * x - b * y, a * y + b * x) end.
Lemma gpow_S x y k : gpow x y (S k) = (fst (gpow x y k) * x - snd (gpow x y k) * y, fst (gpow x y k) * y + snd (gpow x y k) * x).
Proof. cbn [gpow]. destruct (gpow x y k). reflexivity. Qed.
Lemma gpow_0 x y : gpow x y 0 = (1, 0). Proof. reflexivity. Qed.
Lemma complex_gpow x y m : complex_power (IZR x) (IZR y) m = (IZR (fst (gpow x y m)), IZR (snd (gpow x y m))).
Proof.
  induction m as [|m IH]; [reflexivity|]. rewrite gpow_S. cbn [complex_power]. rewrite IH. cbn [fst snd]. rewrite minus_IZR, plus_IZR, !mult_IZR. reflexivity.
Qed.
Lemma complex_scale c x y m : complex_power (c * x)%R (c * y)%R m = (c ^ m * fst (complex_power x y m), c ^ m * snd (complex_power x y m))%R.
Proof.
  induction m as [|m IH]; [cbn; f_equal; ring|]. cbn [complex_power]. rewrite IH. destruct (complex_power x y m) as (a, b). cbn [fst snd]. rewrite <- tech_pow_Rmult. f_equal; ring.
Qed.
(** *** The powers written out *)
Lemma g1 x y : gpow x y 1 = ((1) * (x ^ 1 * y ^ 0), (1) * (x ^ 0 * y ^ 1)).
Proof. rewrite (gpow_S x y 0), gpow_0. cbn [fst snd]. f_equal; ring. Qed.
Lemma g2 x y : gpow x y 2 = ((1) * (x ^ 2 * y ^ 0) + (-1) * (x ^ 0 * y ^ 2), (2) * (x ^ 1 * y ^ 1)).
Proof. rewrite (gpow_S x y 1), g1. cbn [fst snd]. f_equal; ring. Qed.
Lemma g3 x y : gpow x y 3 = ((1) * (x ^ 3 * y ^ 0) + (-3) * (x ^ 1 * y ^ 2), (3) * (x ^ 2 * y ^ 1) + (-1) * (x ^ 0 * y ^ 3)).
Proof. rewrite (gpow_S x y 2), g2. cbn [fst snd]. f_equal; ring. Qed.
Lemma g4 x y : gpow x y 4 = ((1) * (x ^ 4 * y ^ 0) + (-6) * (x ^ 2 * y ^ 2) + (1) * (x ^ 0 * y ^ 4), (4) * (x ^ 3 * y ^ 1) + (-4) * (x ^ 1 * y ^ 3)).
Proof. rewrite (gpow_S x y 3), g3. cbn [fst snd]. f_equal; ring. Qed.
Lemma g5 x y : gpow x y 5 = ((1) * (x ^ 5 * y ^ 0) + (-10) * (x ^ 3 * y ^ 2) + (5) * (x ^ 1 * y ^ 4), (5) * (x ^ 4 * y ^ 1) + (-10) * (x ^ 2 * y ^ 3) + (1) * (x ^ 0 * y ^ 5)).
Proof. rewrite (gpow_S x y 4), g4. cbn [fst snd]. f_equal; ring. Qed.
Lemma g6 x y : gpow x y 6 = ((1) * (x ^ 6 * y ^ 0) + (-15) * (x ^ 4 * y ^ 2) + (15) * (x ^ 2 * y ^ 4) + (-1) * (x ^ 0 * y ^ 6), (6) * (x ^ 5 * y ^ 1) + (-20) * (x ^ 3 * y ^ 3) + (6) * (x ^ 1 * y ^ 5)).
Proof. rewrite (gpow_S x y 5), g5. cbn [fst snd]. f_equal; ring. Qed.
Lemma g7 x y : gpow x y 7 = ((1) * (x ^ 7 * y ^ 0) + (-21) * (x ^ 5 * y ^ 2) + (35) * (x ^ 3 * y ^ 4) + (-7) * (x ^ 1 * y ^ 6), (7) * (x ^ 6 * y ^ 1) + (-35) * (x ^ 4 * y ^ 3) + (21) * (x ^ 2 * y ^ 5) + (-1) * (x ^ 0 * y ^ 7)).
Proof. rewrite (gpow_S x y 6), g6. cbn [fst snd]. f_equal; ring. Qed.
Lemma g8 x y : gpow x y 8 = ((1) * (x ^ 8 * y ^ 0) + (-28) * (x ^ 6 * y ^ 2) + (70) * (x ^ 4 * y ^ 4) + (-28) * (x ^ 2 * y ^ 6) + (1) * (x ^ 0 * y ^ 8), (8) * (x ^ 7 * y ^ 1) + (-56) * (x ^ 5 * y ^ 3) + (56) * (x ^ 3 * y ^ 5) + (-8) * (x ^ 1 * y ^ 7)).
Proof. rewrite (gpow_S x y 7), g7. cbn [fst snd]. f_equal; ring. Qed.
Lemma g9 x y : gpow x y 9 = ((1) * (x ^ 9 * y ^ 0) + (-36) * (x ^ 7 * y ^ 2) + (126) * (x ^ 5 * y ^ 4) + (-84) * (x ^ 3 * y ^ 6) + (9) * (x ^ 1 * y ^ 8), (9) * (x ^ 8 * y ^ 1) + (-84) * (x ^ 6 * y ^ 3) + (126) * (x ^ 4 * y ^ 5) + (-36) * (x ^ 2 * y ^ 7) + (1) * (x ^ 0 * y ^ 9)).
Proof. rewrite (gpow_S x y 8), g8. cbn [fst snd]. f_equal; ring. Qed.
Lemma g10 x y : gpow x y 10 = ((1) * (x ^ 10 * y ^ 0) + (-45) * (x ^ 8 * y ^ 2) + (210) * (x ^ 6 * y ^ 4) + (-210) * (x ^ 4 * y ^ 6) + (45) * (x ^ 2 * y ^ 8) + (-1) * (x ^ 0 * y ^ 10), (10) * (x ^ 9 * y ^ 1) + (-120) * (x ^ 7 * y ^ 3) + (252) * (x ^ 5 * y ^ 5) + (-120) * (x ^ 3 * y ^ 7) + (10) * (x ^ 1 * y ^ 9)).
Proof. rewrite (gpow_S x y 9), g9. cbn [fst snd]. f_equal; ring. Qed.
Lemma g11 x y : gpow x y 11 = ((1) * (x ^ 11 * y ^ 0) + (-55) * (x ^ 9 * y ^ 2) + (330) * (x ^ 7 * y ^ 4) + (-462) * (x ^ 5 * y ^ 6) + (165) * (x ^ 3 * y ^ 8) + (-11) * (x ^ 1 * y ^ 10), (11) * (x ^ 10 * y ^ 1) + (-165) * (x ^ 8 * y ^ 3) + (462) * (x ^ 6 * y ^ 5) + (-330) * (x ^ 4 * y ^ 7) + (55) * (x ^ 2 * y ^ 9) + (-1) * (x ^ 0 * y ^ 11)).
Proof. rewrite (gpow_S x y 10), g10. cbn [fst snd]. f_equal; ring. Qed.
Lemma g12 x y : gpow x y 12 = ((1) * (x ^ 12 * y ^ 0) + (-66) * (x ^ 10 * y ^ 2) + (495) * (x ^ 8 * y ^ 4) + (-924) * (x ^ 6 * y ^ 6) + (495) * (x ^ 4 * y ^ 8) + (-66) * (x ^ 2 * y ^ 10) + (1) * (x ^ 0 * y ^ 12), (12) * (x ^ 11 * y ^ 1) + (-220) * (x ^ 9 * y ^ 3) + (792) * (x ^ 7 * y ^ 5) + (-792) * (x ^ 5 * y ^ 7) + (220) * (x ^ 3 * y ^ 9) + (-12) * (x ^ 1 * y ^ 11)).
Proof. rewrite (gpow_S x y 11), g11. cbn [fst snd]. f_equal; ring. Qed.
Lemma g13 x y : gpow x y 13 = ((1) * (x ^ 13 * y ^ 0) + (-78) * (x ^ 11 * y ^ 2) + (715) * (x ^ 9 * y ^ 4) + (-1716) * (x ^ 7 * y ^ 6) + (1287) * (x ^ 5 * y ^ 8) + (-286) * (x ^ 3 * y ^ 10) + (13) * (x ^ 1 * y ^ 12), (13) * (x ^ 12 * y ^ 1) + (-286) * (x ^ 10 * y ^ 3) + (1287) * (x ^ 8 * y ^ 5) + (-1716) * (x ^ 6 * y ^ 7) + (715) * (x ^ 4 * y ^ 9) + (-78) * (x ^ 2 * y ^ 11) + (1) * (x ^ 0 * y ^ 13)).
Proof. rewrite (gpow_S x y 12), g12. cbn [fst snd]. f_equal; ring. Qed.
Lemma g14 x y : gpow x y 14 = ((1) * (x ^ 14 * y ^ 0) + (-91) * (x ^ 12 * y ^ 2) + (1001) * (x ^ 10 * y ^ 4) + (-3003) * (x ^ 8 * y ^ 6) + (3003) * (x ^ 6 * y ^ 8) + (-1001) * (x ^ 4 * y ^ 10) + (91) * (x ^ 2 * y ^ 12) + (-1) * (x ^ 0 * y ^ 14), (14) * (x ^ 13 * y ^ 1) + (-364) * (x ^ 11 * y ^ 3) + (2002) * (x ^ 9 * y ^ 5) + (-3432) * (x ^ 7 * y ^ 7) + (2002) * (x ^ 5 * y ^ 9) + (-364) * (x ^ 3 * y ^ 11) + (14) * (x ^ 1 * y ^ 13)).
Proof. rewrite (gpow_S x y 13), g13. cbn [fst snd]. f_equal; ring. Qed.
Lemma g15 x y : gpow x y 15 = ((1) * (x ^ 15 * y ^ 0) + (-105) * (x ^ 13 * y ^ 2) + (1365) * (x ^ 11 * y ^ 4) + (-5005) * (x ^ 9 * y ^ 6) + (6435) * (x ^ 7 * y ^ 8) + (-3003) * (x ^ 5 * y ^ 10) + (455) * (x ^ 3 * y ^ 12) + (-15) * (x ^ 1 * y ^ 14), (15) * (x ^ 14 * y ^ 1) + (-455) * (x ^ 12 * y ^ 3) + (3003) * (x ^ 10 * y ^ 5) + (-6435) * (x ^ 8 * y ^ 7) + (5005) * (x ^ 6 * y ^ 9) + (-1365) * (x ^ 4 * y ^ 11) + (105) * (x ^ 2 * y ^ 13) + (-1) * (x ^ 0 * y ^ 15)).
Proof. rewrite (gpow_S x y 14), g14. cbn [fst snd]. f_equal; ring. Qed.
Lemma g16 x y : gpow x y 16 = ((1) * (x ^ 16 * y ^ 0) + (-120) * (x ^ 14 * y ^ 2) + (1820) * (x ^ 12 * y ^ 4) + (-8008) * (x ^ 10 * y ^ 6) + (12870) * (x ^ 8 * y ^ 8) + (-8008) * (x ^ 6 * y ^ 10) + (1820) * (x ^ 4 * y ^ 12) + (-120) * (x ^ 2 * y ^ 14) + (1) * (x ^ 0 * y ^ 16), (16) * (x ^ 15 * y ^ 1) + (-560) * (x ^ 13 * y ^ 3) + (4368) * (x ^ 11 * y ^ 5) + (-11440) * (x ^ 9 * y ^ 7) + (11440) * (x ^ 7 * y ^ 9) + (-4368) * (x ^ 5 * y ^ 11) + (560) * (x ^ 3 * y ^ 13) + (-16) * (x ^ 1 * y ^ 15)).
Proof. rewrite (gpow_S x y 15), g15. cbn [fst snd]. f_equal; ring. Qed.
Lemma g17 x y : gpow x y 17 = ((1) * (x ^ 17 * y ^ 0) + (-136) * (x ^ 15 * y ^ 2) + (2380) * (x ^ 13 * y ^ 4) + (-12376) * (x ^ 11 * y ^ 6) + (24310) * (x ^ 9 * y ^ 8) + (-19448) * (x ^ 7 * y ^ 10) + (6188) * (x ^ 5 * y ^ 12) + (-680) * (x ^ 3 * y ^ 14) + (17) * (x ^ 1 * y ^ 16), (17) * (x ^ 16 * y ^ 1) + (-680) * (x ^ 14 * y ^ 3) + (6188) * (x ^ 12 * y ^ 5) + (-19448) * (x ^ 10 * y ^ 7) + (24310) * (x ^ 8 * y ^ 9) + (-12376) * (x ^ 6 * y ^ 11) + (2380) * (x ^ 4 * y ^ 13) + (-136) * (x ^ 2 * y ^ 15) + (1) * (x ^ 0 * y ^ 17)).
Proof. rewrite (gpow_S x y 16), g16. cbn [fst snd]. f_equal; ring. Qed.
Lemma g18 x y : gpow x y 18 = ((1) * (x ^ 18 * y ^ 0) + (-153) * (x ^ 16 * y ^ 2) + (3060) * (x ^ 14 * y ^ 4) + (-18564) * (x ^ 12 * y ^ 6) + (43758) * (x ^ 10 * y ^ 8) + (-43758) * (x ^ 8 * y ^ 10) + (18564) * (x ^ 6 * y ^ 12) + (-3060) * (x ^ 4 * y ^ 14) + (153) * (x ^ 2 * y ^ 16) + (-1) * (x ^ 0 * y ^ 18), (18) * (x ^ 17 * y ^ 1) + (-816) * (x ^ 15 * y ^ 3) + (8568) * (x ^ 13 * y ^ 5) + (-31824) * (x ^ 11 * y ^ 7) + (48620) * (x ^ 9 * y ^ 9) + (-31824) * (x ^ 7 * y ^ 11) + (8568) * (x ^ 5 * y ^ 13) + (-816) * (x ^ 3 * y ^ 15) + (18) * (x ^ 1 * y ^ 17)).
Proof. rewrite (gpow_S x y 17), g17. cbn [fst snd]. f_equal; ring. Qed.
Lemma g19 x y : gpow x y 19 = ((1) * (x ^ 19 * y ^ 0) + (-171) * (x ^ 17 * y ^ 2) + (3876) * (x ^ 15 * y ^ 4) + (-27132) * (x ^ 13 * y ^ 6) + (75582) * (x ^ 11 * y ^ 8) + (-92378) * (x ^ 9 * y ^ 10) + (50388) * (x ^ 7 * y ^ 12) + (-11628) * (x ^ 5 * y ^ 14) + (969) * (x ^ 3 * y ^ 16) + (-19) * (x ^ 1 * y ^ 18), (19) * (x ^ 18 * y ^ 1) + (-969) * (x ^ 16 * y ^ 3) + (11628) * (x ^ 14 * y ^ 5) + (-50388) * (x ^ 12 * y ^ 7) + (92378) * (x ^ 10 * y ^ 9) + (-75582) * (x ^ 8 * y ^ 11) + (27132) * (x ^ 6 * y ^ 13) + (-3876) * (x ^ 4 * y ^ 15) + (171) * (x ^ 2 * y ^ 17) + (-1) * (x ^ 0 * y ^ 19)).
Proof. rewrite (gpow_S x y 18), g18. cbn [fst snd]. f_equal; ring. Qed.
Lemma g20 x y : gpow x y 20 = ((1) * (x ^ 20 * y ^ 0) + (-190) * (x ^ 18 * y ^ 2) + (4845) * (x ^ 16 * y ^ 4) + (-38760) * (x ^ 14 * y ^ 6) + (125970) * (x ^ 12 * y ^ 8) + (-184756) * (x ^ 10 * y ^ 10) + (125970) * (x ^ 8 * y ^ 12) + (-38760) * (x ^ 6 * y ^ 14) + (4845) * (x ^ 4 * y ^ 16) + (-190) * (x ^ 2 * y ^ 18) + (1) * (x ^ 0 * y ^ 20), (20) * (x ^ 19 * y ^ 1) + (-1140) * (x ^ 17 * y ^ 3) + (15504) * (x ^ 15 * y ^ 5) + (-77520) * (x ^ 13 * y ^ 7) + (167960) * (x ^ 11 * y ^ 9) + (-167960) * (x ^ 9 * y ^ 11) + (77520) * (x ^ 7 * y ^ 13) + (-15504) * (x ^ 5 * y ^ 15) + (1140) * (x ^ 3 * y ^ 17) + (-20) * (x ^ 1 * y ^ 19)).
Proof. rewrite (gpow_S x y 19), g19. cbn [fst snd]. f_equal; ring. Qed.
Lemma g21 x y : gpow x y 21 = ((1) * (x ^ 21 * y ^ 0) + (-210) * (x ^ 19 * y ^ 2) + (5985) * (x ^ 17 * y ^ 4) + (-54264) * (x ^ 15 * y ^ 6) + (203490) * (x ^ 13 * y ^ 8) + (-352716) * (x ^ 11 * y ^ 10) + (293930) * (x ^ 9 * y ^ 12) + (-116280) * (x ^ 7 * y ^ 14) + (20349) * (x ^ 5 * y ^ 16) + (-1330) * (x ^ 3 * y ^ 18) + (21) * (x ^ 1 * y ^ 20), (21) * (x ^ 20 * y ^ 1) + (-1330) * (x ^ 18 * y ^ 3) + (20349) * (x ^ 16 * y ^ 5) + (-116280) * (x ^ 14 * y ^ 7) + (293930) * (x ^ 12 * y ^ 9) + (-352716) * (x ^ 10 * y ^ 11) + (203490) * (x ^ 8 * y ^ 13) + (-54264) * (x ^ 6 * y ^ 15) + (5985) * (x ^ 4 * y ^ 17) + (-210) * (x ^ 2 * y ^ 19) + (1) * (x ^ 0 * y ^ 21)).
Proof. rewrite (gpow_S x y 20), g20. cbn [fst snd]. f_equal; ring. Qed.

Definition terms := list (Z * nat * nat).
Definition polynomial (l : terms) (x y : Z) : Z := fold_right (fun '(c, i, j) s => c * (x ^ Z.of_nat i * y ^ Z.of_nat j) + s) 0 l.
Definition re_terms : terms := [(1, 21%nat, 0%nat); (-210, 19%nat, 2%nat); (5985, 17%nat, 4%nat); (-54264, 15%nat, 6%nat); (203490, 13%nat, 8%nat); (-352716, 11%nat, 10%nat); (293930, 9%nat, 12%nat); (-116280, 7%nat, 14%nat); (20349, 5%nat, 16%nat); (-1330, 3%nat, 18%nat); (21, 1%nat, 20%nat)].
Definition im_terms : terms := [(21, 20%nat, 1%nat); (-1330, 18%nat, 3%nat); (20349, 16%nat, 5%nat); (-116280, 14%nat, 7%nat); (293930, 12%nat, 9%nat); (-352716, 10%nat, 11%nat); (203490, 8%nat, 13%nat); (-54264, 6%nat, 15%nat); (5985, 4%nat, 17%nat); (-210, 2%nat, 19%nat); (1, 0%nat, 21%nat)].
Lemma gpow_21 x y : fst (gpow x y 21) = polynomial re_terms x y /\ snd (gpow x y 21) = polynomial im_terms x y.
Proof. rewrite g21. unfold polynomial, re_terms, im_terms, fold_right. split; cbn [fst snd]; cbn [Z.of_nat Pos.of_succ_nat Pos.succ]; ring. Qed.

(** ** The moment *)
Lemma radial_top n r : radial_polynomial n n r = (r ^ n)%R.
Proof.
  unfold radial_polynomial. rewrite Nat.sub_diag. change (0 / 2 + 1)%nat with 1%nat. unfold sum_over. cbn [seq map fold_right].
  replace ((n + n) / 2)%nat with n by (symmetry; replace (n + n)%nat with (n * 2)%nat by lia; now apply Nat.div_mul).
  change (2 * 0)%nat with 0%nat. rewrite !Nat.sub_0_r. cbn [pow]. change (INR (fact 0)) with 1%R. pose proof (INR_fact_neq_0 n) as F. change (INR (fact (0 / 2))) with 1%R. field. exact F.
Qed.

Definition g_re (x y : Z) : Z := fst (gpow x y 21).
Definition g_im (x y : Z) : Z := snd (gpow x y 21).
Definition kappa : R := (22 / (PI * INR 512 ^ 2) * (/ (511 * sqrt 2)) ^ 21)%R.
Definition re_sum (A : array2 Z) : Z := zsum 512 (fun i => zsum 512 (fun j => pixel A i j * g_re (2 * Z.of_nat i - 511) (2 * Z.of_nat j - 511))).
Definition im_sum (A : array2 Z) : Z := zsum 512 (fun i => zsum 512 (fun j => pixel A i j * g_im (2 * Z.of_nat i - 511) (2 * Z.of_nat j - 511))).

Lemma s2_pos : (0 < sqrt 2)%R. Proof. apply sqrt_lt_R0. lra. Qed.
Lemma position_512 i : position 512 i = (/ (511 * sqrt 2) * IZR (2 * Z.of_nat i - 511))%R.
Proof.
  pose proof s2_pos. unfold position. replace (INR 512) with 512%R by (rewrite INR_IZR_INZ; reflexivity). rewrite minus_IZR, mult_IZR, <- INR_IZR_INZ. field. lra.
Qed.

Lemma moment_top g A : square_image A 512 -> calculate_zernike_image_moment g 21 21 A = Ok (kappa * IZR (re_sum A), - (kappa * IZR (im_sum A)))%R.
Proof.
  intros SA. pose proof (C44_moments_are_zernike_moments g A 512 21 21 SA ltac:(lia) eq_refl eq_refl ltac:(lia)) as M. cbv zeta in M. rewrite M. clear M.
  replace (INR 21 + 1)%R with 22%R by (rewrite INR_IZR_INZ; simpl; lra).
  assert (T : forall part (zp : Z * Z -> Z), (forall c z, part (c * fst z, c * snd z)%R = (c * part z)%R) -> (forall a b, part (IZR a, IZR b) = IZR (zp (a, b))) ->
    (22 / (PI * INR 512 ^ 2) * sum_over 512 (fun i => sum_over 512 (fun j => match cell A i j with Some p => IZR p | None => 0 end
       * (radial_polynomial 21 21 (sqrt (position 512 i ^ 2 + position 512 j ^ 2))
          * part (complex_power (position 512 i / sqrt (position 512 i ^ 2 + position 512 j ^ 2)) (position 512 j / sqrt (position 512 i ^ 2 + position 512 j ^ 2)) 21))))
     = kappa * IZR (zsum 512 (fun i => zsum 512 (fun j => (pixel A i j * zp (gpow (2 * Z.of_nat i - 511) (2 * Z.of_nat j - 511) 21))%Z))))%R).
  { intros part zp Hsc Hz. unfold kappa. rewrite Rmult_assoc. f_equal. rewrite sum_over_sumn, zsum_sumn, <- sumn_scal. apply sumn_ext. intros i Hi. rewrite sum_over_sumn, zsum_sumn, <- sumn_scal. apply sumn_ext. intros j Hj.
    set (r := sqrt _). assert (Hr : (0 < r)%R).
    { apply sqrt_lt_R0. assert (P : position 512 i <> 0%R).
      { rewrite position_512. apply Rmult_integral_contrapositive. split; [apply Rinv_neq_0_compat; pose proof s2_pos; lra|]. apply IZR_neq. lia. }
      assert (0 < position 512 i ^ 2)%R by (rewrite <- Rsqr_pow2; now apply Rsqr_pos_lt). assert (0 <= position 512 j ^ 2)%R by (rewrite <- Rsqr_pow2; apply Rle_0_sqr). lra. }
    rewrite radial_top. rewrite <- Hsc.
    assert (Ec : (r ^ 21 * fst (complex_power (position 512 i / r) (position 512 j / r) 21), r ^ 21 * snd (complex_power (position 512 i / r) (position 512 j / r) 21))%R = complex_power (position 512 i) (position 512 j) 21).
    { rewrite <- complex_scale. f_equal; field; lra. }
    rewrite Ec, !position_512, complex_scale, Hsc, complex_gpow, Hz, mult_IZR, <- surjective_pairing.
    unfold pixel. destruct (cell A i j); ring. }
  unfold re_sum, im_sum, g_re, g_im. rewrite (T fst fst (fun c z => eq_refl) (fun a b => eq_refl)), (T snd snd (fun c z => eq_refl) (fun a b => eq_refl)). reflexivity.
Qed.

Lemma feature_top g checks A fs : square_image A 512 -> calculate_features g checks A MomentsZernike 11 = Ok fs ->
  nth_error fs 10 = Some (Cmod (kappa * IZR (re_sum A), - (kappa * IZR (im_sum A)))%R).
Proof.
  intros SA Ef. destruct (C44_number_and_indices_of_features g checks A 11 ltac:(unfold amount_ok; lia)) as (fs' & Ef' & Lf & Hf).
  { exact (proj1 (proj1 SA)). } { destruct SA as ((_ & -> & ->) & _). lia. }
  assert (fs' = fs) by congruence. subst fs'. destruct (Hf 10%nat ltac:(lia)) as (z & Ez & En). change (2 * 11 - 1)%nat with 21%nat in Ez. change (2 * 10 + 1)%nat with 21%nat in Ez.
  rewrite (moment_top g A SA) in Ez. rewrite En. congruence.
Qed.

(** ** Sums over blocks *)
Lemma zsum_mul n b f : zsum (n * b) f = zsum n (fun i => zsum b (fun p => f (b * i + p)%nat)).
Proof.
  induction n as [|n IH]; [reflexivity|]. cbn [zsum]. rewrite <- IH. clear IH. replace (S n * b)%nat with (n * b + b)%nat by lia. rewrite (Nat.mul_comm b n). generalize (n * b)%nat. intros m.
  induction b as [|b IH]; [rewrite Nat.add_0_r; cbn; lia|]. replace (m + S b)%nat with (S (m + b)) by lia. cbn [zsum]. lia.
Qed.
Lemma zsum_scal n a f : zsum n (fun k => a * f k) = a * zsum n f.
Proof. induction n as [|n IH]; cbn [zsum]; lia. Qed.
Lemma zsum_fold m f : zsum (2 * m) f = zsum m (fun k => f k + f (2 * m - 1 - k)%nat).
Proof.
  rewrite zsum_zsum_plus. assert (S : forall a b, zsum (a + b) f = zsum a f + zsum b (fun k => f (a + k)%nat)).
  { intros a b. induction b as [|b IH]; [rewrite Nat.add_0_r; cbn; lia|]. replace (a + S b)%nat with (Datatypes.S (a + b)) by lia. cbn [zsum]. lia. }
  replace (2 * m)%nat with (m + m)%nat at 1 by lia. rewrite S. f_equal. rewrite <- (zsum_rev m (fun k => f (m + k)%nat)). apply zsum_ext. intros k Hk. f_equal. lia.
Qed.
Lemma zsum2_le n m f g : (forall a b, (a < n)%nat -> (b < m)%nat -> f a b <= g a b) -> zsum n (fun a => zsum m (f a)) <= zsum n (fun a => zsum m (g a)).
Proof. intros H. apply zsum_le. intros a Ha. apply zsum_le. intros b Hb. now apply H. Qed.

Definition axis (b p : nat) : Z := 2 * Z.of_nat (8 * b + p) - 511.

Lemma axis_flip b p : (b < 64)%nat -> (p < 8)%nat -> axis (64 - 1 - b) (8 - 1 - p) = - axis b p.
Proof. intros Hb Hp. unfold axis. lia. Qed.
Lemma gpow_flip x y : (fst (gpow (- x) y 21) = (-1) * fst (gpow x y 21) /\ snd (gpow (- x) y 21) = 1 * snd (gpow x y 21))
  /\ (fst (gpow x (- y) 21) = 1 * fst (gpow x y 21) /\ snd (gpow x (- y) 21) = (-1) * snd (gpow x y 21)).
Proof.
  assert (H : forall m, (fst (gpow (- x) y (2 * m)) = fst (gpow x y (2 * m)) /\ snd (gpow (- x) y (2 * m)) = - snd (gpow x y (2 * m)))
                 /\ (fst (gpow x (- y) (2 * m)) = fst (gpow x y (2 * m)) /\ snd (gpow x (- y) (2 * m)) = - snd (gpow x y (2 * m)))).
  { induction m as [|m IH]; [repeat split|]. replace (2 * S m)%nat with (S (S (2 * m))) by lia. destruct IH as ((A & B) & C & D). rewrite !gpow_S. cbn [fst snd]. rewrite A, B, C, D. repeat split; ring. }
  destruct (H 10%nat) as ((A & B) & C & D). change (2 * 10)%nat with 20%nat in *. rewrite !(gpow_S _ _ 20). cbn [fst snd]. rewrite A, B, C, D. clear. generalize (fst (gpow x y 20)) (snd (gpow x y 20)). intros a b. repeat split; ring.
Qed.

Opaque gpow.
Lemma zsum_opp n f : zsum n (fun k => - f k) = - zsum n f.
Proof. induction n as [|n IH]; cbn [zsum]; lia. Qed.
Lemma flip_rows (G : Z -> Z -> Z) s bi bj : (bi < 64)%nat -> (forall x y, G (- x) y = s * G x y) ->
  zsum 8 (fun p => zsum 8 (fun q => G (axis (64 - 1 - bi) p) (axis bj q))) = s * zsum 8 (fun p => zsum 8 (fun q => G (axis bi p) (axis bj q))).
Proof.
  intros H HG. rewrite <- (zsum_rev 8 (fun p => zsum 8 (fun q => G (axis (64 - 1 - bi) p) (axis bj q)))), <- zsum_scal. apply zsum_ext. intros p Hp. cbv beta. rewrite <- zsum_scal. apply zsum_ext. intros q Hq.
  rewrite axis_flip by assumption. apply HG.
Qed.
Lemma flip_columns (G : Z -> Z -> Z) s bi bj : (bj < 64)%nat -> (forall x y, G x (- y) = s * G x y) ->
  zsum 8 (fun p => zsum 8 (fun q => G (axis bi p) (axis (64 - 1 - bj) q))) = s * zsum 8 (fun p => zsum 8 (fun q => G (axis bi p) (axis bj q))).
Proof.
  intros H HG. rewrite <- zsum_scal. apply zsum_ext. intros p Hp. rewrite <- (zsum_rev 8 (fun q => G (axis bi p) (axis (64 - 1 - bj) q))), <- zsum_scal. apply zsum_ext. intros q Hq. cbv beta.
  rewrite axis_flip by assumption. apply HG.
Qed.
Lemma g_re_flip : (forall x y, g_re (- x) y = (-1) * g_re x y) /\ (forall x y, g_re x (- y) = 1 * g_re x y).
Proof. split; intros x y; [exact (proj1 (proj1 (gpow_flip x y)))|exact (proj1 (proj2 (gpow_flip x y)))]. Qed.
Lemma g_im_flip : (forall x y, g_im (- x) y = 1 * g_im x y) /\ (forall x y, g_im x (- y) = (-1) * g_im x y).
Proof. split; intros x y; [exact (proj2 (proj1 (gpow_flip x y)))|exact (proj2 (proj2 (gpow_flip x y)))]. Qed.
Opaque g_re g_im.
Definition block_re (bi bj : nat) : Z := zsum 8 (fun p => zsum 8 (fun q => g_re (axis bi p) (axis bj q))).
Definition block_im (bi bj : nat) : Z := zsum 8 (fun p => zsum 8 (fun q => g_im (axis bi p) (axis bj q))).

Lemma g_re_21 x y : g_re x y = polynomial re_terms x y. Proof. exact (proj1 (gpow_21 x y)). Qed.
Lemma g_im_21 x y : g_im x y = polynomial im_terms x y. Proof. exact (proj2 (gpow_21 x y)). Qed.
(** A picture that is flat on every block, [v bi bj] being the grey level of a block. *)
Definition flat_blocks (A : array2 Z) (v : nat -> nat -> Z) : Prop := forall bi bj p q, (bi < 64)%nat -> (bj < 64)%nat -> (p < 8)%nat -> (q < 8)%nat -> pixel A (8 * bi + p) (8 * bj + q) = v bi bj.

Lemma sum_blocks (G : Z -> Z -> Z) A v : flat_blocks A v ->
  zsum 512 (fun i => zsum 512 (fun j => pixel A i j * G (2 * Z.of_nat i - 511) (2 * Z.of_nat j - 511)))
  = zsum 64 (fun bi => zsum 64 (fun bj => v bi bj * zsum 8 (fun p => zsum 8 (fun q => G (axis bi p) (axis bj q))))).
Proof.
  intros H. change 512%nat with (64 * 8)%nat at 1. rewrite zsum_mul. apply zsum_ext. intros bi Hi.
  rewrite (zsum_ext 8 _ (fun p => zsum 64 (fun bj => zsum 8 (fun q => v bi bj * G (axis bi p) (axis bj q))))).
  - rewrite zsum_swap. apply zsum_ext. intros bj Hj. rewrite <- zsum_scal. apply zsum_ext. intros p Hp. apply zsum_scal.
  - intros p Hp. change 512%nat with (64 * 8)%nat at 1. rewrite zsum_mul. apply zsum_ext. intros bj Hj. apply zsum_ext. intros q Hq. rewrite H by assumption. reflexivity.
Qed.

(** Any function with the two symmetries, [s] for the rows and [t] for the columns. *)
Lemma fold_quarter (B v : nat -> nat -> Z) s t n h : n = (2 * h)%nat -> (forall bi bj, (bi < n)%nat -> B (n - 1 - bi)%nat bj = s * B bi bj) -> (forall bi bj, (bj < n)%nat -> B bi (n - 1 - bj)%nat = t * B bi bj) ->
  zsum n (fun bi => zsum n (fun bj => v bi bj * B bi bj))
  = zsum h (fun bi => zsum h (fun bj => B bi bj * (v bi bj + t * v bi (n - 1 - bj)%nat + s * (v (n - 1 - bi)%nat bj + t * v (n - 1 - bi)%nat (n - 1 - bj)%nat)))).
Proof.
  intros Hn Hr Hc. assert (F : forall f, zsum n f = zsum h (fun k => f k + f (n - 1 - k)%nat)) by (intros f; rewrite Hn; apply zsum_fold).
  rewrite F. apply zsum_ext. intros bi Hi. rewrite !F, <- zsum_zsum_plus. apply zsum_ext. intros bj Hj. rewrite !Hc, !Hr by lia. ring.
Qed.
Lemma quarter_sum (G : Z -> Z -> Z) s t A v : flat_blocks A v -> (forall x y, G (- x) y = s * G x y) -> (forall x y, G x (- y) = t * G x y) ->
  zsum 512 (fun i => zsum 512 (fun j => pixel A i j * G (2 * Z.of_nat i - 511) (2 * Z.of_nat j - 511)))
  = zsum 32 (fun bi => zsum 32 (fun bj => zsum 8 (fun p => zsum 8 (fun q => G (axis bi p) (axis bj q)))
      * (v bi bj + t * v bi (64 - 1 - bj)%nat + s * (v (64 - 1 - bi)%nat bj + t * v (64 - 1 - bi)%nat (64 - 1 - bj)%nat)))).
Proof.
  intros H Hs Ht. rewrite (sum_blocks G A v H). apply (fold_quarter (fun bi bj => zsum 8 (fun p => zsum 8 (fun q => G (axis bi p) (axis bj q)))) v s t 64 32 eq_refl).
  - intros bi bj Hi. exact (flip_rows G s bi bj Hi Hs).
  - intros bi bj Hj. exact (flip_columns G t bi bj Hj Ht).
Qed.
Lemma quarter_re A v : flat_blocks A v ->
  re_sum A = zsum 32 (fun bi => zsum 32 (fun bj => block_re bi bj * (v bi bj + 1 * v bi (64 - 1 - bj)%nat + (-1) * (v (64 - 1 - bi)%nat bj + 1 * v (64 - 1 - bi)%nat (64 - 1 - bj)%nat)))).
Proof. intros H. unfold re_sum, block_re. apply (quarter_sum g_re (-1) 1 A v H (proj1 g_re_flip) (proj2 g_re_flip)). Qed.
Lemma quarter_im A v : flat_blocks A v ->
  im_sum A = zsum 32 (fun bi => zsum 32 (fun bj => block_im bi bj * (v bi bj + (-1) * v bi (64 - 1 - bj)%nat + 1 * (v (64 - 1 - bi)%nat bj + (-1) * v (64 - 1 - bi)%nat (64 - 1 - bj)%nat)))).
Proof. intros H. unfold im_sum, block_im. apply (quarter_sum g_im 1 (-1) A v H (proj1 g_im_flip) (proj2 g_im_flip)). Qed.

(** ** Computing the coefficients from sums of powers *)
Definition power_sum (b k : nat) : Z := zsum 8 (fun p => axis b p ^ Z.of_nat k).
Lemma block_polynomial l bi bj : zsum 8 (fun p => zsum 8 (fun q => polynomial l (axis bi p) (axis bj q))) = fold_right (fun '(c, i, j) s => c * (power_sum bi i * power_sum bj j) + s) 0 l.
Proof.
  induction l as [|((c, i), j) l IH]; cbn [polynomial fold_right].
  - rewrite (zsum_ext 8 _ (fun _ => 0)); [apply zsum_zero|]. intros. apply zsum_zero.
  - rewrite <- IH. rewrite (zsum_ext 8 _ (fun p => zsum 8 (fun q => c * (axis bi p ^ Z.of_nat i * axis bj q ^ Z.of_nat j)) + zsum 8 (fun q => polynomial l (axis bi p) (axis bj q)))).
    2:{ intros p Hp. rewrite <- zsum_zsum_plus. reflexivity. }
    rewrite zsum_zsum_plus. f_equal. rewrite (zsum_ext 8 _ (fun p => (c * power_sum bj j) * (axis bi p ^ Z.of_nat i))).
    + rewrite zsum_scal. unfold power_sum. ring.
    + intros p Hp. rewrite <- Z.mul_assoc, (Z.mul_comm (power_sum bj j)), Z.mul_assoc. unfold power_sum. rewrite <- zsum_scal. apply zsum_ext. intros q Hq. ring.
Qed.

Fixpoint powers (x acc : Z) (n : nat) : list Z := match n with O => [] | S k => acc :: powers x (acc * x) k end.
Lemma powers_nth x acc n k : (k < n)%nat -> nth k (powers x acc n) 0 = acc * x ^ Z.of_nat k.
Proof.
  revert acc k. induction n as [|n IH]; intros acc k Hk; [lia|]. cbn [powers]. destruct k as [|k]; cbn [nth]; [rewrite Z.pow_0_r; lia|]. rewrite IH by lia. rewrite Nat2Z.inj_succ, Z.pow_succ_r by lia. ring.
Qed.
Fixpoint add_lists (a b : list Z) : list Z := match a, b with x :: a', y :: b' => (x + y) :: add_lists a' b' | _, _ => [] end.
Definition zero_list := repeat 0 22.
Definition power_row (b : nat) : list Z := fold_left (fun acc p => add_lists acc (powers (axis b p) 1 22)) (seq 0 8) zero_list.
Lemma add_lists_ok a b k : length a = length b -> nth k (add_lists a b) 0 = nth k a 0 + nth k b 0 /\ length (add_lists a b) = length a.
Proof.
  revert b k. induction a as [|x a IH]; intros [|y b] k H; try discriminate; [destruct k; split; reflexivity|]. cbn [add_lists length nth]. injection H as H.
  split; [destruct k as [|k]; [reflexivity|apply (IH b k H)]|f_equal; apply (IH b k H)].
Qed.
Lemma powers_length x acc n : length (powers x acc n) = n.
Proof. revert acc. induction n as [|n IH]; intros acc; cbn; [reflexivity|now rewrite IH]. Qed.
Lemma power_row_ok b k : (k < 22)%nat -> nth k (power_row b) 0 = power_sum b k.
Proof.
  intros Hk. assert (H : forall m, let r := fold_left (fun acc p => add_lists acc (powers (axis b p) 1 22)) (seq 0 m) zero_list in
    length r = 22%nat /\ nth k r 0 = zsum m (fun p => axis b p ^ Z.of_nat k)).
  { induction m as [|m IH]; [cbn [seq fold_left zsum]; split; [reflexivity|]; unfold zero_list; revert Hk; clear; intros Hk; do 22 (destruct k as [|k]; [reflexivity|]); lia|].
    rewrite seq_S, fold_left_app. cbn [fold_left plus]. cbv zeta in IH. destruct IH as (L & N). set (r := fold_left _ _ _) in *.
    destruct (add_lists_ok r (powers (axis b m) 1 22) k) as (A & B); [rewrite L, powers_length; reflexivity|]. cbv zeta. split; [now rewrite B|]. rewrite A, N, powers_nth by exact Hk. cbn [zsum]. ring. }
  exact (proj2 (H 8%nat)).
Qed.

Definition from_rows (l : terms) (a b : list Z) : Z := fold_right (fun '(c, i, j) s => c * (nth i a 0 * nth j b 0) + s) 0 l.
Definition small (l : terms) : Prop := Forall (fun '(_, i, j) => (i < 22)%nat /\ (j < 22)%nat) l.
Lemma from_rows_ok l bi bj : small l -> from_rows l (power_row bi) (power_row bj) = fold_right (fun '(c, i, j) s => c * (power_sum bi i * power_sum bj j) + s) 0 l.
Proof. intros H. induction H as [|((c, i), j) l (Hi & Hj) _ IH]; [reflexivity|]. cbn [from_rows fold_right] in *. rewrite !power_row_ok by assumption. f_equal. exact IH. Qed.
Lemma re_small : small re_terms. Proof. unfold small, re_terms. repeat constructor; lia. Qed.
Lemma im_small : small im_terms. Proof. unfold small, im_terms. repeat constructor; lia. Qed.
Lemma block_re_ok bi bj : block_re bi bj = from_rows re_terms (power_row bi) (power_row bj).
Proof. rewrite from_rows_ok by exact re_small. rewrite <- block_polynomial. apply zsum_ext. intros p _. apply zsum_ext. intros q _. apply g_re_21. Qed.
Lemma block_im_ok bi bj : block_im bi bj = from_rows im_terms (power_row bi) (power_row bj).
Proof. rewrite from_rows_ok by exact im_small. rewrite <- block_polynomial. apply zsum_ext. intros p _. apply zsum_ext. intros q _. apply g_im_21. Qed.

(** The coefficients of the upper left quarter, row by row. *)
Definition quarter : list (nat * nat * Z * Z) :=
  let t := map (fun b => (b, power_row b)) (seq 0 32) in
  flat_map (fun '(bi, a) => map (fun '(bj, b) => (bi, bj, from_rows re_terms a b, from_rows im_terms a b)) t) t.
Definition add_up {X} (f : X -> Z) (l : list X) : Z := fold_right (fun x s => f x + s) 0 l.
Lemma add_up_app {X} (f : X -> Z) l l' : add_up f (l ++ l') = add_up f l + add_up f l'.
Proof. induction l as [|x l IH]; cbn [add_up fold_right app] in *; [reflexivity|]. unfold add_up in *. lia. Qed.
Lemma add_up_seq f n : add_up f (seq 0 n) = zsum n f.
Proof. induction n as [|n IH]; [reflexivity|]. rewrite seq_S, add_up_app, IH. cbn. lia. Qed.
Lemma add_up_flat_map {X Y} (g : X -> list Y) (f : Y -> Z) l : add_up f (flat_map g l) = add_up (fun x => add_up f (g x)) l.
Proof. induction l as [|x l IH]; [reflexivity|]. cbn [flat_map]. rewrite add_up_app, IH. reflexivity. Qed.
Lemma add_up_map {X Y} (g : X -> Y) (f : Y -> Z) l : add_up f (map g l) = add_up (fun x => f (g x)) l.
Proof. induction l as [|x l IH]; [reflexivity|]. cbn [map add_up fold_right]. unfold add_up in *. now rewrite IH. Qed.
Lemma zsum_quarter (F : nat -> nat -> Z -> Z -> Z) : zsum 32 (fun bi => zsum 32 (fun bj => F bi bj (block_re bi bj) (block_im bi bj))) = add_up (fun '(bi, bj, r, i) => F bi bj r i) quarter.
Proof.
  unfold quarter. cbv zeta. rewrite add_up_flat_map, add_up_map, add_up_seq. apply zsum_ext. intros bi _. rewrite map_map, add_up_map, add_up_seq. apply zsum_ext. intros bj _.
  now rewrite <- block_re_ok, <- block_im_ok.
Qed.
