(** Accuracy of the binary64 Zernike features: one matrix element. *)
From Coq Require Import Reals Lra Psatz.
From Flocq Require Import Core BinarySingleNaN.
From Coquelicot Require Import Complex.
From Verif Require Import Outcome Floats FloatFacts IndexArithProofs Matrix MatrixFacts HaarReal Zernike ZernikeProofs PropsZernike ZernikeBound PropsZernike2 ZernikeGen ZernikeF64 RelError LibmSpec ZernikeAcc ZernikeAcc2 ZernikeAcc3 ZernikeAcc4.
Open Scope R_scope.

(** ** trigonometry *)
Lemma sin_le_abs x : Rabs (sin x) <= Rabs x.
Proof.
  assert (H : forall y, 0 < y -> Rabs (sin y) <= y).
  { intros y Hy. destruct (Rle_dec y 1) as [H1|H1].
    - pose proof (sin_lt_x y Hy). pose proof PI_bounds. assert (0 <= sin y) by (apply sin_ge_0; lra). rewrite Rabs_pos_eq; lra.
    - pose proof (SIN_bound y). apply Rabs_le. lra. }
  destruct (Rtotal_order x 0) as [Hx|[->|Hx]].
  - replace x with (- (- x)) at 1 by ring. rewrite sin_neg, Rabs_Ropp, (Rabs_left x) by exact Hx. apply H. lra.
  - rewrite sin_0. lra.
  - rewrite (Rabs_pos_eq x) by lra. now apply H.
Qed.
Lemma cos_lip x y : Rabs (cos x - cos y) <= Rabs (x - y).
Proof.
  rewrite form2. rewrite !Rabs_mult, (Rabs_left (-2)) by lra. pose proof (sin_le_abs ((x - y) / 2)) as H. unfold Rdiv in H at 2. rewrite Rabs_mult, (Rabs_pos_eq (/ 2)) in H by lra.
  assert (Rabs (sin ((x + y) / 2)) <= 1) by (apply Rabs_le; apply SIN_bound). pose proof (Rabs_pos (sin ((x - y) / 2))). pose proof (Rabs_pos (sin ((x + y) / 2))). nra.
Qed.
Lemma sin_lip x y : Rabs (sin x - sin y) <= Rabs (x - y).
Proof.
  rewrite form4. rewrite !Rabs_mult, (Rabs_pos_eq 2) by lra. pose proof (sin_le_abs ((x - y) / 2)) as H. unfold Rdiv in H at 2. rewrite Rabs_mult, (Rabs_pos_eq (/ 2)) in H by lra.
  assert (Rabs (cos ((x + y) / 2)) <= 1) by (apply Rabs_le; apply COS_bound). pose proof (Rabs_pos (sin ((x - y) / 2))). pose proof (Rabs_pos (cos ((x + y) / 2))). nra.
Qed.
Lemma cpow_lip z w m : Cmod z = 1 -> Cmod w = 1 -> Cmod (cpow z m - cpow w m)%C <= INR m * Cmod (z - w)%C.
Proof.
  intros Hz Hw. induction m as [|m IH].
  - replace (cpow z 0 - cpow w 0)%C with (RtoC 0) by (cbn; unfold Cminus; rewrite Cplus_opp_r; reflexivity). rewrite Cmod_0. cbn [INR]. lra.
  - change (cpow z (S m)) with (cpow z m * z)%C. change (cpow w (S m)) with (cpow w m * w)%C. replace (cpow z m * z - cpow w m * w)%C with (z * (cpow z m - cpow w m) + (z - w) * cpow w m)%C by (unfold Cminus; ring).
    eapply Rle_trans; [apply Cmod_triangle|]. rewrite !Cmod_mult, Hz, (cpow_unit w m Hw), S_INR. lra.
Qed.
Lemma comp_le_Cmod (z : C) : Rabs (fst z) <= Cmod z /\ Rabs (snd z) <= Cmod z.
Proof. pose proof (Rmax_Cmod z). pose proof (Rmax_l (Rabs (fst z)) (Rabs (snd z))). pose proof (Rmax_r (Rabs (fst z)) (Rabs (snd z))). lra. Qed.
Lemma Cmod_le_sum (z : C) : Cmod z <= Rabs (fst z) + Rabs (snd z).
Proof.
  unfold Cmod. pose proof (Rabs_pos (fst z)). pose proof (Rabs_pos (snd z)). rewrite <- (sqrt_pow2 (Rabs (fst z) + Rabs (snd z))) by lra.
  apply sqrt_le_1_alt. rewrite <- (pow2_abs (fst z)), <- (pow2_abs (snd z)). nra.
Qed.

Section Acc5.
Context (M : libm b64) (HM : accurate M) (g : b64 -> b64).

(** the index computation of calc.rs:73-75 *)
Lemma row_of_index n i j : (2 <= Z.of_nat n <= 65536)%Z -> (i < n)%nat -> (j < n)%nat ->
  is_int (f_add Bops (f_floor Bops (f_div Bops (f_of_Z Bops (Z.of_nat (i * n + j))) (f_of_Z Bops (Z.of_nat n)))) (f_of_Z Bops 1)) (Z.of_nat i + 1).
Proof.
  intros Hn Hi Hj. assert (HA : (0 <= Z.of_nat (i * n + j) < 2 ^ 53)%Z) by nia.
  destruct (int_of_Z (Z.of_nat (i * n + j)) ltac:(lia)) as (Fa & Va). destruct (int_of_Z (Z.of_nat n) ltac:(lia)) as (Fb & Vb).
  assert (HB : 0 < IZR (Z.of_nat n)) by (apply IZR_lt; lia).
  destruct (b_div_ok _ (f_of_Z Bops (Z.of_nat n)) Fa) as (Fd & Vd); [rewrite Vb; lra|rewrite Va, Vb; apply quot_small; lia|].
  rewrite Va, Vb in Vd. destruct (b_floor_ok _ Fd) as (Ff & Vf). pose proof (rnd_quot_bounds (Z.of_nat (i * n + j)) (Z.of_nat n) HA ltac:(lia)) as H.
  replace (Z.of_nat (i * n + j) / Z.of_nat n)%Z with (Z.of_nat i) in H by (apply Z.div_unique with (Z.of_nat j); nia).
  apply int_add; [|apply int_of_Z; lia|lia]. split; [exact Ff|]. rewrite Vf, Vd. f_equal. apply Zfloor_imp. now rewrite plus_IZR.
Qed.

Definition delta : R := 1001 / 1000 / 1048576.
Lemma element_acc k q n i j : (k <= 10)%nat -> (q <= k)%nat -> let a := (k + q + 1)%nat in let b := (k - q)%nat in
  (2 <= Z.of_nat n <= 65536)%Z -> (i < n)%nat -> (j < n)%nat ->
  exists z, g_element Bops M g (a + b) (a - b) n (i * n + j) = Ok z
    /\ app delta (fst z) (fst (kern a n b i j)) /\ app delta (snd z) (snd (kern a n b i j)).
Proof.
  intros Hk Hq a b Hn Hi Hj. unfold g_element.
  replace (Nat.modulo (i * n + j) n) with j by (rewrite Nat.add_comm, Nat.mod_add, Nat.mod_small by lia; reflexivity).
  pose proof (row_of_index n i j Hn Hi Hj) as HX. set (X := f_add Bops (f_floor Bops _) _) in *.
  assert (HY : is_int (f_of_Z Bops (Z.of_nat (j + 1))) (Z.of_nat j + 1)) by (rewrite Nat2Z.inj_add; apply int_of_Z; lia).
  destruct (polar_acc M HM n i j X _ Hn Hi Hj HX HY) as (r & t & Ep & Fr & Ft & Rr & Bt & Hang). rewrite Ep.
  pose proof (radius_le_1 n i j ltac:(lia) Hi Hj) as Hrho.
  assert (Hz : radius n i j = 0 \/ / 131072 <= radius n i j).
  { destruct (radius_ge n i j Hn) as [(E1 & E2)|H]; [left|right; exact H]. unfold radius. rewrite E1, E2, !pow_i, Rplus_0_l, sqrt_0 by lia. reflexivity. }
  unfold g_v. destruct (radial_acc M HM g k q r (radius n i j) Hk Hq Fr Rr Hrho Hz) as (R & ER & AR). fold a b in ER, AR. rewrite ER. cbn [bind].
  eexists. split; [reflexivity|]. unfold cx_conj, cx_scale, cx_exp, cx_mulr, g_I. cbn [fst snd].
  set (m := (a - b)%nat). assert (Hm : (1 <= m <= 21)%nat) by (unfold m, a, b; lia).
  pose proof u53_pos as U. pose proof eta_le as ET. pose proof eta_pos as EP.
  assert (U2 : u53 <= / 1000000000000000) by (rewrite u53_val; lra).
  (* real part of the exponent *)
  assert (H0 : is_int (f_mul Bops (f_of_Z Bops 0) (f_of_Z Bops (Z.of_nat m))) 0).
  { apply (int_mul _ _ 0 (Z.of_nat m)); [apply int_of_Z; lia|apply int_of_Z; lia|lia]. }
  destruct H0 as (F0 & V0). set (z0 := f_mul Bops (f_of_Z Bops 0) (f_of_Z Bops (Z.of_nat m))) in *.
  destruct (b_mul_ok z0 t F0 Ft) as (F1 & V1). { rewrite V0, Rmult_0_l. apply (small_IZR 0). lia. }
  rewrite V0, Rmult_0_l, rnd_0 in V1.
  destruct (acc_exp M HM (f_mul Bops z0 t) F1) as (Fe & Ee). { rewrite V1, Rabs_R0. lra. }
  rewrite V1, exp_0, Rmult_1_r, eps_u in Ee. set (e := l_exp M (f_mul Bops z0 t)) in *.
  (* imaginary part *)
  assert (H1 : is_int (f_mul Bops (f_of_Z Bops 1) (f_of_Z Bops (Z.of_nat m))) (Z.of_nat m)).
  { replace (Z.of_nat m) with (1 * Z.of_nat m)%Z at 2 by lia. apply int_mul; [apply int_of_Z; lia|apply int_of_Z; lia|lia]. }
  destruct H1 as (F2 & V2). set (z1 := f_mul Bops (f_of_Z Bops 1) (f_of_Z Bops (Z.of_nat m))) in *.
  rewrite <- INR_IZR_INZ in V2.
  assert (Im : 1 <= INR m <= 21).
  { split; [replace 1 with (INR 1) by reflexivity|replace 21 with (INR 21) by (rewrite INR_IZR_INZ; reflexivity)]; apply le_INR; lia. }
  assert (Bz : Rabs (toR z1 * toR t) <= 84).
  { rewrite Rabs_mult, V2, (Rabs_pos_eq (INR m)) by lra. pose proof (Rabs_pos (toR t)). nra. }
  destruct (b_mul_ok z1 t F2 Ft) as (F3 & V3). { apply small_1000. lra. }
  assert (E3 : Rabs (toR (f_mul Bops z1 t) - INR m * toR t) <= 85 * u53).
  { rewrite V3, V2. pose proof (rnd_err (INR m * toR t)) as H. rewrite V2 in Bz. nra. }
  set (al := f_mul Bops z1 t) in *.
  assert (Bal : Rabs (toR al) <= 100).
  { replace (toR al) with (toR al - INR m * toR t + INR m * toR t) by ring. eapply Rle_trans; [apply Rabs_triang|]. rewrite V2 in Bz. lra. }
  destruct (acc_cos M HM al F3 Bal) as (Fc & Ec). destruct (acc_sin M HM al F3 Bal) as (Fs & Es). rewrite eps_u in Ec, Es.
  assert (HR1 : Rabs (Rad a b (radius n i j)) <= 1) by (apply Rad_le_1; [unfold a, b; lia|exact Hrho]).
  assert (P : forall x Y, app (806 * u53) x Y -> Rabs Y <= 1 -> app delta (f_mul Bops R (f_mul Bops e x)) (Rad a b (radius n i j) * Y)).
  { intros x Y Ax BY. assert (Ae : app (4 * u53) e 1) by (split; [exact Fe|exact Ee]).
    pose proof (app_mul _ _ e x 1 Y 1 1 Ae Ax ltac:(rewrite Rabs_R1; lra) BY ltac:(unfold big; nra)) as A1. rewrite !Rmult_1_l in A1.
    assert (A2 : app (820 * u53) (f_mul Bops e x) Y).
    { eapply app_weaken; [|exact A1]. assert (4 * u53 * (806 * u53) <= u53) by nra. assert (u53 * (Rabs Y + (4 * u53 * 1 + 806 * u53 + 4 * u53 * (806 * u53))) <= u53 * 2) by (apply Rmult_le_compat_l; lra). lra. }
    pose proof (app_mul _ _ R _ _ Y 1 1 AR A2 HR1 BY) as A3. change (bpow radix2 (-20)) with (/ 1048576) in A3.
    specialize (A3 ltac:(unfold big; nra)). eapply app_weaken; [|exact A3]. unfold delta. rewrite Rabs_mult. pose proof (Rabs_pos Y). pose proof (Rabs_pos (Rad a b (radius n i j))).
    assert (Rabs (Rad a b (radius n i j)) * Rabs Y <= 1) by nra.
    assert (u53 * (Rabs (Rad a b (radius n i j)) * Rabs Y + (/ 1048576 * 1 + 1 * (820 * u53) + / 1048576 * (820 * u53))) <= u53 * 2) by (apply Rmult_le_compat_l; lra).
    lra. }
  unfold kern, zval. cbv zeta. fold (radius n i j). unfold Cscale, Cconj. cbn [fst snd]. fold m.
  rewrite Ropp_mult_distr_r_reverse.
  destruct Hang as [Er|(al0 & B0 & Ea & Eca & Esa)].
  - rewrite Er in P |- *. assert (Hr0 : Rad a b 0 = 0) by (apply Rad_0; unfold a, b; lia). rewrite Hr0 in P |- *. split; [|apply app_neg].
    + replace (0 * fst (cpow _ m)) with (0 * cos (toR al)) by ring. apply P; [split; [exact Fc|lra]|apply Rabs_le, COS_bound].
    + replace (0 * snd (cpow _ m)) with (0 * sin (toR al)) by ring. apply P; [split; [exact Fs|lra]|apply Rabs_le, SIN_bound].
  - assert (Hnz : radius n i j <> 0 \/ radius n i j = 0) by tauto. destruct Hnz as [Hnz|Er].
    2:{ rewrite Er in P |- *. assert (Hr0 : Rad a b 0 = 0) by (apply Rad_0; unfold a, b; lia). rewrite Hr0 in P |- *. split; [|apply app_neg].
    + replace (0 * fst (cpow _ m)) with (0 * cos (toR al)) by ring. apply P; [split; [exact Fc|lra]|apply Rabs_le, COS_bound].
    + replace (0 * snd (cpow _ m)) with (0 * sin (toR al)) by ring. apply P; [split; [exact Fs|lra]|apply Rabs_le, SIN_bound]. }
    set (rho := radius n i j) in *. set (x := coord n i) in *. set (y := coord n j) in *.
    assert (Hu1 : Cmod (x / rho, y / rho) = 1).
    { unfold Cmod. cbn [fst snd]. replace ((x / rho) ^ 2 + (y / rho) ^ 2) with ((x ^ 2 + y ^ 2) / (rho * rho)) by (field; exact Hnz).
      replace (x ^ 2 + y ^ 2) with (rho * rho) by (unfold rho, radius; rewrite sqrt_sqrt by apply sq_nonneg; reflexivity).
      unfold Rdiv. rewrite Rinv_r, sqrt_1; [reflexivity|]. intros Z. apply Rmult_integral in Z. tauto. }
    assert (Hu2 : Cmod (cos al0, sin al0) = 1).
    { unfold Cmod. cbn [fst snd]. rewrite <- !Rsqr_pow2, Rplus_comm, sin2_cos2. apply sqrt_1. }
    set (u0 := (cos al0, sin al0) : C) in *. set (u1 := (x / rho, y / rho) : C) in *. set (um := (cos (INR m * al0), sin (INR m * al0)) : C) in *.
    pose proof (cpow_lip u0 u1 m Hu2 Hu1) as HL. replace (cpow u0 m) with um in HL by apply de_moivre.
    assert (HD : Cmod (u0 - u1)%C <= 18 * u53).
    { eapply Rle_trans; [apply Cmod_le_sum|]. unfold u0, u1; cbn [fst snd Cminus Cplus Copp]. fold (Rminus (cos al0) (x / rho)). fold (Rminus (sin al0) (y / rho)). lra. }
    assert (HD2 : Cmod (um - cpow u1 m)%C <= 378 * u53).
    { eapply Rle_trans; [exact HL|]. pose proof (Cmod_ge_0 (u0 - u1)%C). nra. }
    pose proof (comp_le_Cmod (um - cpow u1 m)%C) as (HC1 & HC2).
    set (p := cpow u1 m) in *. pose proof (Rle_trans _ _ _ HC1 HD2) as HC3. pose proof (Rle_trans _ _ _ HC2 HD2) as HC4. unfold um in HC3, HC4; cbn [fst snd Cminus Cplus Copp] in HC3, HC4.
    pose proof (comp_le_Cmod p) as (Bp1 & Bp2). assert (Hp : Cmod p = 1) by (apply cpow_unit; exact Hu1). rewrite Hp in Bp1, Bp2.
    assert (Eal : Rabs (toR al - INR m * al0) <= 421 * u53 + u53).
    { replace (toR al - INR m * al0) with ((toR al - INR m * toR t) + INR m * (toR t - al0)) by ring. eapply Rle_trans; [apply Rabs_triang|].
      rewrite Rabs_mult, (Rabs_pos_eq (INR m)) by lra.
      assert (E49 : bpow radix2 (-49) = 16 * u53). { unfold u53. change (-49)%Z with (4 + -53)%Z. rewrite bpow_plus. change (bpow radix2 4) with 16. reflexivity. }
      rewrite E49 in Ea. pose proof (Rabs_pos (toR t - al0)). nra. }
    pose proof (cos_lip (toR al) (INR m * al0)) as Lc. pose proof (sin_lip (toR al) (INR m * al0)) as Ls.
    split; [|apply app_neg]; apply P; try assumption; (split; [assumption|]).
    + replace (toR (l_cos M al) - fst p) with ((toR (l_cos M al) - cos (toR al)) + (cos (toR al) - cos (INR m * al0)) + (cos (INR m * al0) + - fst p)) by ring.
      eapply Rle_trans; [apply Rabs_triang|]. eapply Rle_trans; [apply Rplus_le_compat_r, Rabs_triang|]. lra.
    + replace (toR (l_sin M al) - snd p) with ((toR (l_sin M al) - sin (toR al)) + (sin (toR al) - sin (INR m * al0)) + (sin (INR m * al0) + - snd p)) by ring.
      eapply Rle_trans; [apply Rabs_triang|]. eapply Rle_trans; [apply Rplus_le_compat_r, Rabs_triang|]. lra.
Qed.
End Acc5.
