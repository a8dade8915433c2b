(** Accuracy of the binary64 Zernike features: geometry and radial values. *)
From Coq Require Import Reals Lra Psatz.
From Flocq Require Import Core BinarySingleNaN.
From Coquelicot Require Import Complex.
From Verif Require Import Outcome Floats FloatFacts IndexArithProofs Matrix MatrixFacts HaarReal HaarFloat Zernike ZernikeProofs PropsZernike ZernikeBound PropsZernike2 ZernikeGen ZernikeF64 RelError LibmSpec.
Open Scope R_scope.

Lemma eps_u : eps = 4 * u53.
Proof. unfold eps, u53. change (-51)%Z with (2 + -53)%Z. rewrite bpow_plus. change (bpow radix2 2) with 4. ring. Qed.
Lemma rel_eps a x : Rabs (a - x) <= eps * Rabs x -> rel 4 a x.
Proof. intros H. apply rel_of_err; [simpl; lra|]. rewrite eps_u in H. exact H. Qed.

(** ** small facts *)
Lemma bpow_tiny : bpow radix2 (-1000) <= / 2 ^ 900.
Proof.
  change (-1000)%Z with (-100 + -900)%Z. rewrite bpow_plus.
  assert (E : bpow radix2 (-900) = / 2 ^ 900).
  { rewrite bpow_opp with (e := 900%Z). f_equal. rewrite bpow_powerRZ. simpl IZR. change 900%Z with (Z.of_nat 900). now rewrite <- pow_powerRZ. }
  rewrite E. assert (bpow radix2 (-100) <= 1) by (apply Rle_trans with (bpow radix2 0); [apply bpow_le; lia|simpl; lra]).
  assert (0 < / 2 ^ 900) by (apply Rinv_0_lt_compat, pow_lt; lra). pose proof (bpow_gt_0 radix2 (-100)). nra.
Qed.
Lemma tiny_le x k : (k <= 900)%nat -> / 2 ^ k <= Rabs x -> bpow radix2 (-1000) <= Rabs x.
Proof.
  intros Hk H. eapply Rle_trans; [apply bpow_tiny|]. eapply Rle_trans; [|exact H]. apply Rinv_le_contravar; [apply pow_lt; lra|].
  apply Rle_pow; [lra|exact Hk].
Qed.
Lemma small_1000 x : Rabs x <= 1000000000000000000000000000000 -> small x.
Proof.
  intros H. apply small_le with 100%Z; [lia|]. eapply Rle_trans; [exact H|]. change (bpow radix2 100) with (IZR (2 ^ 100)). apply IZR_le. lia.
Qed.

(** ** coordinates *)
Lemma sqrt1_2_rel : fin b_sqrt1_2 /\ rel 2 (toR b_sqrt1_2) cc.
Proof.
  destruct sqrt1_2_ok as (F1 & H). split; [exact F1|]. apply rel_of_err; [simpl; lra|].
  assert (Hc : / 2 <= cc). { pose proof cc_sq. pose proof cc_pos. nra. }
  rewrite (Rabs_pos_eq cc) by lra. pose proof u53_pos. nra.
Qed.
Lemma cc_ge : / 2 <= cc. Proof. pose proof cc_sq. pose proof cc_pos. nra. Qed.

Lemma coord_J n i : (2 <= n)%nat -> coord n i = cc * IZR (Z.of_nat n - 1 - 2 * Z.of_nat i) / IZR (1 - Z.of_nat n).
Proof.
  intros Hn. apply INR2 in Hn. rewrite !minus_IZR, mult_IZR, <- !INR_IZR_INZ. unfold coord, cc. pose proof sqrt2_pos. field. lra.
Qed.
Lemma coordinate_acc n i x : (2 <= Z.of_nat n <= 65536)%Z -> (i < n)%nat -> is_int x (Z.of_nat i + 1) ->
  fin (g_coordinate Bops x n) /\ rel 4 (toR (g_coordinate Bops x n)) (coord n i).
Proof.
  intros Hn Hi Hx. unfold g_coordinate. change (f_sqrt1_2 Bops) with b_sqrt1_2.
  assert (H1 : is_int (f_of_Z Bops 1) 1) by (apply int_of_Z; lia).
  assert (H2 : is_int (f_of_Z Bops 2) 2) by (apply int_of_Z; lia).
  assert (HN : is_int (f_of_Z Bops (Z.of_nat n)) (Z.of_nat n)) by (apply int_of_Z; lia).
  assert (HJ := int_sub _ _ _ _ (int_add _ _ _ _ H1 HN ltac:(lia)) (int_mul _ _ _ _ H2 Hx ltac:(lia)) ltac:(lia)).
  assert (HD := int_sub _ _ _ _ H1 HN ltac:(lia)).
  set (j := f_sub Bops (f_add Bops _ _) _) in *. set (d := f_sub Bops _ (f_of_Z Bops (Z.of_nat n))) in *.
  set (J := (1 + Z.of_nat n - 2 * (Z.of_nat i + 1))%Z) in *. set (D := (1 - Z.of_nat n)%Z) in *.
  destruct sqrt1_2_rel as (Fc & Rc). destruct HJ as (Fj & Vj). destruct HD as (Fd & Vd).
  assert (BJ : Rabs (IZR J) <= 65536) by (rewrite <- abs_IZR; apply IZR_le; unfold J; lia).
  assert (BD : 1 <= Rabs (IZR D)) by (rewrite <- abs_IZR; apply IZR_le; unfold D; lia).
  assert (ZD : IZR D <> 0) by (intros E; rewrite E, Rabs_R0 in BD; lra).
  assert (Cb : Rabs (toR b_sqrt1_2) <= 1).
  { eapply Rle_trans; [apply (rel_abs_le 2 _ cc); [simpl; lra|exact Rc]|]. rewrite Rabs_pos_eq by (pose proof cc_pos; lra). pose proof cc_le. lra. }
  pose proof cc_ge as Cg.
  destruct (b_mul_ok b_sqrt1_2 j Fc Fj) as (F1 & V1).
  { apply small_1000. rewrite Vj, Rabs_mult. pose proof (Rabs_pos (IZR J)). pose proof (Rabs_pos (toR b_sqrt1_2)). nra. }
  assert (R0 : rel 2 (toR b_sqrt1_2 * toR j) (cc * IZR J)).
  { rewrite Vj. replace 2 with (2 + 0) by ring. apply rel_mul; [exact Rc|apply rel_refl]. }
  assert (Nz : J = 0%Z \/ 1 <= Rabs (IZR J)).
  { destruct (Z.eq_dec J 0) as [->|H]; [left; reflexivity|right]. rewrite <- abs_IZR. apply IZR_le. lia. }
  assert (R1 : rel 3 (toR (f_mul Bops b_sqrt1_2 j)) (cc * IZR J)).
  { rewrite V1. replace 3 with (1 + 2) by ring. eapply rel_trans; [|exact R0]. apply rel_rnd. destruct Nz as [E|H].
    - left. rewrite Vj, E. ring.
    - right. apply tiny_le with 3%nat; [lia|]. eapply Rle_trans; [|apply (rel_abs_ge 2 _ (cc * IZR J)); [simpl; lra|exact R0]].
      rewrite Rabs_mult, (Rabs_pos_eq cc) by lra. simpl (/ 2 ^ 3). nra. }
  assert (R2 : rel 3 (toR (f_mul Bops b_sqrt1_2 j) / toR d) (coord n i)).
  { rewrite Vd. rewrite coord_J by lia. replace (Z.of_nat n - 1 - 2 * Z.of_nat i)%Z with J by (unfold J; lia). fold D.
    replace 3 with (3 + 0) by ring. apply rel_div; [exact ZD|exact R1|apply rel_refl]. }
  destruct (b_div_ok (f_mul Bops b_sqrt1_2 j) d F1) as (F2 & V2).
  { rewrite Vd. exact ZD. }
  { apply small_1000. eapply Rle_trans; [apply (rel_abs_le 3 _ (coord n i)); [simpl; lra|exact R2]|].
    pose proof (coord_bound n i ltac:(lia) Hi) as Hc. fold cc in Hc. pose proof cc_le. lra. }
  split; [exact F2|]. rewrite V2. replace 4 with (1 + 3) by ring. eapply rel_trans; [|exact R2]. apply rel_rnd.
  destruct Nz as [E|H].
  - left. assert (Z0 : cc * IZR J = 0) by (rewrite E; ring). rewrite Z0 in R1. apply rel_zero in R1. rewrite R1. unfold Rdiv. ring.
  - right. apply tiny_le with 30%nat; [lia|]. eapply Rle_trans; [|apply (rel_abs_ge 3 _ (coord n i)); [simpl; lra|exact R2]].
    rewrite coord_J by lia. replace (Z.of_nat n - 1 - 2 * Z.of_nat i)%Z with J by (unfold J; lia). fold D.
    unfold Rdiv. rewrite !Rabs_mult, Rabs_inv, (Rabs_pos_eq cc) by lra.
    assert (BD2 : Rabs (IZR D) <= 65536) by (rewrite <- abs_IZR; apply IZR_le; unfold D; lia).
    assert (HI : / 65536 <= / Rabs (IZR D)) by (apply Rinv_le_contravar; lra).
    assert (0 < / 65536) by lra. assert (/ 2 <= cc * Rabs (IZR J)) by nra.
    simpl (2 ^ 30). assert (/ 2 * / 65536 <= cc * Rabs (IZR J) * / Rabs (IZR D)) by nra. lra.
Qed.
Lemma coord_zero_or n i : (2 <= Z.of_nat n <= 65536)%Z -> coord n i = 0 \/ / 131072 <= Rabs (coord n i).
Proof.
  intros Hn. rewrite coord_J by lia. set (J := (Z.of_nat n - 1 - 2 * Z.of_nat i)%Z). set (D := (1 - Z.of_nat n)%Z).
  destruct (Z.eq_dec J 0) as [->|H]; [left; unfold Rdiv; ring|right].
  unfold Rdiv. pose proof cc_ge. rewrite !Rabs_mult, Rabs_inv, (Rabs_pos_eq cc) by lra.
  assert (1 <= Rabs (IZR J)) by (rewrite <- abs_IZR; apply IZR_le; lia).
  assert (BD : 1 <= Rabs (IZR D)) by (rewrite <- abs_IZR; apply IZR_le; unfold D; lia).
  assert (BD2 : Rabs (IZR D) <= 65536) by (rewrite <- abs_IZR; apply IZR_le; unfold D; lia).
  assert (HI : / 65536 <= / Rabs (IZR D)) by (apply Rinv_le_contravar; lra).
  assert (/ 2 <= cc * Rabs (IZR J)) by nra. nra.
Qed.

(** ** radius and angle *)
Lemma f_eq_B (x y : b64) : fin x -> fin y -> f_eq Bops x y = Req_bool (toR x) (toR y).
Proof.
  intros Fx Fy. unfold f_eq. rewrite !b_ge_ok by assumption. destruct (Req_bool_spec (toR x) (toR y)) as [->|H].
  - rewrite !Rle_bool_true by lra. reflexivity.
  - destruct (Rle_bool_spec (toR y) (toR x)) as [H1|H1]; [|reflexivity]. destruct (Rle_bool_spec (toR x) (toR y)) as [H2|H2]; [lra|reflexivity].
Qed.
Definition radius (n i j : nat) : R := sqrt (coord n i ^ 2 + coord n j ^ 2).
Lemma sq_nonneg x y : 0 <= x ^ 2 + y ^ 2. Proof. pose proof (pow2_ge_0 x). pose proof (pow2_ge_0 y). lra. Qed.
Lemma radius_le_1 n i j : (2 <= n)%nat -> (i < n)%nat -> (j < n)%nat -> 0 <= radius n i j <= 1.
Proof.
  intros Hn Hi Hj. split; [apply sqrt_pos|]. rewrite <- sqrt_1. apply sqrt_le_1_alt.
  assert (H : forall i, (i < n)%nat -> coord n i ^ 2 <= / 2).
  { clear i j Hi Hj. intros i Hi. pose proof (coord_bound n i Hn Hi) as B. fold cc in B. rewrite <- cc_sq. apply Rabs_le_inv in B. nra. }
  pose proof (H i Hi). pose proof (H j Hj). lra.
Qed.
Lemma radius_ge n i j : (2 <= Z.of_nat n <= 65536)%Z -> (coord n i = 0 /\ coord n j = 0) \/ / 131072 <= radius n i j.
Proof.
  intros Hn. destruct (coord_zero_or n i Hn) as [E1|H1]; [destruct (coord_zero_or n j Hn) as [E2|H2]; [left; auto|right]|right].
  - unfold radius. rewrite E1, pow_i, Rplus_0_l by lia. replace (coord n j ^ 2) with (Rsqr (coord n j)) by (unfold Rsqr; ring). rewrite sqrt_Rsqr_abs. exact H2.
  - unfold radius. eapply Rle_trans; [exact H1|]. rewrite <- sqrt_Rsqr_abs. apply sqrt_le_1_alt. unfold Rsqr. pose proof (pow2_ge_0 (coord n j)). lra.
Qed.
Lemma rel_le_1 k a x : 0 <= k <= 200 -> rel k a x -> Rabs x <= 1 -> Rabs (a - x) <= (k + / 1) * u53.
Proof.
  intros Hk H Hx. assert (Hk2 : 0 <= k <= IZR (2 ^ 40)) by (split; [lra|]; change (2 ^ 40)%Z with 1099511627776%Z; lra).
  pose proof (rel_err k a x Hk2 H) as E. pose proof u53_pos. pose proof (Rabs_pos x).
  eapply Rle_trans; [exact E|]. rewrite Rinv_1. apply Rle_trans with (k * (u53 * (257 / 256)) * 1); [apply Rmult_le_compat_l; [nra|exact Hx]|]. nra.
Qed.

Section Acc.
Context (M : libm b64) (HM : accurate M).

Lemma polar_acc n i j X Y : (2 <= Z.of_nat n <= 65536)%Z -> (i < n)%nat -> (j < n)%nat ->
  is_int X (Z.of_nat i + 1) -> is_int Y (Z.of_nat j + 1) ->
  exists r t, g_to_polar Bops M X Y n = (r, t) /\ fin r /\ fin t /\ rel 11 (toR r) (radius n i j) /\ Rabs (toR t) <= 4
    /\ (radius n i j = 0 \/
        exists a, Rabs a <= PI /\ Rabs (toR t - a) <= bpow radix2 (-49)
          /\ Rabs (cos a - coord n i / radius n i j) <= 9 * u53 /\ Rabs (sin a - coord n j / radius n i j) <= 9 * u53).
Proof.
  intros Hn Hi Hj HX HY. destruct (coordinate_acc n i X Hn Hi HX) as (Fx & Rx). destruct (coordinate_acc n j Y Hn Hj HY) as (Fy & Ry).
  unfold g_to_polar. set (x := g_coordinate Bops X n) in *. set (y := g_coordinate Bops Y n) in *.
  destruct (b_of_Z_ok 0) as (F0 & V0); [lia|]. change (b_of_Z 0) with (f_of_Z Bops 0) in F0, V0.
  destruct (b_of_Z_ok 2) as (F2 & V2); [lia|]. change (b_of_Z 2) with (f_of_Z Bops 2) in F2, V2.
  rewrite !f_eq_B by assumption. rewrite V0. change (IZR 0) with 0.
  set (cx := coord n i) in *. set (cy := coord n j) in *.
  pose proof (radius_le_1 n i j ltac:(lia) Hi Hj) as Hr1.
  destruct (radius_ge n i j Hn) as [(E1 & E2)|Hr].
  - fold cx in E1. fold cy in E2. rewrite E1 in Rx. rewrite E2 in Ry. apply rel_zero in Rx, Ry. rewrite Rx, Ry, !Req_bool_true by reflexivity. cbn [andb].
    assert (Er : radius n i j = 0) by (unfold radius; fold cx cy; rewrite E1, E2, !pow_i, Rplus_0_l, sqrt_0 by lia; reflexivity).
    exists (f_of_Z Bops 0), (f_of_Z Bops 0). rewrite V0, Er. split; [reflexivity|]. split; [exact F0|]. split; [exact F0|].
    split; [apply rel_weaken with 0; [lra|apply rel_refl]|]. split; [rewrite Rabs_R0; lra|left; reflexivity].
  - assert (Hne : ~ (cx = 0 /\ cy = 0)).
    { intros (E1 & E2). unfold radius in Hr. fold cx cy in Hr. rewrite E1, E2, !pow_i, Rplus_0_l, sqrt_0 in Hr by lia. lra. }
    assert (Hne' : ~ (toR x = 0 /\ toR y = 0)).
    { intros (E1 & E2). apply Hne. split.
      - destruct (Req_dec cx 0) as [E|E]; [exact E|]. now pose proof (rel_nonzero _ _ _ Rx E).
      - destruct (Req_dec cy 0) as [E|E]; [exact E|]. now pose proof (rel_nonzero _ _ _ Ry E). }
    assert (Eb : (Req_bool (toR x) 0 && Req_bool (toR y) 0)%bool = false).
    { destruct (Req_bool_spec (toR x) 0) as [A|A]; [|reflexivity]. destruct (Req_bool_spec (toR y) 0) as [B|B]; [tauto|reflexivity]. }
    rewrite Eb.
    assert (P : forall (z : b64) (c : R), fin z -> rel 4 (toR z) c -> Rabs c <= 1 -> c = 0 \/ / 131072 <= Rabs c ->
      fin (l_powf M z (f_of_Z Bops 2)) /\ rel 12 (toR (l_powf M z (f_of_Z Bops 2))) (c ^ 2)).
    { intros z c Fz Rz Bc Hz. destruct (acc_powf M HM z (f_of_Z Bops 2) 2 Fz F2) as (F & E).
      - rewrite V2. simpl. ring.
      - lia.
      - pose proof (rel_abs_le 4 _ c ltac:(simpl; lra) Rz). lra.
      - destruct Hz as [->|Hz]; [left; now apply rel_zero in Rz|right]. apply tiny_le with 40%nat; [lia|].
        pose proof (rel_abs_ge 4 _ c ltac:(simpl; lra) Rz) as G. rewrite <- RPow_abs.
        assert (/ 262144 <= Rabs (toR z)) by lra. assert (/ 262144 * / 262144 <= Rabs (toR z) ^ 2) by nra. simpl (2 ^ 40). lra.
      - split; [exact F|]. replace 12 with (4 + INR 2 * 4) by (simpl; ring). eapply rel_trans; [exact (rel_eps _ _ E)|]. now apply rel_pow. }
    assert (B1 : forall k, (k < n)%nat -> Rabs (coord n k) <= 1).
    { intros k Hk. pose proof (coord_bound n k ltac:(lia) Hk) as B. fold cc in B. pose proof cc_le. lra. }
    destruct (P x cx Fx Rx (B1 i Hi) (coord_zero_or n i Hn)) as (Fp & Rp). destruct (P y cy Fy Ry (B1 j Hj) (coord_zero_or n j Hn)) as (Fq & Rq). clear P.
    set (p := l_powf M x (f_of_Z Bops 2)) in *. set (q := l_powf M y (f_of_Z Bops 2)) in *.
    assert (Rs : rel 12 (toR p + toR q) (cx ^ 2 + cy ^ 2)) by (apply rel_add; try apply pow2_ge_0; assumption).
    assert (Hs1 : cx ^ 2 + cy ^ 2 = radius n i j ^ 2).
    { unfold radius. fold cx cy. rewrite <- (Rsqr_pow2 (sqrt _)), Rsqr_sqrt by apply sq_nonneg. reflexivity. }
    assert (Hs2 : / 131072 * / 131072 <= cx ^ 2 + cy ^ 2 <= 1) by (rewrite Hs1; split; nra).
    destruct (b_add_ok p q Fp Fq) as (F1 & V1).
    { apply small_1000. eapply Rle_trans; [apply (rel_abs_le 12 _ _ ltac:(simpl; lra) Rs)|]. rewrite Rabs_pos_eq by lra. lra. }
    assert (Ra : rel 13 (toR (f_add Bops p q)) (cx ^ 2 + cy ^ 2)).
    { rewrite V1. replace 13 with (1 + 12) by ring. eapply rel_trans; [|exact Rs]. apply rel_rnd. right. apply tiny_le with 40%nat; [lia|].
      eapply Rle_trans; [|apply (rel_abs_ge 12 _ _ ltac:(simpl; lra) Rs)]. rewrite Rabs_pos_eq by lra. simpl (2 ^ 40). lra. }
    destruct (acc_sqrt M HM (f_add Bops p q) F1) as (Fs & Es).
    { split; [apply (rel_nonneg _ _ _ Ra); lra|]. pose proof (rel_abs_le 13 _ _ ltac:(simpl; lra) Ra) as G. rewrite (Rabs_pos_eq (cx ^ 2 + cy ^ 2)) in G by lra.
      pose proof (Rle_abs (toR (f_add Bops p q))). lra. }
    rewrite <- (Rabs_pos_eq (sqrt _)) in Es at 2 by apply sqrt_pos. apply rel_eps in Es.
    destruct (acc_atan2 M HM y x Fy Fx Hne') as (Ft & a & Ha & Cx & Sx & Ea).
    exists (l_sqrt M (f_add Bops p q)), (l_atan2 M y x). split; [reflexivity|]. split; [exact Fs|]. split; [exact Ft|]. split; [|split].
    + apply rel_weaken with (4 + 13 / 2); [lra|]. unfold radius. fold cx cy. eapply rel_trans; [exact Es|]. apply rel_sqrt; [lra|exact Ra].
    + pose proof PI_bounds. assert (bpow radix2 (-49) <= / 2) by (apply Rle_trans with (bpow radix2 (-1)); [apply bpow_le; lia|simpl; lra]).
      apply Rabs_le_inv in Ea. apply Rabs_le. lra.
    + right. exists a. split; [apply Rabs_le; lra|]. split; [exact Ea|].
      assert (Rr : rel 4 (sqrt (toR x ^ 2 + toR y ^ 2)) (radius n i j)).
      { unfold radius. fold cx cy. replace 4 with (INR 2 * 4 / 2) by (simpl; field). apply rel_sqrt; [lra|]. apply rel_add; try apply pow2_ge_0; now apply rel_pow. }
      assert (Hnz : radius n i j <> 0) by lra. pose proof (rel_nonzero _ _ _ Rr Hnz) as Hnz'.
      assert (Ec : cos a = toR x / sqrt (toR x ^ 2 + toR y ^ 2)).
      { apply Rmult_eq_reg_l with (sqrt (toR x ^ 2 + toR y ^ 2)); [|exact Hnz']. rewrite <- Cx. field. exact Hnz'. }
      assert (Esn : sin a = toR y / sqrt (toR x ^ 2 + toR y ^ 2)).
      { apply Rmult_eq_reg_l with (sqrt (toR x ^ 2 + toR y ^ 2)); [|exact Hnz']. rewrite <- Sx. field. exact Hnz'. }
      assert (Bq : forall c d, c ^ 2 + d ^ 2 = radius n i j ^ 2 -> Rabs (c / radius n i j) <= 1).
      { intros c d Hcd. unfold Rdiv. rewrite Rabs_mult, Rabs_inv, (Rabs_pos_eq (radius n i j)) by lra. apply Rmult_le_reg_r with (radius n i j); [lra|].
        rewrite Rmult_assoc, Rinv_l, Rmult_1_r, Rmult_1_l by exact Hnz. rewrite <- (Rabs_pos_eq (radius n i j)) by lra. apply Rsqr_le_abs_0. unfold Rsqr. pose proof (pow2_ge_0 d). nra. }
      rewrite Ec, Esn. replace 9 with (8 + / 1) by field. split; (apply rel_le_1; [lra|replace 8 with (4 + 4) by ring; apply rel_div; assumption|]).
      * apply (Bq cx cy). exact Hs1.
      * apply (Bq cy cx). rewrite <- Hs1. ring.
Qed.
End Acc.
