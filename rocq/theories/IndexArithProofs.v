(** The f64 index computations of IndexArith.v are the integer quotients (used by C56 and everywhere else). *)
From Coq Require Import ZArith Reals Lia Lra Psatz.
From Flocq Require Import Core BinarySingleNaN.
From Verif Require Import Outcome Floats FloatFacts IndexArith.
Open Scope R_scope.

Lemma rnd_quot_bounds (a b : Z) : (0 <= a < 2 ^ 53)%Z -> (0 < b <= 2 ^ 53)%Z ->
  IZR (a / b) <= rnd (IZR a / IZR b) < IZR (a / b) + 1.
Proof.
  intros Ha Hb.
  assert (HB : 0 < IZR b) by (apply IZR_lt; lia).
  assert (HA : 0 <= IZR a) by (apply IZR_le; lia).
  pose proof (Z.div_mod a b ltac:(lia)) as Hdm.
  pose proof (Z.mod_pos_bound a b ltac:(lia)) as Hm.
  assert (Hq : (0 <= a / b <= a)%Z).
  { split; [apply Z.div_pos; lia|]. apply Z.div_le_upper_bound; nia. }
  assert (E : IZR a = IZR b * IZR (a / b) + IZR (a mod b)) by (rewrite <- mult_IZR, <- plus_IZR; f_equal; exact Hdm).
  assert (Hm1 : 0 <= IZR (a mod b)) by (apply IZR_le; lia).
  assert (Hm2 : IZR (a mod b) <= IZR b - 1) by (rewrite <- minus_IZR; apply IZR_le; lia).
  split.
  - rewrite <- (rnd_IZR (a / b)) by lia. apply rnd_le.
    apply Rmult_le_reg_r with (IZR b); [exact HB|]. unfold Rdiv. rewrite Rmult_assoc, Rinv_l by lra. lra.
  - destruct (Z.eq_dec a 0) as [->|Hnz].
    { unfold Rdiv. rewrite Rmult_0_l, rnd_0, Z.div_0_l by lia. lra. }
    assert (HA1 : 1 <= IZR a) by (apply IZR_le; lia).
    assert (HA2 : IZR a * u53 < 1).
    { unfold u53. replace 1 with (bpow radix2 53 * bpow radix2 (-53)) by (rewrite <- bpow_plus; reflexivity).
      apply Rmult_lt_compat_r; [apply bpow_gt_0|]. rewrite <- IZR_Zpower by lia. apply IZR_lt. apply Ha. }
    pose proof (rnd_err_rel (IZR a / IZR b)) as He.
    assert (Hpos : 0 <= IZR a / IZR b) by (apply Rmult_le_pos; [lra| left; now apply Rinv_0_lt_compat]).
    rewrite Rabs_pos_eq in He by exact Hpos.
    assert (HBle : IZR b <= bpow radix2 53) by (rewrite <- IZR_Zpower by lia; apply IZR_le; apply Hb).
    assert (Hinv : bpow radix2 (-53) <= / IZR b).
    { change (-53)%Z with (Z.opp 53). rewrite bpow_opp. apply Rinv_le; assumption. }
    assert (He' : Rabs (rnd (IZR a / IZR b) - IZR a / IZR b) <= u53 * (IZR a / IZR b)).
    { apply He. apply Rle_trans with (bpow radix2 (-53)); [apply bpow_le; lia|].
      eapply Rle_trans; [exact Hinv|]. unfold Rdiv. rewrite <- (Rmult_1_l (/ IZR b)) at 1.
      apply Rmult_le_compat_r; [left; now apply Rinv_0_lt_compat|exact HA1]. }
    apply Rabs_le_inv in He'.
    assert (Hlt : u53 * (IZR a / IZR b) < / IZR b).
    { unfold Rdiv. rewrite <- Rmult_assoc, (Rmult_comm u53). rewrite <- (Rmult_1_l (/ IZR b)) at 2.
      apply Rmult_lt_compat_r; [now apply Rinv_0_lt_compat|exact HA2]. }
    assert (Hup : IZR a / IZR b + / IZR b <= IZR (a / b) + 1).
    { apply Rmult_le_reg_r with (IZR b); [exact HB|]. unfold Rdiv.
      rewrite Rmult_plus_distr_r, Rmult_assoc, Rinv_l by lra. lra. }
    lra.
Qed.

Lemma rnd_quot_bounds_up (a b : Z) : (0 < a < 2 ^ 53)%Z -> (0 < b <= 2 ^ 53)%Z ->
  IZR ((a + b - 1) / b) - 1 < rnd (IZR a / IZR b) <= IZR ((a + b - 1) / b).
Proof.
  intros Ha Hb.
  assert (HB : 0 < IZR b) by (apply IZR_lt; lia).
  set (p := ((a + b - 1) / b)%Z).
  assert (Hp : (b * p >= a /\ b * (p - 1) <= a - 1)%Z).
  { unfold p. pose proof (Z.div_mod (a + b - 1) b ltac:(lia)).
    pose proof (Z.mod_pos_bound (a + b - 1) b ltac:(lia)). nia. }
  assert (Hpr : (0 <= p <= a)%Z) by nia.
  assert (H1 : IZR a <= IZR b * IZR p) by (rewrite <- mult_IZR; apply IZR_le; lia).
  assert (H2 : IZR b * (IZR p - 1) <= IZR a - 1).
  { rewrite <- !minus_IZR, <- mult_IZR. apply IZR_le. lia. }
  assert (HA1 : 1 <= IZR a) by (apply IZR_le; lia).
  split.
  - assert (HA2 : IZR a * u53 < 1).
    { unfold u53. replace 1 with (bpow radix2 53 * bpow radix2 (-53)) by (rewrite <- bpow_plus; reflexivity).
      apply Rmult_lt_compat_r; [apply bpow_gt_0|]. rewrite <- IZR_Zpower by lia. apply IZR_lt. apply Ha. }
    pose proof (rnd_err_rel (IZR a / IZR b)) as He.
    assert (Hpos : 0 <= IZR a / IZR b) by (apply Rmult_le_pos; [lra| left; now apply Rinv_0_lt_compat]).
    rewrite Rabs_pos_eq in He by exact Hpos.
    assert (HBle : IZR b <= bpow radix2 53) by (rewrite <- IZR_Zpower by lia; apply IZR_le; apply Hb).
    assert (Hinv : bpow radix2 (-53) <= / IZR b).
    { change (-53)%Z with (Z.opp 53). rewrite bpow_opp. apply Rinv_le; assumption. }
    assert (He' : Rabs (rnd (IZR a / IZR b) - IZR a / IZR b) <= u53 * (IZR a / IZR b)).
    { apply He. apply Rle_trans with (bpow radix2 (-53)); [apply bpow_le; lia|].
      eapply Rle_trans; [exact Hinv|]. unfold Rdiv. rewrite <- (Rmult_1_l (/ IZR b)) at 1.
      apply Rmult_le_compat_r; [left; now apply Rinv_0_lt_compat|exact HA1]. }
    apply Rabs_le_inv in He'.
    assert (Hlt : u53 * (IZR a / IZR b) < / IZR b).
    { unfold Rdiv. rewrite <- Rmult_assoc, (Rmult_comm u53). rewrite <- (Rmult_1_l (/ IZR b)) at 2.
      apply Rmult_lt_compat_r; [now apply Rinv_0_lt_compat|exact HA2]. }
    assert (Hup : IZR p - 1 <= IZR a / IZR b - / IZR b).
    { apply Rmult_le_reg_r with (IZR b); [exact HB|]. 
      replace ((IZR a / IZR b - / IZR b) * IZR b) with (IZR a - 1) by (field; lra). lra. }
    lra.
  - rewrite <- (rnd_IZR p) by lia. apply rnd_le.
    apply Rmult_le_reg_r with (IZR b); [exact HB|]. unfold Rdiv. rewrite Rmult_assoc, Rinv_l by lra. lra.
Qed.

Lemma quot_small (a b : Z) : (0 <= a < 2 ^ 53)%Z -> (0 < b <= 2 ^ 53)%Z -> small (IZR a / IZR b).
Proof.
  intros Ha Hb. apply small_le with 53%Z; [lia|].
  assert (HB : 1 <= IZR b) by (apply IZR_le; lia).
  assert (HA : 0 <= IZR a) by (apply IZR_le; lia).
  rewrite Rabs_pos_eq by (apply Rmult_le_pos; [lra|left; apply Rinv_0_lt_compat; lra]).
  apply Rle_trans with (IZR a).
  - apply Rmult_le_reg_r with (IZR b); [lra|]. unfold Rdiv. rewrite Rmult_assoc, Rinv_l by lra. nra.
  - rewrite <- IZR_Zpower by lia. apply IZR_le. change (radix2 ^ 53)%Z with (2 ^ 53)%Z. lia.
Qed.

Lemma clamp_id lo hi n : (lo <= n <= hi)%Z -> clamp lo hi n = n.
Proof. unfold clamp; lia. Qed.

Theorem f64_floor_div_correct (a b : nat) :
  (Z.of_nat a < 2 ^ 53)%Z -> (0 < Z.of_nat b <= 2 ^ 53)%Z -> f64_floor_div a b = (a / b)%nat.
Proof.
  intros Ha Hb. unfold f64_floor_div, f_to_usize.
  destruct (b_of_Z_ok (Z.of_nat a)) as (Fa & Va); [lia|].
  destruct (b_of_Z_ok (Z.of_nat b)) as (Fb & Vb); [lia|].
  assert (HB : 0 < IZR (Z.of_nat b)) by (apply IZR_lt; lia).
  destruct (b_div_ok (b_of_Z (Z.of_nat a)) (b_of_Z (Z.of_nat b))) as (Fd & Vd); [exact Fa| |..].
  - rewrite Vb; lra.
  - rewrite Va, Vb. apply quot_small; lia.
  - rewrite Va, Vb in Vd.
    destruct (b_floor_ok _ Fd) as (Ff & Vf).
    rewrite (b_cast_ok _ _ _ Ff), Vf, Ztrunc_IZR, Vd.
    pose proof (rnd_quot_bounds (Z.of_nat a) (Z.of_nat b) ltac:(lia) ltac:(lia)) as H.
    rewrite (Zfloor_imp (Z.of_nat a / Z.of_nat b)) by (rewrite plus_IZR; exact H).
    rewrite clamp_id.
    + rewrite <- Nat2Z.inj_div. apply Nat2Z.id.
    + split; [apply Z.div_pos; lia|]. unfold usize_max. apply Z.div_le_upper_bound; [lia|]. nia.
Qed.

Theorem f64_ceil_div_correct (a b : nat) :
  (Z.of_nat a < 2 ^ 53)%Z -> (0 < Z.of_nat b <= 2 ^ 53)%Z -> f64_ceil_div a b = ((a + b - 1) / b)%nat.
Proof.
  intros Ha Hb. unfold f64_ceil_div, f_to_usize.
  destruct (b_of_Z_ok (Z.of_nat a)) as (Fa & Va); [lia|].
  destruct (b_of_Z_ok (Z.of_nat b)) as (Fb & Vb); [lia|].
  assert (HB : 0 < IZR (Z.of_nat b)) by (apply IZR_lt; lia).
  destruct (b_div_ok (b_of_Z (Z.of_nat a)) (b_of_Z (Z.of_nat b))) as (Fd & Vd); [exact Fa| |..].
  - rewrite Vb; lra.
  - rewrite Va, Vb. apply quot_small; lia.
  - rewrite Va, Vb in Vd.
    destruct (b_ceil_ok _ Fd) as (Ff & Vf).
    rewrite (b_cast_ok _ _ _ Ff), Vf, Ztrunc_IZR, Vd.
    assert (E : ((a + b - 1) / b)%nat = Z.to_nat ((Z.of_nat a + Z.of_nat b - 1) / Z.of_nat b)).
    { replace (Z.of_nat a + Z.of_nat b - 1)%Z with (Z.of_nat (a + b - 1)) by lia.
      rewrite <- Nat2Z.inj_div, Nat2Z.id. reflexivity. }
    rewrite E. f_equal.
    assert (Hc : Zceil (rnd (IZR (Z.of_nat a) / IZR (Z.of_nat b))) = ((Z.of_nat a + Z.of_nat b - 1) / Z.of_nat b)%Z).
    { destruct (Nat.eq_dec a 0) as [->|Hnz].
      - simpl Z.of_nat. unfold Rdiv. rewrite Rmult_0_l, rnd_0, Zceil_IZR. symmetry. apply Z.div_small. lia.
      - apply Zceil_imp. pose proof (rnd_quot_bounds_up (Z.of_nat a) (Z.of_nat b) ltac:(lia) ltac:(lia)) as H.
        rewrite minus_IZR. exact H. }
    rewrite Hc. apply clamp_id. unfold usize_max.
    split; [apply Z.div_pos; lia|]. apply Z.div_le_upper_bound; [lia|]. nia.
Qed.
