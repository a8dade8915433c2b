(** Accuracy of the binary64 Zernike features: terms and sums of the radial values. *)
From Coq Require Import Reals Lra Psatz.
From Flocq Require Import Core BinarySingleNaN.
From Coquelicot Require Import Complex.
From Verif Require Import Outcome Floats FloatFacts Matrix MatrixFacts HaarReal Zernike ZernikeProofs PropsZernike ZernikeBound ZernikeGen ZernikeF64 RelError LibmSpec ZernikeAcc ZernikeAcc2.
Open Scope R_scope.

Section Acc2.
Context (M : libm b64) (HM : accurate M) (g : b64 -> b64).

(** one signed term of the radial sum *)
Lemma term_acc k i s r rho : (k <= 10)%nat -> (i <= k)%nat -> (s <= k - i)%nat -> let a := (k + i + 1)%nat in let b := (k - i)%nat in
  fin r -> rel 11 (toR r) rho -> 0 <= rho <= 1 -> rho = 0 \/ / 131072 <= rho ->
  exists x, g_f Bops M g (Z.of_nat (a + b)) (Z.of_nat (a - b)) (f_of_Z Bops (Z.of_nat s)) r = Ok x
    /\ fin x /\ fin (f_mul Bops (l_powf M (f_of_Z Bops (-1)) (f_of_Z Bops (Z.of_nat s))) x)
    /\ rel 245 (toR (f_mul Bops (l_powf M (f_of_Z Bops (-1)) (f_of_Z Bops (Z.of_nat s))) x)) (rcoef a b s * rho ^ (a + b - 2 * s)).
Proof.
  intros Hk Hi Hs a b Fr Rr Hrho Hz. destruct (coef_ok g k i s Hk Hi Hs) as (c & Ec & Fc & Vc & Kb & Ek & _). fold a b in Ec, Vc, Kb, Ek.
  rewrite g_f_coef, Ec. cbn [bind].
  assert (Hab : (a + b = 2 * k + 1)%nat) by (unfold a, b; lia). set (m := (a + b - 2 * s)%nat).
  assert (Hm : (1 <= m <= 21)%nat) by (unfold m; unfold b in *; lia).
  assert (HS : is_int (f_of_Z Bops (Z.of_nat s)) (Z.of_nat s)) by (apply int_of_Z; lia).
  assert (HO : is_int (f_of_Z Bops (Z.of_nat (a + b))) (Z.of_nat (a + b))) by (apply int_of_Z; lia).
  assert (H2 : is_int (f_of_Z Bops 2) 2) by (apply int_of_Z; lia).
  assert (H0 : is_int (f_of_Z Bops 0) 0) by (apply int_of_Z; lia).
  rewrite (int_eq _ _ _ _ (int_sub _ _ _ _ HO (int_mul _ _ _ _ H2 HS ltac:(lia)) ltac:(lia)) H0).
  replace (Z.of_nat (a + b) - 2 * Z.of_nat s =? 0)%Z with false by (symmetry; apply Z.eqb_neq; lia). rewrite andb_false_r.
  unfold f_to_i64. rewrite (int_cast _ _ _ _ HS) by (unfold i64_min, i64_max; lia).
  replace (Z.of_nat (a + b) - 2 * Z.of_nat s)%Z with (Z.of_nat m) by (unfold m; lia).
  assert (HE : is_int (f_of_Z Bops (Z.of_nat m)) (Z.of_nat m)) by (apply int_of_Z; lia).
  assert (Br : Rabs (toR r) <= 2). { pose proof (rel_abs_le 11 _ _ ltac:(simpl; lra) Rr) as G. rewrite (Rabs_pos_eq rho) in G by lra. lra. }
  assert (Kr : 1 <= IZR (kcoef a b s) <= 18474633) by (split; apply IZR_le; lia).
  assert (Rm : rel 235 (toR r ^ m) (rho ^ m)).
  { apply rel_weaken with (INR m * 11); [|now apply rel_pow]. assert (INR m <= 21) by (replace 21 with (INR 21) by (rewrite INR_IZR_INZ; reflexivity); apply le_INR; lia). lra. }
  assert (Pb : 0 <= rho ^ m <= 1).
  { split; [apply pow_le; lra|]. rewrite <- (pow1 m). apply pow_incr. lra. }
  assert (Lb : rho = 0 \/ / 2 ^ 400 <= Rabs (rho ^ m)).
  { destruct Hz as [Hz|Hz]; [left; exact Hz|right]. rewrite Rabs_pos_eq by lra. apply Rle_trans with ((/ 131072) ^ m); [|apply pow_incr; lra].
    replace (/ 131072) with (/ (2 ^ 17)) by (simpl; field). rewrite pow_inv, <- pow_mult. apply Rinv_le_contravar; [apply pow_lt; lra|]. apply Rle_pow; [lra|lia]. }
  destruct (acc_powf M HM r (f_of_Z Bops (Z.of_nat m)) m Fr (proj1 HE)) as (Fp & Ep).
  { rewrite (proj2 HE). now rewrite <- INR_IZR_INZ. }
  { lia. }
  { exact Br. }
  { destruct Lb as [Lb|Lb]; [left; rewrite Lb in Rr; now apply rel_zero in Rr|right]. apply tiny_le with 401%nat; [lia|].
    pose proof (rel_abs_ge 235 _ _ ltac:(simpl; lra) Rm) as G. eapply Rle_trans; [|exact G].
    replace (/ 2 ^ 401) with (/ 2 ^ 400 * / 2) by (rewrite <- Rinv_mult; f_equal; rewrite <- (Nat.add_1_r 400), pow_add; ring).
    assert (0 < / 2 ^ 400) by (apply Rinv_0_lt_compat, pow_lt; lra). nra. }
  set (p := l_powf M r (f_of_Z Bops (Z.of_nat m))) in *.
  assert (Rp : rel 239 (toR p) (rho ^ m)) by (replace 239 with (4 + 235) by ring; eapply rel_trans; [exact (rel_eps _ _ Ep)|exact Rm]).
  set (K := IZR (kcoef a b s)) in *.
  assert (Rk : rel 239 (toR c * toR p) (K * rho ^ m)).
  { rewrite Vc. replace 239 with (0 + 239) by ring. apply rel_mul; [apply rel_refl|exact Rp]. }
  assert (Lk : K * rho ^ m = 0 \/ / 2 ^ 400 <= Rabs (K * rho ^ m)).
  { destruct Lb as [Lb|Lb]; [left; rewrite Lb, pow_i by lia; ring|right]. rewrite Rabs_mult, (Rabs_pos_eq K) by lra. assert (0 < / 2 ^ 400) by (apply Rinv_0_lt_compat, pow_lt; lra). nra. }
  assert (Bk : Rabs (K * rho ^ m) <= 18474633) by (rewrite Rabs_pos_eq by nra; nra).
  assert (T : forall kk z v, 0 <= kk <= 1000 -> rel kk z v -> v = 0 \/ / 2 ^ 400 <= Rabs v -> Rabs v <= 18474633 -> small z /\ rel (1 + kk) (rnd z) v).
  { intros kk z v Hkk Rz Lz Bz. assert (Hk' : 0 <= kk <= IZR (2 ^ 40)) by (split; [lra|]; change (2 ^ 40)%Z with 1099511627776%Z; lra). split.
    - apply small_1000. pose proof (rel_abs_le kk _ _ Hk' Rz). lra.
    - eapply rel_trans; [|exact Rz]. apply rel_rnd. destruct Lz as [->|Lz]; [left; now apply rel_zero in Rz|right].
      apply tiny_le with 401%nat; [lia|]. pose proof (rel_abs_ge kk _ _ Hk' Rz) as G. eapply Rle_trans; [|exact G].
      replace (/ 2 ^ 401) with (/ 2 ^ 400 * / 2) by (rewrite <- Rinv_mult; f_equal; rewrite <- (Nat.add_1_r 400), pow_add; ring).
      assert (0 < / 2 ^ 400) by (apply Rinv_0_lt_compat, pow_lt; lra). nra. }
  destruct (T 239 _ _ ltac:(lra) Rk Lk Bk) as (Sm & Rx). destruct (b_mul_ok c p Fc Fp Sm) as (Fx & Vx). rewrite <- Vx in Rx.
  exists (f_mul Bops c p). split; [reflexivity|]. split; [exact Fx|].
  destruct (b_of_Z_ok (-1)) as (Fm & Vm); [lia|]. change (b_of_Z (-1)) with (f_of_Z Bops (-1)) in Fm, Vm.
  destruct (acc_powf M HM (f_of_Z Bops (-1)) (f_of_Z Bops (Z.of_nat s)) s Fm (proj1 HS)) as (Fs & Es).
  { rewrite (proj2 HS). now rewrite <- INR_IZR_INZ. }
  { unfold b in *; lia. }
  { rewrite Vm. rewrite <- abs_IZR. simpl. lra. }
  { right. rewrite Vm, pow_1_abs. apply Rle_trans with (bpow radix2 0); [apply bpow_le; lia|simpl; lra]. }
  rewrite Vm in Es. set (sg := l_powf M (f_of_Z Bops (-1)) (f_of_Z Bops (Z.of_nat s))) in *.
  assert (Rt : rel (4 + (1 + 239)) (toR sg * toR (f_mul Bops c p)) (rcoef a b s * rho ^ m)).
  { rewrite Ek, Rmult_assoc. apply rel_mul; [exact (rel_eps _ _ Es)|exact Rx]. }
  assert (Ea : Rabs (rcoef a b s * rho ^ m) = Rabs (K * rho ^ m)).
  { rewrite Ek, Rmult_assoc, Rabs_mult. rewrite pow_1_abs, Rmult_1_l. reflexivity. }
  destruct (T (4 + (1 + 239)) _ _ ltac:(lra) Rt) as (Sm2 & Rt2).
  { destruct Lk as [Lk|Lk]; [left|right; rewrite Ea; exact Lk]. rewrite Ek, Rmult_assoc, Lk. ring. }
  { rewrite Ea. exact Bk. }
  destruct (b_mul_ok sg (f_mul Bops c p) Fs Fx Sm2) as (Ft & Vt). split; [exact Ft|]. rewrite Vt. eapply rel_weaken; [|exact Rt2]. lra.
Qed.
End Acc2.
