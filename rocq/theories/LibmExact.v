(** A library that rounds the exact results to nearest meets LibmSpec.v (so the hypothesis of C68 can be met). *)
From Coq Require Import Reals Lra Psatz.
From Flocq Require Import Core BinarySingleNaN.
From Verif Require Import Outcome Floats FloatFacts Zernike ZernikeProofs ZernikeGen RelError LibmSpec.
Open Scope R_scope.

Notation fexp64 := (FLT_exp (-1074) 53).
(** the binary64 number nearest to r (ties to even), for |r| <= 2^999 *)
Definition of_R (r : R) : b64 := b_dyadic (ZnearestE (scaled_mantissa radix2 fexp64 r)) (cexp radix2 fexp64 r).
Lemma of_R_ok r : Rabs r <= bpow radix2 999 -> fin (of_R r) /\ toR (of_R r) = rnd r.
Proof.
  intros H. assert (E : IZR (ZnearestE (scaled_mantissa radix2 fexp64 r)) * bpow radix2 (cexp radix2 fexp64 r) = rnd r) by reflexivity.
  unfold of_R. destruct (b_dyadic_ok (ZnearestE (scaled_mantissa radix2 fexp64 r)) (cexp radix2 fexp64 r)) as (F & V).
  - rewrite E. unfold small. replace (rnd r) with (r + (rnd r - r)) by ring. eapply Rle_trans; [apply Rabs_triang|].
    pose proof (rnd_err r) as Er. pose proof (Rabs_pos r). assert (u53 <= / 4) by (rewrite u53_val; lra).
    assert (eta <= / 4 * bpow radix2 999). { unfold eta. change (/ 4) with (bpow radix2 (-2)). rewrite <- bpow_plus. apply bpow_le. lia. }
    change 1000%Z with (1 + 999)%Z. rewrite bpow_plus. change (bpow radix2 1) with 2. pose proof (bpow_gt_0 radix2 999). nra.
  - split; [exact F|]. rewrite V, E. apply rnd_generic. apply generic_format_round; [apply FLT_exp_valid; red; lia|apply valid_rnd_N].
Qed.

Definition exact_libm : libm b64 := {|
  l_pi := b_pi;
  l_powf := fun x y => of_R (powerRZ (toR x) (Zfloor (toR y)));
  l_sqrt := fun x => of_R (sqrt (toR x));
  l_atan2 := fun y x => of_R (atan2 (toR y) (toR x));
  l_exp := fun x => of_R (exp (toR x));
  l_cos := fun x => of_R (cos (toR x));
  l_sin := fun x => of_R (sin (toR x));
  l_hypot := fun x y => of_R (sqrt (toR x ^ 2 + toR y ^ 2))
|}.

Lemma eps_val : eps = 4 * u53.
Proof. unfold eps, u53. change (-51)%Z with (2 + -53)%Z. rewrite bpow_plus. change (bpow radix2 2) with 4. ring. Qed.
Lemma eta_u : eta <= u53. Proof. unfold eta, u53. apply bpow_le. lia. Qed.
Lemma of_R_rel r : Rabs r <= bpow radix2 999 -> r = 0 \/ bpow radix2 (-1000) <= Rabs r -> fin (of_R r) /\ Rabs (toR (of_R r) - r) <= eps * Rabs r.
Proof.
  intros H Hr. destruct (of_R_ok r H) as (F & V). split; [exact F|]. rewrite V, eps_val. pose proof u53_pos. pose proof (Rabs_pos r).
  destruct Hr as [->|Hr]; [rewrite rnd_0, Rminus_0_r, Rabs_R0; lra|]. pose proof (rnd_err_rel r Hr). nra.
Qed.
Lemma of_R_rel0 r : 0 <= r -> Rabs r <= bpow radix2 999 -> r = 0 \/ bpow radix2 (-1000) <= Rabs r -> fin (of_R r) /\ Rabs (toR (of_R r) - r) <= eps * r.
Proof. intros H0 H H1. destruct (of_R_rel r H H1) as (A & B). rewrite (Rabs_pos_eq r H0) in B. now split. Qed.
Lemma bpow_ge_1000 k : (0 <= k)%Z -> IZR (2 ^ k) = bpow radix2 k.
Proof. intros Hk. now rewrite <- IZR_Zpower. Qed.
Lemma le_999 r c : Rabs r <= c -> c <= 1000000 -> Rabs r <= bpow radix2 999.
Proof.
  intros H Hc. eapply Rle_trans; [exact H|]. eapply Rle_trans; [exact Hc|]. apply Rle_trans with (bpow radix2 20); [change (bpow radix2 20) with 1048576; lra|apply bpow_le; lia].
Qed.
Lemma small_fin (x : b64) : fin x -> toR x = 0 \/ bpow radix2 (-1074) <= Rabs (toR x).
Proof.
  intros F. destruct x as [s| | |s m e He]; try discriminate F; [left; reflexivity|right]. apply (abs_B2R_ge_emin 53 1024). reflexivity.
Qed.
Lemma atan2_range y x : - PI <= atan2 y x <= PI.
Proof.
  unfold atan2. pose proof PI_RGT_0 as HP. pose proof (atan_bound (y / x)) as Ha.
  assert (S : forall u v, 0 <= u -> 0 < v -> 0 <= atan (u / v)).
  { intros u v Hu Hv. rewrite <- atan_0. destruct (Req_dec (u / v) 0) as [->|Hne]; [rewrite atan_0; lra|]. left. apply atan_increasing.
    assert (0 <= u / v) by (apply Rmult_le_pos; [lra|left; now apply Rinv_0_lt_compat]). lra. }
  destruct (Rlt_bool_spec 0 x) as [Hx|Hx]; [lra|]. destruct (Rlt_bool_spec x 0) as [Hx'|Hx'].
  - destruct (Rle_bool_spec 0 y) as [Hy|Hy].
    + pose proof (S y (- x) Hy ltac:(lra)) as H. replace (y / - x) with (- (y / x)) in H by (field; lra). rewrite atan_opp in H. lra.
    + pose proof (S (- y) (- x) ltac:(lra) ltac:(lra)) as H. replace (- y / - x) with (y / x) in H by (field; lra). lra.
  - destruct (Rlt_bool_spec 0 y); [lra|]. destruct (Rlt_bool_spec y 0); lra.
Qed.

Lemma hypot_small x y : Rabs x <= bpow radix2 500 -> Rabs y <= bpow radix2 500 -> Rabs (sqrt (x ^ 2 + y ^ 2)) <= bpow radix2 999.
Proof.
  intros Hx Hy. rewrite Rabs_pos_eq by apply sqrt_pos. pose proof (bpow_gt_0 radix2 500) as Hp.
  apply Rle_trans with (2 * bpow radix2 500).
  - rewrite <- (sqrt_square (2 * bpow radix2 500)) by lra. apply sqrt_le_1_alt. rewrite <- (pow2_abs x), <- (pow2_abs y).
    pose proof (Rabs_pos x). pose proof (Rabs_pos y). nra.
  - change 2 with (bpow radix2 1). rewrite <- bpow_plus. apply bpow_le. lia.
Qed.
Theorem exact_libm_accurate : accurate exact_libm.
Proof.
  pose proof u53_pos as U. pose proof eta_u as ET. pose proof PI_bounds as HPI.
  assert (U2 : u53 <= / 1000000) by (rewrite u53_val; lra).
  constructor; cbn [exact_libm l_pi l_powf l_sqrt l_atan2 l_exp l_cos l_sin l_hypot].
  - reflexivity.
  - intros x y n Fx Fy Ey Hn Hx Hc. rewrite Ey, INR_IZR_INZ, Zfloor_IZR, <- pow_powerRZ.
    assert (B : Rabs (toR x ^ n) <= bpow radix2 999).
    { rewrite <- RPow_abs. apply Rle_trans with (2 ^ n); [apply pow_incr; split; [apply Rabs_pos|exact Hx]|].
      apply Rle_trans with (2 ^ 900); [apply Rle_pow; [lra|exact Hn]|]. apply Rle_trans with (bpow radix2 900); [|apply bpow_le; lia].
      right. rewrite <- bpow_ge_1000 by lia. rewrite pow_IZR. reflexivity. }
    apply of_R_rel; [exact B|]. destruct Hc as [Hc|Hc]; [|right; exact Hc]. rewrite Hc. destruct n as [|n]; [right|left; cbn; ring].
    rewrite pow_O, Rabs_R1. apply Rle_trans with (bpow radix2 0); [apply bpow_le; lia|simpl; lra].
  - intros x Fx Hx. apply of_R_rel0; [apply sqrt_pos| |].
    + apply le_999 with 2; [|lra]. rewrite Rabs_pos_eq by apply sqrt_pos. replace 2 with (sqrt (2 * 2)) by (apply sqrt_square; lra). apply sqrt_le_1_alt. lra.
    + destruct (small_fin x Fx) as [E|E]; [left; rewrite E; apply sqrt_0|right]. rewrite (Rabs_pos_eq (toR x)) in E by lra.
      rewrite Rabs_pos_eq by apply sqrt_pos. rewrite <- (sqrt_square (bpow radix2 (-1000))) by apply bpow_ge_0. apply sqrt_le_1_alt.
      rewrite <- bpow_plus. apply Rle_trans with (bpow radix2 (-1074)); [apply bpow_le; lia|exact E].
  - intros y x Fy Fx Hne. pose proof (atan2_range (toR y) (toR x)) as Hr. destruct (atan2_polar (toR x) (toR y) Hne) as (Hp & Hc & Hs).
    assert (B : Rabs (atan2 (toR y) (toR x)) <= 4) by (apply Rabs_le; lra).
    destruct (of_R_ok (atan2 (toR y) (toR x))) as (F & V); [apply le_999 with 4; lra|]. split; [exact F|].
    exists (atan2 (toR y) (toR x)). split; [exact Hr|]. rewrite Hc, Hs. split; [field; lra|]. split; [field; lra|]. rewrite V.
    eapply Rle_trans; [apply rnd_err|]. replace (bpow radix2 (-49)) with (16 * u53); [nra|].
    unfold u53. change (-49)%Z with (4 + -53)%Z. rewrite bpow_plus. reflexivity.
  - intros x Fx Hx. pose proof (exp_pos (toR x)) as Hp. apply Rabs_le_inv in Hx.
    assert (L : / 3 <= exp (toR x)).
    { apply Rle_trans with (exp (-1)); [|apply exp_mono; lra]. replace (-1) with (- (1)) by ring; rewrite exp_Ropp. apply Rinv_le_contravar; [apply exp_pos|apply exp_le_3]. }
    assert (H : exp (toR x) <= 3) by (apply Rle_trans with (exp 1); [apply exp_mono; lra|apply exp_le_3]).
    apply of_R_rel0; [lra| |].
    + apply le_999 with 3; [rewrite Rabs_pos_eq; lra|lra].
    + right. rewrite Rabs_pos_eq by lra. apply Rle_trans with (bpow radix2 (-2)); [apply bpow_le; lia|simpl; lra].
  - intros x Fx _. pose proof (COS_bound (toR x)) as Hb. assert (B : Rabs (cos (toR x)) <= 1) by (apply Rabs_le; exact Hb).
    destruct (of_R_ok (cos (toR x))) as (F & V); [apply le_999 with 1; lra|]. split; [exact F|]. rewrite V, eps_val. eapply Rle_trans; [apply rnd_err|]. nra.
  - intros x Fx _. pose proof (SIN_bound (toR x)) as Hb. assert (B : Rabs (sin (toR x)) <= 1) by (apply Rabs_le; exact Hb).
    destruct (of_R_ok (sin (toR x))) as (F & V); [apply le_999 with 1; lra|]. split; [exact F|]. rewrite V, eps_val. eapply Rle_trans; [apply rnd_err|]. nra.
  - intros x y Fx Fy Hx Hy. destruct (of_R_ok _ (hypot_small _ _ Hx Hy)) as (F & V). split; [exact F|]. rewrite V, eps_val. pose proof (sqrt_pos (toR x ^ 2 + toR y ^ 2)).
    eapply Rle_trans; [apply rnd_err|]. rewrite Rabs_pos_eq by assumption. assert (eta <= bpow radix2 (-1000)) by (unfold eta; apply bpow_le; lia). nra.
  - intros x y Fx Fy Hx Hy. destruct (of_R_ok _ (hypot_small _ _ Hx Hy)) as (F & V). rewrite V. rewrite <- rnd_0. apply rnd_le, sqrt_pos.
Qed.
Print Assumptions exact_libm_accurate.
