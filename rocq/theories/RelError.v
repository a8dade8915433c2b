(** Relative errors as exponents: [rel k a x] says that a = x * e^t with |t| <= k * w, w slightly more than 2^-53.  Products, quotients,
    powers and square roots then add, multiply and halve the exponents exactly. *)
From Coq Require Import Reals Lra Psatz Machin.
From Flocq Require Import Core.
From Verif Require Import Outcome Floats FloatFacts.
Open Scope R_scope.

Definition w : R := u53 * (1025 / 1024).
Lemma u53_val : u53 = / 9007199254740992.
Proof. reflexivity. Qed.
Lemma w_pos : 0 < w. Proof. unfold w. pose proof u53_pos. lra. Qed.
Lemma w_val : w = 1025 / 1024 / 9007199254740992.
Proof. unfold w. rewrite u53_val. field. Qed.

Definition rel (k a x : R) : Prop := exists t, Rabs t <= k * w /\ a = x * exp t.

Lemma rel_refl x : rel 0 x x.
Proof. exists 0. rewrite Rabs_R0, exp_0. split; [lra|ring]. Qed.
Lemma rel_weaken k l a x : k <= l -> rel k a x -> rel l a x.
Proof. intros H (t & Ht & E). exists t. split; [|exact E]. pose proof w_pos. nra. Qed.
Lemma rel_trans k l a b c : rel k a b -> rel l b c -> rel (k + l) a c.
Proof.
  intros (t & Ht & E) (s & Hs & E'). exists (s + t). split.
  - eapply Rle_trans; [apply Rabs_triang|]. lra.
  - rewrite E, E', exp_plus. ring.
Qed.
Lemma rel_mul k l a b x y : rel k a x -> rel l b y -> rel (k + l) (a * b) (x * y).
Proof.
  intros (t & Ht & E) (s & Hs & E'). exists (t + s). split.
  - eapply Rle_trans; [apply Rabs_triang|]. lra.
  - rewrite E, E', exp_plus. ring.
Qed.
Lemma rel_div k l a b x y : y <> 0 -> rel k a x -> rel l b y -> rel (k + l) (a / b) (x / y).
Proof.
  intros Hy (t & Ht & E) (s & Hs & E'). exists (t - s). split.
  - unfold Rminus. eapply Rle_trans; [apply Rabs_triang|]. rewrite Rabs_Ropp. lra.
  - rewrite E, E'. unfold Rminus. rewrite exp_plus, exp_Ropp. pose proof (exp_pos s). field. split; [lra|exact Hy].
Qed.
Lemma rel_pow k a x n : rel k a x -> rel (INR n * k) (a ^ n) (x ^ n).
Proof.
  intros H. induction n as [|n IH]; [cbn; rewrite Rmult_0_l; apply rel_refl|]. rewrite S_INR. cbn [pow].
  replace ((INR n + 1) * k) with (k + INR n * k) by ring. now apply rel_mul.
Qed.
Lemma rel_opp k a x : rel k a x -> rel k (- a) (- x).
Proof. intros (t & Ht & ->). exists t. split; [exact Ht|ring]. Qed.
Lemma sqrt_exp t : sqrt (exp t) = exp (t / 2).
Proof.
  apply sqrt_lem_1; [left; apply exp_pos|left; apply exp_pos|]. rewrite <- exp_plus. f_equal. field.
Qed.
Lemma rel_sqrt k a x : 0 <= x -> rel k a x -> rel (k / 2) (sqrt a) (sqrt x).
Proof.
  intros Hx (t & Ht & ->). exists (t / 2). split.
  - unfold Rdiv. rewrite Rabs_mult, (Rabs_pos_eq (/ 2)) by lra. lra.
  - rewrite sqrt_mult, sqrt_exp; [reflexivity|exact Hx|left; apply exp_pos].
Qed.
Lemma exp_mono a b : a <= b -> exp a <= exp b.
Proof. intros [H|H]; [left; now apply exp_increasing|rewrite H; lra]. Qed.
Lemma ln_mono a b : 0 < a -> a <= b -> ln a <= ln b.
Proof. intros Ha [H|H]; [left; now apply ln_increasing|rewrite H; lra]. Qed.
Lemma rel_between k a x : 0 < x -> x * exp (- (k * w)) <= a <= x * exp (k * w) -> rel k a x.
Proof.
  intros Hx (H1 & H2). assert (Ha : 0 < a) by (pose proof (exp_pos (- (k * w))); nra).
  exists (ln (a / x)). assert (Hq : 0 < a / x) by (apply Rdiv_lt_0_compat; assumption). split.
  - apply Rabs_le. assert (L : forall s, ln (exp s) = s) by apply ln_exp.
    assert (Hq2 : exp (- (k * w)) <= a / x <= exp (k * w)).
    { split; apply Rmult_le_reg_r with x; try exact Hx; unfold Rdiv; rewrite Rmult_assoc, Rinv_l by lra; lra. }
    split; [rewrite <- (L (- (k * w)))|rewrite <- (L (k * w))]; apply ln_mono; try apply exp_pos; lra.
  - rewrite exp_ln by exact Hq. field. lra.
Qed.
Lemma rel_bounds k a x : 0 <= x -> rel k a x -> x * exp (- (k * w)) <= a <= x * exp (k * w).
Proof.
  intros Hx (t & Ht & ->). apply Rabs_le_inv in Ht. split; apply Rmult_le_compat_l; try exact Hx; apply exp_mono; lra.
Qed.
Lemma rel_add k a b x y : 0 <= x -> 0 <= y -> rel k a x -> rel k b y -> rel k (a + b) (x + y).
Proof.
  intros Hx Hy H1 H2. destruct (Req_dec (x + y) 0) as [E|E].
  - assert (x = 0) by lra. assert (y = 0) by lra. subst. destruct H1 as (t & Ht & ->), H2 as (s & _ & ->).
    exists t. split; [exact Ht|ring].
  - apply rel_between; [lra|]. pose proof (rel_bounds _ _ _ Hx H1). pose proof (rel_bounds _ _ _ Hy H2). lra.
Qed.
Lemma ln_1p d : -1/2 <= d -> d - 2 * d ^ 2 <= ln (1 + d) <= d.
Proof.
  intros H. split.
  - assert (H1 : ln (/ (1 + d)) <= / (1 + d) - 1).
    { rewrite <- (ln_exp (/ (1 + d) - 1)). apply ln_mono; [apply Rinv_0_lt_compat; lra|].
      pose proof (exp_ineq1_le (/ (1 + d) - 1)). lra. }
    rewrite ln_Rinv in H1 by lra. assert (H2 : / (1 + d) - 1 <= - d + 2 * d ^ 2); [|lra].
    replace (/ (1 + d) - 1) with (- d + d ^ 2 / (1 + d)) by (field; lra). apply Rplus_le_compat_l.
    replace (2 * d ^ 2) with (d ^ 2 * 2) by ring. apply Rmult_le_compat_l; [apply pow2_ge_0|].
    rewrite <- (Rinv_inv 2). apply Rinv_le_contravar; lra.
  - rewrite <- (ln_exp d) at 2. apply ln_mono; [lra|]. apply exp_ineq1_le.
Qed.
Lemma rel_of_err k a x : 0 <= k <= IZR (2 ^ 40) -> Rabs (a - x) <= k * u53 * Rabs x -> rel k a x.
Proof.
  intros (Hk0 & Hk) H. change (2 ^ 40)%Z with 1099511627776%Z in Hk. destruct (Req_dec x 0) as [->|Hx].
  - rewrite Rabs_R0, Rmult_0_r in H. assert (a = 0) by (apply Rabs_le_inv in H; lra).
    subst a. exists 0. rewrite Rabs_R0. split; [pose proof w_pos; nra|ring].
  - set (d := (a - x) / x).
    assert (Hd : Rabs d <= k * u53).
    { unfold d, Rdiv. rewrite Rabs_mult, Rabs_inv. apply Rmult_le_reg_r with (Rabs x); [now apply Rabs_pos_lt|].
      rewrite Rmult_assoc, Rinv_l; [lra|]. now apply Rabs_no_R0. }
    assert (Hu : k * u53 <= / 8192) by (rewrite u53_val; apply Rmult_le_reg_r with 9007199254740992; [lra|]; rewrite Rmult_assoc, Rinv_l by lra; lra).
    apply Rabs_le_inv in Hd. pose proof (ln_1p d ltac:(lra)) as L.
    exists (ln (1 + d)). split.
    + apply Rabs_le. unfold w. assert (0 <= k * u53) by (pose proof u53_pos; nra).
      assert (d ^ 2 <= k * u53 * / 8192) by nra. split; lra.
    + rewrite exp_ln by lra. unfold d. field. exact Hx.
Qed.
Lemma exp_small t : Rabs t <= / 1024 -> Rabs (exp t - 1) <= Rabs t * (1024 / 1023).
Proof.
  intros H. apply Rabs_le_inv in H. pose proof (exp_ineq1_le t) as H1. pose proof (exp_ineq1_le (- t)) as H2.
  assert (H3 : exp t * exp (- t) = 1) by (rewrite <- exp_plus; replace (t + - t) with 0 by ring; apply exp_0).
  assert (H4 : exp t * (1 - t) <= 1) by (pose proof (exp_pos t); nra).
  assert (H5 : exp t - 1 <= t * (1024 / 1023) \/ t <= 0).
  { destruct (Rle_dec t 0) as [Ht|Ht]; [right; exact Ht|left]. nra. }
  destruct (Rle_dec t 0) as [Ht|Ht].
  - rewrite (Rabs_left1 t) by exact Ht. assert (exp t <= 1) by (rewrite <- exp_0; now apply exp_mono). rewrite Rabs_left1 by lra. lra.
  - rewrite (Rabs_pos_eq t) by lra. rewrite Rabs_pos_eq by lra. destruct H5; lra.
Qed.
Lemma rel_err k a x : 0 <= k <= IZR (2 ^ 40) -> rel k a x -> Rabs (a - x) <= k * (u53 * (257 / 256)) * Rabs x.
Proof.
  intros (Hk0 & Hk) (t & Ht & ->). change (2 ^ 40)%Z with 1099511627776%Z in Hk.
  replace (x * exp t - x) with ((exp t - 1) * x) by ring. rewrite Rabs_mult. apply Rmult_le_compat_r; [apply Rabs_pos|].
  assert (Hw : k * w <= / 1024) by (rewrite w_val; lra).
  eapply Rle_trans; [apply exp_small; lra|]. unfold w in Ht. pose proof u53_pos. assert (0 <= k * u53) by nra. lra.
Qed.
Lemma rel_zero k a : rel k a 0 -> a = 0.
Proof. intros (t & _ & ->). ring. Qed.
Lemma rel_pos k a x : rel k a x -> 0 < x -> 0 < a.
Proof. intros (t & _ & ->) H. pose proof (exp_pos t). nra. Qed.
Lemma rel_nonneg k a x : rel k a x -> 0 <= x -> 0 <= a.
Proof. intros (t & _ & ->) H. pose proof (exp_pos t). nra. Qed.
Lemma rel_nonzero k a x : rel k a x -> x <> 0 -> a <> 0.
Proof. intros (t & _ & ->) H E. pose proof (exp_pos t). apply Rmult_integral in E as [E|E]; [contradiction|lra]. Qed.
Lemma rel_abs_le k a x : 0 <= k <= IZR (2 ^ 40) -> rel k a x -> Rabs a <= Rabs x * (257 / 256).
Proof.
  intros Hk H. pose proof (rel_err k a x Hk H) as E. pose proof (Rabs_pos x). change (2 ^ 40)%Z with 1099511627776%Z in Hk.
  assert (k * (u53 * (257 / 256)) <= / 256) by (rewrite u53_val; lra).
  assert (Rabs a <= Rabs (a - x) + Rabs x) by (replace a with (a - x + x) at 1 by ring; apply Rabs_triang). nra.
Qed.
Lemma rel_rnd x : x = 0 \/ bpow radix2 (-1000) <= Rabs x -> rel 1 (rnd x) x.
Proof.
  intros [-> | H].
  - rewrite rnd_0. apply rel_weaken with 0; [lra|apply rel_refl].
  - apply rel_of_err; [simpl; lra|]. rewrite Rmult_1_l. now apply rnd_err_rel.
Qed.
(** lower bound kept by a relative error *)
Lemma rel_abs_ge k a x : 0 <= k <= IZR (2 ^ 40) -> rel k a x -> Rabs x * (255 / 256) <= Rabs a.
Proof.
  intros Hk H. pose proof (rel_err k a x Hk H) as E. pose proof (Rabs_pos x). change (2 ^ 40)%Z with 1099511627776%Z in Hk.
  assert (k * (u53 * (257 / 256)) <= / 256) by (rewrite u53_val; lra).
  assert (Rabs x <= Rabs (a - x) + Rabs a) by (replace x with (- (a - x) + a) at 1 by ring; eapply Rle_trans; [apply Rabs_triang|rewrite Rabs_Ropp; lra]). nra.
Qed.

(** ** pi *)
Lemma PI_bounds : 31415926 / 10000000 <= PI <= 31415928 / 10000000.
Proof.
  pose proof (PI_2_3_7_ineq 4) as (H1 & H2). cbn [sum_f_R0 Nat.mul Nat.add] in H1, H2.
  unfold tg_alt, PI_2_3_7_tg, Ratan_seq in H1, H2. cbn [pow INR Nat.mul Nat.add] in H1, H2. lra.
Qed.
