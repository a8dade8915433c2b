(** Correctness and error bounds of the binary64 operations of [Bops] (consequences of Flocq's theorems). *)
From Coq Require Import ZArith Reals Lia Lra Psatz.
From Flocq Require Import Core BinarySingleNaN Relative.
From Verif Require Import Floats.
Open Scope R_scope.

Notation fin x := (is_finite x = true).
Notation toR x := (@B2R 53 1024 x).

(** Rounding to nearest even in binary64 (gradual underflow, no overflow). *)
Definition rnd (x : R) : R := round radix2 (FLT_exp (-1074) 53) ZnearestE x.

Definition small (x : R) : Prop := Rabs x <= bpow radix2 1000.

Lemma rnd_le x y : x <= y -> rnd x <= rnd y.
Proof. intros H; unfold rnd. apply round_le; auto with typeclass_instances. Qed.

Lemma rnd_generic x : generic_format radix2 (FLT_exp (-1074) 53) x -> rnd x = x.
Proof. intros H; unfold rnd. apply round_generic; auto with typeclass_instances. Qed.

Lemma rnd_0 : rnd 0 = 0.
Proof. unfold rnd. apply round_0; auto with typeclass_instances. Qed.

Lemma generic_dyadic m e : (Z.abs m <= 2 ^ 53)%Z -> (-1074 <= e)%Z ->
  generic_format radix2 (FLT_exp (-1074) 53) (IZR m * bpow radix2 e).
Proof.
  intros Hm He.
  destruct (Z.eq_dec (Z.abs m) (2 ^ 53)) as [E|N].
  - (* m = +-2^53: a power of two *)
    assert (Hb : generic_format radix2 (FLT_exp (-1074) 53) (bpow radix2 (53 + e))).
    { apply generic_format_bpow. unfold FLT_exp. lia. }
    assert (Hm' : (m = 2 ^ 53 \/ m = - 2 ^ 53)%Z) by lia.
    assert (HIZR : IZR (2 ^ 53) = bpow radix2 53) by (now rewrite <- IZR_Zpower by lia).
    destruct Hm' as [-> | ->].
    + rewrite HIZR, <- bpow_plus. exact Hb.
    + rewrite opp_IZR, HIZR, Ropp_mult_distr_l_reverse, <- bpow_plus. now apply generic_format_opp.
  - apply generic_format_FLT. exists (Float radix2 m e).
    + reflexivity.
    + cbn [Fnum]. change (radix2 ^ 53)%Z with (2 ^ 53)%Z. lia.
    + exact He.
Qed.

Lemma generic_IZR m : (Z.abs m <= 2 ^ 53)%Z -> generic_format radix2 (FLT_exp (-1074) 53) (IZR m).
Proof.
  intros H. replace (IZR m) with (IZR m * bpow radix2 0) by (simpl; ring).
  apply generic_dyadic; lia.
Qed.

Lemma rnd_IZR m : (Z.abs m <= 2 ^ 53)%Z -> rnd (IZR m) = IZR m.
Proof. intros; apply rnd_generic, generic_IZR; assumption. Qed.

Definition u53 : R := bpow radix2 (-53).
Definition eta : R := bpow radix2 (-1075).

Lemma rnd_err x : Rabs (rnd x - x) <= u53 * Rabs x + eta.
Proof.
  unfold rnd.
  destruct (relative_error_N_FLT'_ex radix2 (-1074) 53 ltac:(reflexivity) (fun z => negb (Z.even z)) x)
    as (eps & et & H1 & H2 & _ & H4).
  rewrite H4.
  replace (x * (1 + eps) + et - x) with (x * eps + et) by ring.
  eapply Rle_trans; [apply Rabs_triang|].
  apply Rplus_le_compat.
  - rewrite Rabs_mult, Rmult_comm. apply Rmult_le_compat_r; [apply Rabs_pos|].
    eapply Rle_trans; [exact H1|].
    assert (Hu : u_ro radix2 53 = u53).
    { unfold u_ro, u53. replace (/ 2) with (bpow radix2 (-1)) by (simpl; lra). rewrite <- bpow_plus. reflexivity. }
    rewrite Hu. assert (0 < u53) by apply bpow_gt_0.
    unfold Rdiv. rewrite <- (Rmult_1_r u53) at 3. apply Rmult_le_compat_l; [lra|].
    rewrite <- Rinv_1. apply Rinv_le; lra.
  - eapply Rle_trans; [exact H2|].
    unfold eta. replace (/ 2) with (bpow radix2 (-1)) by (simpl; lra). rewrite <- bpow_plus. apply Rle_refl.
Qed.

Lemma u53_pos : 0 < u53. Proof. apply bpow_gt_0. Qed.
Lemma eta_pos : 0 < eta. Proof. apply bpow_gt_0. Qed.

Lemma rnd_err_rel x : bpow radix2 (-1000) <= Rabs x -> Rabs (rnd x - x) <= u53 * Rabs x.
Proof.
  intros H. unfold rnd.
  eapply Rle_trans; [apply (relative_error_N_FLT radix2 (-1074) 53 ltac:(reflexivity))|].
  - eapply Rle_trans; [|exact H]. apply bpow_le. lia.
  - apply Req_le. f_equal. unfold u53. replace (/ 2) with (bpow radix2 (-1)) by (simpl; lra).
    rewrite <- bpow_plus. reflexivity.
Qed.

Lemma rnd_small x : small x -> Rabs (rnd x) < bpow radix2 1024.
Proof.
  unfold small; intros H.
  assert (Hb : generic_format radix2 (FLT_exp (-1074) 53) (bpow radix2 1000)).
  { apply generic_format_bpow. unfold FLT_exp. lia. }
  apply Rle_lt_trans with (bpow radix2 1000).
  - unfold rnd. apply abs_round_le_generic; auto with typeclass_instances.
  - apply bpow_lt. lia.
Qed.

Lemma b_add_ok x y : fin x -> fin y -> small (toR x + toR y) ->
  fin (f_add Bops x y) /\ toR (f_add Bops x y) = rnd (toR x + toR y).
Proof.
  intros Fx Fy Hs. cbn [f_add Bops].
  pose proof (Bplus_correct prec64 emax64 _ _ mode_NE x y Fx Fy) as H.
  rewrite Rlt_bool_true in H by exact (rnd_small _ Hs).
  destruct H as (H1 & H2 & _). split; [exact H2|exact H1].
Qed.

Lemma b_sub_ok x y : fin x -> fin y -> small (toR x - toR y) ->
  fin (f_sub Bops x y) /\ toR (f_sub Bops x y) = rnd (toR x - toR y).
Proof.
  intros Fx Fy Hs. cbn [f_sub Bops].
  pose proof (Bminus_correct prec64 emax64 _ _ mode_NE x y Fx Fy) as H.
  rewrite Rlt_bool_true in H by exact (rnd_small _ Hs).
  destruct H as (H1 & H2 & _). split; [exact H2|exact H1].
Qed.

Lemma b_mul_ok x y : fin x -> fin y -> small (toR x * toR y) ->
  fin (f_mul Bops x y) /\ toR (f_mul Bops x y) = rnd (toR x * toR y).
Proof.
  intros Fx Fy Hs. cbn [f_mul Bops].
  pose proof (Bmult_correct prec64 emax64 _ _ mode_NE x y) as H.
  rewrite Rlt_bool_true in H by exact (rnd_small _ Hs).
  destruct H as (H1 & H2 & _). split; [etransitivity; [exact H2|]; apply andb_true_intro; split; assumption|exact H1].
Qed.

Lemma b_div_ok x y : fin x -> toR y <> 0 -> small (toR x / toR y) ->
  fin (f_div Bops x y) /\ toR (f_div Bops x y) = rnd (toR x / toR y).
Proof.
  intros Fx Fy Hs. cbn [f_div Bops].
  pose proof (Bdiv_correct prec64 emax64 _ _ mode_NE x y Fy) as H.
  rewrite Rlt_bool_true in H by exact (rnd_small _ Hs).
  destruct H as (H1 & H2 & _). split; [etransitivity; [exact H2|exact Fx]|exact H1].
Qed.

Lemma b_dyadic_ok m e : small (IZR m * bpow radix2 e) ->
  fin (b_dyadic m e) /\ toR (b_dyadic m e) = rnd (IZR m * bpow radix2 e).
Proof.
  intros Hs. unfold b_dyadic.
  pose proof (binary_normalize_correct prec64 emax64 _ _ mode_NE m e false) as H.
  cbv zeta in H. unfold F2R in H. cbn [Fnum Fexp] in H.
  rewrite Rlt_bool_true in H by exact (rnd_small _ Hs).
  destruct H as (H1 & H2 & _). split; [exact H2|exact H1].
Qed.

Lemma small_le x k : (k <= 1000)%Z -> Rabs x <= bpow radix2 k -> small x.
Proof. intros Hk H. unfold small. eapply Rle_trans; [exact H|]. apply bpow_le; exact Hk. Qed.

Lemma small_IZR m : (Z.abs m <= 2 ^ 100)%Z -> small (IZR m).
Proof.
  intros H. apply small_le with 100%Z; [lia|].
  rewrite <- abs_IZR, <- IZR_Zpower by lia. apply IZR_le. exact H.
Qed.

Lemma b_of_Z_ok n : (Z.abs n <= 2 ^ 53)%Z -> fin (b_of_Z n) /\ toR (b_of_Z n) = IZR n.
Proof.
  intros H. unfold b_of_Z.
  destruct (b_dyadic_ok n 0) as (H1 & H2).
  - simpl bpow. rewrite Rmult_1_r. apply small_IZR. eapply Z.le_trans; [exact H|]. apply Z.pow_le_mono_r; lia.
  - split; [exact H1|]. rewrite H2. simpl bpow. rewrite Rmult_1_r. apply rnd_IZR; exact H.
Qed.

Lemma b_dyadic_exact m e : (Z.abs m <= 2 ^ 53)%Z -> (-1074 <= e <= 900)%Z ->
  fin (b_dyadic m e) /\ toR (b_dyadic m e) = IZR m * bpow radix2 e.
Proof.
  intros Hm He. destruct (b_dyadic_ok m e) as (H1 & H2).
  - apply small_le with (53 + e)%Z; [lia|]. rewrite Rabs_mult, (Rabs_pos_eq (bpow _ _)) by apply bpow_ge_0.
    rewrite bpow_plus. apply Rmult_le_compat_r; [apply bpow_ge_0|].
    rewrite <- abs_IZR, <- IZR_Zpower by lia. apply IZR_le. exact Hm.
  - split; [exact H1|]. rewrite H2. apply rnd_generic, generic_dyadic; lia.
Qed.

Lemma b_quarter bit : fin (if bit : bool then b_dyadic 1 (-2) else b_dyadic (-1) (-2)) /\
  toR (if bit then b_dyadic 1 (-2) else b_dyadic (-1) (-2)) = (if bit then /4 else -/4).
Proof.
  destruct bit.
  - destruct (b_dyadic_exact 1 (-2)) as (H1 & H2); [lia|lia|]. split; [exact H1|].
    etransitivity; [exact H2|]. simpl. lra.
  - destruct (b_dyadic_exact (-1) (-2)) as (H1 & H2); [lia|lia|]. split; [exact H1|].
    etransitivity; [exact H2|]. simpl. lra.
Qed.

(** floor, ceil, round *)
Lemma round_FIX0 f {Hf : Valid_rnd f} x : round radix2 (FIX_exp 0) f x = IZR (f x).
Proof.
  unfold round, F2R, scaled_mantissa, cexp, FIX_exp. simpl. now rewrite !Rmult_1_r.
Qed.

Lemma b_floor_ok x : fin x -> fin (f_floor Bops x) /\ toR (f_floor Bops x) = IZR (Zfloor (toR x)).
Proof.
  intros Fx. cbn [f_floor Bops].
  destruct (Bnearbyint_correct prec64 emax64 _ mode_DN x) as (H1 & H2 & _).
  split; [etransitivity; [exact H2|exact Fx]|]. etransitivity; [exact H1|]. apply round_FIX0. auto with typeclass_instances.
Qed.

Lemma b_ceil_ok x : fin x -> fin (f_ceil Bops x) /\ toR (f_ceil Bops x) = IZR (Zceil (toR x)).
Proof.
  intros Fx. cbn [f_ceil Bops].
  destruct (Bnearbyint_correct prec64 emax64 _ mode_UP x) as (H1 & H2 & _).
  split; [etransitivity; [exact H2|exact Fx]|]. etransitivity; [exact H1|]. apply round_FIX0. auto with typeclass_instances.
Qed.

Lemma b_round_ok x : fin x -> fin (f_round Bops x) /\ toR (f_round Bops x) = IZR (Znearest (Z.leb 0) (toR x)).
Proof.
  intros Fx. cbn [f_round Bops].
  destruct (Bnearbyint_correct prec64 emax64 _ mode_NA x) as (H1 & H2 & _).
  split; [etransitivity; [exact H2|exact Fx]|]. etransitivity; [exact H1|]. apply round_FIX0. auto with typeclass_instances.
Qed.

Lemma b_cast_ok lo hi x : fin x -> f_cast Bops lo hi x = clamp lo hi (Ztrunc (toR x)).
Proof.
  intros Fx. cbn [f_cast Bops].
  assert (H : Btrunc x = Ztrunc (toR x)).
  { apply eq_IZR. etransitivity; [exact (Btrunc_correct prec64 emax64 _ x)|]. apply round_FIX0. auto with typeclass_instances. }
  destruct x; try discriminate; unfold b_cast; rewrite H; reflexivity.
Qed.

Lemma b_ge_ok x y : fin x -> fin y -> f_ge Bops x y = Rle_bool (toR y) (toR x).
Proof. intros Fx Fy. cbn [f_ge Bops]. apply Bleb_correct; assumption. Qed.
