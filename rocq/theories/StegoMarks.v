(** Marking and reading one coefficient: exact reals and binary64. *)
From Coq Require Import Reals Lra.
From Flocq Require Import Core BinarySingleNaN.
From Verif Require Import Outcome Floats FloatFacts Bits Stego QuantFloat.
Open Scope R_scope.

(** Nearest integer, ties away from zero. *)
Definition nearest (x : R) : Z := Znearest (fun k => Z.leb 0 k) x.
Definition quarter (b : bool) : R := if b then / 4 else - / 4.

Lemma nearest_half x : Rabs (x - IZR (nearest x)) <= / 2.
Proof. apply Znearest_half. Qed.
Lemma nearest_imp x k : Rabs (x - IZR k) < / 2 -> nearest x = k.
Proof. apply Znearest_imp. Qed.

Lemma mark_real d b c : mark Rops d b c = d * (IZR (nearest (c / d)) + quarter b).
Proof.
  unfold mark, quarter. cbn [f_mul f_add f_div f_round f_dyadic Rops]. fold (nearest (c / d)).
  f_equal. f_equal. destruct b; simpl; lra.
Qed.

Lemma mark_real_err d b c : d <> 0 -> Rabs (mark Rops d b c - c) <= 3 / 4 * Rabs d.
Proof.
  intros Hd. rewrite mark_real.
  replace (d * (IZR (nearest (c / d)) + quarter b) - c) with (d * (quarter b - (c / d - IZR (nearest (c / d))))) by (field; exact Hd).
  rewrite Rabs_mult, Rmult_comm. apply Rmult_le_compat_r; [apply Rabs_pos|].
  pose proof (nearest_half (c / d)) as H. apply Rabs_le_inv in H. apply Rabs_le. unfold quarter. destruct b; lra.
Qed.

Lemma div_error d v y : d <> 0 -> v / d - y = (v - d * y) / d.
Proof. intros. field. assumption. Qed.

(** With positive depth the bit is recovered from any value within depth/4 of the mark; with negative depth its
    complement. *)
Lemma bit_of_real d r b v : d <> 0 -> Rabs (v - d * (IZR r + quarter b)) < Rabs d / 4 ->
  bit_of Rops d v = (if Rlt_bool 0 d then b else negb b).
Proof.
  intros Hd H. unfold bit_of. cbn [f_ge f_sub f_mul f_div f_round f_of_Z Rops]. fold (nearest (v / d)).
  assert (Hq : Rabs (v / d - (IZR r + quarter b)) < / 4).
  { rewrite div_error by exact Hd. unfold Rdiv. rewrite Rabs_mult, Rabs_inv.
    apply Rmult_lt_reg_r with (Rabs d); [now apply Rabs_pos_lt|]. rewrite Rmult_assoc, Rinv_l, Rmult_1_r by now apply Rabs_no_R0. lra. }
  assert (Hn : nearest (v / d) = r).
  { apply nearest_imp. apply Rabs_def2 in Hq. apply Rabs_def1; unfold quarter in Hq; destruct b; lra. }
  rewrite Hn. apply Rabs_def2 in Hq.
  assert (Hv : v - d * IZR r = d * (v / d - IZR r)) by (field; exact Hd). rewrite Hv.
  destruct (Rlt_bool_spec 0 d) as [Hp|Hp]; destruct b; unfold quarter in Hq; cbn [negb].
  - apply Rle_bool_true. nra.
  - apply Rle_bool_false. nra.
  - apply Rle_bool_false. assert (d < 0) by lra. nra.
  - apply Rle_bool_true. assert (d < 0) by lra. nra.
Qed.

(** ** binary64 *)
Section F.
Context (s : b64) (Fs : fin s) (Hs : ordinary_step (toR s)).
Let D := toR s.
Let HD : 0 < D := S_pos s Hs.

Lemma quot_le c k : (0 <= k)%Z -> Rabs c <= bpow radix2 k * D -> Rabs (c / D) <= bpow radix2 k.
Proof.
  intros _ H. unfold Rdiv. rewrite Rabs_mult, (Rabs_pos_eq (/ D)) by (left; now apply Rinv_0_lt_compat).
  apply Rmult_le_reg_r with D; [exact HD|]. rewrite Rmult_assoc, Rinv_l, Rmult_1_r by lra. exact H.
Qed.

Lemma quot_float c : fin c -> Rabs (toR c) <= bpow radix2 42 * D ->
  fin (f_div Bops c s) /\ Rabs (toR (f_div Bops c s) - toR c / D) <= bpow radix2 (-53) * Rabs (toR c / D) + bpow radix2 (-60).
Proof.
  intros Fc Hc. pose proof (quot_le _ 42 ltac:(lia) Hc) as Hq.
  destruct (b_div_ok c s Fc) as (F1 & V1).
  - fold D. lra.
  - fold D. apply small_le with 42%Z; [lia|exact Hq].
  - split; [exact F1|]. fold D in V1. rewrite V1. eapply Rle_trans; [apply rnd_err|]. unfold u53.
    apply Rplus_le_compat_l. apply eta_small'.
Qed.

Lemma mark_float_nearest k b c : (1 <= k <= 40)%Z -> fin c -> Rabs (toR c) <= bpow radix2 k * D ->
  exists r, (Z.abs r <= 2 ^ k + 1)%Z
    /\ fin (mark Bops s b c)
    /\ Rabs (toR (mark Bops s b c) - D * (IZR r + quarter b)) <= bpow radix2 (k - 52) * D
    /\ Rabs (D * (IZR r + quarter b) - toR c) <= (3 / 4 + bpow radix2 (k - 52)) * D
    /\ Rabs (toR c / D - IZR r) <= / 2 + bpow radix2 (k - 52).
Proof.
  intros Hk Fc Hc. pose proof (quot_le _ k ltac:(lia) Hc) as Hq.
  set (B := bpow radix2 k) in *.
  assert (HB2 : 2 <= B) by (apply Rle_trans with (bpow radix2 1); [simpl bpow; lra|apply bpow_le; lia]).
  assert (HB40 : B <= 1099511627776) by (apply Rle_trans with (bpow radix2 40); [apply bpow_le; lia|simpl bpow; lra]).
  assert (Hk52 : bpow radix2 (k - 52) = / 4503599627370496 * B).
  { replace (k - 52)%Z with (-52 + k)%Z by lia. rewrite bpow_plus. unfold B. simpl (bpow radix2 (-52)). reflexivity. }
  assert (H2k : IZR (2 ^ k) = B) by (unfold B; rewrite <- (IZR_Zpower radix2) by lia; reflexivity).
  destruct (quot_float c Fc) as (F1 & E1).
  { eapply Rle_trans; [exact Hc|]. apply Rmult_le_compat_r; [lra|]. apply bpow_le. lia. }
  destruct (b_round_ok _ F1) as (F2 & V2). set (q := toR (f_div Bops c s)) in *.
  exists (Znearest (Z.leb 0) q). set (r := Znearest (Z.leb 0) q).
  pose proof (Znearest_half (Z.leb 0) q) as Hh. fold r in Hh.
  assert (E1' : Rabs (q - toR c / D) <= bpow radix2 (k - 52)).
  { eapply Rle_trans; [exact E1|]. rewrite Hk52.
    apply Rle_trans with (bpow radix2 (-53) * B + bpow radix2 (-60)).
    - apply Rplus_le_compat_r. apply Rmult_le_compat_l; [apply bpow_ge_0|exact Hq].
    - simpl bpow. lra. }
  assert (Hr : (Z.abs r <= 2 ^ k + 1)%Z).
  { apply Z.lt_succ_r. apply lt_IZR. rewrite succ_IZR, plus_IZR, H2k, abs_IZR. rewrite Hk52 in E1'.
    apply Rabs_le_inv in E1'. apply Rabs_le_inv in Hh. apply Rabs_le_inv in Hq. apply Rabs_def1; lra. }
  assert (HRr : Rabs (IZR r) <= B + 1).
  { rewrite <- abs_IZR, <- H2k. rewrite <- (plus_IZR _ 1). apply IZR_le. exact Hr. }
  destruct (b_quarter b) as (F3 & V3).
  unfold mark. change (f_dyadic Bops) with b_dyadic.
  set (rem := if b then b_dyadic 1 (-2) else b_dyadic (-1) (-2)) in *.
  assert (V3' : toR rem = quarter b) by exact V3.
  assert (HB : Rabs (IZR r + quarter b) <= B + 5 / 4).
  { apply Rabs_le_inv in HRr. apply Rabs_le. unfold quarter. destruct b; lra. }
  destruct (b_add_ok (f_round Bops (f_div Bops c s)) rem F2 F3) as (F4 & V4).
  { rewrite V2, V3'. fold r. apply small_le with 42%Z; [lia|]. eapply Rle_trans; [exact HB|]. simpl bpow. lra. }
  rewrite V2, V3' in V4. fold r in V4.
  assert (Hr40 : (Z.abs r <= 2 ^ 40 + 1)%Z).
  { apply le_IZR. rewrite abs_IZR. change (2 ^ 40 + 1)%Z with 1099511627777%Z. lra. }
  assert (V4' : rnd (IZR r + quarter b) = IZR r + quarter b).
  { replace (IZR r + quarter b) with (IZR (4 * r + (if b then 1 else -1)) * bpow radix2 (-2)).
    - apply rnd_generic, generic_dyadic; [destruct b; lia|lia].
    - rewrite plus_IZR, mult_IZR. unfold quarter. destruct b; simpl; lra. }
  rewrite V4' in V4.
  destruct (b_mul_ok s (f_add Bops (f_round Bops (f_div Bops c s)) rem) Fs F4) as (F5 & V5).
  { rewrite V4. fold D. apply (small_S s Hs) with 42%Z; [lia|]. fold D. rewrite Rabs_mult, (Rabs_pos_eq D), Rmult_comm by lra.
    apply Rmult_le_compat_r; [lra|]. eapply Rle_trans; [exact HB|]. simpl bpow. lra. }
  rewrite V4 in V5. fold D in V5.
  split; [exact Hr|]. split; [exact F5|]. split.
  - rewrite V5. eapply Rle_trans; [apply rnd_err|].
    pose proof (eta_small s Hs) as He. fold D in He.
    rewrite Rabs_mult, (Rabs_pos_eq D) by lra.
    apply Rle_trans with (u53 * (D * (B + 5 / 4)) + bpow radix2 (-60) * D).
    + apply Rplus_le_compat; [|exact He]. apply Rmult_le_compat_l; [left; apply u53_pos|]. apply Rmult_le_compat_l; [lra|exact HB].
    + rewrite Hk52. unfold u53. simpl bpow. nra.
  - split.
    + replace (D * (IZR r + quarter b) - toR c) with ((IZR r + quarter b - toR c / D) * D) by (field; lra).
      rewrite Rabs_mult, (Rabs_pos_eq D) by lra. apply Rmult_le_compat_r; [lra|].
      apply Rabs_le_inv in E1'. apply Rabs_le_inv in Hh. apply Rabs_le. unfold quarter. destruct b; lra.
    + apply Rabs_le_inv in E1'. apply Rabs_le_inv in Hh. apply Rabs_le. lra.
Qed.
Lemma mark_float b c : fin c -> Rabs (toR c) <= bpow radix2 40 * D ->
  exists r, (Z.abs r <= 2 ^ 40 + 1)%Z
    /\ fin (mark Bops s b c)
    /\ Rabs (toR (mark Bops s b c) - D * (IZR r + quarter b)) <= bpow radix2 (-12) * D
    /\ Rabs (D * (IZR r + quarter b) - toR c) <= (3 / 4 + bpow radix2 (-12)) * D.
Proof.
  intros Fc Hc. destruct (mark_float_nearest 40 b c ltac:(lia) Fc Hc) as (r & H1 & H2 & H3 & H4 & _). exists r. auto.
Qed.

Lemma bit_of_float r b v : fin v -> (Z.abs r <= 2 ^ 41)%Z ->
  Rabs (toR v - D * (IZR r + quarter b)) <= (/ 4 - bpow radix2 (-10)) * D ->
  bit_of Bops s v = b.
Proof.
  intros Fv Hr H.
  assert (Hq : Rabs (toR v / D - (IZR r + quarter b)) <= / 4 - bpow radix2 (-10)).
  { replace (toR v / D - (IZR r + quarter b)) with ((toR v - D * (IZR r + quarter b)) / D) by (field; lra).
    unfold Rdiv. rewrite Rabs_mult, (Rabs_pos_eq (/ D)) by (left; now apply Rinv_0_lt_compat).
    apply Rmult_le_reg_r with D; [exact HD|]. rewrite Rmult_assoc, Rinv_l, Rmult_1_r by lra. exact H. }
  assert (HRr : Rabs (IZR r) <= 2199023255552).
  { rewrite <- abs_IZR. apply (IZR_le _ (2 ^ 41)). exact Hr. }
  assert (HQ : Rabs (toR v / D) <= 2199023255554).
  { apply Rabs_le_inv in Hq. apply Rabs_le_inv in HRr. simpl bpow in Hq. apply Rabs_le. unfold quarter in Hq. destruct b; lra. }
  assert (Hv : Rabs (toR v) <= bpow radix2 42 * D).
  { replace (toR v) with (toR v / D * D) by (field; lra). rewrite Rabs_mult, (Rabs_pos_eq D) by lra.
    apply Rmult_le_compat_r; [lra|]. simpl bpow. lra. }
  destruct (quot_float v Fv Hv) as (F1 & E1).
  destruct (b_round_ok _ F1) as (F2 & V2). set (q := toR (f_div Bops v s)) in *.
  assert (E1' : Rabs (q - toR v / D) <= bpow radix2 (-11)).
  { eapply Rle_trans; [exact E1|]. simpl bpow. lra. }
  assert (Hn : Znearest (Z.leb 0) q = r).
  { apply Znearest_imp. apply Rabs_le_inv in E1'. apply Rabs_le_inv in Hq. simpl bpow in E1', Hq.
    apply Rabs_def1; unfold quarter in Hq; destruct b; lra. }
  rewrite Hn in V2.
  destruct (b_mul_ok s (f_round Bops (f_div Bops v s)) Fs F2) as (F3 & V3).
  { rewrite V2. fold D. apply (small_S s Hs) with 42%Z; [lia|]. fold D. rewrite Rabs_mult, (Rabs_pos_eq D), Rmult_comm by lra.
    apply Rmult_le_compat_r; [lra|]. simpl bpow. lra. }
  rewrite V2 in V3. fold D in V3.
  assert (E3 : Rabs (rnd (D * IZR r) - D * IZR r) <= bpow radix2 (-11) * D).
  { eapply Rle_trans; [apply rnd_err|]. pose proof (eta_small s Hs) as He. fold D in He.
    rewrite Rabs_mult, (Rabs_pos_eq D) by lra.
    apply Rle_trans with (u53 * (D * 2199023255552) + bpow radix2 (-60) * D).
    - apply Rplus_le_compat; [|exact He]. apply Rmult_le_compat_l; [left; apply u53_pos|]. apply Rmult_le_compat_l; [lra|exact HRr].
    - unfold u53. simpl bpow. lra. }
  set (P := rnd (D * IZR r)) in *.
  assert (HP : Rabs (toR v - P) <= bpow radix2 10 * D).
  { replace (toR v - P) with ((toR v - D * (IZR r + quarter b)) + D * quarter b - (P - D * IZR r)) by ring.
    apply Rabs_le_inv in H. apply Rabs_le_inv in E3. simpl bpow in *. apply Rabs_le. unfold quarter in *. destruct b; lra. }
  destruct (b_sub_ok v (f_mul Bops s (f_round Bops (f_div Bops v s))) Fv F3) as (F4 & V4).
  { rewrite V3. apply (small_S s Hs) with 10%Z; [lia|]. exact HP. }
  rewrite V3 in V4. unfold bit_of. change (f_of_Z Bops) with b_of_Z.
  destruct (b_of_Z_ok 0) as (F0 & V0); [lia|].
  rewrite (b_ge_ok _ _ F4 F0), V0, V4. apply Rabs_le_inv in H. apply Rabs_le_inv in E3.
  destruct b; unfold quarter in H.
  - apply Rle_bool_true. rewrite <- rnd_0. apply rnd_le. simpl bpow in *. lra.
  - apply Rle_bool_false.
    assert (Hneg : toR v - P <= - (bpow radix2 (-11) * D)) by (simpl bpow in *; lra).
    assert (Hbig : bpow radix2 (-511) <= bpow radix2 (-11) * D).
    { replace (-511)%Z with (-11 + -500)%Z by lia. rewrite bpow_plus. apply Rmult_le_compat_l; [apply bpow_ge_0|].
      unfold D. apply Hs. }
    assert (Hb : bpow radix2 (-1000) <= bpow radix2 (-511)) by (apply bpow_le; lia).
    pose proof (bpow_gt_0 radix2 (-511)).
    pose proof (rnd_err_rel (toR v - P)) as He.
    rewrite (Rabs_left (toR v - P)) in He by lra. specialize (He ltac:(lra)).
    apply Rabs_le_inv in He. unfold u53 in He. simpl (bpow radix2 (-53)) in He. lra.
Qed.
End F.
