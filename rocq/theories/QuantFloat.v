(** The quantiser in binary64, outside the rounding guard band. *)
From Coq Require Import Reals Lra.
From Flocq Require Import Core BinarySingleNaN.
From Verif Require Import Outcome Floats FloatFacts Bits ListFacts Quantization QuantProofs IndexArithProofs QuantReal.
Open Scope R_scope.

Definition eps22 : R := bpow radix2 (-22).
Definition guard : R := bpow radix2 (-20).
(** Ordinary magnitudes: the step between 2^-500 and 2^500, features at most 2^29 steps. *)
Definition ordinary_step (s : R) : Prop := bpow radix2 (-500) <= s <= bpow radix2 500.
Definition ordinary (s x : R) : Prop := Rabs x <= bpow radix2 29 * s.

Lemma bpow_num k : (0 <= k)%Z -> bpow radix2 k = IZR (2 ^ k).
Proof. intros H. rewrite <- IZR_Zpower by exact H. reflexivity. Qed.

Section QF.
Context (s : b64) (Fs : fin s) (Hs : ordinary_step (toR s)).
Let S := toR s.

Lemma S_pos : 0 < S.
Proof. unfold S. destruct Hs as (H & _). pose proof (bpow_gt_0 radix2 (-500)). lra. Qed.

Lemma eta_small : eta <= bpow radix2 (-60) * S.
Proof.
  unfold eta, S. destruct Hs as (H & _). apply Rle_trans with (bpow radix2 (-60) * bpow radix2 (-500)).
  - rewrite <- bpow_plus. apply bpow_le. lia.
  - apply Rmult_le_compat_l; [apply bpow_ge_0|exact H].
Qed.
Lemma eta_small' : eta <= bpow radix2 (-60).
Proof. unfold eta. apply bpow_le. lia. Qed.

Lemma small_S x k : (k <= 400)%Z -> Rabs x <= bpow radix2 k * S -> small x.
Proof.
  intros Hk H. apply small_le with (k + 500)%Z; [lia|]. rewrite bpow_plus.
  eapply Rle_trans; [exact H|]. apply Rmult_le_compat_l; [apply bpow_ge_0|]. apply Hs.
Qed.

(** Value and error of the quotient. *)
Lemma quot_ok x : fin x -> Rabs (toR x) <= bpow radix2 30 * S ->
  fin (f_div Bops x s) /\ toR (f_div Bops x s) = rnd (toR x / S) /\ Rabs (rnd (toR x / S) - toR x / S) <= eps22.
Proof.
  intros Fx Hx. pose proof S_pos as HS.
  assert (Hq : Rabs (toR x / S) <= bpow radix2 30).
  { unfold Rdiv. rewrite Rabs_mult, (Rabs_pos_eq (/ S)) by (left; now apply Rinv_0_lt_compat).
    apply Rmult_le_reg_r with S; [exact HS|]. rewrite Rmult_assoc, Rinv_l, Rmult_1_r by lra. exact Hx. }
  destruct (b_div_ok x s Fx) as (F1 & V1).
  - fold S. lra.
  - fold S. apply small_le with 30%Z; [lia|exact Hq].
  - split; [exact F1|]. split; [exact V1|].
    eapply Rle_trans; [apply rnd_err|].
    pose proof eta_small'. unfold eps22.
    apply Rle_trans with (u53 * bpow radix2 30 + bpow radix2 (-60)).
    + apply Rplus_le_compat; [|assumption]. apply Rmult_le_compat_l; [left; apply u53_pos|exact Hq].
    + unfold u53. rewrite <- bpow_plus. simpl Z.add. simpl bpow. lra.
Qed.

Definition qz (x : b64) : Z := Zfloor (rnd (toR x / S)).

Lemma quantize1_qz x : fin x -> Rabs (toR x) <= bpow radix2 30 * S ->
  quantize1 Bops s x = qz x /\ (Z.abs (qz x) <= 2 ^ 30 + 2)%Z.
Proof.
  intros Fx Hx. destruct (quot_ok x Fx Hx) as (F1 & V1 & E1). pose proof S_pos as HS.
  assert (Hq : Rabs (toR x / S) <= bpow radix2 30).
  { unfold Rdiv. rewrite Rabs_mult, (Rabs_pos_eq (/ S)) by (left; now apply Rinv_0_lt_compat).
    apply Rmult_le_reg_r with S; [exact HS|]. rewrite Rmult_assoc, Rinv_l, Rmult_1_r by lra. exact Hx. }
  assert (B : (Z.abs (qz x) <= 2 ^ 30 + 2)%Z).
  { unfold qz. apply Rabs_le_inv in E1. apply Rabs_le_inv in Hq. unfold eps22 in E1. simpl bpow in E1, Hq.
    pose proof (Zfloor_lb (rnd (toR x / S))) as L. pose proof (Zfloor_ub (rnd (toR x / S))) as U.
    assert (IZR (Zfloor (rnd (toR x / S))) <= IZR (2 ^ 30 + 2)) by (change (2 ^ 30 + 2)%Z with 1073741826%Z; lra).
    assert (IZR (- (2 ^ 30 + 2)) <= IZR (Zfloor (rnd (toR x / S)))) by (change (- (2 ^ 30 + 2))%Z with (-1073741826)%Z; lra).
    apply le_IZR in H, H0. lia. }
  split; [|exact B].
  unfold quantize1, f_to_i64. destruct (b_floor_ok _ F1) as (F2 & V2).
  rewrite (b_cast_ok _ _ _ F2), V2, Ztrunc_IZR, V1. apply clamp_id. unfold i64_min, i64_max. fold (qz x). lia.
Qed.

(** The threshold of the upper half-bin. *)
Lemma upper_ok x : fin x -> Rabs (toR x) <= bpow radix2 30 * S ->
  exists t, Rabs (t - S * (IZR (qz x) + / 2)) <= eps22 * S /\ upper_half Bops s x = Rle_bool t (toR x).
Proof.
  intros Fx Hx. destruct (quantize1_qz x Fx Hx) as (Q & B). pose proof S_pos as HS.
  unfold upper_half. rewrite Q.
  destruct (b_of_Z_ok (qz x)) as (F1 & V1); [lia|].
  destruct (b_dyadic_exact 1 (-1)) as (F2 & V2); [lia|lia|].
  change (f_of_Z Bops) with b_of_Z. change (f_dyadic Bops) with b_dyadic.
  assert (V2' : toR (b_dyadic 1 (-1)) = / 2) by (etransitivity; [exact V2|simpl; lra]).
  assert (HB : Rabs (IZR (qz x)) <= 1073741826).
  { rewrite <- abs_IZR. change 1073741826 with (IZR (2 ^ 30 + 2)). apply IZR_le. exact B. }
  apply Rabs_le_inv in HB.
  destruct (b_add_ok (b_of_Z (qz x)) (b_dyadic 1 (-1)) F1 F2) as (F3 & V3).
  { rewrite V1, V2'. apply small_le with 32%Z; [lia|]. apply Rabs_le. simpl bpow. lra. }
  rewrite V1, V2' in V3.
  assert (V3' : rnd (IZR (qz x) + / 2) = IZR (qz x) + / 2).
  { replace (IZR (qz x) + / 2) with (IZR (2 * qz x + 1) * bpow radix2 (-1)) by (rewrite plus_IZR, mult_IZR; simpl; lra).
    apply rnd_generic, generic_dyadic; lia. }
  rewrite V3' in V3.
  destruct (b_mul_ok s (f_add Bops (b_of_Z (qz x)) (b_dyadic 1 (-1))) Fs F3) as (F4 & V4).
  { rewrite V3. apply small_S with 32%Z; [lia|]. fold S. rewrite Rabs_mult, (Rabs_pos_eq S), Rmult_comm by lra.
    apply Rmult_le_compat_r; [lra|]. apply Rabs_le. simpl bpow. lra. }
  rewrite V3 in V4. fold S in V4.
  exists (rnd (S * (IZR (qz x) + / 2))). split.
  - eapply Rle_trans; [apply rnd_err|]. pose proof eta_small.
    rewrite Rabs_mult, (Rabs_pos_eq S) by lra.
    assert (A : Rabs (IZR (qz x) + / 2) <= 1073741827) by (apply Rabs_le; lra).
    apply Rle_trans with (u53 * (S * 1073741827) + bpow radix2 (-60) * S).
    + apply Rplus_le_compat; [|assumption]. apply Rmult_le_compat_l; [left; apply u53_pos|].
      apply Rmult_le_compat_l; [lra|exact A].
    + rewrite (Rmult_comm S), <- Rmult_assoc, <- Rmult_plus_distr_r. apply Rmult_le_compat_r; [lra|].
      unfold u53, eps22. simpl bpow. lra.
  - rewrite (b_ge_ok _ _ Fx F4), V4. reflexivity.
Qed.

(** Effective half-bin index. *)
Definition hb (x : b64) : Z := (2 * qz x + Z.b2z (upper_half Bops s x))%Z.

Lemma mul_div_S y : y / S * S = y. Proof. pose proof S_pos. field. lra. Qed.

Lemma qz_bounds x : fin x -> Rabs (toR x) <= bpow radix2 30 * S ->
  (IZR (qz x) - eps22) * S <= toR x < (IZR (qz x) + 1) * S.
Proof.
  intros Fx Hx. destruct (quot_ok x Fx Hx) as (_ & _ & E1). destruct (quantize1_qz x Fx Hx) as (_ & B).
  pose proof S_pos as HS. apply Rabs_le_inv in E1.
  pose proof (Zfloor_lb (rnd (toR x / S))) as L. pose proof (Zfloor_ub (rnd (toR x / S))) as U. fold (qz x) in L, U.
  split.
  - rewrite <- (mul_div_S (toR x)). apply Rmult_le_compat_r; lra.
  - rewrite <- (mul_div_S (toR x)). apply Rmult_lt_compat_r; [lra|].
    apply Rnot_le_lt. intros C. apply rnd_le in C. rewrite <- plus_IZR in C. rewrite rnd_IZR in C by lia.
    rewrite plus_IZR in C. lra.
Qed.

Lemma hb_bounds x : fin x -> Rabs (toR x) <= bpow radix2 30 * S ->
  (IZR (hb x) / 2 - eps22) * S <= toR x < (IZR (hb x) / 2 + / 2 + eps22) * S.
Proof.
  intros Fx Hx. pose proof (qz_bounds x Fx Hx) as (L & U). destruct (upper_ok x Fx Hx) as (t & Ht & Hu).
  apply Rabs_le_inv in Ht. pose proof S_pos as HS. pose proof (bpow_gt_0 radix2 (-22)) as He. fold eps22 in He.
  assert (0 < eps22 * S) by (apply Rmult_lt_0_compat; assumption).
  unfold hb. rewrite Hu. rewrite plus_IZR, mult_IZR.
  destruct (Rle_bool_spec t (toR x)) as [C|C]; cbn [Z.b2z]; split; nra.
Qed.

Lemma noise_hb x x' : fin x -> fin x' -> Rabs (toR x) <= bpow radix2 30 * S -> Rabs (toR x') <= bpow radix2 30 * S ->
  Rabs (toR x' - toR x) <= (1 - guard) * S -> (Z.abs (hb x' - hb x) <= 2)%Z.
Proof.
  intros Fx Fx' Hx Hx' Hn. pose proof (hb_bounds x Fx Hx) as (L & U). pose proof (hb_bounds x' Fx' Hx') as (L' & U').
  apply Rabs_le_inv in Hn. pose proof S_pos as HS.
  assert (Hg : 4 * eps22 < 2 * guard) by (unfold eps22, guard; simpl bpow; lra).
  assert (A : IZR (hb x') < IZR (hb x) + 3).
  { apply Rmult_lt_reg_r with S; [exact HS|]. nra. }
  assert (B : IZR (hb x) < IZR (hb x') + 3).
  { apply Rmult_lt_reg_r with S; [exact HS|]. nra. }
  rewrite <- plus_IZR in A, B. apply lt_IZR in A, B. lia.
Qed.

(** Re-quantisation after a shift by one step. *)
Lemma requant x k y : fin x -> fin y -> (k = 1 \/ k = -1) -> Rabs (toR x) <= bpow radix2 29 * S + S ->
  toR y = rnd (toR x + k * S) ->
  (forall n : Z, (n = 0%Z /\ 0 <= toR x) \/ guard * S <= Rabs (toR x - IZR n * S)) ->
  forall q : Z, IZR q * S - eps22 * S <= toR x < (IZR q + 1) * S ->
  exists z, IZR z = IZR q + k /\ quantize1 Bops s y = z.
Proof.
  intros Fx Fy Hk Hx Hy Hg q Hq. pose proof S_pos as HS. apply Rabs_le_inv in Hx.
  assert (Heg : eps22 <= guard / 4) by (unfold eps22, guard; simpl bpow; lra).
  assert (Hg0 : 0 < eps22) by apply bpow_gt_0.
  (* distance from the bin boundaries *)
  assert (H1 : (q = 0%Z /\ 0 <= toR x) \/ (IZR q + guard) * S <= toR x).
  { specialize (Hg q) as [Hg|Hg]; [left; exact Hg|right]. unfold Rabs in Hg. destruct (Rcase_abs (toR x - IZR q * S)); nra. }
  assert (H2 : toR x <= (IZR q + 1 - guard) * S).
  { specialize (Hg (q + 1)%Z) as [(E0 & Hg)|Hg].
    - assert (E1 : IZR q + 1 = 0) by (rewrite <- plus_IZR, E0; reflexivity). rewrite E1 in Hq. lra.
    - rewrite plus_IZR in Hg. unfold Rabs in Hg. destruct (Rcase_abs (toR x - (IZR q + 1) * S)); nra. }
  (* the sum *)
  assert (Hsum : Rabs (toR x + k * S) <= (bpow radix2 29 + 2) * S).
  { apply Rabs_le. destruct Hk as [-> | ->]; nra. }
  assert (He : Rabs (toR y - (toR x + k * S)) <= eps22 * S).
  { rewrite Hy. eapply Rle_trans; [apply rnd_err|]. pose proof eta_small.
    apply Rle_trans with (u53 * ((bpow radix2 29 + 2) * S) + bpow radix2 (-60) * S).
    - apply Rplus_le_compat; [|assumption]. apply Rmult_le_compat_l; [left; apply u53_pos|exact Hsum].
    - rewrite <- Rmult_assoc, <- Rmult_plus_distr_r. apply Rmult_le_compat_r; [lra|].
      unfold u53, eps22. simpl bpow. lra. }
  apply Rabs_le_inv in He. apply Rabs_le_inv in Hsum.
  assert (Hyb : Rabs (toR y) <= bpow radix2 30 * S).
  { apply Rabs_le. unfold eps22 in He. simpl bpow in *. nra. }
  destruct (quantize1_qz y Fy Hyb) as (-> & By). destruct (quot_ok y Fy Hyb) as (_ & _ & Ed).
  apply Rabs_le_inv in Ed.
  set (z := (q + (if Rle_bool 0 k then 1 else -1))%Z).
  assert (Ez : IZR z = IZR q + k).
  { unfold z. rewrite plus_IZR. destruct Hk as [-> | ->].
    - rewrite Rle_bool_true by lra. reflexivity.
    - rewrite Rle_bool_false by lra. reflexivity. }
  exists z. split; [exact Ez|]. unfold qz. apply Zfloor_imp. rewrite plus_IZR, Ez.
  assert (L : IZR q + k <= rnd (toR y / S)).
  { destruct H1 as [(E0 & H1)|H1].
    - assert (Gk : generic_format radix2 (FLT_exp (-1074) 53) (k * S)).
      { assert (G : generic_format radix2 (FLT_exp (-1074) 53) S) by apply (generic_format_B2R 53 1024 s). destruct Hk as [-> | ->].
        - now rewrite Rmult_1_l.
        - replace (-1 * S) with (- S) by ring. now apply generic_format_opp. }
      assert (Hyk : k * S <= toR y) by (rewrite Hy; eapply Rle_trans; [right; symmetry; exact (rnd_generic _ Gk)|apply rnd_le; lra]).
      rewrite E0, Rplus_0_l. assert (Ik : k = IZR z) by (rewrite Ez, E0; ring). assert (Gz : rnd k = k) by (rewrite Ik; apply rnd_IZR; unfold z; rewrite E0; destruct (Rle_bool 0 k); lia).
      rewrite <- Gz. apply rnd_le. apply Rmult_le_reg_r with S; [exact HS|]. rewrite mul_div_S. exact Hyk.
    - assert (L : IZR q + k + guard / 2 <= toR y / S) by (apply Rmult_le_reg_r with S; [exact HS|]; rewrite mul_div_S; nra). lra. }
  assert (U : toR y / S <= IZR q + k + 1 - guard / 2).
  { apply Rmult_le_reg_r with S; [exact HS|]. rewrite mul_div_S. nra. }
  lra.
Qed.

(** One feature: outside the guard bands the restored integer is the original one. *)
Lemma restore_float x x' : fin x -> fin x' -> ordinary S (toR x) ->
  Rabs (toR x' - toR x) <= (1 - guard) * S ->
  (forall n : Z, (n = 0%Z /\ 0 <= toR x') \/ guard * S <= Rabs (toR x' - IZR n * S)) ->
  quantize1 Bops s (restore_l Bops s x' (bits3 Bops s x)) = quantize1 Bops s x.
Proof.
  intros Fx Fx' Ho Hn Hg. pose proof S_pos as HS. unfold ordinary in Ho.
  assert (Hg0 : 0 < guard < 1) by (unfold guard; simpl bpow; lra).
  assert (Hx' : Rabs (toR x') <= bpow radix2 29 * S + S).
  { replace (toR x') with (toR x + (toR x' - toR x)) by ring. eapply Rle_trans; [apply Rabs_triang|]. nra. }
  assert (B1 : Rabs (toR x) <= bpow radix2 30 * S) by (simpl bpow in *; nra).
  assert (B2 : Rabs (toR x') <= bpow radix2 30 * S) by (simpl bpow in *; nra).
  pose proof (noise_hb x x' Fx Fx' B1 B2 Hn) as Hh. unfold hb in Hh.
  destruct (quantize1_qz x Fx B1) as (Q & _). destruct (quantize1_qz x' Fx' B2) as (Q' & _).
  rewrite <- Q, <- Q' in Hh.
  pose proof (qz_bounds x' Fx' B2) as Hb'. rewrite <- Q' in Hb'.
  destruct (restore_cases Bops s x x' Hh) as [(E & ->)|[(E & ->)|(E & ->)]].
  - exact E.
  - assert (Hsm : small (toR x' + toR s)).
    { apply small_S with 31%Z; [lia|]. fold S. apply Rabs_le_inv in Hx'. apply Rabs_le. simpl bpow in *. nra. }
    destruct (b_add_ok x' s Fx' Fs Hsm) as (Fy & Vy).
    destruct (requant x' 1 (f_add Bops x' s) Fx' Fy (or_introl eq_refl) Hx') with (q := quantize1 Bops s x') as (z & Ez & ->).
    + rewrite Vy. f_equal. fold S. ring.
    + exact Hg.
    + lra.
    + rewrite <- plus_IZR in Ez. apply eq_IZR in Ez. lia.
  - assert (Hsm : small (toR x' - toR s)).
    { apply small_S with 31%Z; [lia|]. fold S. apply Rabs_le_inv in Hx'. apply Rabs_le. simpl bpow in *. nra. }
    destruct (b_sub_ok x' s Fx' Fs Hsm) as (Fy & Vy).
    destruct (requant x' (-1) (f_sub Bops x' s) Fx' Fy (or_intror eq_refl) Hx') with (q := quantize1 Bops s x') as (z & Ez & ->).
    + rewrite Vy. f_equal. fold S. ring.
    + exact Hg.
    + lra.
    + rewrite <- plus_IZR in Ez. apply eq_IZR in Ez. lia.
Qed.

Lemma no_overflow_float checks xs : Forall (fun x => fin x /\ Rabs (toR x) <= bpow radix2 30 * S) xs -> no_overflow Bops s checks xs.
Proof.
  intros H _. eapply Forall_impl; [|exact H]. intros x (Fx & Hx). destruct (quantize1_qz x Fx Hx) as (-> & B).
  unfold i64_min. lia.
Qed.
End QF.
