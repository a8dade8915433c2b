(** Properties C01-C05: the three-bit quantiser (lib/sia/rust/three-bit-quantization/src/lib.rs). *)
From Coq Require Import Reals Lra.
From Flocq Require Import Core BinarySingleNaN.
From Verif Require Import Outcome Floats FloatFacts Bits ListFacts Quantization QuantProofs QuantReal QuantFloat.
Open Scope Z_scope.

(** A quantised value, and its two neighbours, fit an i64. *)
Definition fits_i64 (q : Z) : Prop := Z.abs q <= 2 ^ 63 - 3.

Lemma fits_in q : fits_i64 q -> in_i64 q. Proof. unfold fits_i64, in_i64, i64_min, i64_max. lia. Qed.

Lemma no_overflow_real step checks xs : (0 < step)%R -> Forall (fun x => fits_i64 (Zfloor (x / step))) xs ->
  no_overflow Rops step checks xs.
Proof.
  intros Hs H _. eapply Forall_impl; [|exact H]. intros x Hx.
  rewrite quantize1_bin by (apply fits_in; exact Hx). unfold bin, fits_i64, i64_min in *. lia.
Qed.

Lemma quantize_real step xs : (0 < step)%R -> Forall (fun x => fits_i64 (Zfloor (x / step))) xs ->
  quantize Rops xs step = map (fun x => Zfloor (x / step)) xs.
Proof.
  intros Hs H. unfold quantize. apply map_ext_in. intros x Hx. rewrite Forall_forall in H.
  apply quantize1_bin, fits_in, H, Hx.
Qed.

(** Generic list lifting. *)
Lemma dequantize_lists {F} (O : FOps F) step checks xs xs' : length xs' = length xs ->
  no_overflow O step checks xs -> no_overflow O step checks xs' ->
  three_bit_quantization O checks xs step = Ok (quantize O xs step, flat_map (bits3 O step) xs)
  /\ three_bit_dequantization O checks xs' (flat_map (bits3 O step) xs) step
     = Ok (map (fun p => quantize1 O step (restore_l O step (snd p) (bits3 O step (fst p)))) (combine xs xs')).
Proof.
  intros Hl Ho Ho'. split; [now apply quantization_ok|].
  assert (Hfl : length (flat_map (bits3 O step) xs) = (3 * length xs)%nat).
  { clear. induction xs as [|x t IH]; [reflexivity|]. cbn [flat_map length]. rewrite app_length, IH. cbn [bits3 length]. lia. }
  rewrite dequantization_ok.
  - rewrite chunks_flat_bits3. f_equal. unfold restore_all. rewrite map_map.
    clear - Hl. revert xs' Hl. induction xs as [|x t IH]; intros [|x' t'] Hl; try discriminate; [reflexivity|].
    cbn [map combine fst snd]. f_equal. apply IH. cbn in Hl; lia.
  - exact Ho'.
  - rewrite Hfl, Nat.mul_comm. apply Nat.mod_mul. lia.
  - rewrite Hfl, Hl. lia.
Qed.

(** *** C01 *)
Theorem C01_noise_up_to_one_step_is_absorbed : forall step features noised checks, (0 < step)%R ->
  Forall (fun x => fits_i64 (Zfloor (x / step))) features ->
  Forall2 (fun x x' => (Rabs (x' - x) <= step)%R) features noised ->
  exists bits, three_bit_quantization Rops checks features step
                 = Ok (map (fun x => Zfloor (x / step)) features, bits)
    /\ three_bit_dequantization Rops checks noised bits step = Ok (map (fun x => Zfloor (x / step)) features).
Proof.
  intros step xs xs' checks Hs Hf Hn.
  assert (Hl : length xs' = length xs) by (symmetry; eapply Forall2_length; exact Hn).
  assert (Hb' : Forall2 (fun x x' => fits_i64 (bin step x) /\ in_i64 (bin step x') /\ bin step x' <> i64_min /\ (Rabs (x' - x) <= step)%R) xs xs').
  { clear Hl. induction Hn as [|x x' t t' Hx Ht IH]; constructor.
    - inversion Hf as [|? ? Hfx Hft]; subst. change (Zfloor (x / step)) with (bin step x) in Hfx.
      assert (Hd : Z.abs (bin step x' - bin step x) <= 1).
      { apply Rabs_le_inv in Hx.
        pose proof (proj1 (bin_iff step Hs x _) eq_refl) as (A1 & A2). pose proof (proj1 (bin_iff step Hs x' _) eq_refl) as (B1 & B2).
        assert (IZR (bin step x') < IZR (bin step x + 2))%R.
        { rewrite plus_IZR. apply Rmult_lt_reg_r with step; [exact Hs|]. lra. }
        assert (IZR (bin step x) < IZR (bin step x' + 2))%R.
        { rewrite plus_IZR. apply Rmult_lt_reg_r with step; [exact Hs|]. lra. }
        apply lt_IZR in H, H0. lia. }
      unfold fits_i64, in_i64, i64_min, i64_max in *. repeat split; try lia. exact Hx.
    - apply IH. inversion Hf; assumption. }
  destruct (dequantize_lists Rops step checks xs xs' Hl) as (E1 & E2).
  - now apply no_overflow_real.
  - intros _. clear - Hb'. induction Hb' as [|x x' t t' (H1 & H2 & H3 & _) _ IH]; constructor; [|exact IH].
    rewrite quantize1_bin by exact H2. exact H3.
  - eexists. split; [rewrite E1, quantize_real by assumption; reflexivity|].
    rewrite E2. f_equal. clear - Hb' Hs.
    induction Hb' as [|x x' t t' (H1 & H2 & H3 & H4) _ IH]; [reflexivity|].
    cbn [combine map fst snd]. f_equal; [|exact IH].
    destruct (restore_bin step Hs x x' (fits_in _ H1) H2) as (R1 & R2).
    pose proof (proj2 R1 (noise_halfbin step Hs x x' H4)) as R.
    rewrite quantize1_bin; rewrite R; [reflexivity|apply fits_in; exact H1].
Qed.

Example C01_witness : exists features noised, (0 < 1 / 4)%R /\
  Forall (fun x => fits_i64 (Zfloor (x / (1 / 4)))) features /\
  Forall2 (fun x x' => (Rabs (x' - x) <= 1 / 4)%R) features noised /\
  noised <> features.
Proof.
  exists [(3 / 10)%R; (- 2)%R], [(11 / 20)%R; (- 9 / 4)%R].
  assert (E1 : Zfloor (3 / 10 / (1 / 4)) = 1) by (apply Zfloor_imp; simpl; lra).
  assert (E2 : Zfloor (-2 / (1 / 4)) = -8) by (apply Zfloor_imp; simpl; lra).
  split; [lra|]. split.
  - repeat constructor; rewrite ?E1, ?E2; unfold fits_i64; lia.
  - split; [repeat constructor; unfold Rabs; destruct (Rcase_abs _); lra|].
    intros H. injection H as H1 H2. lra.
Qed.

(** *** C02 *)
(** In f64 the claim of C01 fails: feature 1.25, step 1.0, noised feature 1 - 2^-53 (noise 0.25 + 2^-53 < 1): the
    original quantised value is 1 but 2 is restored. *)
Theorem C02_f64_noise_claim_refuted :
  exists step x x' bits, fin step /\ fin x /\ fin x' /\ toR step = 1%R /\ (Rabs (toR x' - toR x) < / 2)%R /\
    three_bit_quantization Bops true [x] step = Ok ([1], bits) /\
    three_bit_dequantization Bops true [x'] bits step = Ok [2].
Proof.
  exists (b_dyadic 1 0), (b_dyadic 5 (-2)), (b_dyadic (2 ^ 53 - 1) (-53)), [false; false; false].
  destruct (b_dyadic_exact 1 0) as (F1 & V1); [lia|lia|].
  destruct (b_dyadic_exact 5 (-2)) as (F2 & V2); [lia|lia|].
  destruct (b_dyadic_exact (2 ^ 53 - 1) (-53)) as (F3 & V3); [lia|lia|].
  split; [exact F1|]. split; [exact F2|]. split; [exact F3|].
  split; [etransitivity; [exact V1|simpl; lra]|].
  split.
  - rewrite V2, V3. change (2 ^ 53 - 1) with 9007199254740991. simpl bpow. unfold Rabs. destruct (Rcase_abs _); lra.
  - split; vm_compute; reflexivity.
Qed.

(** Outside a guard band of 2^-20 of a step around the bin boundaries and around the noise limit the f64 code does
    restore the original integers. *)
Theorem C02_f64_noise_outside_guard_band : forall (step : b64) features noised checks,
  fin step -> (bpow radix2 (-500) <= toR step <= bpow radix2 500)%R ->
  Forall2 (fun x x' : b64 => fin x /\ fin x' /\ (Rabs (toR x) <= bpow radix2 29 * toR step)%R
             /\ (Rabs (toR x' - toR x) <= (1 - bpow radix2 (-20)) * toR step)%R
             /\ (forall n : Z, (n = 0%Z /\ 0 <= toR x') \/ bpow radix2 (-20) * toR step <= Rabs (toR x' - IZR n * toR step))%R)
    features noised ->
  exists quantised bits, three_bit_quantization Bops checks features step = Ok (quantised, bits)
    /\ three_bit_dequantization Bops checks noised bits step = Ok quantised.
Proof.
  intros s xs xs' checks Fs Hs Hn.
  assert (Hl : length xs' = length xs) by (symmetry; eapply Forall2_length; exact Hn).
  assert (HSp : (0 < toR s)%R) by (apply (S_pos s Hs)).
  destruct (dequantize_lists Bops s checks xs xs' Hl) as (E1 & E2).
  - apply no_overflow_float; [exact Hs|]. clear - Hn HSp.
    induction Hn as [|x x' t t' (F1 & F2 & H1 & _) _ IH]; constructor; [|exact IH]. split; [exact F1|].
    simpl bpow in *. nra.
  - apply no_overflow_float; [exact Hs|]. clear - Hn HSp.
    induction Hn as [|x x' t t' (F1 & F2 & H1 & H2 & _) _ IH]; constructor; [|exact IH]. split; [exact F2|].
    replace (toR x') with (toR x + (toR x' - toR x))%R by ring. eapply Rle_trans; [apply Rabs_triang|].
    simpl bpow in *. nra.
  - eexists. eexists. split; [exact E1|]. rewrite E2. f_equal. unfold quantize. clear - Hn Fs Hs.
    induction Hn as [|x x' t t' (F1 & F2 & H1 & H2 & H3) _ IH]; [reflexivity|].
    cbn [combine map fst snd]. f_equal; [|exact IH]. apply restore_float; assumption.
Qed.

(** Without noise the restored integers are the original ones for all f64 inputs whatsoever (also NaN and infinities),
    unless the i64 arithmetic overflows. *)
Theorem C02_f64_noiseless : forall (step : b64) features checks,
  (checks = true -> Forall (fun q => q <> - 2 ^ 63) (quantize Bops features step)) ->
  exists bits, three_bit_quantization Bops checks features step = Ok (quantize Bops features step, bits)
    /\ three_bit_dequantization Bops checks features bits step = Ok (quantize Bops features step).
Proof.
  intros s xs checks H.
  assert (Ho : no_overflow Bops s checks xs).
  { intros Hc. specialize (H Hc). unfold quantize in H. rewrite Forall_map in H. exact H. }
  destruct (dequantize_lists Bops s checks xs xs eq_refl Ho Ho) as (E1 & E2).
  eexists. split; [exact E1|]. rewrite E2. f_equal. unfold quantize. clear.
  induction xs as [|x t IH]; [reflexivity|]. cbn [combine map fst snd]. f_equal; [|exact IH].
  destruct (restore_cases Bops s x x) as [(_ & ->)|[(E & _)|(E & _)]]; [lia|reflexivity|lia|lia].
Qed.

Example C02_witness : exists step x x' : b64, fin step /\ fin x /\ fin x'
  /\ (bpow radix2 (-500) <= toR step <= bpow radix2 500)%R
  /\ (Rabs (toR x) <= bpow radix2 29 * toR step)%R
  /\ (Rabs (toR x' - toR x) <= (1 - bpow radix2 (-20)) * toR step)%R
  /\ (forall n : Z, (n = 0%Z /\ 0 <= toR x') \/ bpow radix2 (-20) * toR step <= Rabs (toR x' - IZR n * toR step))%R
  /\ quantize1 Bops step x <> quantize1 Bops step x'.
Proof.
  exists (b_dyadic 1 0), (b_dyadic 5 (-2)), (b_dyadic 3 (-2)).
  destruct (b_dyadic_exact 1 0) as (F1 & V1); [lia|lia|].
  destruct (b_dyadic_exact 5 (-2)) as (F2 & V2); [lia|lia|].
  destruct (b_dyadic_exact 3 (-2)) as (F3 & V3); [lia|lia|].
  rewrite V1, V2, V3.
  split; [exact F1|]. split; [exact F2|]. split; [exact F3|].
  replace (1 * bpow radix2 0)%R with 1%R by (simpl; lra).
  split; [split; [change 1%R with (bpow radix2 0); apply bpow_le; lia|change 1%R with (bpow radix2 0); apply bpow_le; lia]|].
  split; [simpl bpow; unfold Rabs; destruct (Rcase_abs _); lra|].
  split; [simpl bpow; unfold Rabs; destruct (Rcase_abs _); lra|].
  split; [|vm_compute; discriminate].
  intros n. destruct (Z_le_gt_dec n 0) as [H|H].
  - assert (IZR n <= 0)%R by (apply IZR_le; lia). simpl bpow. unfold Rabs. destruct (Rcase_abs _); lra.
  - assert (1 <= IZR n)%R by (apply IZR_le; lia). simpl bpow. unfold Rabs. destruct (Rcase_abs _); lra.
Qed.

(** *** C03 *)
(** The half-bin index of x is floor(2x/step). *)
Theorem C03_exact_correction_capability : forall step features noised checks, (0 < step)%R ->
  length noised = length features ->
  Forall (fun x => fits_i64 (Zfloor (x / step))) features -> Forall (fun x => fits_i64 (Zfloor (x / step))) noised ->
  exists bits restored, three_bit_quantization Rops checks features step
                 = Ok (map (fun x => Zfloor (x / step)) features, bits)
    /\ three_bit_dequantization Rops checks noised bits step = Ok restored
    /\ length restored = length features
    /\ (forall i x x' r, nth_error features i = Some x -> nth_error noised i = Some x' -> nth_error restored i = Some r ->
          (r = Zfloor (x / step) <-> Z.abs (Zfloor (2 * x' / step) - Zfloor (2 * x / step)) <= 2)
          /\ Z.abs (r - Zfloor (x' / step)) <= 1).
Proof.
  intros step xs xs' checks Hs Hl Hf Hf'.
  destruct (dequantize_lists Rops step checks xs xs' Hl) as (E1 & E2); [now apply no_overflow_real|now apply no_overflow_real|].
  eexists. eexists. split; [rewrite E1, quantize_real by assumption; reflexivity|].
  split; [exact E2|]. split; [rewrite map_length, combine_length; lia|].
  intros i x x' r Hx Hx' Hr.
  rewrite nth_error_map in Hr.
  assert (Hc : nth_error (combine xs xs') i = Some (x, x')).
  { clear - Hx Hx'. revert xs xs' Hx Hx'. induction i as [|i IH]; intros [|a xs] [|b xs'] Hx Hx'; cbn in *; try discriminate; [congruence|].
    now apply IH. }
  rewrite Hc in Hr. cbn [option_map fst snd] in Hr.
  assert (Fx : fits_i64 (Zfloor (x / step))) by (rewrite Forall_forall in Hf; apply Hf; eapply nth_error_In; exact Hx).
  assert (Fx' : fits_i64 (Zfloor (x' / step))) by (rewrite Forall_forall in Hf'; apply Hf'; eapply nth_error_In; exact Hx').
  destruct (restore_bin step Hs x x' (fits_in _ Fx) (fits_in _ Fx')) as (R1 & R2).
  assert (Er : r = bin step (restore_l Rops step x' (bits3 Rops step x))).
  { injection Hr as <-. apply quantize1_bin.
    change (Zfloor (x' / step)) with (bin step x') in Fx'. unfold fits_i64 in Fx'. unfold in_i64, i64_min, i64_max. lia. }
  subst r. split; [exact R1|exact R2].
Qed.

(** Noise of 1.01 steps is not always corrected, noise of 1.49 steps sometimes is: the criterion is the half-bin one. *)
Example C03_witness : Z.abs (Zfloor (2 * (1 + 149 / 100) / 1) - Zfloor (2 * 1 / 1)) <= 2
  /\ ~ Z.abs (Zfloor (2 * (5 / 2 + 1 / 200) / 1) - Zfloor (2 * (149 / 100) / 1)) <= 2.
Proof.
  assert (E1 : Zfloor (2 * (1 + 149 / 100) / 1) = 4) by (apply Zfloor_imp; simpl; lra).
  assert (E2 : Zfloor (2 * 1 / 1) = 2) by (apply Zfloor_imp; simpl; lra).
  assert (E3 : Zfloor (2 * (5 / 2 + 1 / 200) / 1) = 5) by (apply Zfloor_imp; simpl; lra).
  assert (E4 : Zfloor (2 * (149 / 100) / 1) = 2) by (apply Zfloor_imp; simpl; lra).
  rewrite E1, E2, E3, E4. lia.
Qed.

(** *** C04 *)
Theorem C04_shape_contract : forall (step : b64) features checks,
  (checks = true -> Forall (fun q => q <> - 2 ^ 63) (quantize Bops features step)) ->
  (exists quantised bits, three_bit_quantization Bops checks features step = Ok (quantised, bits)
      /\ length quantised = length features /\ length bits = (3 * length features)%nat)
  /\ (forall given,
       ((length given mod 3 = 0)%nat /\ (length given <= 3 * length features)%nat
          /\ exists r, three_bit_dequantization Bops checks features given step = Ok r /\ (3 * length r = length given)%nat)
       \/ (((length given mod 3 <> 0)%nat \/ (3 * length features < length given)%nat)
          /\ three_bit_dequantization Bops checks features given step = Panic UnwrapNone)).
Proof.
  intros s xs checks H.
  assert (Ho : no_overflow Bops s checks xs).
  { intros Hc. specialize (H Hc). unfold quantize in H. rewrite Forall_map in H. exact H. }
  split.
  - rewrite quantization_ok by exact Ho. eexists. eexists. split; [reflexivity|].
    split; [apply map_length|]. clear. induction xs as [|x t IH]; [reflexivity|]. cbn [flat_map length]. rewrite app_length, IH.
    cbn [bits3 length]. lia.
  - intros given. destruct (Nat.eq_dec (length given mod 3) 0) as [E|N].
    + destruct (le_lt_dec (length given) (3 * length xs)) as [Hle|Hgt].
      * left. split; [exact E|]. split; [exact Hle|]. rewrite dequantization_ok by assumption. eexists. split; [reflexivity|].
        rewrite map_length. unfold restore_all. rewrite map_length, combine_length, chunks_length by lia.
        pose proof (Nat.div_mod (length given) 3 ltac:(lia)) as D. rewrite E in D.
        replace (length given + 3 - 1)%nat with (2 + (length given / 3) * 3)%nat by lia.
        rewrite Nat.div_add by lia. change (2 / 3)%nat with 0%nat. lia.
      * right. split; [right; exact Hgt|]. apply dequantization_panics; [exact Ho|right; exact Hgt].
    + right. split; [left; exact N|]. apply dequantization_panics; [exact Ho|left; exact N].
Qed.
(** The excluded case: with overflow checks, a feature quantised to i64::MIN makes the quantiser panic. *)
Theorem C04_i64_min_panics : forall (step : b64) features,
  ~ Forall (fun q => q <> - 2 ^ 63) (quantize Bops features step) ->
  three_bit_quantization Bops true features step = Panic ArithOverflow.
Proof.
  intros s xs H. apply quantization_overflow. intros C. apply H. unfold quantize. rewrite Forall_map. exact C.
Qed.
Example C04_witness :
  quantize Bops [b_dyadic 7 0; b_dyadic (-1) 62] (b_dyadic 1 (-1)) = [14; - 2 ^ 63]
  /\ three_bit_quantization Bops true [b_dyadic 7 0] (b_dyadic 1 (-1)) = Ok ([14], [false; true; false])
  /\ three_bit_dequantization Bops true [b_dyadic 7 0] [true; true; false] (b_dyadic 1 (-1)) = Ok [14]
  /\ three_bit_dequantization Bops true [b_dyadic 7 0] [true; true; false; true] (b_dyadic 1 (-1)) = Panic UnwrapNone.
Proof. repeat split; vm_compute; reflexivity. Qed.

(** *** C05 *)
Theorem C05_meaning_of_bits : forall step features checks, (0 < step)%R ->
  Forall (fun x => fits_i64 (Zfloor (x / step))) features ->
  exists quantised bits, three_bit_quantization Rops checks features step = Ok (quantised, bits)
    /\ (forall i x, nth_error features i = Some x ->
          exists q b0 b1 b2,
            nth_error quantised i = Some q /\ (IZR q * step <= x < (IZR q + 1) * step)%R
            /\ firstn 3 (skipn (3 * i) bits) = [b0; b1; b2]
            /\ 2 * Z.b2z b0 + Z.b2z b1 = (q - 1) mod 4
            /\ (b2 = true <-> (IZR q + / 2) * step <= x)%R).
Proof.
  intros step xs checks Hs Hf. rewrite quantization_ok by now apply no_overflow_real.
  eexists. eexists. split; [reflexivity|]. intros i x Hx.
  assert (Fx : fits_i64 (Zfloor (x / step))) by (rewrite Forall_forall in Hf; apply Hf; eapply nth_error_In; exact Hx).
  exists (bin step x), (Z.testbit ((bin step x - 1) mod 4) 1), (Z.testbit ((bin step x - 1) mod 4) 0), (upper_half Rops step x).
  assert (Eq : quantize1 Rops step x = bin step x) by (apply quantize1_bin, fits_in, Fx).
  split; [unfold quantize; rewrite nth_error_map, Hx; cbn [option_map]; now rewrite Eq|].
  split; [now apply bin_iff|].
  split.
  - apply nth_error_split in Hx as (l1 & l2 & -> & <-). rewrite flat_map_app. cbn [flat_map].
    assert (El : length (flat_map (bits3 Rops step) l1) = (3 * length l1)%nat).
    { clear. induction l1 as [|y t IH]; [reflexivity|]. cbn [flat_map length]. rewrite app_length, IH. cbn [bits3 length]. lia. }
    rewrite <- El, skipn_app, skipn_all, Nat.sub_diag. cbn [skipn app]. unfold bits3 at 1. rewrite Eq. reflexivity.
  - split.
    + pose proof (Z.mod_pos_bound (bin step x - 1) 4 ltac:(lia)) as M.
      destruct (four_cases _ M) as [-> |[-> |[-> | ->]]]; reflexivity.
    + apply upper_half_iff; first [exact Hs | apply fits_in; exact Fx].
Qed.
(** The first two bits determine the quantised value modulo 4, also for negative values. *)
Corollary C05_first_bits_determine_mod_4 : forall q1 q2 : Z, (q1 - 1) mod 4 = (q2 - 1) mod 4 <-> q1 mod 4 = q2 mod 4.
Proof. intros. Z.to_euclidean_division_equations. lia. Qed.
Example C05_witness : three_bit_quantization Bops true [b_dyadic (-7) (-2)] (b_dyadic 1 (-1)) = Ok ([-4], [true; true; true]).
Proof. vm_compute. reflexivity. Qed.

Print Assumptions C01_noise_up_to_one_step_is_absorbed.
Print Assumptions C02_f64_noise_claim_refuted.
Print Assumptions C02_f64_noise_outside_guard_band.
Print Assumptions C02_f64_noiseless.
Print Assumptions C03_exact_correction_capability.
Print Assumptions C04_shape_contract.
Print Assumptions C04_i64_min_panics.
Print Assumptions C05_meaning_of_bits.
