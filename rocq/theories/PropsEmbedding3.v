(** C28, C34 and C62 in binary64 (lib/sia/rust/embedding/src/lib.rs: embed, extract; embedding/src/haar/mod.rs: dwt_2d; steganography). *)
From Coq Require Import Reals Lra.
From Flocq Require Import Core BinarySingleNaN.
From Verif Require Import Outcome Floats FloatFacts Bits ListFacts IndexArithProofs Codecs CodecProofs WatermarkProofs Encoding EncodingProofs PropsEncoding
  Matrix MatrixFacts Haar HaarProofs HaarReal HaarFloat PropsHaar QuantFloat Stego StegoProofs StegoMarks PropsStego Embedding EmbeddingProofs EmbeddingEffect PropsEmbedding Toy PropsEmbedding2 PropsRobust.
Open Scope R_scope.

(** ** The low-pass band in binary64 *)
(** sums and products of numbers that are not negative are not negative - whatever happens to them *)
Lemma b_add_pos (x y : b64) : 0 <= toR x -> 0 <= toR y -> 0 <= toR (f_add Bops x y).
Proof.
  intros Hx Hy. cbn [f_add Bops]. destruct (is_finite x) eqn:Fx; [|destruct x, y; try discriminate Fx; cbn; try lra; destruct (Bool.eqb _ _); cbn; lra].
  destruct (is_finite y) eqn:Fy; [|destruct x, y; try discriminate Fy; try discriminate Fx; cbn; lra].
  pose proof (Bplus_correct prec64 emax64 _ _ mode_NE x y Fx Fy) as H. destruct (Rlt_bool _ _).
  - destruct H as (H & _). eapply Rle_trans; [|right; symmetry; exact H]. change (0 <= rnd (toR x + toR y)). rewrite <- rnd_0. apply rnd_le. lra.
  - destruct H as (H & _). match goal with |- 0 <= toR ?z => destruct z end; cbn [B2SF] in H; unfold binary_overflow in H; cbn in H; try discriminate H; cbn; lra.
Qed.
Lemma b_mul_pos (x y : b64) : 0 <= toR x -> 0 <= toR y -> 0 <= toR (f_mul Bops x y).
Proof.
  intros Hx Hy. cbn [f_mul Bops]. pose proof (Bmult_correct prec64 emax64 _ _ mode_NE x y) as H. destruct (Rlt_bool _ _).
  - destruct H as (H & _). eapply Rle_trans; [|right; symmetry; exact H]. change (0 <= rnd (toR x * toR y)). rewrite <- rnd_0. apply rnd_le. nra.
  - match goal with |- 0 <= toR ?z => destruct z end; cbn [B2SF] in H; unfold binary_overflow in H; cbn in H; try discriminate H; cbn; lra.
Qed.
Lemma plus2_pos (a b : b64) : 0 <= toR a -> 0 <= toR b -> 0 <= toR (plus2 Bops a b).
Proof.
  intros Ha Hb. unfold plus2. assert (Hc : 0 <= toR b_sqrt1_2).
  { destruct sqrt1_2_ok as (_ & H). apply Rabs_le_inv in H. pose proof cc_sq. assert (0 < cc) by (unfold cc; apply Rinv_0_lt_compat, sqrt_lt_R0; lra). unfold u53 in H. simpl bpow in H. nra. }
  apply b_add_pos; apply b_mul_pos; assumption.
Qed.

Lemma transform_S {F} (O : FOps F) d0 d1 L M : transform O false d0 d1 (S L) M = iteration O false d0 d1 (transform O false d0 d1 L M) L.
Proof. unfold transform. rewrite seq_S, fold_left_app. reflexivity. Qed.
Lemma iteration_LL {F} (O : FOps F) d0 d1 level it M i j : divisible d0 d1 level -> (it < level)%nat ->
  (i < d0 / 2 ^ S it)%nat -> (j < d1 / 2 ^ S it)%nat ->
  iteration O false d0 d1 M it i j = plus2 O (plus2 O (M (2 * i)%nat (2 * j)%nat) (M (2 * i)%nat (2 * j + 1)%nat)) (plus2 O (M (2 * i + 1)%nat (2 * j)%nat) (M (2 * i + 1)%nat (2 * j + 1)%nat)).
Proof.
  intros (D0 & D1) Hit Hi Hj. destruct (half_even _ _ it D0 Hit) as (E0 & F0). destruct (half_even _ _ it D1 Hit) as (E1 & F1).
  set (w := (d0 / 2 ^ it)%nat) in *. set (h := (d1 / 2 ^ it)%nat) in *.
  assert (Hw2 : Nat.div2 w = (d0 / 2 ^ S it)%nat) by (rewrite F0; apply div2_2k).
  assert (Hh2 : Nat.div2 h = (d1 / 2 ^ S it)%nat) by (rewrite F1; apply div2_2k).
  unfold iteration. fold w. fold h. unfold cols_pass.
  rewrite (proj2 (Nat.ltb_lt i w)), (proj2 (Nat.ltb_lt j h)) by lia. cbn [andb]. unfold step. rewrite Hw2, (proj2 (Nat.ltb_lt _ _) Hi).
  unfold rows_pass. rewrite (proj2 (Nat.ltb_lt (2 * i) w)), (proj2 (Nat.ltb_lt (2 * i + 1) w)), (proj2 (Nat.ltb_lt j h)) by lia. cbn [andb].
  unfold step. rewrite Hh2, (proj2 (Nat.ltb_lt _ _) Hj). reflexivity.
Qed.
Lemma transform_LL_pos d0 d1 L : forall M i j, divisible d0 d1 L -> (forall i j, 0 <= toR (M i j)) -> (i < d0 / 2 ^ L)%nat -> (j < d1 / 2 ^ L)%nat ->
  0 <= toR (transform Bops false d0 d1 L M i j).
Proof.
  induction L as [|L IH]; intros M i j D HM Hi Hj; [apply HM|].
  rewrite transform_S, (iteration_LL Bops d0 d1 (S L)) by (try assumption; lia).
  assert (D' : divisible d0 d1 L) by (apply (divisible_le d0 d1 (S L)); [exact D|lia]).
  destruct D as (D0 & D1). destruct (half_even _ _ L D0 ltac:(lia)) as (_ & F0). destruct (half_even _ _ L D1 ltac:(lia)) as (_ & F1).
  apply plus2_pos; apply plus2_pos; apply IH; try assumption; lia.
Qed.

Lemma get_pos m i j : image8 m -> 0 <= toR (get Bops (mapv (f_of_Z Bops) m) i j).
Proof.
  intros H8. unfold get. rewrite cell_mapv. destruct (cell m i j) as [v|] eqn:Ev; cbn [option_map].
  - pose proof (image8_cell m i j v H8 Ev) as (H1 & H2). destruct (b_of_Z_ok v) as (F & V); [lia|]. change (f_of_Z Bops v) with (b_of_Z v). rewrite V. now apply (IZR_le 0).
  - destruct (b_of_Z_ok 0) as (F & V); [lia|]. right. symmetry. exact V.
Qed.

(** *** C28: in the low-pass band of an 8-bit picture the compiled transform is within 2^-24 of the scaled block sum, and never negative *)
Theorem C28_f64_low_pass_band_is_nearly_the_scaled_block_sum : forall image n levels, picture image n levels -> (levels <= 10)%nat ->
  exists c, dwt_2d Bops (mapv (f_of_Z Bops) image) levels false = Ok c /\ dim0 c = n /\ dim1 c = n /\
    forall i j, (i < n / 2 ^ levels)%nat -> (j < n / 2 ^ levels)%nat -> exists x, cell c i j = Some x /\ fin x /\ 0 <= toR x
      /\ Rabs (toR x - / 2 ^ levels * sum_to (2 ^ levels) (fun a => sum_to (2 ^ levels) (fun b => IZR (pixel image (2 ^ levels * i + a)%nat (2 ^ levels * j + b)%nat)))) <= bpow radix2 (-24).
Proof.
  intros m n L (Hc & H8) HL. pose proof (carrier_band m n L Hc) as (Hsn & _ & Hdiv & _). destruct Hc as (Hwf & E0 & E1 & Hmod & HL30 & Hr).
  assert (Hwf' : wf (mapv (f_of_Z Bops) m)) by now apply mapv_wf.
  destruct (dwt_2d_ok Bops false L (mapv (f_of_Z Bops) m) Hwf') as (C & EC & WC & A0 & A1 & GC); [cbn [mapv dim0 dim1]; rewrite E0, E1; exact Hdiv|lia|].
  cbn [mapv dim0 dim1] in A0, A1, GC. rewrite E0, E1 in *. exists C. split; [exact EC|]. split; [exact A0|]. split; [exact A1|].
  intros i j Hi Hj. pose proof (div_pow_le n L). exists (get Bops C i j). split; [apply cell_get; [exact WC|lia|lia]|]. rewrite GC.
  assert (HA : approx n n (bpow radix2 (-24)) (transform Bops false n n L (get Bops (mapv (f_of_Z Bops) m))) (transR false n n L (pixR m))).
  { pose proof (pixR_bounded m H8) as Hb. pose proof (pix_float m H8) as Hp. rewrite E0, E1 in *. apply analysis_float; assumption. }
  destruct (HA i j ltac:(lia) ltac:(lia)) as (FC & HC). split; [exact FC|]. split.
  - apply transform_LL_pos; try assumption. intros a b. now apply get_pos.
  - rewrite trans_LL in HC by assumption. rewrite pow_inv in HC.
    assert (Es : blocksum (2 ^ L) (pixR m) i j = sumn (2 ^ L) (fun a => sumn (2 ^ L) (fun b => IZR (pixel m (2 ^ L * i + a)%nat (2 ^ L * j + b)%nat)))).
    { unfold blocksum. apply sumn_ext. intros a _. apply sumn_ext. intros b _. apply pixR_pixel. }
    rewrite Es in HC. exact HC.
Qed.

(** ** C34 in binary64 *)
Lemma bit_of_small_float (depth c : b64) : fin depth -> 1 <= toR depth <= bpow radix2 20 -> fin c -> 0 <= toR c <= (/ 2 - / 512) * toR depth -> bit_of Bops depth c = true.
Proof.
  intros Fd Hd Fc Hc.
  assert (Hord : bpow radix2 (-500) <= toR depth <= bpow radix2 500).
  { split; [apply Rle_trans with (bpow radix2 0); [apply bpow_le; lia|simpl bpow; lra]|]. apply Rle_trans with (bpow radix2 20); [apply Hd|apply bpow_le; lia]. }
  assert (Hq : 0 <= toR c / toR depth <= / 2 - / 512).
  { unfold Rdiv. split; [apply Rmult_le_pos; [lra|left; apply Rinv_0_lt_compat; lra]|].
    apply Rmult_le_reg_r with (toR depth); [lra|]. rewrite Rmult_assoc, Rinv_l, Rmult_1_r by lra. lra. }
  destruct (quot_float depth Hord c Fc) as (F1 & E1); [rewrite Rabs_pos_eq by lra; simpl bpow; lra|].
  destruct (b_round_ok _ F1) as (F2 & V2).
  assert (Hn : Znearest (Z.leb 0) (toR (f_div Bops c depth)) = 0%Z).
  { apply Znearest_imp. rewrite (Rabs_pos_eq (toR c / toR depth)) in E1 by lra. apply Rabs_le_inv in E1. simpl bpow in E1. apply Rabs_def1; lra. }
  rewrite Hn in V2. destruct (b_mul_ok depth (f_round Bops (f_div Bops c depth)) Fd F2) as (F3 & V3).
  { rewrite V2, Rmult_0_r. unfold small. rewrite Rabs_R0. apply bpow_ge_0. }
  rewrite V2, Rmult_0_r, rnd_0 in V3.
  destruct (b_sub_ok c (f_mul Bops depth (f_round Bops (f_div Bops c depth))) Fc F3) as (F4 & V4).
  { rewrite V3, Rminus_0_r. apply small_le with 20%Z; [lia|]. rewrite Rabs_pos_eq by lra. simpl bpow in *. lra. }
  unfold bit_of. change (f_of_Z Bops) with b_of_Z. destruct (b_of_Z_ok 0) as (F0 & V0); [lia|].
  rewrite (b_ge_ok _ _ F4 F0), V0, V4, V3, Rminus_0_r. apply Rle_bool_true. rewrite <- rnd_0. apply rnd_le. lra.
Qed.
Lemma black_coefficients_float K m n L (depth : b64) payload out ser enc : picture m n L -> black m -> (L <= 10)%nat -> fin depth -> 1 <= toR depth <= bpow radix2 20 ->
  embed Bops K m payload depth L = Ok out -> data_serialize payload = Ok ser -> encode K ser (band_capacity n L) = Ok enc ->
  (9 <= band_capacity n L)%nat /\ (length enc <= band_capacity n L)%nat /\ picture out n L /\
  forall i j, (i < band n L)%nat -> (j < band n L)%nat ->
    let c := transR false n n L (pixR out) i j in
    0 <= c <= (/ 4 + / 1024) * toR depth + 2 ^ L * (/ 2 + / 1024)
    /\ ((used (band n L) enc i j = true -> payload_bit enc (band n L * i + j) = false) -> c = 0).
Proof.
  intros (Hc & H8) Hb HL Fd Hd E Eser Eenc. destruct (embed_inv Bops K m n L depth payload out Hc E) as (H9 & ser' & enc' & E1 & E2 & E3).
  assert (ser' = ser) by congruence. subst ser'. unfold band_capacity in *. fold (band n L) in *. assert (enc' = enc) by congruence. subst enc'.
  assert (Hd' : bpow radix2 (- (0)) <= toR depth <= bpow radix2 20) by (simpl bpow in *; lra).
  destruct (embed_effect_float_gen 0 K m n L depth payload ser enc ltac:(lia) Hc H8 HL Fd Hd' H9 E1 E2 E3) as (out' & Eo & Heff).
  assert (out' = out) by congruence. subst out'. split; [exact H9|]. split; [exact E3|].
  split; [exact (eff_shape _ _ _ _ _ _ _ _ _ Heff)|]. pose proof (carrier_band m n L Hc) as (_ & _ & Hdiv & _).
  assert (HpL : 1 <= 2 ^ L) by (apply pow_R1_Rle; lra).
  assert (Hpi : 0 < (/ 2) ^ L) by (apply pow_lt; lra). assert (Hpe : (/ 2) ^ L * 2 ^ L = 1) by (rewrite pow_inv, Rinv_l; lra).
  pose proof (cells_of m out n L (toR depth) enc _ _ _ Hc Heff) as Hcells.
  destruct Heff as [(Hco & H8o) (D & HD0 & Hpix & HD)].
  assert (HC0 : forall i j, (i < n)%nat -> (j < n)%nat -> transR false n n L (pixR m) i j = 0).
  { intros i j Hi Hj. pose proof (trans_bound false n n L 0 (pixR m) Hdiv) as Hbd. specialize (Hbd ltac:(intros a b _ _; rewrite black_pixR by exact Hb; rewrite Rabs_R0; lra) i j Hi Hj).
    rewrite Rmult_0_r in Hbd. pose proof (Rabs_pos (transR false n n L (pixR m) i j)). destruct (Req_dec (transR false n n L (pixR m) i j) 0) as [Ez|Ez]; [exact Ez|].
    apply Rabs_pos_lt in Ez. lra. }
  pose proof (div_pow_le n L) as Hle. fold (band n L) in Hle.
  assert (HDv : forall i j, used (band n L) enc i j = true -> Rabs (D i j - toR depth * quarter (payload_bit enc (band n L * i + j))) <= bpow radix2 (0 - 24) * toR depth).
  { intros i j Hu. assert (Hij : (i < band n L)%nat /\ (j < band n L)%nat).
    { unfold used in Hu. destruct (Nat.ltb_spec i (band n L)), (Nat.ltb_spec j (band n L)); try discriminate. auto. }
    destruct (HD i j Hu) as (r & (_ & Er) & Hr & _).
    rewrite HC0 in Hr, Er by lia. unfold Rdiv in Er. rewrite Rmult_0_l in Er.
    assert (r = 0%Z). { apply Rabs_le_inv in Er. simpl bpow in Er. assert (-1 < IZR r < 1) as (R1 & R2) by lra. apply lt_IZR in R1. apply lt_IZR in R2. lia. }
    subst r. rewrite !Rplus_0_l in Hr. exact Hr. }
  intros i j Hi Hj. cbv zeta.
  assert (Hpx : forall p q, (p < 2 ^ L)%nat -> (q < 2 ^ L)%nat ->
     let w := pixR out (2 ^ L * i + p)%nat (2 ^ L * j + q)%nat in
     0 <= w <= (/ 2) ^ L * ((/ 4 + / 1024) * toR depth) + / 2 + / 1024 /\ ((used (band n L) enc i j = true -> payload_bit enc (band n L * i + j) = false) -> w = 0)).
  { intros p q Hp Hq w. unfold w.
    assert (Hlt : forall k q, (k < band n L)%nat -> (q < 2 ^ L)%nat -> (2 ^ L * k + q < n)%nat).
    { intros k' q' Hk' Hq'. pose proof (Nat.mul_div_le n (2 ^ L) ltac:(pose proof (pow2_pos L); lia)). unfold band in Hk'. nia. }
    pose proof (Hlt i p Hi Hp) as Hip. pose proof (Hlt j q Hj Hq) as Hjq.
    destruct (Hpix _ _ Hip Hjq) as (x & Hx & Ec). destruct (Hcells _ _ Hip Hjq) as (v & w' & Ev & Ew & Pv & Pw). rewrite Pw.
    assert (Ew' : w' = clamp 0 255 (nearest x)) by congruence. rewrite Ew'.
    rewrite black_pixR, !place_div in Hx by assumption. rewrite Rplus_0_l in Hx.
    apply Rabs_le_inv in Hx. change (bpow radix2 (-10)) with (/ 1024) in Hx.
    assert (Hdp : 0 < toR depth) by lra.
    assert (HDle : D i j <= (/ 4 + / 1024) * toR depth).
    { destruct (used (band n L) enc i j) eqn:Hu; [pose proof (HDv _ _ Hu) as HH; apply Rabs_le_inv in HH; simpl bpow in HH; unfold quarter in HH; destruct (payload_bit _ _); lra|rewrite HD0 by exact Hu; lra]. }
    assert (Hxle : x <= (/ 2) ^ L * ((/ 4 + / 1024) * toR depth) + / 1024).
    { assert ((/ 2) ^ L * D i j <= (/ 2) ^ L * ((/ 4 + / 1024) * toR depth)) by (apply Rmult_le_compat_l; lra). lra. }
    pose proof (nearest_half x) as Hn. apply Rabs_le_inv in Hn.
    pose proof (clamp_byte (nearest x)) as (Hcb & _). split.
    - split; [now apply (IZR_le 0)|]. destruct (Z.le_gt_cases (nearest x) 0) as [Hz|Hz].
      + replace (clamp 0 255 (nearest x)) with 0%Z by (unfold clamp; lia). assert (0 <= (/ 2) ^ L * ((/ 4 + / 1024) * toR depth)) by (apply Rmult_le_pos; lra). lra.
      + apply Rle_trans with (IZR (nearest x)); [apply IZR_le; unfold clamp; lia|lra].
    - intros Hbit. assert (HDn : D i j <= 0).
      { destruct (used (band n L) enc i j) eqn:Hu; [pose proof (HDv _ _ Hu) as HH; rewrite Hbit in HH by reflexivity; apply Rabs_le_inv in HH; simpl bpow in HH; unfold quarter in HH; lra|rewrite HD0 by exact Hu; lra]. }
      assert (Hx0 : x <= / 1024) by (assert ((/ 2) ^ L * D i j <= 0) by nra; lra).
      assert (Hz : (nearest x <= 0)%Z).
      { destruct (Z.le_gt_cases (nearest x) 0) as [Hz|Hz]; [exact Hz|].
        exfalso. assert (H1 : (1 <= nearest x)%Z) by lia. apply IZR_le in H1. lra. }
      replace (clamp 0 255 (nearest x)) with 0%Z by (unfold clamp; lia). reflexivity. }
  rewrite trans_LL by assumption. assert (HINR : INR (2 ^ L) = 2 ^ L) by (rewrite pow_INR; reflexivity). split.
  - pose proof (blocksum_range (2 ^ L) (pixR out) i j 0 ((/ 2) ^ L * ((/ 4 + / 1024) * toR depth) + / 2 + / 1024) ltac:(intros p q Hp Hq; apply (Hpx p q Hp Hq))) as Hr.
    rewrite !HINR in Hr. split; [apply Rmult_le_pos; [lra|]; nra|].
    apply Rle_trans with ((/ 2) ^ L * (2 ^ L * (2 ^ L * ((/ 2) ^ L * ((/ 4 + / 1024) * toR depth) + / 2 + / 1024)))).
    + apply Rmult_le_compat_l; [lra|apply Hr].
    + right. rewrite pow_inv. field. lra.
  - intros Hbit. pose proof (blocksum_range (2 ^ L) (pixR out) i j 0 0 ltac:(intros p q Hp Hq; destruct (Hpx p q Hp Hq) as (_ & H0); rewrite H0 by exact Hbit; lra)) as Hr.
    assert (Ez : blocksum (2 ^ L) (pixR out) i j = 0) by (rewrite !Rmult_0_r in Hr; lra). rewrite Ez. ring.
Qed.

(** what the transform of an 8-bit picture holds in the low-pass band *)
Lemma band_cells out n L : picture out n L -> (L <= 10)%nat -> forall i j, (i < band n L)%nat -> (j < band n L)%nat ->
  let x := transform Bops false n n L (get Bops (mapv (f_of_Z Bops) out)) i j in
  fin x /\ 0 <= toR x /\ Rabs (toR x - transR false n n L (pixR out) i j) <= bpow radix2 (-24).
Proof.
  intros (Hc & H8) HL i j Hi Hj x. pose proof (carrier_band out n L Hc) as (Hsn & _ & Hdiv & _). destruct Hc as (_ & E0 & E1 & _).
  assert (HA : approx n n (bpow radix2 (-24)) (transform Bops false n n L (get Bops (mapv (f_of_Z Bops) out))) (transR false n n L (pixR out))).
  { pose proof (pixR_bounded out H8) as Hb. pose proof (pix_float out H8) as Hp. rewrite E0, E1 in *. apply analysis_float; assumption. }
  destruct (HA i j ltac:(lia) ltac:(lia)) as (FC & HC). split; [exact FC|]. split; [|exact HC].
  apply transform_LL_pos; try assumption. intros a b. now apply get_pos.
Qed.

(** Every 0 bit of the stored data is read back as 1. *)
Theorem C34_f64_black_image_reads_zero_bits_as_ones : forall K image n levels (depth : b64) payload marked ser enc,
  picture image n levels -> black image -> (levels <= 10)%nat -> fin depth -> 1 <= toR depth <= 2 ^ 20 -> embed Bops K image payload depth levels = Ok marked ->
  data_serialize payload = Ok ser -> encode K ser (band_capacity n levels) = Ok enc ->
  exists coefficients received, dwt_2d Bops (mapv (f_of_Z Bops) marked) levels false = Ok coefficients
    /\ read Bops coefficients (n / 2 ^ levels) (n / 2 ^ levels) depth = Ok received
    /\ forall k, (k < 8 * length enc)%nat -> payload_bit enc k = false -> payload_bit received k = true.
Proof.
  intros K m n L depth payload out ser enc Hp Hb HL Fd Hd E Eser Eenc. assert (Hd' : 1 <= toR depth <= bpow radix2 20) by (simpl bpow; lra).
  destruct (black_coefficients_float K m n L depth payload out ser enc Hp Hb HL Fd Hd' E Eser Eenc) as (H9 & Hlen & Hpo & HC).
  pose proof Hpo as (Hco & H8o). pose proof (carrier_band out n L Hco) as (_ & Hrep & Hdiv & _). unfold band_capacity in Hlen, H9. fold (band n L) in *.
  pose proof (carrier_band out n L Hco) as (Hsn & _ & _ & _). destruct Hco as (Hwf & E0 & E1 & Hmod & HL30 & Hr).
  assert (Hwf' : wf (mapv (f_of_Z Bops) out)) by now apply mapv_wf.
  destruct (dwt_2d_ok Bops false L (mapv (f_of_Z Bops) out) Hwf') as (C & EC & WC & A0 & A1 & GC); [cbn [mapv dim0 dim1]; rewrite E0, E1; exact Hdiv|lia|].
  cbn [mapv dim0 dim1] in A0, A1, GC. rewrite E0, E1 in *.
  assert (Hdom : in_domain (band n L) C) by (split; [exact WC|]; rewrite A0, A1; split; exact Hsn).
  exists C, (map (byte_at Bops depth (band n L) C) (seq 0 (band n L * band n L / 8))). split; [exact EC|].
  pose proof (read_ok Bops depth (band n L) C Hrep Hdom) as Erd. split; [exact Erd|]. intros k Hk Hbit.
  destruct (read_bits Bops depth (band n L) C _ Hrep Hdom Erd) as (Ll & Hbits). rewrite <- nth_bits.
  rewrite Hbits by (rewrite Ll; lia).
  assert (Hs : (0 < band n L)%nat) by (destruct (band n L); [cbn in H9; lia|lia]).
  destruct (used_cell n L enc k Hs Hk Hlen) as (Hu & Hk2). rewrite cell_bit_get by assumption. rewrite GC.
  destruct (place_lt (band n L) k Hs Hk2) as (P1 & P2). destruct (HC _ _ P1 P2) as (_ & Hz).
  destruct (band_cells out n L Hpo HL _ _ P1 P2) as (Fx & Px & Ax).
  rewrite Hz in Ax by (intros _; rewrite place_inv by exact Hs; exact Hbit).
  apply bit_of_small_float; try assumption. apply Rabs_le_inv in Ax. simpl bpow in Ax. lra.
Qed.

(** The extractor's outcome on a marked black picture does not depend on the payload. *)
Theorem C34_f64_black_image_forgets_the_payload : forall K image n levels (depth : b64) payload payload' marked marked',
  picture image n levels -> black image -> (levels <= 10)%nat -> fin depth -> 65 / 64 * 2 ^ (levels + 1) <= toR depth <= 2 ^ 20 ->
  embed Bops K image payload depth levels = Ok marked -> embed Bops K image payload' depth levels = Ok marked' ->
  extract Bops K marked depth levels = extract Bops K marked' depth levels.
Proof.
  intros K m n L depth payload payload' out out' Hp Hb HL Fd Hd E E'.
  assert (HpL : 1 <= 2 ^ L) by (apply pow_R1_Rle; lra). rewrite pow_add in Hd. simpl (2 ^ 1) in Hd.
  assert (Hd' : 1 <= toR depth <= bpow radix2 20) by (simpl bpow; lra).
  assert (G : forall pl o, embed Bops K m pl depth L = Ok o ->
    extract Bops K o depth L = (let cap := (band n L * band n L / 8)%nat in bind (decode K (repeat 255%Z cap) cap) data_deserialize)).
  { intros pl o Eo. destruct (embed_inv Bops K m n L depth pl o (proj1 Hp) Eo) as (H9 & ser & enc & E1 & E2 & E3).
    destruct (black_coefficients_float K m n L depth pl o ser enc Hp Hb HL Fd Hd' Eo E1 E2) as (_ & _ & Hpo & HC). pose proof Hpo as (Hco & H8o).
    pose proof (carrier_band o n L Hco) as (_ & Hrep & Hdiv & _).
    destruct (extract_run Bops K o n L depth Hco H9) as (C & Hdom & C0 & C1 & GC & EX). rewrite EX.
    rewrite read_ok by assumption. cbn [bind].
    replace (map (byte_at Bops depth (band n L) C) (seq 0 (band n L * band n L / 8))) with (repeat 255%Z (band n L * band n L / 8)); [reflexivity|].
    assert (Hs : (0 < band n L)%nat) by (destruct (band n L); [cbn in H9; lia|lia]).
    assert (Hbit : forall k, (k < band n L * band n L)%nat -> cell_bit Bops depth (band n L) C k = true).
    { intros k Hk2. rewrite cell_bit_get by assumption. rewrite GC.
      destruct (place_lt (band n L) k Hs Hk2) as (P1 & P2). destruct (HC _ _ P1 P2) as (Hr & _). destruct (band_cells o n L Hpo HL _ _ P1 P2) as (Fx & Px & Ax).
      apply bit_of_small_float; try assumption. split; [exact Px|]. apply Rabs_le_inv in Ax. simpl bpow in Ax.
      set (x := toR _) in *. set (t := transR _ _ _ _ _ _ _) in *. simpl in Hr. lra. }
    apply nth_error_ext. intros k. rewrite nth_error_map.
    destruct (Nat.lt_ge_cases k (band n L * band n L / 8)) as [Hk|Hk].
    - rewrite (nth_error_repeat _ Hk). rewrite (nth_error_nth' _ 0%nat) by (rewrite seq_length; exact Hk). rewrite seq_nth by exact Hk. cbn [option_map].
      f_equal. unfold byte_at. rewrite (map_ext_in _ (fun _ => true)); [reflexivity|]. intros o' Ho'. apply in_seq in Ho'. apply Hbit.
      pose proof (Nat.mul_div_le (band n L * band n L) 8 ltac:(lia)). lia.
    - rewrite (proj2 (nth_error_None (seq 0 _) k)) by (rewrite seq_length; exact Hk).
      rewrite (proj2 (nth_error_None (repeat _ _) k)) by (rewrite repeat_length; exact Hk). reflexivity. }
  rewrite (G _ _ E), (G _ _ E'). reflexivity.
Qed.

(** ** C62 in binary64: a second payload replaces the first one (the picture needs room for both marks) *)
Theorem C62_f64_a_second_payload_replaces_the_first : forall K, ldpc_shape K -> ldpc_decodes K -> forall image n levels (depth : b64) first second marked,
  picture image n levels -> (levels <= 10)%nat -> usable n levels -> bytes second -> (1 <= Z.of_nat (length second) <= 65533)%Z ->
  (stored_size n levels (length second) <= band_capacity n levels)%nat -> fin depth -> 65 / 64 * 2 ^ (levels + 1) <= toR depth <= 2 ^ 20 ->
  room image n levels (8 * stored_size n levels (length second)) ((3 / 2 + / 1024) * toR depth / 2 ^ levels + / 2 + / 1024) ->
  embed Bops K image first depth levels = Ok marked ->
  exists marked2, embed Bops K marked second depth levels = Ok marked2 /\ extract Bops K marked2 depth levels = Ok second.
Proof.
  intros K Hsh Hdec m n L depth p1 p2 out Hp HL Hu Hb Hl Hfit Fd Hd Hroom E. pose proof Hp as (Hc & H8).
  assert (HpL : 1 <= 2 ^ L) by (apply pow_R1_Rle; lra). assert (Hd1 : 1 <= toR depth <= 2 ^ 20) by (rewrite pow_add in Hd; simpl (2 ^ 1) in Hd; lra).
  assert (Hpo : picture out n L).
  { destruct (embed_inv Bops K m n L depth p1 out Hc E) as (H9 & ser & enc & E1 & E2 & E3).
    assert (Hd' : bpow radix2 (- (0)) <= toR depth <= bpow radix2 20) by (simpl bpow; lra).
    destruct (embed_effect_float_gen 0 K m n L depth p1 ser enc ltac:(lia) Hc H8 HL Fd Hd' H9 E1 E2 E3) as (out' & Eo' & Heff).
    assert (out' = out) by congruence. subst out'. exact (eff_shape _ _ _ _ _ _ _ _ _ Heff). }
  destruct (C31_f64_embed_then_extract_returns_the_payload K Hsh Hdec out n L depth p2 Hpo HL Hu Hb Hl Hfit Fd Hd) as (o2 & E2 & _ & X2); [|eauto].
  intros i j w Ew Hblk. destruct Hpo as (Hco & _). destruct (cell_some_lt out n L i j w Hco Ew) as (Hi & Hj).
  destruct (cell_bounds m i j) as (v & Ev); [apply Hc|destruct Hc as (_ & -> & _); exact Hi|destruct Hc as (_ & _ & -> & _); exact Hj|].
  pose proof (C32_f64_pixel_change_bound K m n L depth p1 out Hp HL Fd ltac:(lra) E i j v w Ev Ew) as Hch. apply Rabs_le_inv in Hch.
  pose proof (Hroom i j v Ev Hblk) as Hr.
  assert (He : 3 * toR depth / 2 ^ (L + 2) = 3 / 4 * toR depth / 2 ^ L) by (rewrite pow_add; field; lra).
  assert (He2 : (3 / 2 + / 1024) * toR depth / 2 ^ L = 3 / 4 * toR depth / 2 ^ L + (3 / 4 + / 1024) * toR depth / 2 ^ L) by (field; lra).
  rewrite He2 in Hr. rewrite He. lra.
Qed.

(** ** Concrete instances *)
Lemma black128_picture : picture (wit_matrix 0%Z 128 128) 128 3.
Proof. exact (proj1 C34_witness). Qed.
Lemma black_embeds_float payload ser enc : data_serialize payload = Ok ser -> encode toy_ldpc ser (band 128 3 * band 128 3 / 8) = Ok enc -> (length enc <= 32)%nat ->
  exists marked, embed Bops toy_ldpc (wit_matrix 0%Z 128 128) payload (f_of_Z Bops 100) 3 = Ok marked.
Proof.
  intros Eser Eenc Lenc.
  destruct (embed_run Bops toy_ldpc _ 128 3 (f_of_Z Bops 100) payload ser enc (proj1 black128_picture)) as (H & _); [vm_compute; lia|exact Eser|exact Eenc|].
  destruct H as (R & ER & _); [|eauto]. change (band 128 3 * band 128 3 / 8)%nat with 32%nat. exact Lenc.
Qed.
(** two different payloads in the black 128 x 128 picture at the command line's depth: both are accepted, and the extractor cannot tell the results apart *)
Example C34_f64_witness : exists marked marked', embed Bops toy_ldpc (wit_matrix 0%Z 128 128) (repeat 65%Z 12) (f_of_Z Bops 100) 3 = Ok marked
  /\ embed Bops toy_ldpc (wit_matrix 0%Z 128 128) (repeat 66%Z 12) (f_of_Z Bops 100) 3 = Ok marked'
  /\ extract Bops toy_ldpc marked (f_of_Z Bops 100) 3 = extract Bops toy_ldpc marked' (f_of_Z Bops 100) 3.
Proof.
  assert (A : forall c, (c = 65 \/ c = 66)%Z -> exists mk, embed Bops toy_ldpc (wit_matrix 0%Z 128 128) (repeat c 12) (f_of_Z Bops 100) 3 = Ok mk).
  { intros c [-> | ->]; (eapply black_embeds_float; [vm_compute; reflexivity|vm_compute; reflexivity|vm_compute; lia]). }
  destruct (A 65%Z) as (mk & E); [now left|]. destruct (A 66%Z) as (mk' & E'); [now right|]. exists mk, mk'. split; [exact E|]. split; [exact E'|].
  destruct C31_witness as (H6 & H7 & _).
  apply (C34_f64_black_image_forgets_the_payload toy_ldpc (wit_matrix 0%Z 128 128) 128 3 (f_of_Z Bops 100) (repeat 65%Z 12) (repeat 66%Z 12)); try assumption; try lia.
  - exact black128_picture.
  - exact (proj1 (proj2 C34_witness)).
Qed.
(** marking the grey 128 x 128 picture twice: the second payload comes out *)
Example C62_f64_replace_witness : exists marked marked2, embed Bops toy_ldpc grey128 wit_payload (f_of_Z Bops 100) 3 = Ok marked
  /\ embed Bops toy_ldpc marked (repeat 66%Z 12) (f_of_Z Bops 100) 3 = Ok marked2 /\ extract Bops toy_ldpc marked2 (f_of_Z Bops 100) 3 = Ok (repeat 66%Z 12).
Proof.
  destruct wit_marked_f64 as (mk & E & Hp & Hr). exists mk. destruct C30_witness as (H1 & H2 & H3 & H4 & H5 & _). destruct C31_witness as (H6 & H7 & H8).
  destruct (C62_f64_a_second_payload_replaces_the_first toy_ldpc H1 H2 grey128 128 3 (f_of_Z Bops 100) wit_payload (repeat 66%Z 12) mk) as (mk2 & E2 & X2);
    try assumption; try (rewrite repeat_length); try lia; try assumption.
  - apply Forall_forall. intros x Hx. apply repeat_spec in Hx. subst x. unfold byte. lia.
  - destruct (b_of_Z_ok 100) as (F1 & V1); [lia|]. change (b_of_Z 100) with (f_of_Z Bops 100) in *. rewrite V1.
    intros i j v Ev _. apply cell_wit in Ev. subst v. simpl. lra.
  - exists mk2. auto.
Qed.

Print Assumptions C28_f64_low_pass_band_is_nearly_the_scaled_block_sum.
Print Assumptions C34_f64_black_image_reads_zero_bits_as_ones.
Print Assumptions C34_f64_black_image_forgets_the_payload.
Print Assumptions C62_f64_a_second_payload_replaces_the_first.
