(** Property C69: alterations the scheme cannot see.  The features ignore every point-symmetric change of the (equalised) picture, and
    extraction sees the sums of the 2^levels-blocks only, so arbitrarily large alterations of a watermarked channel authenticate
    (lib/sia/rust/zernike/src, lib/sia/rust/embedding/src/lib.rs, lib/sia/rust/watermarking/src/process.rs). *)
From Coq Require Import Reals Lra.
From Flocq Require Import Core BinarySingleNaN.
From Coquelicot Require Import Complex.
From Verif Require Import Outcome Floats FloatFacts Bits ListFacts Quantization QuantProofs QuantReal QuantFloat PropsQuant Codecs CodecProofs WatermarkProofs PropsCodec
  Encoding EncodingProofs PropsEncoding Matrix MatrixFacts Haar HaarProofs HaarReal PropsHaar Stego StegoProofs StegoMarks PropsStego Embedding EmbeddingProofs EmbeddingEffect PropsEmbedding PropsEmbedding2 PropsRobust
  Signature Process ProcessProofs Toy Zernike ZernikeProofs PropsZernike ZernikeBound PropsZernike2 ZernikeGen PropsZernikeF64 LibmSpec LibmExact PropsZernikeAcc
  PropsProcess PropsProcess2 Image PropsImage PropsProcess3 PropsProcess4 PropsProcess5 PropsProcess6.
Open Scope R_scope.

(** ** Specification vocabulary *)
(** A pattern on the n x n pixels that looks the same upside down (turned by 180 degrees). *)
Definition point_symmetric (n : nat) (P : nat -> nat -> R) : Prop :=
  forall i j, (i < n)%nat -> (j < n)%nat -> P (n - 1 - i)%nat (n - 1 - j)%nat = P i j.
(** Mean over all pixels of |after - before - P|. *)
Definition mean_change_up_to (P : nat -> nat -> R) (before after : array2 Z) (n : nat) : R :=
  sum_over n (fun i => sum_over n (fun j => Rabs (value_at after i j - value_at before i j - P i j))) / INR (n * n).
(** The same for rasters of n rows of n pixels. *)
Definition raster_at (n : nat) (l : list Z) (i j : nat) : Z := nth (n * i + j) l 0%Z.
Definition mean_raster_change_up_to (P : nat -> nat -> R) (n : nat) (before after : list Z) : R :=
  sum_over n (fun i => sum_over n (fun j => Rabs (IZR (raster_at n after i j) - IZR (raster_at n before i j) - P i j))) / INR (n * n).
(** Sum of the grey values of block (bi, bj) of a channel. *)
Definition channel_block_total (channel : gray) (n levels bi bj : nat) : Z :=
  zsum (2 ^ levels) (fun p => zsum (2 ^ levels) (fun q => raster_at n (gray_raw channel) (2 ^ levels * bi + p) (2 ^ levels * bj + q))).

(** The sums of the blocks that carry data differ by less than budget times the side of a block. *)
Definition block_sums_within (budget : R) (marked received : gray) (n levels bits : nat) : Prop :=
  forall bi bj, (bi < n / 2 ^ levels)%nat -> (bj < n / 2 ^ levels)%nat -> (n / 2 ^ levels * bi + bj < bits)%nat ->
    Rabs (IZR (channel_block_total received n levels bi bj - channel_block_total marked n levels bi bj)) / 2 ^ levels < budget.
(** Lighten the black fields of a chessboard by d grey levels and darken the white ones by d (n pixels to a row). *)
Definition chessboard (d : Z) (channel : gray) (n : nat) : gray :=
  mkGray (gwidth channel) (gheight channel)
    (map (fun k => raster_at n (gray_raw channel) (k / n) (k mod n) + (if Nat.even (k / n + k mod n) then d else - d))%Z (seq 0 (n * n))).

(** ** helpers *)
Lemma integral_symmetric k i n P : (i <= k)%nat -> (2 <= n)%nat -> point_symmetric n P -> integral (k + i + 1) (k - i) n P = (0, 0).
Proof.
  intros Hi Hn Hs. pose proof (integral_opp (k + i + 1) (k - i) n P Hn (odd_index k i Hi) ltac:(lia)) as H.
  rewrite (integral_ext _ _ n _ P) in H by exact Hs.
  destruct (integral _ _ _ _) as (x, y). unfold Cscale in H. cbn [fst snd] in H.
  assert (Hx : x = -1 * x) by congruence. assert (Hy : y = -1 * y) by congruence. f_equal; lra.
Qed.
Lemma integral_diff_sym k i n P A B : (i <= k)%nat -> (2 <= n)%nat -> point_symmetric n P ->
  Cmod (integral (k + i + 1) (k - i) n B - integral (k + i + 1) (k - i) n A)%C <= dsum n n (fun x y => Rabs (B x y - A x y - P x y)).
Proof.
  intros Hi Hn Hs. pose proof (integral_symmetric k i n P Hi Hn Hs) as E1. set (a := (k + i + 1)%nat) in *. set (b := (k - i)%nat) in *.
  replace (integral a b n B - integral a b n A)%C with (integral a b n (fun x y => B x y - A x y - P x y)).
  { apply integral_bound; unfold a, b; lia. }
  rewrite (integral_ext a b n _ (fun x y => 1 * (1 * B x y + (-1) * A x y) + (-1) * P x y)) by (intros; ring).
  rewrite (integral_lin a b n (fun x y => 1 * B x y + (-1) * A x y) P), (integral_lin a b n B A), E1.
  generalize (integral a b n A) (integral a b n B). intros [p1 p2] [q1 q2]. apply injective_projections; cbn; ring.
Qed.

(** *** C69: features *)
Theorem C69_features_ignore_point_symmetric_changes : forall gamma checks before after n amount P,
  square_image before n -> square_image after n -> amount_ok amount -> point_symmetric n P ->
  exists features features', calculate_features gamma checks before MomentsZernike amount = Ok features
    /\ calculate_features gamma checks after MomentsZernike amount = Ok features'
    /\ Forall2 (fun x x' => Rabs (x' - x) <= 2 * INR amount / PI * mean_change_up_to P before after n) features features'.
Proof.
  intros g checks A B n amount P (HA & Hn) (HB & _) (Ha1 & Ha2) Hs. destruct amount as [|k]; [lia|]. cbn [calculate_features].
  rewrite (features_ok g checks A n k), (features_ok g checks B n k) by (try assumption; lia). eexists _, _. split; [reflexivity|]. split; [reflexivity|].
  assert (H : Forall (fun i => (i <= k)%nat) (seq 0 (S k))) by (apply Forall_forall; intros i Hi; apply in_seq in Hi; lia).
  induction (seq 0 (S k)) as [|i l IH]; cbn [map]; constructor; [|apply IH; now inversion H].
  assert (Hi : (i <= k)%nat) by now inversion H.
  rewrite !feature_integral, factor_scale by assumption. rewrite <- Rmult_minus_distr_l, Rabs_mult.
  pose proof (pos_sides n Hn) as Hp. pose proof PI_RGT_0 as Hpi. pose proof (pos_INR (S k)) as Hk.
  assert (H0 : 0 <= 2 * INR (S k) / PI) by (apply Rmult_le_pos; [lra|left; now apply Rinv_0_lt_compat]).
  rewrite Rabs_pos_eq by (apply Rmult_le_pos; [exact H0|left; now apply Rinv_0_lt_compat]).
  unfold Rdiv at 1. rewrite Rmult_assoc. apply Rmult_le_compat_l; [exact H0|]. unfold mean_change_up_to, Rdiv. rewrite Rmult_comm.
  apply Rmult_le_compat_r; [left; now apply Rinv_0_lt_compat|].
  eapply Rle_trans; [apply Cmod_sub_le|]. eapply Rle_trans; [apply (integral_diff_sym k i n P (pix A) (pix B) Hi Hn Hs)|].
  right. rewrite sum_over_sumn. apply sumn_ext. intros x _. rewrite sum_over_sumn. reflexivity.
Qed.
(** In particular a point-symmetric change leaves every feature exactly as it was. *)
Theorem C69_point_symmetric_changes_keep_the_features : forall gamma checks before after n amount,
  square_image before n -> square_image after n -> amount_ok amount ->
  point_symmetric n (fun i j => value_at after i j - value_at before i j) ->
  calculate_features gamma checks after MomentsZernike amount = calculate_features gamma checks before MomentsZernike amount.
Proof.
  intros g checks A B n amount HA HB Ha Hs.
  destruct (C69_features_ignore_point_symmetric_changes g checks A B n amount _ HA HB Ha Hs) as (f & f' & E1 & E2 & H). rewrite E1, E2. f_equal.
  assert (Hz : mean_change_up_to (fun i j => value_at B i j - value_at A i j) A B n = 0).
  { unfold mean_change_up_to. replace (sum_over n _) with 0; [unfold Rdiv; ring|]. symmetry. rewrite sum_over_sumn.
    rewrite (sumn_ext n _ (fun _ => 0)); [rewrite sumn_const; ring|]. intros i _. rewrite sum_over_sumn.
    rewrite (sumn_ext n _ (fun _ => 0)); [rewrite sumn_const; ring|]. intros j _. rewrite Rminus_diag_eq, Rabs_R0; reflexivity. }
  rewrite Hz, Rmult_0_r in H. clear - H. induction H as [|x y l l' Hx _ IH]; [reflexivity|]. rewrite IH. f_equal.
  pose proof (Rabs_pos (y - x)). assert (Hz : Rabs (y - x) = 0) by lra. destruct (Req_dec (y - x) 0) as [E|E]; [lra|]. now apply Rabs_no_R0 in E.
Qed.
Theorem C69_f64_features_ignore_point_symmetric_changes : forall M, accurate M -> forall gamma checks before after n amount P,
  square_image before n -> square_image after n -> side_ok n -> byte_pixels before -> byte_pixels after -> (1 <= amount <= 11)%nat -> point_symmetric n P ->
  exists features features', g_calculate_features Bops M gamma checks before MomentsZernike amount = Ok features
    /\ g_calculate_features Bops M gamma checks after MomentsZernike amount = Ok features'
    /\ Forall2 (fun x x' : b64 => Rabs (toR x' - toR x) <= 2 * INR amount / PI * mean_change_up_to P before after n + / 64) features features'.
Proof.
  intros M HM g checks A B n amount P HA HB Hs BA BB Ha HP.
  destruct (two_images M HM g checks A B n amount HA HB Hs BA BB Ha) as (c & e & c' & e' & P1 & P2 & P3 & Q1 & Q2 & Q3).
  destruct (C69_features_ignore_point_symmetric_changes (fun x => x) checks A B n amount P HA HB (amount11 _ Ha) HP) as (f1 & f2 & X1 & X2 & X).
  assert (f1 = e) by congruence. assert (f2 = e') by congruence. subst f1 f2. exists c, c'. split; [exact P1|]. split; [exact Q1|].
  refine (Forall2_chain _ _ c e c' e' P3 Q3 X _). lra.
Qed.

(** *** C69: extraction *)
Lemma bytes_by_bits l l' : bytes l -> bytes l' -> length l = length l' -> (forall k, (k < 8 * length l)%nat -> payload_bit l k = payload_bit l' k) -> l = l'.
Proof.
  intros Hl Hl' Hlen H. apply (nth_ext _ _ 0%Z 0%Z Hlen). intros q Hq.
  assert (B : forall m, bytes m -> (q < length m)%nat -> (0 <= nth q m 0 < 2 ^ 8)%Z).
  { intros m Hm Hqm. unfold bytes in Hm. rewrite Forall_forall in Hm. specialize (Hm _ (nth_In m 0%Z Hqm)). unfold byte in Hm. lia. }
  pose proof (B l Hl Hq) as B1. pose proof (B l' Hl' ltac:(lia)) as B2.
  apply Z.bits_inj'. intros t Ht. destruct (Z.lt_ge_cases t 8) as [H8|H8].
  - specialize (H (8 * q + Z.to_nat t)%nat ltac:(lia)). unfold payload_bit in H.
    replace ((8 * q + Z.to_nat t) / 8)%nat with q in H by (apply (Nat.div_unique _ 8 q (Z.to_nat t)); lia).
    replace ((8 * q + Z.to_nat t) mod 8)%nat with (Z.to_nat t) in H by (apply (Nat.mod_unique _ 8 q (Z.to_nat t)); lia).
    rewrite Z2Nat.id in H by lia. exact H.
  - destruct (Z.eq_dec (nth q l 0%Z) 0) as [E0|E0]; destruct (Z.eq_dec (nth q l' 0%Z) 0) as [E1|E1]; rewrite ?E0, ?E1, ?Z.bits_0; try reflexivity.
    + symmetry. apply Z.bits_above_log2; [lia|]. apply Z.lt_le_trans with 8%Z; [apply Z.log2_lt_pow2; lia|lia].
    + apply Z.bits_above_log2; [lia|]. apply Z.lt_le_trans with 8%Z; [apply Z.log2_lt_pow2; lia|lia].
    + rewrite !Z.bits_above_log2; try reflexivity; try lia; (apply Z.lt_le_trans with 8%Z; [apply Z.log2_lt_pow2; lia|lia]).
Qed.
Theorem C69_extraction_sees_block_totals_only : forall K image image' n levels depth,
  picture image n levels -> picture image' n levels -> (9 <= band_capacity n levels)%nat ->
  (forall bi bj, (bi < n / 2 ^ levels)%nat -> (bj < n / 2 ^ levels)%nat -> block_total image' levels bi bj = block_total image levels bi bj) ->
  extract Rops K image' depth levels = extract Rops K image depth levels.
Proof.
  intros K A B n L depth HA HB H9 Hbt.
  destruct (C61_extraction_in_closed_form K A n L depth HA H9) as (ra & La & Ba & Ga & EA).
  destruct (C61_extraction_in_closed_form K B n L depth HB H9) as (rb & Lb & Bb & Gb & EB).
  assert (E : rb = ra); [|rewrite EA, EB, E; reflexivity].
  apply bytes_by_bits; try assumption; [congruence|]. intros k Hk. rewrite Lb in Hk. specialize (Ga k Hk). specialize (Gb k Hk). cbv zeta in Ga, Gb.
  set (s := (n / 2 ^ L)%nat) in *. unfold band_capacity in H9, Hk. fold s in H9, Hk.
  assert (Hs : (0 < s)%nat) by (destruct s; [cbn in H9; lia|lia]).
  assert (Hk2 : (k < s * s)%nat) by (pose proof (Nat.mul_div_le (s * s) 8 ltac:(lia)); lia).
  assert (Ec : coefficient B L (k / s) (k mod s) = coefficient A L (k / s) (k mod s)).
  { unfold coefficient. rewrite Hbt; [reflexivity| |].
    - apply Nat.div_lt_upper_bound; lia.
    - apply Nat.mod_upper_bound. lia. }
  rewrite Ec in Gb. apply Bool.eq_true_iff_eq. rewrite Ga, Gb. reflexivity.
Qed.

(** channels and arrays *)
Lemma channel_blocks ch n L im : gray_picture ch n L -> from_shape_vec (gwidth ch) (gheight ch) (gray_raw ch) = Ok im ->
  forall bi bj, (bi < n / 2 ^ L)%nat -> (bj < n / 2 ^ L)%nat -> block_total im L bi bj = channel_block_total ch n L bi bj.
Proof.
  intros Hg Eim bi bj Hi Hj. destruct (gray_array ch n L Hg) as (im' & Eim' & _ & Hc). assert (im' = im) by congruence. subst im'.
  pose proof Hg as (_ & _ & Hl & _ & Hm & _). pose proof (HaarProofs.pow2_pos L) as Hp. apply Nat.div_exact in Hm; [|lia].
  unfold block_total, channel_block_total. apply zsum_ext. intros p Hp1. apply zsum_ext. intros q Hq1.
  assert (I : (2 ^ L * bi + p < n)%nat) by nia. assert (J : (2 ^ L * bj + q < n)%nat) by nia.
  unfold pixel, raster_at. rewrite Hc by assumption. unfold gray_pixel. rewrite (nth_error_nth' _ 0%Z) by nia. reflexivity.
Qed.
Lemma raster_value A n i j : square_image A n -> (i < n)%nat -> (j < n)%nat -> value_at A i j = IZR (raster_at n (into_raw_vec A) i j).
Proof.
  intros ((WA & A0 & A1) & _) Hi Hj. pose proof (raw_nth A i j WA) as HR. rewrite A0, A1 in HR. unfold raster_at. rewrite Nat.mul_comm, (HR Hi Hj). reflexivity.
Qed.
Lemma mean_up_to A B n P : square_image A n -> square_image B n ->
  mean_change_up_to P A B n = mean_raster_change_up_to P n (into_raw_vec A) (into_raw_vec B).
Proof.
  intros HA HB. unfold mean_change_up_to, mean_raster_change_up_to. f_equal. rewrite !sum_over_sumn. apply sumn_ext. intros i Hi.
  rewrite !sum_over_sumn. apply sumn_ext. intros j Hj. rewrite (raster_value A n), (raster_value B n) by assumption. reflexivity.
Qed.

(** *** C69: verdicts *)
(** Exact arithmetic: two channels with the same block sums whose equalised rasters differ by a point-symmetric pattern get the same
    answer (true, false or a panic) from authenticate_channel. *)
Theorem C69_same_verdict : forall K E equalize gamma checks, keeps_grey equalize ->
  let features_of image n := calculate_features gamma checks image MomentsZernike n in
  forall channel altered n levels depth step amount,
  gray_picture channel n levels -> gray_picture altered n levels -> (9 <= band_capacity n levels)%nat -> (1 <= amount <= 85)%nat ->
  (forall bi bj, (bi < n / 2 ^ levels)%nat -> (bj < n / 2 ^ levels)%nat -> channel_block_total altered n levels bi bj = channel_block_total channel n levels bi bj) ->
  point_symmetric n (fun i j => IZR (raster_at n (equalize (gray_raw altered)) i j) - IZR (raster_at n (equalize (gray_raw channel)) i j)) ->
  authenticate_channel Rops K E equalize features_of checks altered depth step amount levels
  = authenticate_channel Rops K E equalize features_of checks channel depth step amount levels.
Proof.
  intros K E eq g checks Heq fo ch al n L depth step amount Hg Hg' H9 Ha Hbt Hps.
  assert (Hn : (2 <= n)%nat).
  { unfold band_capacity in H9. destruct (Nat.lt_ge_cases n 2) as [H|H]; [|exact H]. exfalso.
    assert (Hd : (n / 2 ^ L <= 1)%nat) by (apply Nat.lt_succ_r, Nat.div_lt_upper_bound; [apply Nat.pow_nonzero; lia|]; pose proof (HaarProofs.pow2_pos L); lia).
    assert (Hz : (n / 2 ^ L * (n / 2 ^ L) / 8 = 0)%nat) by (apply Nat.div_small; nia). lia. }
  destruct (zernike_measures g checks eq ch n L amount Heq Hg Hn Ha) as (A & fs & Hm & EA & SA & RA & Ef & _).
  destruct (zernike_measures g checks eq al n L amount Heq Hg' Hn Ha) as (B & fs' & Hm' & EB & SB & RB & Ef' & _).
  destruct (gray_array ch n L Hg) as (im & Eim & Him & _). destruct (gray_array al n L Hg') as (im' & Eim' & Him' & _).
  assert (Efs : fs' = fs).
  { assert (X : calculate_features g checks B MomentsZernike amount = calculate_features g checks A MomentsZernike amount); [|congruence].
    apply (C69_point_symmetric_changes_keep_the_features g checks A B n amount SA SB); [unfold amount_ok; lia|].
    intros i j Hi Hj. rewrite !(raster_value B n), !(raster_value A n), RA, RB by (try assumption; lia). exact (Hps i j Hi Hj). }
  assert (Ex : extract Rops K im' depth L = extract Rops K im depth L).
  { apply (C69_extraction_sees_block_totals_only K im im' n L depth Him Him' H9). intros bi bj Hi Hj.
    rewrite (channel_blocks al n L im' Hg' Eim'), (channel_blocks ch n L im Hg Eim) by assumption. now apply Hbt. }
  unfold authenticate_channel, channel_features.
  pose proof Hg as (W & H & _). pose proof Hg' as (W' & H' & _). rewrite W, H in Eim. rewrite W', H' in Eim'. rewrite W, H, W', H', Eim, Eim'. cbn [bind].
  rewrite EA, EB. cbn [bind]. unfold fo. rewrite Ef, Ef'. cbn [bind]. rewrite Ex, Efs. reflexivity.
Qed.

(** *** C69: watermarked channels in doubles *)
Lemma block_changed_channel K : ldpc_shape K -> ldpc_decodes K ->
  forall E, signature_format E -> key_pair E PRIVATE_KEY PUBLIC_KEY ->
  forall equalize features_of checks pad, length pad = 8%nat ->
  forall channel n levels (depth step : b64) amount features,
  gray_picture channel n levels -> (levels <= 10)%nat -> usable n levels -> measures equalize features_of channel amount features ->
  fin step -> (bpow radix2 (-500) <= toR step <= bpow radix2 500)%R ->
  (checks = true -> Forall (fun q => q <> - 2 ^ 63)%Z (quantize Bops features step)) -> (length features <= 85)%nat ->
  (stored_size n levels (payload_size (length features)) <= band_capacity n levels)%nat ->
  fin depth -> (65 / 64 * 2 ^ (levels + 1) <= toR depth <= 2 ^ 20)%R ->
  gray_room channel n levels (8 * stored_size n levels (payload_size (length features))) (3 * toR depth / 2 ^ (levels + 2)) ->
  exists marked, watermark_channel Bops K E equalize features_of checks pad channel depth step amount levels = Ok marked
    /\ gray_picture marked n levels
    /\ forall received budget, gray_picture received n levels ->
         block_sums_within budget marked received n levels (8 * stored_size n levels (payload_size (length features))) ->
         2 ^ levels * (/ 2 + / 1024) + budget <= (/ 4 - / 512) * toR depth ->
         forall noised, measures equalize features_of received amount noised ->
         Forall2 (fun x x' : b64 => fin x /\ fin x' /\ (Rabs (toR x) <= bpow radix2 29 * toR step)%R
             /\ (Rabs (toR x' - toR x) <= (1 - bpow radix2 (-20)) * toR step)%R
             /\ (forall m : Z, (m = 0%Z /\ 0 <= toR x') \/ bpow radix2 (-20) * toR step <= Rabs (toR x' - IZR m * toR step))%R)
           features noised ->
         authenticate_channel Bops K E equalize features_of checks received depth step amount levels = Ok true.
Proof.
  intros Hsh Hdec E HE Hk eq fo checks pad Hpad ch n L depth step amount fs Hg HL10 Hu Hm Fst Hst Hq H85 Hcap Fd Hd2 Hroom.
  assert (HpL : (1 <= 2 ^ L)%R) by (apply pow_R1_Rle; lra).
  assert (Hd1 : (1 <= toR depth <= 2 ^ 20)%R) by (split; [|apply Hd2]; rewrite pow_add in Hd2; simpl (2 ^ 1)%R in Hd2; lra).
  destruct (gray_array ch n L Hg) as (im & Eim & Him & Hcell).
  destruct (C02_f64_noiseless step fs checks Hq) as (bits & Eq & Enl). set (q := quantize Bops fs step) in *.
  destruct (quantization_inv Bops checks fs step q bits Eq) as (_ & _ & Lb).
  destruct (sign_verify E _ _ (vec_i64_to_bytes q) HE Hk) as (sig & Es & Ls & Bs & Ev).
  destruct (payload_of pad bits sig (length fs) Hpad Bs Ls Lb H85) as (pl & Ep & Bp & Lp & Edp).
  pose proof (payload_size_range _ H85) as Hsz.
  assert (Hr' : room im n L (8 * stored_size n L (length pl)) (3 * toR depth / 2 ^ (L + 2))) by (rewrite Lp; now apply (gray_room_array ch)).
  assert (Hl : (1 <= Z.of_nat (length pl) <= 65533)%Z) by (rewrite Lp; lia). assert (Hcap' : (stored_size n L (length pl) <= band_capacity n L)%nat) by (rewrite Lp; exact Hcap).
  destruct (C31_f64_embed_then_extract_returns_the_payload K Hsh Hdec im n L depth pl Him HL10 Hu Bp Hl Hcap' Fd Hd2 Hr') as (out & Eo & Pout & _).
  destruct (array_gray out n L Pout) as (Gout & Fout). pose proof Hg as (W & H & _).
  pose proof Pout as ((Hwf & D0 & D1 & _) & _).
  exists (mkGray n n (into_raw_vec out)). split; [|split; [exact Gout|]].
  - pose proof (watermark_run Bops K E eq fo checks pad ch im amount fs step q bits sig pl out depth L Eim Hm Eq Es Ep Eo Hwf ltac:(congruence) ltac:(congruence)) as R.
    rewrite W, H in R. exact R.
  - intros received budget Grc Hch Hbud noised Hm' Hn.
    destruct (gray_array received n L Grc) as (rc & Erc & Prc & _).
    assert (Hnoise : block_noise out rc n L (8 * stored_size n L (length pl)) budget).
    { intros bi bj Hi Hj Hb. rewrite (channel_blocks received n L rc Grc Erc), (channel_blocks (mkGray n n (into_raw_vec out)) n L out Gout Fout) by assumption.
      rewrite Lp in Hb. now apply Hch. }
    pose proof (C63_f64_small_block_changes_keep_the_payload K Hsh Hdec im n L depth pl out rc budget Him HL10 Hu Bp Hl Hcap' Fd Hd1 Hr' Eo Prc Hnoise Hbud) as Ex.
    rewrite (authenticate_run Bops K E eq fo checks received rc amount noised step (mkWatermark bits sig WATERMARK_TEXT) pl depth L Erc Hm' Ex Edp).
    cbn [perturbation_vector signature].
    destruct (C02_f64_noise_outside_guard_band step fs noised checks Fst Hst Hn) as (q' & bits' & E1 & E2).
    assert (bits' = bits) by congruence. assert (q' = q) by congruence. subst bits' q'. rewrite E2. exact Ev.
Qed.
(** IEEE double precision, compiled Zernike features: whatever happened to the pixels, a received channel is accepted as long as the sums
    of the blocks that carry data moved by little and the equalised raster differs from the original's, up to some point-symmetric
    pattern of any strength, by little on average. *)
Theorem C69_f64_altered_channel_authenticates : forall K, ldpc_shape K -> ldpc_decodes K ->
  forall E, signature_format E -> key_pair E PRIVATE_KEY PUBLIC_KEY ->
  forall M, accurate M ->
  forall equalize gamma checks pad, keeps_grey equalize -> length pad = 8%nat ->
  let features_of := zernike_f64 M gamma checks in
  let exact_features image n := calculate_features (fun x => x) checks image MomentsZernike n in
  forall channel n levels (depth step : b64) amount,
  gray_picture channel n levels -> side_ok n -> (levels <= 10)%nat -> usable n levels -> (1 <= amount <= 11)%nat ->
  fin step -> (/ 2 ^ 19 <= toR step <= 2 ^ 100)%R ->
  (stored_size n levels (payload_size amount) <= band_capacity n levels)%nat ->
  fin depth -> (65 / 64 * 2 ^ (levels + 1) <= toR depth <= 2 ^ 20)%R ->
  gray_room channel n levels (8 * stored_size n levels (payload_size amount)) (3 * toR depth / 2 ^ (levels + 2)) ->
  exists marked, watermark_channel Bops K E equalize features_of checks pad channel depth step amount levels = Ok marked
    /\ gray_picture marked n levels
    /\ forall received budget P exact, gray_picture received n levels ->
         block_sums_within budget marked received n levels (8 * stored_size n levels (payload_size amount)) ->
         2 ^ levels * (/ 2 + / 1024) + budget <= (/ 4 - / 512) * toR depth ->
         point_symmetric n P ->
         (2 * INR amount / PI * mean_raster_change_up_to P n (equalize (gray_raw channel)) (equalize (gray_raw received)) + / 64 <= (1 - / 2 ^ 20) * toR step)%R ->
         measures equalize exact_features received amount exact ->
         (forall x (m : Z), In x exact -> (1 <= m)%Z -> (/ 128 + / 2 ^ 20 * toR step <= Rabs (x - IZR m * toR step))%R) ->
         authenticate_channel Bops K E equalize features_of checks received depth step amount levels = Ok true.
Proof.
  intros K Hsh Hdec E HE Hk M HM eq g checks pad Heq Hpad fo fe ch n L depth step amount Hg Hs HL10 Hu Ha Fst Hst Hcap Fd Hd2 Hroom.
  pose proof (usable_side n L Hu) as Hn.
  destruct (zernike_measures_f64 M HM g checks eq ch n L amount Heq Hg Hn Hs Ha) as (A & cs & es & Hm & Hme & EA & SA & BA & RA & Ec & Lc & Hce & Bc).
  assert (H19 : (/ 2 ^ 19 = bpow radix2 (-19))%R) by (simpl; lra). assert (H20 : (/ 2 ^ 20 = bpow radix2 (-20))%R) by (simpl; lra). rewrite H19 in Hst.
  assert (Hst0 : (0 < toR step)%R) by (pose proof (bpow_gt_0 radix2 (-19)); lra).
  assert (Hst2 : (bpow radix2 (-500) <= toR step <= bpow radix2 500)%R).
  { split; [apply Rle_trans with (bpow radix2 (-19)); [apply bpow_le; lia|lra]|].
    apply Rle_trans with (bpow radix2 100); [|apply bpow_le; lia]. rewrite bpow_num by lia. rewrite (pow_IZR 2 100) in Hst. exact (proj2 Hst). }
  assert (Big : (1000 <= bpow radix2 29 * toR step)%R).
  { apply Rle_trans with (bpow radix2 29 * bpow radix2 (-19))%R; [rewrite <- bpow_plus; simpl; lra|]. apply Rmult_le_compat_l; [apply bpow_ge_0|lra]. }
  assert (Bc30 : Forall (fun x => fin x /\ (Rabs (toR x) <= bpow radix2 30 * toR step)%R) cs).
  { eapply Forall_impl; [|exact Bc]. intros x (Fx & Hx0 & Hx). split; [exact Fx|]. rewrite Rabs_pos_eq by exact Hx0.
    change 30%Z with (29 + 1)%Z. rewrite bpow_plus. change (bpow radix2 1) with 2%R. pose proof (bpow_gt_0 radix2 29). nra. }
  destruct (block_changed_channel K Hsh Hdec E HE Hk eq fo checks pad Hpad ch n L depth step amount cs Hg HL10 Hu Hm Fst Hst2) as (mk & E1 & G & H); rewrite ?Lc; try assumption; [|lia|].
  - intros Hchk. unfold quantize. rewrite Forall_map. exact (no_overflow_float step Hst2 checks cs Bc30 Hchk).
  - rewrite Lc in H. exists mk. split; [exact E1|]. split; [exact G|]. intros rc budget P ex Grc Hch Hbud HP Hmean Hex Hguard.
    destruct (zernike_measures_f64 M HM g checks eq rc n L amount Heq Grc Hn Hs Ha) as (B & cs' & es' & Hm' & Hme' & EB & SB & BB & RB & Ec' & Lc' & Hce' & Bc').
    assert (ex = es').
    { destruct Hex as (B1 & X1 & X2). destruct Hme' as (B2 & Y1 & Y2). assert (B2 = B1) by congruence. subst B2. unfold fe in X2. congruence. }
    subst es'. apply (H rc budget Grc Hch Hbud cs' Hm').
    destruct (C69_f64_features_ignore_point_symmetric_changes M HM g checks A B n amount P SA SB Hs BA BB Ha HP) as (f1 & f2 & X1 & X2 & X).
    assert (f1 = cs) by congruence. assert (f2 = cs') by congruence. subst f1 f2.
    rewrite (mean_up_to A B n P SA SB), RA, RB in X.
    assert (Hg' : Forall (fun x' : b64 => (forall m : Z, (m = 0%Z /\ 0 <= toR x') \/ bpow radix2 (-20) * toR step <= Rabs (toR x' - IZR m * toR step))%R) cs').
    { clear - Hce' Hguard H20 Hst0. induction Hce' as [|x y c e (F & F0 & HF) _ IH]; constructor; [|apply IH; intros; apply Hguard; [now right|assumption]].
      intros m. destruct (Z.lt_trichotomy m 0) as [Hm|[Hm|Hm]]; [right|left; split; [exact Hm|exact F0]|right].
      - assert (Hm1 : (IZR m <= -1)%R) by (apply IZR_le; lia). assert (P : (1 * toR step <= - IZR m * toR step)%R) by (apply Rmult_le_compat_r; lra).
        rewrite Rabs_pos_eq by lra. rewrite <- H20. assert ((/ 2 ^ 20 * toR step <= 1 * toR step)%R) by (apply Rmult_le_compat_r; [lra|simpl; lra]). lra.
      - specialize (Hguard y m (or_introl eq_refl) ltac:(lia)). rewrite <- H20.
        revert Hguard HF. generalize (IZR m * toR step)%R. generalize (/ 2 ^ 20 * toR step)%R. intros a b. unfold Rabs. repeat destruct Rcase_abs; lra. }
    clear - X Hmean H20 Hg' Bc Bc' Big. rewrite H20 in Hmean. revert Hg' Bc Bc'. induction X as [|x x' cx cx' Hx _ IH]; intros Hg' Bc Bc'; constructor.
    + inversion Bc as [|? ? (F & F0) ?]; inversion Bc' as [|? ? (F' & F0') ?]; inversion Hg'; subst.
      split; [exact F|]. split; [exact F'|]. split; [rewrite Rabs_pos_eq by (apply F0); lra|]. split; [lra|assumption].
    + apply IH; [now inversion Hg'|now inversion Bc|now inversion Bc'].
Qed.

(** *** C69: an alteration every viewer sees *)
Lemma zsum_alt m f : zsum (2 * m) (fun q => if Nat.even q then f else - f)%Z = 0%Z.
Proof.
  induction m as [|m IH]; [reflexivity|]. replace (2 * S m)%nat with (S (S (2 * m))) by lia. cbn [zsum]. rewrite IH.
  rewrite Nat.even_succ, <- Nat.negb_even, Nat.even_mul. cbn. lia.
Qed.
Lemma zsum_plus n f g : zsum n (fun k => f k + g k)%Z = (zsum n f + zsum n g)%Z.
Proof. induction n as [|n IH]; [reflexivity|]. cbn [zsum]. rewrite IH. lia. Qed.
Lemma chess_at d ch n i j : (i < n)%nat -> (j < n)%nat ->
  raster_at n (gray_raw (chessboard d ch n)) i j = (raster_at n (gray_raw ch) i j + (if Nat.even (i + j) then d else - d))%Z.
Proof.
  intros Hi Hj. unfold chessboard. cbn [gray_raw]. unfold raster_at at 1.
  set (f := fun k => (_ + _)%Z). rewrite (nth_indep _ 0%Z (f 0%nat)) by (rewrite map_length, seq_length; nia).
  rewrite (map_nth f), seq_nth by nia. cbn [Nat.add]. unfold f.
  replace ((n * i + j) / n)%nat with i by (apply (Nat.div_unique _ n i j); lia). replace ((n * i + j) mod n)%nat with j by (apply (Nat.mod_unique _ n i j); lia). reflexivity.
Qed.
Lemma chess_picture d ch n L : gray_picture ch n L -> (0 <= d)%Z -> Forall (fun v => d <= v <= 255 - d)%Z (gray_raw ch) -> gray_picture (chessboard d ch n) n L.
Proof.
  intros (W & H & Hl & Hb & R) Hd HF. unfold gray_picture, chessboard. cbn [gwidth gheight gray_raw].
  split; [exact W|]. split; [exact H|]. split; [now rewrite map_length, seq_length|]. split; [|exact R].
  unfold bytes. rewrite Forall_map, Forall_forall. intros k Hk. apply in_seq in Hk. unfold byte.
  assert (Hn : n <> 0%nat) by nia. pose proof (Nat.div_mod k n Hn) as D.
  assert (X : (d <= raster_at n (gray_raw ch) (k / n) (k mod n) <= 255 - d)%Z).
  { unfold raster_at. rewrite <- D. rewrite Forall_forall in HF. apply HF, nth_In. lia. }
  destruct (Nat.even _); lia.
Qed.
Lemma chess_blocks d ch n L bi bj : gray_picture ch n L -> (bi < n / 2 ^ L)%nat -> (bj < n / 2 ^ L)%nat ->
  channel_block_total (chessboard d ch n) n L bi bj = channel_block_total ch n L bi bj.
Proof.
  intros (_ & _ & _ & _ & Hm & HL & _) Hi Hj. pose proof (HaarProofs.pow2_pos L) as Hp. apply Nat.div_exact in Hm; [|lia].
  unfold channel_block_total. apply zsum_ext. intros p Hp1.
  rewrite (zsum_ext (2 ^ L) _ (fun q => raster_at n (gray_raw ch) (2 ^ L * bi + p) (2 ^ L * bj + q) + (if Nat.even q then (if Nat.even p then d else - d) else - (if Nat.even p then d else - d)))%Z).
  - rewrite zsum_plus. destruct L as [|L]; [lia|]. cbn [Nat.pow]. rewrite zsum_alt. apply Z.add_0_r.
  - intros q Hq. rewrite chess_at by nia. f_equal. destruct L as [|L]; [lia|].
    replace (2 ^ S L * bi + p + (2 ^ S L * bj + q))%nat with (p + q + 2 * (2 ^ L * bi + 2 ^ L * bj))%nat by (cbn [Nat.pow]; lia).
    rewrite Nat.even_add_mul_2, Nat.even_add. destruct (Nat.even p), (Nat.even q); cbn [Bool.eqb]; lia.
Qed.
Lemma chess_symmetric d ch n L : gray_picture ch n L ->
  point_symmetric n (fun i j => IZR (raster_at n (gray_raw (chessboard d ch n)) i j) - IZR (raster_at n (gray_raw ch) i j)).
Proof.
  intros _ i j Hi Hj. rewrite !chess_at by lia. rewrite !plus_IZR.
  assert (E : Nat.even (n - 1 - i + (n - 1 - j)) = Nat.even (i + j)).
  { rewrite <- (Nat.even_add_mul_2 (n - 1 - i + (n - 1 - j)) (i + j)). replace (n - 1 - i + (n - 1 - j) + 2 * (i + j))%nat with (i + j + 2 * (n - 1))%nat by lia. apply Nat.even_add_mul_2. }
  rewrite E. ring.
Qed.
(** A chessboard of any strength drawn over a channel does not change its verdict (features of the channel itself, exact arithmetic). *)
Theorem C69_chessboard_keeps_the_verdict : forall K E gamma checks,
  let features_of image n := calculate_features gamma checks image MomentsZernike n in
  forall channel n levels depth step amount d,
  gray_picture channel n levels -> (9 <= band_capacity n levels)%nat -> (1 <= amount <= 85)%nat ->
  (0 <= d)%Z -> Forall (fun v => d <= v <= 255 - d)%Z (gray_raw channel) ->
  authenticate_channel Rops K E (fun l => l) features_of checks (chessboard d channel n) depth step amount levels
  = authenticate_channel Rops K E (fun l => l) features_of checks channel depth step amount levels.
Proof.
  intros K E g checks fo ch n L depth step amount d Hg H9 Ha Hd HF.
  apply (C69_same_verdict K E (fun l => l) g checks) with (n := n); try assumption.
  - intros l Hl. split; [reflexivity|exact Hl].
  - now apply chess_picture.
  - intros bi bj Hi Hj. now apply (chess_blocks d ch n L).
  - exact (chess_symmetric d ch n L Hg).
Qed.

(** ** Concrete case: after the chessboard of 60 grey levels the uniform 512x512 channel still satisfies the hypotheses, and its picture is
    a different one. *)
Example C69_instance : gray_picture (chessboard 60 grey512 512) 512 3 /\ gray_raw (chessboard 60 grey512 512) <> gray_raw grey512
  /\ (9 <= band_capacity 512 3)%nat /\ Forall (fun v => 60 <= v <= 255 - 60)%Z (gray_raw grey512).
Proof.
  assert (HF : Forall (fun v => 60 <= v <= 255 - 60)%Z (gray_raw grey512)) by (apply Forall_repeat; lia).
  split; [apply chess_picture; [exact grey512_picture|lia|exact HF]|]. split; [|split; [|exact HF]].
  - intros E. pose proof (chess_at 60 grey512 512 0 0 ltac:(lia) ltac:(lia)) as H. rewrite E in H. cbn [Nat.even Nat.add] in H. lia.
  - change (band_capacity 512 3) with (512 / 2 ^ 3 * (512 / 2 ^ 3) / 8)%nat. replace (512 / 2 ^ 3)%nat with 64%nat by reflexivity. apply Nat.leb_le. vm_compute. reflexivity.
Qed.

(** And in doubles: the uniform channel watermarked with the command line's depth 100 and step 80, then covered with a chessboard of 60 grey
    levels, authenticates. *)
Lemma mean_up_to_bound P n before after b : (0 < n)%nat ->
  (forall i j, (i < n)%nat -> (j < n)%nat -> Rabs (IZR (raster_at n after i j) - IZR (raster_at n before i j) - P i j) <= b) ->
  mean_raster_change_up_to P n before after <= b.
Proof.
  intros Hn H. unfold mean_raster_change_up_to. rewrite sum_over_sumn.
  assert (Hp : 0 < INR n) by (apply lt_0_INR; lia). rewrite mult_INR.
  assert (Hs : sumn n (fun i => sum_over n (fun j => Rabs (IZR (raster_at n after i j) - IZR (raster_at n before i j) - P i j))) <= INR n * (INR n * b)).
  { rewrite <- sumn_const. apply sumn_le. intros i Hi. rewrite sum_over_sumn, <- sumn_const. apply sumn_le. intros j Hj. now apply H. }
  apply Rmult_le_reg_r with (INR n * INR n); [nra|]. unfold Rdiv. rewrite Rmult_assoc, Rinv_l by nra. nra.
Qed.
Example C69_f64_instance : exists marked,
  watermark_channel Bops toy_ldpc toy_ed (fun l => l) (zernike_f64 exact_libm (fun x => x) true) true (repeat false 8) grey512 (f_of_Z Bops 100) (f_of_Z Bops 80) 11 3 = Ok marked
  /\ authenticate_channel Bops toy_ldpc toy_ed (fun l => l) (zernike_f64 exact_libm (fun x => x) true) true (chessboard 60 marked 512) (f_of_Z Bops 100) (f_of_Z Bops 80) 11 3 = Ok true.
Proof.
  destruct (b_of_Z_ok 100) as (F1 & V1); [lia|]. destruct (b_of_Z_ok 80) as (F2 & V2); [lia|].
  change (b_of_Z 100) with (f_of_Z Bops 100) in *. change (b_of_Z 80) with (f_of_Z Bops 80) in *.
  assert (Heq : keeps_grey (fun l => l)) by (intros l Hl; split; [reflexivity|exact Hl]).
  assert (S512 : side_ok 512) by (unfold side_ok; lia).
  destruct (C69_f64_altered_channel_authenticates toy_ldpc toy_shape toy_decodes toy_ed toy_format toy_keys exact_libm exact_libm_accurate (fun l => l) (fun x => x) true (repeat false 8)
              Heq eq_refl grey512 512 3 (f_of_Z Bops 100) (f_of_Z Bops 80) 11 grey512_picture S512 ltac:(lia) usable_512) as (mk & E1 & G & H).
  - lia.
  - exact F2.
  - rewrite V2. simpl. lra.
  - exact fits_512.
  - exact F1.
  - rewrite V1. simpl. lra.
  - apply grey512_room. rewrite V1. simpl. lra.
  - exists mk. split; [exact E1|].
    assert (Hpix : forall i j, (i < 512)%nat -> (j < 512)%nat -> Rabs (IZR (raster_at 512 (gray_raw mk) i j) - IZR (raster_at 512 (gray_raw grey512) i j)) <= 99 / 10).
    { intros i j Hi Hj. pose proof grey512_picture as (_ & _ & L1 & _). pose proof G as (_ & _ & L2 & _).
      assert (K : (512 * i + j < 512 * 512)%nat) by nia.
      pose proof (C67_f64_pixels_of_a_watermarked_channel _ _ _ _ _ _ _ _ _ _ _ _ _ grey512_picture ltac:(lia) F1 ltac:(rewrite V1; simpl; lra) E1 (512 * i + j)%nat
        _ _ (nth_error_nth' (gray_raw grey512) 0%Z ltac:(rewrite L1; exact K)) (nth_error_nth' (gray_raw mk) 0%Z ltac:(rewrite L2; exact K))) as Hp.
      eapply Rle_trans; [exact Hp|]. rewrite V1. simpl. lra. }
    assert (Hgrey : forall i j, (i < 512)%nat -> (j < 512)%nat -> raster_at 512 (gray_raw grey512) i j = 128%Z).
    { intros i j Hi Hj. unfold raster_at, grey512. cbn [gray_raw]. apply nth_error_nth, nth_error_repeat. nia. }
    assert (HF : Forall (fun v => 60 <= v <= 255 - 60)%Z (gray_raw mk)).
    { rewrite Forall_forall. intros v Hv. destruct (In_nth _ _ 0%Z Hv) as (k & Hk & <-). pose proof G as (_ & _ & L2 & _). rewrite L2 in Hk.
      pose proof (Nat.div_mod k 512 ltac:(lia)) as D. pose proof (Nat.mod_upper_bound k 512 ltac:(lia)) as Mb.
      assert (Dv : (k / 512 < 512)%nat) by (apply Nat.div_lt_upper_bound; lia).
      pose proof (Hpix _ _ Dv Mb) as Hp. rewrite Hgrey in Hp by assumption. unfold raster_at in Hp. rewrite <- D in Hp. apply Rabs_le_inv in Hp.
      change (255 - 60)%Z with 195%Z. split; apply le_IZR; lra. }
    assert (Gc : gray_picture (chessboard 60 mk 512) 512 3) by (apply chess_picture; [exact G|lia|exact HF]).
    assert (Hpi : (3 < PI)%R) by (pose proof PI2_3_2; lra).
    assert (Hf : (2 * INR 11 / PI <= 22 / 3)%R).
    { replace (INR 11) with 11%R by (rewrite INR_IZR_INZ; reflexivity). apply Rmult_le_reg_r with (PI * 3)%R; [lra|]. field_simplify; lra. }
    assert (Hp0 : (0 <= 2 * INR 11 / PI)%R) by (apply Rmult_le_pos; [pose proof (pos_INR 11); lra|left; apply Rinv_0_lt_compat; lra]).
    set (P := fun i j : nat => if Nat.even (i + j) then 60 else - 60).
    assert (HP : point_symmetric 512 P).
    { pose proof (chess_symmetric 60 grey512 512 3 grey512_picture) as Hs. intros i j Hi Hj. specialize (Hs i j Hi Hj). cbv beta in Hs. rewrite !chess_at in Hs by lia. rewrite !plus_IZR in Hs.
      unfold P. revert Hs. destruct (Nat.even _), (Nat.even _); cbn [Z.opp]; intros; lra. }
    assert (Hmean : mean_raster_change_up_to P 512 (gray_raw grey512) (gray_raw (chessboard 60 mk 512)) <= 99 / 10).
    { apply mean_up_to_bound; [lia|]. intros i j Hi Hj. rewrite chess_at by assumption. rewrite plus_IZR. specialize (Hpix i j Hi Hj).
      unfold P. destruct (Nat.even (i + j)); cbn [Z.opp]; revert Hpix; unfold Rabs; repeat destruct Rcase_abs; lra. }
    assert (Hprod : 2 * INR 11 / PI * mean_raster_change_up_to P 512 (gray_raw grey512) (gray_raw (chessboard 60 mk 512)) <= 22 / 3 * (99 / 10)).
    { apply Rle_trans with (2 * INR 11 / PI * (99 / 10))%R; [now apply Rmult_le_compat_l|]. apply Rmult_le_compat_r; lra. }
    destruct (zernike_measures (fun x => x) true (fun l => l) grey512 512 3 11 Heq grey512_picture ltac:(lia) ltac:(lia)) as (A & fs & _ & EA & SA & RA & Ef & _).
    destruct (zernike_measures (fun x => x) true (fun l => l) (chessboard 60 mk 512) 512 3 11 Heq Gc ltac:(lia) ltac:(lia)) as (B & fs' & Hm' & EB & SB & RB & Ef' & _).
    assert (Ao : amount_ok 11) by (unfold amount_ok; lia).
    pose proof (C45_point_symmetric_images_have_zero_features (fun x => x) true A 512 11 SA Ao (grey512_point_symmetric A EA)) as E0.
    destruct (C69_features_ignore_point_symmetric_changes (fun x => x) true A B 512 11 P SA SB Ao HP) as (f1 & f2 & X1 & X2 & X).
    assert (f1 = repeat 0%R 11) by congruence. assert (f2 = fs') by congruence. subst f1 f2.
    rewrite (mean_up_to A B 512 P SA SB), RA, RB in X.
    apply (H (chessboard 60 mk 512) 1 P fs' Gc).
    + intros bi bj Hi Hj _. rewrite (chess_blocks 60 mk 512 3) by assumption. rewrite Z.sub_diag, Rabs_R0. simpl. lra.
    + rewrite V1. simpl. lra.
    + exact HP.
    + rewrite V2. simpl (2 ^ 20)%R. lra.
    + exact Hm'.
    + intros x m Hx Hm1. rewrite V2. simpl (2 ^ 20)%R. assert (R1 : (1 <= IZR m)%R) by (apply IZR_le; exact Hm1).
      assert (Hx' : (Rabs x <= 22 / 3 * (99 / 10))%R).
      { clear - X Hx Hprod. revert X Hx. generalize (repeat 0%R 11) (Forall_repeat (fun z => z = 0%R) 0%R 11 eq_refl). intros l Hl X.
        induction X as [|y z l l' Hy _ IH]; intros Hx; [contradiction|]. inversion Hl; subst. destruct Hx as [ -> |Hx]; [|now apply IH].
        rewrite Rminus_0_r in Hy. lra. }
      revert Hx'. unfold Rabs. repeat destruct Rcase_abs; lra.
Qed.

Print Assumptions C69_features_ignore_point_symmetric_changes.
Print Assumptions C69_point_symmetric_changes_keep_the_features.
Print Assumptions C69_f64_features_ignore_point_symmetric_changes.
Print Assumptions C69_extraction_sees_block_totals_only.
Print Assumptions C69_same_verdict.
Print Assumptions C69_f64_altered_channel_authenticates.
Print Assumptions C69_chessboard_keeps_the_verdict.
