(** Properties C64 and C65: authentication of a channel that was changed slightly after it was watermarked, and channels that are
    not square (lib/sia/rust/watermarking/src/process.rs). *)
From Coq Require Import Reals Lra.
From Flocq Require Import Core BinarySingleNaN.
From Verif Require Import Outcome Floats FloatFacts Bits ListFacts Quantization QuantProofs QuantReal QuantFloat PropsQuant Codecs CodecProofs WatermarkProofs PropsCodec
  Encoding EncodingProofs PropsEncoding Matrix MatrixFacts Haar HaarProofs PropsHaar Stego StegoProofs StegoMarks PropsStego Embedding EmbeddingProofs EmbeddingEffect PropsEmbedding PropsEmbedding2 PropsRobust
  Signature Process ProcessProofs Toy Zernike ZernikeProofs PropsZernike PropsProcess PropsProcess2 Image PropsImage.
Open Scope Z_scope.

(** ** Specification vocabulary *)
(** [received] has the size of [marked] and every pixel differs by at most [t] grey levels. *)
Definition changed_by_at_most (marked received : gray) (t : Z) : Prop :=
  gwidth received = gwidth marked /\ gheight received = gheight marked
  /\ Forall2 (fun v w => Z.abs (w - v) <= t) (gray_raw marked) (gray_raw received).

Lemma Forall2_nth_error {A B} (P : A -> B -> Prop) l l' k a b : Forall2 P l l' -> nth_error l k = Some a -> nth_error l' k = Some b -> P a b.
Proof. intros H. revert k. induction H; intros [|k] E1 E2; cbn in E1, E2; try discriminate; [congruence|eauto]. Qed.

Lemma changed_noise marked received n L t out rc : gray_picture marked n L -> gray_picture received n L -> changed_by_at_most marked received t ->
  from_shape_vec n n (gray_raw marked) = Ok out -> from_shape_vec n n (gray_raw received) = Ok rc -> picture rc n L /\ pixel_noise out rc t.
Proof.
  intros Hg Hg' (_ & _ & H) E1 E2.
  destruct (gray_array marked n L Hg) as (o & Eo & (Ho & _) & Ho2). destruct (gray_array received n L Hg') as (r & Er & Hr & Hr2).
  pose proof Hg as (W & HH & _). pose proof Hg' as (W' & HH' & _). rewrite W, HH in Eo. rewrite W', HH' in Er.
  assert (o = out) by congruence. assert (r = rc) by congruence. subst o r. split; [exact Hr|].
  intros i j v w Ev Ew. destruct (cell_some_lt out n L i j v Ho Ev) as (Hi & Hj). rewrite Ho2 in Ev by assumption. rewrite Hr2 in Ew by assumption.
  exact (Forall2_nth_error _ _ _ _ _ _ H Ev Ew).
Qed.

(** *** C64 *)
(** Exact reals. *)
Theorem C64_slightly_changed_channel_authenticates : forall K, ldpc_shape K -> ldpc_decodes K ->
  forall E, signature_format E -> key_pair E PRIVATE_KEY PUBLIC_KEY ->
  forall equalize features_of checks pad, length pad = 8%nat ->
  forall channel n levels depth step amount features t,
  gray_picture channel n levels -> usable n levels -> measures equalize features_of channel amount features ->
  (0 < step)%R -> Forall (fun x => fits_i64 (Zfloor (x / step))) features -> (length features <= 85)%nat ->
  (stored_size n levels (payload_size (length features)) <= band_capacity n levels)%nat ->
  0 <= t -> (2 ^ levels * (IZR t + / 2) < depth / 4)%R ->
  gray_room channel n levels (8 * stored_size n levels (payload_size (length features))) (3 * depth / 2 ^ (levels + 2)) ->
  exists marked, watermark_channel Rops K E equalize features_of checks pad channel depth step amount levels = Ok marked
    /\ gray_picture marked n levels
    /\ forall received noised, gray_picture received n levels -> changed_by_at_most marked received t ->
         measures equalize features_of received amount noised ->
         Forall2 (fun x x' => (Rabs (x' - x) <= step)%R) features noised ->
         authenticate_channel Rops K E equalize features_of checks received depth step amount levels = Ok true.
Proof.
  intros K Hsh Hdec E HE Hk eq fo checks pad Hpad ch n L depth step amount fs t Hg Hu Hm Hst Hfit H85 Hcap Ht Hd Hroom.
  assert (Ht' : (0 <= IZR t)%R) by (apply IZR_le; exact Ht). assert (HpL : (0 < 2 ^ L)%R) by (apply pow_lt; lra).
  assert (Hd2 : (2 ^ (L + 1) < depth)%R) by (rewrite pow_add; simpl; nra).
  destruct (gray_array ch n L Hg) as (im & Eim & Him & Hcell).
  assert (Ho : no_overflow Rops step checks fs) by now apply no_overflow_real.
  pose proof (quantization_ok Rops step checks fs Ho) as Eq. set (q := quantize Rops fs step) in *. set (bits := flat_map (bits3 Rops step) fs) in *.
  destruct (quantization_inv Rops checks fs step q bits Eq) as (_ & _ & Lb).
  destruct (sign_verify E _ _ (vec_i64_to_bytes q) HE Hk) as (sig & Es & Ls & Bs & Ev).
  destruct (payload_of pad bits sig (length fs) Hpad Bs Ls Lb H85) as (pl & Ep & Bp & Lp & Edp).
  pose proof (payload_size_range _ H85) as Hsz.
  assert (Hr' : room im n L (8 * stored_size n L (length pl)) (3 * depth / 2 ^ (L + 2))) by (rewrite Lp; now apply (gray_room_array ch)).
  assert (Hl : (1 <= Z.of_nat (length pl) <= 65533)) by (rewrite Lp; lia). assert (Hcap' : (stored_size n L (length pl) <= band_capacity n L)%nat) by (rewrite Lp; exact Hcap).
  destruct (C30_embed_then_extract_returns_the_payload K Hsh Hdec im n L depth pl Him Hu Bp Hl Hcap' Hd2 Hr') as (out & Eo & Pout & _).
  destruct (array_gray out n L Pout) as (Gout & Fout). pose proof Hg as (W & H & _).
  pose proof Pout as ((Hwf & D0 & D1 & _) & _).
  exists (mkGray n n (into_raw_vec out)). split; [|split; [exact Gout|]].
  - pose proof (watermark_run Rops K E eq fo checks pad ch im amount fs step q bits sig pl out depth L Eim Hm Eq Es Ep Eo Hwf ltac:(congruence) ltac:(congruence)) as R.
    rewrite W, H in R. exact R.
  - intros received noised Grc Hch Hm' Hn.
    destruct (gray_array received n L Grc) as (rc & Erc & _). pose proof Grc as (W' & H' & _).
    assert (Erc' : from_shape_vec n n (gray_raw received) = Ok rc) by (rewrite W', H' in Erc; exact Erc).
    destruct (changed_noise _ received n L t out rc Gout Grc Hch Fout Erc') as (Prc & Hnoise).
    pose proof (C63_small_pixel_changes_keep_the_payload K Hsh Hdec im n L depth pl out rc t Him Hu Bp Hl Hcap' ltac:(nra) Hr' Eo Prc Hnoise Hd) as Ex.
    rewrite (authenticate_run Rops K E eq fo checks received rc amount noised step (mkWatermark bits sig WATERMARK_TEXT) pl depth L Erc Hm' Ex Edp).
    cbn [perturbation_vector signature].
    destruct (C01_noise_up_to_one_step_is_absorbed step fs noised checks Hst Hfit Hn) as (bits' & E1 & E2).
    assert (bits' = bits) by congruence. subst bits'. assert (Eqq : q = map (fun x => Zfloor (x / step)) fs) by congruence.
    rewrite E2. cbn [bind]. rewrite <- Eqq. exact Ev.
Qed.

(** IEEE double precision, as compiled. *)
Theorem C64_f64_slightly_changed_channel_authenticates : forall K, ldpc_shape K -> ldpc_decodes K ->
  forall E, signature_format E -> key_pair E PRIVATE_KEY PUBLIC_KEY ->
  forall equalize features_of checks pad, length pad = 8%nat ->
  forall channel n levels (depth step : b64) amount features t,
  gray_picture channel n levels -> (levels <= 10)%nat -> usable n levels -> measures equalize features_of channel amount features ->
  fin step -> (bpow radix2 (-500) <= toR step <= bpow radix2 500)%R ->
  (checks = true -> Forall (fun q => q <> - 2 ^ 63) (quantize Bops features step)) -> (length features <= 85)%nat ->
  (stored_size n levels (payload_size (length features)) <= band_capacity n levels)%nat ->
  0 <= t -> fin depth -> (65 / 64 * 2 ^ (levels + 1) <= toR depth <= 2 ^ 20)%R -> (2 ^ levels * (IZR t + / 2 + / 1024) < (/ 4 - / 512) * toR depth)%R ->
  gray_room channel n levels (8 * stored_size n levels (payload_size (length features))) (3 * toR depth / 2 ^ (levels + 2)) ->
  exists marked, watermark_channel Bops K E equalize features_of checks pad channel depth step amount levels = Ok marked
    /\ gray_picture marked n levels
    /\ forall received, gray_picture received n levels -> changed_by_at_most marked received t ->
        (forall noised, measures equalize features_of received amount noised ->
         Forall2 (fun x x' : b64 => fin x /\ fin x' /\ (Rabs (toR x) <= bpow radix2 29 * toR step)%R
             /\ (Rabs (toR x' - toR x) <= (1 - bpow radix2 (-20)) * toR step)%R
             /\ (forall m : Z, (m = 0%Z /\ 0 <= toR x') \/ bpow radix2 (-20) * toR step <= Rabs (toR x' - IZR m * toR step))%R)
           features noised ->
         authenticate_channel Bops K E equalize features_of checks received depth step amount levels = Ok true)
    /\ (measures equalize features_of received amount features ->
         authenticate_channel Bops K E equalize features_of checks received depth step amount levels = Ok true).
Proof.
  intros K Hsh Hdec E HE Hk eq fo checks pad Hpad ch n L depth step amount fs t Hg HL10 Hu Hm Fst Hst Hq H85 Hcap Ht Fd Hd2 Hd Hroom. pose proof (proj2 Hd2) as Hd20.
  assert (Ht' : (0 <= IZR t)%R) by (apply IZR_le; exact Ht). assert (HpL : (1 <= 2 ^ L)%R) by (apply pow_R1_Rle; lra).
  assert (Hd1 : (1 <= toR depth <= 2 ^ 20)%R) by (split; [|exact Hd20]; assert (0 <= 2 ^ L * IZR t)%R by nra; rewrite Rmult_plus_distr_l, Rmult_plus_distr_l in Hd; lra).
  destruct (gray_array ch n L Hg) as (im & Eim & Him & Hcell).
  destruct (C02_f64_noiseless step fs checks Hq) as (bits & Eq & Enl). set (q := quantize Bops fs step) in *.
  destruct (quantization_inv Bops checks fs step q bits Eq) as (_ & _ & Lb).
  destruct (sign_verify E _ _ (vec_i64_to_bytes q) HE Hk) as (sig & Es & Ls & Bs & Ev).
  destruct (payload_of pad bits sig (length fs) Hpad Bs Ls Lb H85) as (pl & Ep & Bp & Lp & Edp).
  pose proof (payload_size_range _ H85) as Hsz.
  assert (Hr' : room im n L (8 * stored_size n L (length pl)) (3 * toR depth / 2 ^ (L + 2))) by (rewrite Lp; now apply (gray_room_array ch)).
  assert (Hl : (1 <= Z.of_nat (length pl) <= 65533)) by (rewrite Lp; lia). assert (Hcap' : (stored_size n L (length pl) <= band_capacity n L)%nat) by (rewrite Lp; exact Hcap).
  destruct (C31_f64_embed_then_extract_returns_the_payload K Hsh Hdec im n L depth pl Him HL10 Hu Bp Hl Hcap' Fd Hd2 Hr') as (out & Eo & Pout & _).
  destruct (array_gray out n L Pout) as (Gout & Fout). pose proof Hg as (W & H & _).
  pose proof Pout as ((Hwf & D0 & D1 & _) & _).
  exists (mkGray n n (into_raw_vec out)). split; [|split; [exact Gout|]].
  - pose proof (watermark_run Bops K E eq fo checks pad ch im amount fs step q bits sig pl out depth L Eim Hm Eq Es Ep Eo Hwf ltac:(congruence) ltac:(congruence)) as R.
    rewrite W, H in R. exact R.
  - intros received Grc Hch.
    destruct (gray_array received n L Grc) as (rc & Erc & _). pose proof Grc as (W' & H' & _).
    assert (Erc' : from_shape_vec n n (gray_raw received) = Ok rc) by (rewrite W', H' in Erc; exact Erc).
    destruct (changed_noise _ received n L t out rc Gout Grc Hch Fout Erc') as (Prc & Hnoise).
    pose proof (C63_f64_small_pixel_changes_keep_the_payload K Hsh Hdec im n L depth pl out rc t Him HL10 Hu Bp Hl Hcap' Fd Hd1 Hr' Eo Prc Hnoise Hd) as Ex.
    split.
    + intros noised Hm' Hn.
      rewrite (authenticate_run Bops K E eq fo checks received rc amount noised step (mkWatermark bits sig WATERMARK_TEXT) pl depth L Erc Hm' Ex Edp).
      cbn [perturbation_vector signature].
      destruct (C02_f64_noise_outside_guard_band step fs noised checks Fst Hst Hn) as (q' & bits' & E1 & E2).
      assert (bits' = bits) by congruence. assert (q' = q) by congruence. subst bits' q'. rewrite E2. exact Ev.
    + intros Hm'.
      rewrite (authenticate_run Bops K E eq fo checks received rc amount fs step (mkWatermark bits sig WATERMARK_TEXT) pl depth L Erc Hm' Ex Edp).
      cbn [perturbation_vector signature]. rewrite Enl. exact Ev.
Qed.

(** *** C65 *)
(** The program gives the transform and the writer a [width, height]-shaped array. *)
Lemma pow_sides w h L : (w mod 2 ^ L = 0)%nat -> (h mod 2 ^ L = 0)%nat -> (h < w)%nat -> (h / 2 ^ L < w / 2 ^ L)%nat.
Proof.
  intros Hw Hh Hl. pose proof (HaarProofs.pow2_pos L). apply Nat.div_exact in Hw; [|lia]. apply Nat.div_exact in Hh; [|lia].
  destruct (Nat.lt_ge_cases (h / 2 ^ L) (w / 2 ^ L)) as [G|G]; [exact G|]. exfalso. nia.
Qed.

(** Embedding 8 or more bytes into an array with more rows than columns panics, in any arithmetic. *)
Theorem C65_embedding_into_a_rectangle_panics : forall (F : Type) (O : FOps F) K, ldpc_shape K ->
  forall image payload depth levels, wf image -> (1 <= levels <= 30)%nat ->
  (dim0 image mod 2 ^ levels = 0)%nat -> (dim1 image mod 2 ^ levels = 0)%nat -> (dim1 image < dim0 image)%nat ->
  Z.of_nat (dim0 image * dim1 image) < 2 ^ 53 -> Z.of_nat (dim1 image / 2 ^ levels) < 8192 ->
  bytes payload -> (8 <= length payload)%nat ->
  is_panic (embed O K image payload depth levels) = true.
Proof.
  intros F O K Hsh im pl depth L Hwf HL M0 M1 Hlt Hr Hh Bp Lp.
  pose proof (pow_sides _ _ _ M0 M1 Hlt) as Hb. set (w := (dim0 im / 2 ^ L)%nat) in *. set (h := (dim1 im / 2 ^ L)%nat) in *.
  assert (Hrep : representable w h).
  { unfold representable. pose proof (div_pow_le (dim0 im) L). pose proof (div_pow_le (dim1 im) L). fold w in H. fold h in H0.
    assert (w * h <= dim0 im * dim1 im)%nat by (apply Nat.mul_le_mono; assumption). lia. }
  destruct (HaarProofs.dwt_2d_ok O false L (mapv (f_of_Z O) im)) as (C & EC & _); [now apply mapv_wf|split; assumption|lia|].
  unfold embed. rewrite EC. cbn [bind]. rewrite !ll_side_ok by lia. unfold band. fold w. fold h. cbn [bind].
  destruct (Nat.lt_ge_cases (w * h / 8) 9) as [Hs|H9]; [rewrite get_domain_capacity_small by assumption; reflexivity|].
  unfold get_domain_capacity. rewrite capacity_eq by exact Hrep. destruct (get_code_for_encode_some _ H9) as (c & ->). cbn [bind].
  destruct (data_serialize pl) as [ser| |] eqn:Es; cbn [bind]; [|reflexivity|unfold data_serialize in Es; destruct (_ <? _); discriminate].
  assert (Hs : length ser = (length pl + 2)%nat /\ bytes ser).
  { unfold data_serialize in Es. destruct (65535 <? Z.of_nat (length pl))%Z eqn:E; [discriminate|].
    assert (Es' : ser = vec_u16_to_bytes [Z.of_nat (length pl) mod 65536]%Z ++ pl) by congruence.
    rewrite Es'. unfold vec_u16_to_bytes. cbn [flat_map]. rewrite app_nil_r. unfold u16_to_le. split.
    - rewrite app_length, le_bytes_length. lia.
    - apply Forall_app. split; [apply le_bytes_bytes|exact Bp]. }
  destruct Hs as (Ls & Bs). set (cap := (w * h / 8)%nat) in *.
  assert (Hsmall : Z.of_nat cap < 1024 -> (h <= 90)%nat).
  { intros Hc. pose proof (Nat.div_mod (w * h) 8 ltac:(lia)) as Hd. pose proof (Nat.mod_upper_bound (w * h) 8 ltac:(lia)). fold cap in Hd.
    assert (Hz : Z.of_nat (w * h) < 8192) by lia. rewrite Nat2Z.inj_mul in Hz. nia. }
  assert (Henc : exists enc, encode K ser cap = Ok enc /\ Z.of_nat h < 8 * Z.of_nat (length enc)).
  { destruct (code_cases cap) as [(Hc & c0 & Ec0 & En & _)|(N & Ecode)].
    - destruct (C17_encoded_size K Hsh cap Hc) as (Henc & _). destruct (Henc ser Bs) as (enc & E & _ & Le). exists enc. split; [exact E|].
      assert (Hm : (0 < message_size cap)%nat).
      { unfold message_size. rewrite <- En. destruct c0; vm_compute; lia. }
      assert (Hq : (1 <= (length ser + 2 + message_size cap - 1) / message_size cap)%nat) by (apply Nat.div_le_lower_bound; lia).
      assert (Hcw : (codeword_size cap <= length enc)%nat) by (rewrite Le; nia).
      assert (Hcw2 : Z.of_nat h < 8 * Z.of_nat (codeword_size cap)); [|lia].
      destruct (Z_lt_le_dec (Z.of_nat cap) 1024) as [Hlt'|Hge].
      + specialize (Hsmall Hlt'). assert (16 <= codeword_size cap)%nat; [|lia]. rewrite <- En. destruct c0; cbn [n_bytes]; lia.
      + unfold codeword_size. rewrite (proj2 (Z.leb_le 1024 (Z.of_nat cap))) by exact Hge. rewrite Z2Nat.id by lia. lia.
    - rewrite uncoded_encode by exact Ecode. eexists. split; [reflexivity|].
      assert (Hlt' : Z.of_nat cap < 1024) by (unfold coded in N; lia). specialize (Hsmall Hlt').
      rewrite app_length, Ls. unfold be16. cbn [length]. lia. }
  destruct Henc as (enc & Ee & Hl). rewrite Ee. cbn [bind].
  pose proof (C20_tall_domain_panics F O depth w h C enc Hrep Hb ltac:(lia)) as Hp.
  destruct (write O C w h enc depth); cbn [is_panic] in Hp; try discriminate. reflexivity.
Qed.

(** A channel that is wider than high (and less than 8192 blocks high) cannot be watermarked, in any arithmetic and with any feature
    extractor: the program panics, unless it never gets past the extractor. *)
Theorem C65_wide_channels_panic : forall (F : Type) (O : FOps F) K, ldpc_shape K -> forall E, signature_format E ->
  forall equalize features_of checks pad, length pad = 8%nat ->
  forall channel depth step amount levels, (1 <= levels <= 30)%nat ->
  (gwidth channel mod 2 ^ levels = 0)%nat -> (gheight channel mod 2 ^ levels = 0)%nat -> (gheight channel < gwidth channel)%nat ->
  Z.of_nat (gwidth channel * gheight channel) < 2 ^ 53 -> Z.of_nat (gheight channel / 2 ^ levels) < 8192 ->
  (forall image, features_of image amount <> Outside) ->
  is_panic (watermark_channel O K E equalize features_of checks pad channel depth step amount levels) = true.
Proof.
  intros F O K Hsh E HE eq fo checks pad Hpad ch depth step amount L HL M0 M1 Hlt Hr Hh Hf. unfold watermark_channel, channel_features.
  unfold from_shape_vec at 1. destruct (Nat.eqb (length (gray_raw ch)) _) eqn:El; [|reflexivity]. cbn [bind]. apply Nat.eqb_eq in El.
  unfold from_shape_vec. destruct (Nat.eqb (length (eq (gray_raw ch))) _); [|reflexivity]. cbn [bind].
  pose proof (Hf (mkArray2 (gwidth ch) (gheight ch) (split_rows (gwidth ch) (gheight ch) (eq (gray_raw ch))))) as Hfi.
  destruct (fo _ amount) as [fs| |]; cbn [bind]; [|reflexivity|congruence].
  destruct (three_bit_quantization O checks fs step) as [(q, bits)| |] eqn:Eq; cbn [bind]; [|reflexivity|].
  2:{ exfalso. unfold three_bit_quantization in Eq.
    assert (Hno : mapM (fun p => reminder_bits O checks step (fst p) (snd p)) (combine fs (quantize O fs step)) <> Outside).
    { apply mapM_outside. intros (x, y). unfold reminder_bits, i64_minus_1. cbn [fst snd].
      destruct (y =? i64_min); [destruct checks|]; cbn [bind]; try discriminate; destruct (two_bits_from_integer _); discriminate. }
    destruct (mapM _ _); cbn [bind] in Eq; try discriminate. congruence. }
  destruct (quantization_inv O checks fs step q bits Eq) as (_ & _ & Lb).
  pose proof (sign_outside E (vec_i64_to_bytes q) PRIVATE_KEY PUBLIC_KEY). destruct (sign E (vec_i64_to_bytes q) PRIVATE_KEY PUBLIC_KEY) as [sig| |] eqn:Es; cbn [bind]; [|reflexivity|congruence].
  destruct (le_lt_dec (length fs) 85) as [H85|H85].
  - assert (Hsig : bytes sig /\ length sig = 64%nat).
    { unfold sign in Es. apply bind_ok in Es as (sb & _ & Es). apply bind_ok in Es as (pb & _ & Es). apply bind_ok in Es as (kp & _ & Es).
      assert (Es' : sig = signature_to_bytes E (ed_sign E kp (vec_i64_to_bytes q))) by congruence. rewrite Es'. destruct HE as [P Ll B]. split; [apply B|apply Ll]. }
    destruct Hsig as (Bs & Ls).
    destruct (payload_of pad bits sig (length fs) Hpad Bs Ls Lb H85) as (pl & Ep & Bp & Lp & _). rewrite Ep. cbn [bind].
    pose proof (payload_size_range _ H85) as Hsz.
    pose proof (C65_embedding_into_a_rectangle_panics F O K Hsh (mkArray2 (gwidth ch) (gheight ch) (split_rows (gwidth ch) (gheight ch) (gray_raw ch))) pl depth L) as P.
    cbn [dim0 dim1] in P.
    assert (Hwf : wf (mkArray2 (gwidth ch) (gheight ch) (split_rows (gwidth ch) (gheight ch) (gray_raw ch)))).
    { split; cbn [rows dim0 dim1]; [apply split_rows_length|now apply split_rows_wf]. }
    specialize (P Hwf HL M0 M1 Hlt Hr Hh Bp ltac:(lia)).
    destruct (embed O K _ pl depth L); cbn [is_panic] in P; try discriminate. reflexivity.
  - rewrite serialize_toolong; [reflexivity|]. unfold fits. cbn [perturbation_vector]. lia.
Qed.

(** With the repository's extractor (exact reals) a channel that is not square is never watermarked. *)
Theorem C65_channels_that_are_not_square_panic : forall K, ldpc_shape K -> forall E, signature_format E ->
  forall equalize gamma checks pad, length pad = 8%nat ->
  forall channel depth step amount levels, (1 <= levels <= 30)%nat ->
  (gwidth channel mod 2 ^ levels = 0)%nat -> (gheight channel mod 2 ^ levels = 0)%nat ->
  gwidth channel <> gheight channel -> (0 < gwidth channel)%nat ->
  Z.of_nat (gwidth channel * gheight channel) < 2 ^ 53 -> Z.of_nat (gheight channel / 2 ^ levels) < 8192 -> Z.of_nat amount <= 2 ^ 63 ->
  is_panic (watermark_channel Rops K E equalize (fun image n => calculate_features gamma checks image MomentsZernike n) checks pad channel depth step amount levels) = true.
Proof.
  intros K Hsh E HE eq g checks pad Hpad ch depth step amount L HL M0 M1 Hne H0 Hr Hh Ha.
  destruct (le_lt_dec (gwidth ch) (gheight ch)) as [Hle|Hlt].
  - unfold watermark_channel, channel_features, from_shape_vec.
    destruct (Nat.eqb (length (gray_raw ch)) _); [|reflexivity]. cbn [bind]. destruct (Nat.eqb (length (eq (gray_raw ch))) (gwidth ch * gheight ch)) eqn:El; [|reflexivity]. cbn [bind].
    apply Nat.eqb_eq in El. set (im := mkArray2 (gwidth ch) (gheight ch) (split_rows (gwidth ch) (gheight ch) (eq (gray_raw ch)))).
    assert (Wim : wf im) by (split; cbn [rows dim0 dim1 im]; [apply split_rows_length|now apply split_rows_wf]).
    destruct (C49_tall_images_are_rejected g checks im amount Wim) as (r & Er); [cbn [im dim0 dim1]; lia|exact Ha|]. rewrite Er. reflexivity.
  - (* wide: the extractor returns or panics, the writer panics *)
    unfold watermark_channel, channel_features.
    unfold from_shape_vec. destruct (Nat.eqb (length (gray_raw ch)) _) eqn:El; [|reflexivity]. cbn [bind].
    destruct (Nat.eqb (length (eq (gray_raw ch))) (gwidth ch * gheight ch)) eqn:El2; [|reflexivity]. cbn [bind].
    apply Nat.eqb_eq in El2. set (im := mkArray2 (gwidth ch) (gheight ch) (split_rows (gwidth ch) (gheight ch) (eq (gray_raw ch)))).
    assert (Wim : wf im) by (split; cbn [rows dim0 dim1 im]; [apply split_rows_length|now apply split_rows_wf]).
    assert (Hf : exists fo, (forall i, fo i <> Outside) /\ calculate_features g checks im MomentsZernike amount = fo im).
    { destruct (Nat.eq_dec amount 0) as [ -> |Hz].
      - destruct (C44_degenerate_requests g checks im 0) as ((r & Er) & _). exists (fun _ => Panic r). split; [discriminate|exact Er].
      - destruct (C44_number_and_indices_of_features g checks im amount) as (fs & Ef & _); [unfold amount_ok; lia|exact Wim|cbn [im dim0 dim1]; lia|].
        exists (fun _ => Ok fs). split; [discriminate|exact Ef]. }
    destruct Hf as (fo & Ho & Ef).
    pose proof (C65_wide_channels_panic R Rops K Hsh E HE eq (fun i _ => fo i) checks pad Hpad ch depth step amount L HL M0 M1 Hlt Hr Hh Ho) as P.
    unfold watermark_channel, channel_features, from_shape_vec in P. rewrite El in P. cbn [bind] in P.
    rewrite (proj2 (Nat.eqb_eq _ _) El2) in P. cbn [bind] in P. fold im in P. rewrite <- Ef in P. exact P.
Qed.

(** Whole pictures (DWT_LEVELS = 3): a picture that is not square is never watermarked.  A side of 65536 pixels or more is not covered. *)
Theorem C65_pictures_that_are_not_square_panic : forall K, ldpc_shape K -> forall E, signature_format E ->
  forall equalize gamma checks pad, length pad = 8%nat ->
  forall image width height (depth step : R) amount, dimensions image = (width, height) ->
  (width mod 8 = 0)%nat -> (height mod 8 = 0)%nat -> width <> height -> (0 < width)%nat ->
  Z.of_nat (width * height) < 2 ^ 53 -> Z.of_nat height < 65536 -> Z.of_nat amount <= 2 ^ 63 ->
  is_panic (watermark_image Rops K E equalize (fun image n => calculate_features gamma checks image MomentsZernike n) checks pad image depth step amount) = true.
Proof.
  intros K Hsh E HE eq g checks pad Hpad image w h depth step amount Hd M0 M1 Hne H0 Hr Hh Ha.
  assert (Hw : gwidth (component ch1 image) = w /\ gheight (component ch1 image) = h) by (unfold component; cbn [gwidth gheight]; rewrite Hd; split; reflexivity).
  destruct Hw as (Hw & Hw').
  pose proof (C65_channels_that_are_not_square_panic K Hsh E HE eq g checks pad Hpad (component ch1 image) depth step amount 3 ltac:(lia)) as H.
  rewrite Hw, Hw' in H. change (2 ^ 3)%nat with 8%nat in H.
  specialize (H M0 M1 Hne H0 Hr). rewrite Nat2Z.inj_div in H. change (Z.of_nat 8) with 8 in H.
  specialize (H ltac:(apply Z.div_lt_upper_bound; lia) Ha).
  destruct (C42_watermark_returns_iff_the_channels_do R Rops K E eq (fun image n => calculate_features g checks image MomentsZernike n) checks pad image depth step amount) as (P & _).
  destruct (watermark_channel Rops K E eq _ checks pad (component ch1 image) depth step amount 3) as [x|r|] eqn:Er; try discriminate.
  rewrite (P r eq_refl). reflexivity.
Qed.

(** ** Concrete cases *)
(** C64 at the command line's depth: the grey channel is watermarked, every pixel of the result is changed by 2, and it authenticates. *)
Definition jitter (v : Z) : Z := if v <=? 253 then v + 2 else v - 2.
Example C64_f64_instance : exists marked,
  watermark_channel Bops toy_ldpc toy_ed (fun l => l) toy_features_f64 true (repeat false 8) grey512 (f_of_Z Bops 100) (f_of_Z Bops 1) 11 3 = Ok marked
  /\ authenticate_channel Bops toy_ldpc toy_ed (fun l => l) toy_features_f64 true (mkGray 512 512 (map jitter (gray_raw marked))) (f_of_Z Bops 100) (f_of_Z Bops 1) 11 3 = Ok true.
Proof.
  destruct (gray_array grey512 512 3 grey512_picture) as (im & Eim & Him & Hcell).
  assert (Hm : measures (fun l => l) toy_features_f64 grey512 11 (repeat (b_dyadic 5 (-1)) 11)) by (exists im; split; [exact Eim|reflexivity]).
  destruct (b_of_Z_ok 100) as (F1 & V1); [lia|]. destruct (b_of_Z_ok 1) as (F2 & V2); [lia|].
  change (b_of_Z 100) with (f_of_Z Bops 100) in *. change (b_of_Z 1) with (f_of_Z Bops 1) in *.
  destruct (C64_f64_slightly_changed_channel_authenticates toy_ldpc toy_shape toy_decodes toy_ed toy_format toy_keys (fun l => l) toy_features_f64 true (repeat false 8) eq_refl
              grey512 512 3 (f_of_Z Bops 100) (f_of_Z Bops 1) 11 (repeat (b_dyadic 5 (-1)) 11) 2 grey512_picture ltac:(lia) usable_512 Hm F2) as (mk & E1 & G & A).
  - rewrite V2. split; [apply Rle_trans with (bpow radix2 0); [apply bpow_le; lia|simpl; lra]|apply Rle_trans with (bpow radix2 0); [simpl; lra|apply bpow_le; lia]].
  - intros _. unfold quantize. rewrite Forall_map. apply Forall_repeat. vm_compute. discriminate.
  - rewrite repeat_length. lia.
  - rewrite repeat_length. exact fits_512.
  - lia.
  - exact F1.
  - rewrite V1. simpl. lra.
  - rewrite V1. simpl. lra.
  - apply grey512_room. rewrite V1. simpl. lra.
  - exists mk. split; [exact E1|]. destruct G as (W & H & Hl & Hb & Hrest).
    assert (G2 : gray_picture (mkGray 512 512 (map jitter (gray_raw mk))) 512 3).
    { unfold gray_picture. cbn [gwidth gheight gray_raw]. split; [reflexivity|]. split; [reflexivity|]. split; [rewrite map_length; exact Hl|]. split; [|exact Hrest].
      unfold bytes in *. rewrite Forall_map. eapply Forall_impl; [|exact Hb]. intros v Hv. unfold byte, jitter in *. destruct (v <=? 253) eqn:Ev; [apply Z.leb_le in Ev|apply Z.leb_gt in Ev]; lia. }
    destruct (A (mkGray 512 512 (map jitter (gray_raw mk))) G2) as (_ & A2).
    + split; [cbn [gwidth]; congruence|]. split; [cbn [gheight]; congruence|]. cbn [gray_raw]. clear. induction (gray_raw mk) as [|v t IH]; constructor; [|exact IH].
      unfold jitter. destruct (v <=? 253); lia.
    + apply A2. destruct (gray_array _ 512 3 G2) as (om & Eom & _). exists om. split; [exact Eom|reflexivity].
Qed.

Definition wide_picture : dynimage := ImageLuma8 1024 512 (repeat 128 (1024 * 512)).
Definition high_picture : dynimage := ImageLuma8 512 1024 (repeat 128 (512 * 1024)).
Example C65_instance : forall image, image = wide_picture \/ image = high_picture ->
  is_panic (watermark_image Rops toy_ldpc toy_ed (fun l => l) (fun image n => calculate_features (fun x => x) true image MomentsZernike n) true (repeat false 8) image 100%R 1%R 11) = true.
Proof.
  intros image [ -> | -> ].
  - apply (C65_pictures_that_are_not_square_panic toy_ldpc toy_shape toy_ed toy_format (fun l => l) (fun x => x) true (repeat false 8) eq_refl wide_picture 1024 512); try reflexivity; try lia; rewrite ?Nat2Z.inj_mul; lia.
  - apply (C65_pictures_that_are_not_square_panic toy_ldpc toy_shape toy_ed toy_format (fun l => l) (fun x => x) true (repeat false 8) eq_refl high_picture 512 1024); try reflexivity; try lia; rewrite ?Nat2Z.inj_mul; lia.
Qed.

Print Assumptions C64_slightly_changed_channel_authenticates.
Print Assumptions C64_f64_slightly_changed_channel_authenticates.
Print Assumptions C65_embedding_into_a_rectangle_panics.
Print Assumptions C65_wide_channels_panic.
Print Assumptions C65_channels_that_are_not_square_panic.
Print Assumptions C65_pictures_that_are_not_square_panic.
