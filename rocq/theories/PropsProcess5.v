(** Properties C40 and C65 in binary64: watermarking with the binary64 Zernike features, whatever the mathematical library computes. *)
From Coq Require Import Reals Lra.
From Flocq Require Import Core BinarySingleNaN.
From Verif Require Import Outcome Floats FloatFacts Bits ListFacts Quantization QuantProofs QuantReal QuantFloat PropsQuant Codecs CodecProofs WatermarkProofs PropsCodec
  Encoding EncodingProofs PropsEncoding Matrix MatrixFacts Haar HaarProofs HaarReal PropsHaar Stego StegoProofs StegoMarks PropsStego Embedding EmbeddingProofs EmbeddingEffect PropsEmbedding PropsEmbedding2 PropsRobust
  Signature Process ProcessProofs Toy Zernike ZernikeProofs PropsZernike ZernikeGen ZernikeF64 PropsZernikeF64 PropsProcess PropsProcess2 Image PropsImage PropsProcess3.
Open Scope Z_scope.

(** The extractor of the program: binary64 Zernike features. *)
Notation zernike_f64 M gamma checks := (fun image n => g_calculate_features Bops M gamma checks image MomentsZernike n).

(** *** C40 *)
Theorem C40_f64_zernike_feature_amounts : forall K E equalize (M : libm b64) gamma checks pad channel depth step amount levels,
  (0 < gwidth channel)%nat -> Z.of_nat amount <= 2 ^ 50 -> amount = 0%nat \/ (85 < amount)%nat ->
  is_panic (watermark_channel Bops K E equalize (zernike_f64 M gamma checks) checks pad channel depth step amount levels) = true.
Proof.
  intros K E eq M g checks pad ch depth step amount L Hw Ha [ -> |H85].
  - unfold watermark_channel, channel_features, from_shape_vec.
    destruct (Nat.eqb (length (gray_raw ch)) _); [|reflexivity]. cbn [bind]. destruct (Nat.eqb (length (eq (gray_raw ch))) _); [|reflexivity]. cbn [bind].
    destruct (C44_f64_degenerate_requests M g checks (mkArray2 (gwidth ch) (gheight ch) (split_rows (gwidth ch) (gheight ch) (eq (gray_raw ch)))) 0) as ((r & ->) & _). reflexivity.
  - unfold watermark_channel, channel_features, from_shape_vec.
    destruct (Nat.eqb (length (gray_raw ch)) _); [|reflexivity]. cbn [bind]. destruct (Nat.eqb (length (eq (gray_raw ch))) (gwidth ch * gheight ch)) eqn:El; [|reflexivity]. cbn [bind].
    apply Nat.eqb_eq in El. set (im := mkArray2 (gwidth ch) (gheight ch) (split_rows (gwidth ch) (gheight ch) (eq (gray_raw ch)))).
    assert (Wim : wf im) by (split; cbn [rows dim0 dim1 im]; [apply split_rows_length|now apply split_rows_wf]).
    destruct (le_lt_dec (gheight ch) (gwidth ch)) as [Hle|Hlt].
    + destruct (C44_f64_number_and_indices_of_features M g checks im amount) as (fs & Ef & Lf & _); [lia|exact Wim|exact Hle|].
      pose proof (C40_more_than_85_features_panic b64 Bops K E (fun l => l) (fun _ _ => Ok fs) checks pad (mkGray 0 0 []) depth step amount L H85 ltac:(intros; right; eauto)) as P.
      unfold watermark_channel, channel_features, from_shape_vec in P. cbn [gwidth gheight gray_raw length Nat.mul Nat.eqb bind] in P.
      rewrite Ef. cbn [bind] in *.
      destruct (three_bit_quantization Bops checks fs step) as [(q, bits)| |] eqn:Eq; cbn [bind] in *; [|reflexivity|discriminate].
      destruct (sign E (vec_i64_to_bytes q) PRIVATE_KEY PUBLIC_KEY) as [sig| |]; cbn [bind] in *; [|reflexivity|discriminate].
      destruct (quantization_inv Bops checks fs step q bits Eq) as (_ & _ & Lb).
      rewrite serialize_toolong; [reflexivity|]. unfold fits. cbn [perturbation_vector]. lia.
    + destruct (C49_f64_tall_images_are_rejected M g checks im amount Wim) as (r & Er); [cbn [im dim0 dim1]; lia|exact Ha|]. rewrite Er. reflexivity.
Qed.

(** *** C65 *)
Theorem C65_f64_channels_that_are_not_square_panic : forall K, ldpc_shape K -> forall E, signature_format E ->
  forall equalize (M : libm b64) gamma checks pad, length pad = 8%nat ->
  forall channel depth step amount levels, (1 <= levels <= 30)%nat ->
  (gwidth channel mod 2 ^ levels = 0)%nat -> (gheight channel mod 2 ^ levels = 0)%nat ->
  gwidth channel <> gheight channel -> (0 < gwidth channel)%nat ->
  Z.of_nat (gwidth channel * gheight channel) < 2 ^ 53 -> Z.of_nat (gheight channel / 2 ^ levels) < 8192 -> Z.of_nat amount <= 2 ^ 50 ->
  is_panic (watermark_channel Bops K E equalize (zernike_f64 M gamma checks) checks pad channel depth step amount levels) = true.
Proof.
  intros K Hsh E HE eq M g checks pad Hpad ch depth step amount L HL M0 M1 Hne H0 Hr Hh Ha.
  destruct (le_lt_dec (gwidth ch) (gheight ch)) as [Hle|Hlt].
  - unfold watermark_channel, channel_features, from_shape_vec.
    destruct (Nat.eqb (length (gray_raw ch)) _); [|reflexivity]. cbn [bind]. destruct (Nat.eqb (length (eq (gray_raw ch))) (gwidth ch * gheight ch)) eqn:El; [|reflexivity]. cbn [bind].
    apply Nat.eqb_eq in El. set (im := mkArray2 (gwidth ch) (gheight ch) (split_rows (gwidth ch) (gheight ch) (eq (gray_raw ch)))).
    assert (Wim : wf im) by (split; cbn [rows dim0 dim1 im]; [apply split_rows_length|now apply split_rows_wf]).
    destruct (C49_f64_tall_images_are_rejected M g checks im amount Wim) as (r & Er); [cbn [im dim0 dim1]; lia|exact Ha|]. rewrite Er. reflexivity.
  - unfold watermark_channel, channel_features.
    unfold from_shape_vec. destruct (Nat.eqb (length (gray_raw ch)) _) eqn:El; [|reflexivity]. cbn [bind].
    destruct (Nat.eqb (length (eq (gray_raw ch))) (gwidth ch * gheight ch)) eqn:El2; [|reflexivity]. cbn [bind].
    apply Nat.eqb_eq in El2. set (im := mkArray2 (gwidth ch) (gheight ch) (split_rows (gwidth ch) (gheight ch) (eq (gray_raw ch)))).
    assert (Wim : wf im) by (split; cbn [rows dim0 dim1 im]; [apply split_rows_length|now apply split_rows_wf]).
    assert (Hf : exists fo, (forall i, fo i <> Outside) /\ g_calculate_features Bops M g checks im MomentsZernike amount = fo im).
    { destruct (Nat.eq_dec amount 0) as [ -> |Hz].
      - destruct (C44_f64_degenerate_requests M g checks im 0) as ((r & Er) & _). exists (fun _ => Panic r). split; [discriminate|exact Er].
      - destruct (C44_f64_number_and_indices_of_features M g checks im amount) as (fs & Ef & _); [lia|exact Wim|cbn [im dim0 dim1]; lia|].
        exists (fun _ => Ok fs). split; [discriminate|exact Ef]. }
    destruct Hf as (fo & Ho & Ef).
    pose proof (C65_wide_channels_panic b64 Bops K Hsh E HE eq (fun i _ => fo i) checks pad Hpad ch depth step amount L HL M0 M1 Hlt Hr Hh Ho) as P.
    unfold watermark_channel, channel_features, from_shape_vec in P. rewrite El in P. cbn [bind] in P.
    rewrite (proj2 (Nat.eqb_eq _ _) El2) in P. cbn [bind] in P. fold im in P. rewrite <- Ef in P. exact P.
Qed.
Theorem C65_f64_pictures_that_are_not_square_panic : forall K, ldpc_shape K -> forall E, signature_format E ->
  forall equalize (M : libm b64) gamma checks pad, length pad = 8%nat ->
  forall image width height (depth step : b64) amount, dimensions image = (width, height) ->
  (width mod 8 = 0)%nat -> (height mod 8 = 0)%nat -> width <> height -> (0 < width)%nat ->
  Z.of_nat (width * height) < 2 ^ 53 -> Z.of_nat height < 65536 -> Z.of_nat amount <= 2 ^ 50 ->
  is_panic (watermark_image Bops K E equalize (zernike_f64 M gamma checks) checks pad image depth step amount) = true.
Proof.
  intros K Hsh E HE eq M g checks pad Hpad image w h depth step amount Hd M0 M1 Hne H0 Hr Hh Ha.
  assert (Hw : gwidth (component ch1 image) = w /\ gheight (component ch1 image) = h) by (unfold component; cbn [gwidth gheight]; rewrite Hd; split; reflexivity).
  destruct Hw as (Hw & Hw').
  pose proof (C65_f64_channels_that_are_not_square_panic K Hsh E HE eq M g checks pad Hpad (component ch1 image) depth step amount 3 ltac:(lia)) as H.
  rewrite Hw, Hw' in H. change (2 ^ 3)%nat with 8%nat in H.
  specialize (H M0 M1 Hne H0 Hr). rewrite Nat2Z.inj_div in H. change (Z.of_nat 8) with 8 in H.
  specialize (H ltac:(apply Z.div_lt_upper_bound; lia) Ha).
  destruct (C42_watermark_returns_iff_the_channels_do b64 Bops K E eq (zernike_f64 M g checks) checks pad image depth step amount) as (P & _).
  destruct (watermark_channel Bops K E eq _ checks pad (component ch1 image) depth step amount 3) as [x|r|] eqn:Er; try discriminate.
  rewrite (P r eq_refl). reflexivity.
Qed.

(** ** Concrete cases *)
Example C40_f64_witness : (0 < gwidth (mkGray 1 1 [7%Z]))%nat /\ (85 < 86)%nat. Proof. cbn. lia. Qed.
Example C65_f64_witness : (64 mod 2 ^ 3 = 0)%nat /\ (16 mod 2 ^ 3 = 0)%nat /\ is_panic (watermark_channel Bops toy_ldpc toy_ed (fun l => l) (zernike_f64 crude_libm (fun x => x) true) true (repeat false 8)
  (mkGray 64 16 (repeat 128%Z 1024)) (f_of_Z Bops 100) (f_of_Z Bops 1) 11 3) = true.
Proof.
  split; [reflexivity|]. split; [reflexivity|].
  apply (C65_f64_channels_that_are_not_square_panic toy_ldpc toy_shape toy_ed toy_format); cbn [gwidth gheight]; try reflexivity; try lia.
Qed.

Print Assumptions C40_f64_zernike_feature_amounts.
Print Assumptions C65_f64_channels_that_are_not_square_panic.
Print Assumptions C65_f64_pictures_that_are_not_square_panic.
