(** Property C122: large steps.  The features the library computes from a picture lie between 0 and 1000, and nothing relates the quantisation step, which is a parameter of the library,
    to them: with a step above 1000 (1001 is enough) all features of all pictures are quantised to 0, the same bytes are signed for all pictures, and the watermark of one picture, shown by any
    other picture whatever, gets the verdict true (lib/sia/rust/three-bit-quantization/src/lib.rs:39-77, 101-171; lib/sia/rust/zernike/src/lib.rs; lib/sia/rust/watermarking/src/process.rs). *)
From Coq Require Import Reals Lra.
From Flocq Require Import Core BinarySingleNaN.
From Verif Require Import Outcome Floats FloatFacts Bits ListFacts Quantization QuantProofs QuantReal QuantFloat PropsQuant PropsQuant2 Codecs CodecProofs WatermarkProofs PropsCodec
  Encoding EncodingProofs PropsEncoding Matrix MatrixFacts Haar HaarProofs HaarReal HaarFloat PropsHaar Stego StegoProofs StegoMarks PropsStego Embedding EmbeddingProofs EmbeddingEffect PropsEmbedding PropsEmbedding2 PropsEmbedding3 PropsRobust
  Signature Process ProcessProofs Toy Zernike ZernikeProofs PropsZernike ZernikeBound PropsZernike2 ZernikeGen PropsZernikeF64 LibmSpec LibmExact PropsZernikeAcc
  PropsProcess PropsProcess2 Image PropsImage PropsProcess3 PropsProcess4 PropsProcess5 PropsProcess6 PropsTamper Equalize PropsEqualize PropsShipped PropsShipped2 PropsInteger PropsClipping PropsClipping2 PropsRepair PropsRepair2 PropsVerdict PropsUnused PropsForged PropsBright PropsBlockwise PropsFaint PropsInvisible PropsUnmarked PropsUseless PropsBits PropsSteps.
Open Scope Z_scope.

(** ** Specification vocabulary *)
(** A step between 1001 and 2^500. *)
Definition large (step : b64) : Prop := fin step /\ (1001 <= toR step <= bpow radix2 500)%R.

Definition thousand (x : b64) : Prop := fin x /\ (0 <= toR x <= 1000)%R.

Section Large.
Context (step : b64) (H : large step).

Lemma large_ordinary : ordinary_step (toR step).
Proof. destruct H as (_ & A & B). split; [|exact B]. apply Rle_trans with (2 := A). apply Rle_trans with (bpow radix2 0); [apply bpow_le; lia|simpl; lra]. Qed.
Lemma within x : thousand x -> (Rabs (toR x) <= bpow radix2 29 * toR step)%R /\ (Rabs (toR x) <= bpow radix2 30 * toR step)%R.
Proof. intros (_ & A & B). destruct H as (_ & C & _). rewrite Rabs_pos_eq by exact A. simpl bpow. split; lra. Qed.
Lemma large_zero x : thousand x -> quantize1 Bops step x = 0.
Proof.
  intros T. pose proof (within x T) as (_ & W). destruct T as (Fx & A & B). destruct H as (Fs & C & _).
  destruct (quantize1_qz step large_ordinary x Fx W) as (-> & _). destruct (quot_ok step large_ordinary x Fx W) as (_ & _ & E).
  unfold qz. apply Zfloor_imp. split.
  - change (IZR 0) with 0%R. rewrite <- (rnd_IZR 0) by lia. apply rnd_le. simpl. apply Rmult_le_pos; [exact A|]. left. apply Rinv_0_lt_compat. lra.
  - apply Rabs_le_inv in E. assert (D : (toR x / toR step <= 1000 / 1001)%R).
    { apply Rmult_le_reg_r with (toR step); [lra|]. unfold Rdiv at 1. rewrite Rmult_assoc, Rinv_l, Rmult_1_r by lra. lra. }
    unfold eps22 in E. simpl in E |- *. lra.
Qed.
Lemma large_quantised xs : Forall thousand xs -> quantize Bops xs step = repeat 0 (length xs).
Proof. intros B. unfold quantize. induction B as [|x t T B IH]; [reflexivity|]. cbn [map length repeat]. now rewrite (large_zero x T), IH. Qed.

(** *** All lists of features from 0 to 1000 are quantised to zeros, and any of them is restored to zeros with the bits of any other. *)
Theorem C122_f64_large_steps_tell_no_features_apart : forall checks features noised, Forall thousand features -> Forall thousand noised -> length noised = length features ->
  exists bits, three_bit_quantization Bops checks features step = Ok (repeat 0 (length features), bits) /\ length bits = (3 * length features)%nat
    /\ three_bit_dequantization Bops checks noised bits step = Ok (repeat 0 (length features)).
Proof.
  intros checks fs ns Bf Bn Hl. destruct H as (Fs & C & D).
  destruct (C02_f64_noise_outside_guard_band step fs ns checks Fs large_ordinary) as (q & bits & Eq & Ed).
  { clear - H C Bf Bn Hl. revert ns Bn Hl. induction Bf as [|x t T Bf IH]; intros [|y u] Bn Hl; try discriminate Hl; [constructor|].
    inversion Bn as [|? ? Ty Bu]; subst. constructor; [|apply IH; [exact Bu|now inversion Hl]].
    pose proof (within x T) as (W & _). destruct T as (Fx & A & B), Ty as (Fy & A' & B'). repeat split; try assumption.
    - apply Rabs_le. simpl bpow. nra.
    - intros n. destruct (Z.eq_dec n 0) as [ -> |Hn]; [left; now split|right]. simpl bpow.
      destruct (Z_lt_le_dec n 0) as [N|N].
      + assert (X : (IZR n <= -1)%R) by (apply (IZR_le n (-1)); lia). rewrite Rabs_pos_eq; nra.
      + assert (X : (1 <= IZR n)%R) by (apply (IZR_le 1 n); lia). rewrite Rabs_left1; nra. }
  pose proof (quantization_inv Bops checks fs step q bits Eq) as (_ & Hq & Lb).
  rewrite (large_quantised fs Bf) in Hq.
  subst q. exists bits. repeat split; assumption.
Qed.
End Large.

Section Blind.
Context (K : ldpc) (E : ed25519) (HE : signature_format E) (Hk : key_pair E PRIVATE_KEY PUBLIC_KEY).
Context (M : libm b64) (HM : accurate M) (gamma : b64 -> b64) (checks : bool).
Let features_of := zernike_f64 M gamma checks.

(** *** The signature embedded in any picture of usable sides with such a step is the one of [amount] zeros, whatever the picture shows. *)
Theorem C122_f64_large_steps_one_signature_for_all_pictures : forall pad channel n L depth step levels amount marked, large step ->
  gray_picture channel n L -> (2 <= n)%nat -> side_ok n -> (1 <= amount <= 11)%nat ->
  watermark_channel Bops K E equalize_histogram features_of checks pad channel depth step amount levels = Ok marked ->
  exists bits sig payload, sign E (vec_i64_to_bytes (repeat 0 amount)) PRIVATE_KEY PUBLIC_KEY = Ok sig
    /\ watermark_serialize pad (mkWatermark bits sig WATERMARK_TEXT) = Ok payload /\ receives K channel marked depth levels payload.
Proof.
  intros pad ch n L d step lv am mk H G Hn Hs Ha Hw. apply watermark_inv in Hw as (im & fs & q & bits & sig & pl & out & H1 & H2 & H3 & H4 & H5 & H6 & H7).
  destruct (measured_1000 M HM gamma checks ch n L am fs G Hn Hs Ha H2) as (Lf & Bf).
  destruct (C122_f64_large_steps_tell_no_features_apart step H checks fs fs Bf Bf eq_refl) as (b & Eb & _). rewrite Lf in Eb. assert (q = repeat 0 am) by congruence. subst q.
  exists bits, sig, pl. split; [exact H4|]. split; [exact H5|]. exists im, out. now split.
Qed.

(** *** And the watermark made for one picture makes every other picture that shows it authentic: no condition on the two pictures but their sides. *)
Theorem C122_f64_large_steps_accept_every_picture : forall original received n n' L L' depth step levels amount features quantised bits sig text, large step ->
  gray_picture original n L -> side_ok n -> (2 <= n)%nat -> gray_picture received n' L' -> side_ok n' -> (2 <= n')%nat -> (1 <= amount <= 11)%nat ->
  measures equalize_histogram features_of original amount features ->
  three_bit_quantization Bops checks features step = Ok (quantised, bits) ->
  sign E (vec_i64_to_bytes quantised) PRIVATE_KEY PUBLIC_KEY = Ok sig ->
  shows_watermark K received depth levels (mkWatermark bits sig text) ->
  authenticate_channel Bops K E equalize_histogram features_of checks received depth step amount levels = Ok true.
Proof.
  intros original received n n' L L' d step lv am fs q bits sig text H Go So No Gr Sr Nr Ha Hm Eq Es (px & pl & Epx & Ex & Edp).
  destruct (measured_1000 M HM gamma checks original n L am fs Go No So Ha Hm) as (Lf & Bf).
  destruct (measured_exists M HM gamma checks received n' L' am Gr Nr Sr Ha) as (ns & Hm'). destruct (measured_1000 M HM gamma checks received n' L' am ns Gr Nr Sr Ha Hm') as (Ln & Bn).
  destruct (C122_f64_large_steps_tell_no_features_apart step H checks fs ns Bf Bn ltac:(congruence)) as (b & Eb & _ & Ed).
  assert (b = bits) by congruence. subst b. assert (q = repeat 0 (length fs)) by congruence. subst q.
  pose proof (authenticate_run Bops K E equalize_histogram features_of checks received px am ns step (mkWatermark bits sig text) pl d lv Epx Hm' Ex Edp) as AR.
  cbn [perturbation_vector Codecs.signature] in AR. rewrite Ed in AR. cbn [bind] in AR.
  destruct (sign_verify E _ _ (vec_i64_to_bytes (repeat 0 (length fs))) HE Hk) as (sig' & Es' & _ & _ & Ev). assert (sig' = sig) by congruence. subst sig'.
  etransitivity; [exact AR|exact Ev].
Qed.
End Blind.

(** ** A concrete case: a uniform grey picture that carries, at depth 100, the watermark made at step 2000 for a picture of stripes. *)
Lemma large_2000 : large (f_of_Z Bops 2000).
Proof.
  destruct (b_of_Z_ok 2000) as (F & V); [lia|]. split; [exact F|]. change (f_of_Z Bops) with b_of_Z. rewrite V. split; [lra|].
  apply Rle_trans with (bpow radix2 20); [simpl; lra|apply bpow_le; lia].
Qed.
Example C122_instance : exists features quantised bits sig forged,
  measures equalize_histogram (zernike_f64 exact_libm (fun x => x) true) stripes512 11 features
  /\ three_bit_quantization Bops true features (f_of_Z Bops 2000) = Ok (quantised, bits) /\ sign toy_ed (vec_i64_to_bytes quantised) PRIVATE_KEY PUBLIC_KEY = Ok sig
  /\ shows_watermark toy_ldpc (mkGray 512 512 (into_raw_vec forged)) (f_of_Z Bops 100) 3 (mkWatermark bits sig WATERMARK_TEXT)
  /\ (exists image payload, from_shape_vec 512 512 (gray_raw grey512) = Ok image /\ embed Bops toy_ldpc image payload (f_of_Z Bops 100) 3 = Ok forged)
  /\ authenticate_channel Bops toy_ldpc toy_ed equalize_histogram (zernike_f64 exact_libm (fun x => x) true) true (mkGray 512 512 (into_raw_vec forged)) (f_of_Z Bops 100) (f_of_Z Bops 2000) 11 3 = Ok true.
Proof.
  destruct C83_512_is_usable as (_ & B & C & D). assert (A : (2 <= 512)%nat) by (apply Nat.leb_le; reflexivity).
  destruct (measured_exists exact_libm exact_libm_accurate (fun x => x) true stripes512 512 3 11 stripes512_picture A B ltac:(lia)) as (fs & Hm).
  destruct (measured_1000 exact_libm exact_libm_accurate (fun x => x) true stripes512 512 3 11 fs stripes512_picture A B ltac:(lia) Hm) as (Lf & Bf).
  destruct (C122_f64_large_steps_tell_no_features_apart _ large_2000 true fs fs Bf Bf eq_refl) as (bits & Eq & Lb & _).
  destruct (sign_verify toy_ed _ _ (vec_i64_to_bytes (repeat 0 (length fs))) toy_format toy_keys) as (sig & Es & Ls & Bs & _).
  rewrite Lf in Lb.
  destruct (payload_of (repeat false 8) bits sig 11 eq_refl Bs Ls Lb ltac:(lia)) as (pl & _ & Bp & Lp & Edp).
  destruct (gray_array grey512 512 3 grey512_picture) as (im & Eim & Pim & Hcell).
  destruct (b_of_Z_ok 100) as (F1 & V1); [lia|]. change (b_of_Z 100) with (f_of_Z Bops 100) in *.
  destruct (C31_f64_embed_then_extract_returns_the_payload toy_ldpc toy_shape toy_decodes im 512 3 (f_of_Z Bops 100) pl Pim ltac:(lia) usable_512 Bp) as (fo & Eo & Po & Ex).
  - rewrite Lp. pose proof (payload_size_range 11 ltac:(lia)). lia.
  - rewrite Lp. exact fits_512.
  - exact F1.
  - rewrite V1. simpl. lra.
  - apply (gray_room_array grey512); [exact Pim|exact Hcell|]. apply grey512_room. rewrite V1. simpl. lra.
  - destruct (array_gray fo 512 3 Po) as (Gf & Ef).
    assert (Sh : shows_watermark toy_ldpc (mkGray 512 512 (into_raw_vec fo)) (f_of_Z Bops 100) 3 (mkWatermark bits sig WATERMARK_TEXT)).
    { exists fo, pl. cbn [gwidth gheight gray_raw]. split; [exact Ef|]. split; [exact Ex|exact Edp]. }
    exists fs, (repeat 0 (length fs)), bits, sig, fo. split; [exact Hm|]. split; [exact Eq|]. split; [exact Es|]. split; [exact Sh|].
    split; [exists im, pl; split; [exact Eim|exact Eo]|].
    exact (C122_f64_large_steps_accept_every_picture toy_ldpc toy_ed toy_format toy_keys exact_libm exact_libm_accurate (fun x => x) true stripes512 (mkGray 512 512 (into_raw_vec fo)) 512 512 3 3
      (f_of_Z Bops 100) (f_of_Z Bops 2000) 3 11 fs _ bits sig WATERMARK_TEXT large_2000 stripes512_picture B A Gf B A ltac:(lia) Hm Eq Es Sh).
Qed.

Print Assumptions C122_f64_large_steps_tell_no_features_apart.
Print Assumptions C122_f64_large_steps_one_signature_for_all_pictures.
Print Assumptions C122_f64_large_steps_accept_every_picture.
