(** C41 (lengths), C40 and C38 in binary64, C79 (lib/sia/rust/signature/src/lib.rs, lib/sia/rust/watermarking/src/process.rs, src/lib.rs). *)
From Coq Require Import Reals Lra.
From Flocq Require Import Core BinarySingleNaN.
From Verif Require Import Outcome Floats FloatFacts Bits ListFacts Quantization QuantProofs QuantReal QuantFloat PropsQuant Codecs CodecProofs WatermarkProofs PropsCodec
  Encoding EncodingProofs PropsEncoding Matrix MatrixFacts Haar HaarProofs HaarReal PropsHaar Stego StegoProofs StegoMarks PropsStego Embedding EmbeddingProofs EmbeddingEffect PropsEmbedding PropsEmbedding2 PropsRobust
  Signature Process ProcessProofs Toy Zernike ZernikeGen ZernikeGenProofs ZernikeProofs PropsZernike ZernikeF64 PropsZernikeF64 PropsProcess PropsProcess2 PropsProcess3 PropsProcess5 Image PropsImage.
Open Scope Z_scope.

(** ** Specification vocabulary *)
(** Ed25519 sizes: signatures are 64 bytes, public keys 32, key pairs 64; parsing refuses everything else *)
Record standard_sizes (E : ed25519) : Prop := {
  ss_signature : forall b, signature_from_bytes E b <> None -> length b = 64%nat;
  ss_pubkey : forall b, pubkey_from_bytes E b <> None -> length b = 32%nat;
  ss_keypair : forall b, keypair_from_bytes E b <> None -> length b = 64%nat
}.

(** ** C41: lengths *)
Lemma decode_hex_length s b : decode_hex s = Ok (Some b) -> length s = (2 * length b)%nat.
Proof.
  destruct C12_hex_codec as (_ & _ & H & _). intros Hd. apply H in Hd as (ps & -> & Hp). clear H. induction Hp as [|p b ps bs _ _ IH]; [reflexivity|].
  destruct p as (c1, c2). change (flat_pairs ((c1, c2) :: ps)) with (c1 :: c2 :: flat_pairs ps). cbn [length]. lia.
Qed.
Lemma decode_hex_defined s : decode_hex s <> Outside.
Proof. destruct C12_hex_codec as (_ & _ & _ & _ & H). apply H. Qed.

(** With keys and signatures of the standard sizes: [verify] panics - it does not return false - on every signature that is not 64 bytes long and on
    every public key that is not 64 characters long; [sign] panics unless the two keys together are 128 characters. *)
Theorem C41_sizes : forall E, standard_sizes E ->
  (forall data sig pk, length sig <> 64%nat \/ length pk <> 64%nat -> is_panic (verify E data sig pk) = true)
  /\ (forall data sk pk, (length sk + length pk <> 128)%nat -> is_panic (sign E data sk pk) = true).
Proof.
  intros E [S1 S2 S3]. split.
  - intros data sig pk H. destruct (C41_verify_domain E data sig pk) as [(_ & pb & vk & s & H1 & H2 & H3 & _)|((r & ->) & _)]; [exfalso|reflexivity].
    assert (length pb = 32%nat) by (apply S2; congruence). assert (length sig = 64%nat) by (apply S1; congruence). apply decode_hex_length in H1. lia.
  - intros data sk pk H. unfold sign, decode_hex_unwrap.
    destruct (decode_hex sk) as [[sb|]| |] eqn:E1; cbn [bind]; try reflexivity; [|now apply decode_hex_defined in E1].
    destruct (decode_hex pk) as [[pb|]| |] eqn:E2; cbn [bind]; try reflexivity; [|now apply decode_hex_defined in E2].
    apply decode_hex_length in E1, E2. destruct (keypair_from_bytes E (sb ++ pb)) eqn:E3; [|reflexivity].
    assert (length (sb ++ pb) = 64%nat) by (apply S3; congruence). rewrite app_length in *. lia.
Qed.

(** ** C40 for whole pictures, binary64 *)
Theorem C40_f64_watermark_panics_on_inadmissible_amounts : forall K E equalize (M : libm b64) gamma checks pad image (depth step : b64) amount,
  (0 < fst (dimensions image))%nat -> Z.of_nat amount <= 2 ^ 50 -> amount = 0%nat \/ (85 < amount)%nat ->
  is_panic (watermark_image Bops K E equalize (zernike_f64 M gamma checks) checks pad image depth step amount) = true.
Proof.
  intros K E eq M g checks pad image depth step amount Hw Ha Hb.
  pose proof (C40_f64_zernike_feature_amounts K E eq M g checks pad (component ch1 image) depth step amount 3 Hw Ha Hb) as H.
  destruct (C42_watermark_returns_iff_the_channels_do b64 Bops K E eq (zernike_f64 M g checks) checks pad image depth step amount) as (P & _).
  destruct (watermark_channel Bops K E eq _ checks pad (component ch1 image) depth step amount 3) as [x|r|] eqn:Er; try discriminate.
  rewrite (P r eq_refl). reflexivity.
Qed.

(** ** C49 for whole pictures, binary64: a picture that is taller than wide can be neither watermarked nor checked, whatever its size *)
Theorem C49_f64_tall_pictures_are_rejected : forall K E equalize (M : libm b64) gamma checks pad image width height (depth step : b64) amount,
  dimensions image = (width, height) -> (0 < width < height)%nat -> Z.of_nat amount <= 2 ^ 50 ->
  is_panic (watermark_image Bops K E equalize (zernike_f64 M gamma checks) checks pad image depth step amount) = true
  /\ forall sel, is_panic (authenticate_channel Bops K E equalize (zernike_f64 M gamma checks) checks (component sel image) depth step amount 3) = true.
Proof.
  intros K E eq M g checks pad image w h depth step amount Hd Hwh Ha.
  assert (P : forall sel, exists r, channel_features eq (zernike_f64 M g checks) (component sel image) amount = Panic r).
  { intros sel. unfold channel_features, from_shape_vec. destruct (Nat.eqb (length (gray_raw (component sel image))) _); [|eexists; reflexivity]. cbn [bind].
    destruct (Nat.eqb (length (eq (gray_raw (component sel image)))) (gwidth (component sel image) * gheight (component sel image))) eqn:El; [|eexists; reflexivity]. cbn [bind].
    apply Nat.eqb_eq in El. unfold component in *. cbn [gwidth gheight gray_raw] in *. rewrite Hd in *. cbn [fst snd] in *.
    match goal with |- context[mkArray2 ?a ?b ?c] => set (im := mkArray2 a b c) end.
    assert (Wim : wf im) by (split; cbn [rows dim0 dim1 im]; [apply split_rows_length|now apply split_rows_wf]).
    destruct (C49_f64_tall_images_are_rejected M g checks im amount Wim) as (r & Er); [cbn [im dim0 dim1]; lia|exact Ha|]. exists r. rewrite Er. reflexivity. }
  split.
  - destruct (C42_watermark_returns_iff_the_channels_do b64 Bops K E eq (zernike_f64 M g checks) checks pad image depth step amount) as (Q & _).
    destruct (P ch1) as (r & Er). rewrite (Q r); [reflexivity|]. unfold watermark_channel. rewrite Er. reflexivity.
  - intros sel. destruct (P sel) as (r & Er). unfold authenticate_channel. rewrite Er. reflexivity.
Qed.
Example C49_f64_tall_pictures_instance : is_panic (watermark_image Bops toy_ldpc toy_ed (fun l => l) (zernike_f64 crude_libm (fun x => x) true) true (repeat false 8)
  (ImageLuma8 3 5 (repeat 7 15)) (f_of_Z Bops 100) (f_of_Z Bops 1) 11) = true.
Proof.
  apply (proj1 (C49_f64_tall_pictures_are_rejected toy_ldpc toy_ed (fun l => l) crude_libm (fun x => x) true (repeat false 8) (ImageLuma8 3 5 (repeat 7 15)) 3 5 _ _ 11 eq_refl ltac:(lia) ltac:(lia))).
Qed.

(** ** C38 in binary64 *)
Theorem C38_f64_text_can_be_replaced_without_the_key : forall K, ldpc_shape K -> ldpc_decodes K ->
  forall E, signature_format E -> forall equalize features_of checks pad, length pad = 8%nat ->
  forall signed_features (step : b64) quantised bits sig new_text, fin step -> (bpow radix2 (-500) <= toR step <= bpow radix2 500)%R ->
  (length signed_features <= 85)%nat ->
  three_bit_quantization Bops checks signed_features step = Ok (quantised, bits) ->
  bytes sig -> length sig = 64%nat -> verify E (vec_i64_to_bytes quantised) sig PUBLIC_KEY = Ok true ->
  Forall scalar new_text -> (length (string_as_bytes new_text) <= 255)%nat ->
  exists payload, watermark_serialize pad (mkWatermark bits sig new_text) = Ok payload /\
  forall channel image n levels (depth : b64) amount,
  gray_picture channel n levels -> from_shape_vec (gwidth channel) (gheight channel) (gray_raw channel) = Ok image -> (levels <= 10)%nat -> usable n levels ->
  (stored_size n levels (length payload) <= band_capacity n levels)%nat -> fin depth -> (65 / 64 * 2 ^ (levels + 1) <= toR depth <= 2 ^ 20)%R ->
  gray_room channel n levels (8 * stored_size n levels (length payload)) (3 * toR depth / 2 ^ (levels + 2)) ->
  exists forged, embed Bops K image payload depth levels = Ok forged /\
    let forged_channel := mkGray n n (into_raw_vec forged) in
    forall noised, measures equalize features_of forged_channel amount noised ->
      noised = signed_features \/ Forall2 (fun x x' : b64 => fin x /\ fin x' /\ (Rabs (toR x) <= bpow radix2 29 * toR step)%R
             /\ (Rabs (toR x' - toR x) <= (1 - bpow radix2 (-20)) * toR step)%R
             /\ (forall m : Z, (m = 0%Z /\ 0 <= toR x') \/ bpow radix2 (-20) * toR step <= Rabs (toR x' - IZR m * toR step))%R)
        signed_features noised ->
      extract Bops K forged depth levels = Ok payload
      /\ watermark_deserialize payload = Ok (mkWatermark bits sig new_text)
      /\ authenticate_channel Bops K E equalize features_of checks forged_channel depth step amount levels = Ok true.
Proof.
  intros K Hsh Hdec E HE eq fo checks pad Hpad fs step q bits sig txt Fst Hst H85 Eq Bs Ls Ev Ht Lt.
  destruct (quantization_inv Bops checks fs step q bits Eq) as (No & Eqq & Lb).
  destruct (payload_ok pad (mkWatermark bits sig txt) Hpad) as (pl & E1 & E2 & E3 & E4); cbn [signature text perturbation_vector]; try assumption.
  { unfold fits. cbn [signature text perturbation_vector]. lia. }
  cbn [signature text perturbation_vector] in E3. exists pl. split; [exact E1|].
  intros ch im n L depth amount Hg Eim HL10 Hu Hcap Fd Hd Hroom.
  destruct (gray_array ch n L Hg) as (im' & Eim' & Him & Hcell). assert (im' = im) by congruence. subst im'.
  assert (Hlen : (1 <= Z.of_nat (length pl) <= 65533)%Z).
  { assert ((length bits + 7) / 8 < 33)%nat by (apply Nat.div_lt_upper_bound; lia). lia. }
  destruct (C31_f64_embed_then_extract_returns_the_payload K Hsh Hdec im n L depth pl Him HL10 Hu E2 Hlen Hcap Fd Hd) as (out & Eo & Pout & Ex);
    [now apply (gray_room_array ch)|].
  destruct (array_gray out n L Pout) as (Gout & Fout). exists out. split; [exact Eo|]. cbn zeta. intros noised Hm' Hn.
  split; [exact Ex|]. split; [exact E4|].
  rewrite (authenticate_run Bops K E eq fo checks (mkGray n n (into_raw_vec out)) out amount noised step (mkWatermark bits sig txt) pl depth L Fout Hm' Ex E4).
  cbn [perturbation_vector signature].
  assert (D : three_bit_dequantization Bops checks noised bits step = Ok q).
  { destruct Hn as [->|Hn].
    - destruct (dequantize_lists Bops step checks fs fs eq_refl No No) as (D1 & D2). rewrite D1 in Eq.
      destruct (C02_f64_noiseless step fs checks) as (b' & F1 & F2); [intros Hc; specialize (No Hc); unfold quantize; rewrite Forall_map; exact No|]. congruence.
    - destruct (C02_f64_noise_outside_guard_band step fs noised checks Fst Hst Hn) as (q' & bits' & F1 & F2). congruence. }
  rewrite D. exact Ev.
Qed.

(** ** C79: when the authenticator gives a verdict at all *)
(** A verdict is returned exactly when the raster has the right size, the features can be computed, a payload can be extracted which is a well-formed
    watermark, the number of stored bits is a multiple of 3 covering at most the computed features, and the stored signature parses. *)
Theorem C79_a_verdict_is_returned_iff : forall (F : Type) (O : FOps F) K E equalize features_of checks channel depth step amount levels verdict,
  authenticate_channel O K E equalize features_of checks channel depth step amount levels = Ok verdict <->
  exists image features payload w restored pb vk sig,
    from_shape_vec (gwidth channel) (gheight channel) (gray_raw channel) = Ok image
    /\ measures equalize features_of channel amount features
    /\ extract O K image depth levels = Ok payload /\ watermark_deserialize payload = Ok w
    /\ three_bit_dequantization O checks features (perturbation_vector w) step = Ok restored
    /\ decode_hex PUBLIC_KEY = Ok (Some pb) /\ pubkey_from_bytes E pb = Some vk
    /\ signature_from_bytes E (signature w) = Some sig
    /\ verdict = ed_verify E vk (vec_i64_to_bytes restored) sig.
Proof.
  intros F O K E eq fo checks ch depth step amount L v. split.
  - intros H. unfold authenticate_channel in H. apply bind_ok in H as ((im & fs) & H1 & H). apply channel_features_inv in H1 as (H1 & H2).
    apply bind_ok in H as (pl & H3 & H). apply bind_ok in H as (w & H4 & H). apply bind_ok in H as (r & H5 & H).
    unfold verify, decode_hex_unwrap in H. destruct (decode_hex PUBLIC_KEY) as [[pb|]| |] eqn:E1; try discriminate. cbn [bind] in H.
    destruct (pubkey_from_bytes E pb) as [vk|] eqn:E2; [|discriminate]. cbn [unwrap_err bind] in H.
    destruct (signature_from_bytes E (signature w)) as [sg|] eqn:E3; [|discriminate]. cbn [unwrap_err bind] in H.
    exists im, fs, pl, w, r, pb, vk, sg. repeat split; try assumption. congruence.
  - intros (im & fs & pl & w & r & pb & vk & sg & H1 & H2 & H3 & H4 & H5 & H6 & H7 & H8 & H9).
    rewrite (authenticate_run O K E eq fo checks ch im amount fs step w pl depth L H1 H2 H3 H4), H5. cbn [bind].
    unfold verify, decode_hex_unwrap. rewrite H6. cbn [bind]. rewrite H7. cbn [unwrap_err bind]. rewrite H8. cbn [unwrap_err bind]. congruence.
Qed.

(** bytes that are no watermark, or one with a number of bits that is not a multiple of 3 or more than the features need, or with a signature that is
    not 64 bytes long *)
Definition breaks_the_parser (E : ed25519) (payload : list Z) (features : nat) : Prop :=
  forall w, watermark_deserialize payload = Ok w ->
    (length (perturbation_vector w) mod 3 <> 0)%nat \/ (3 * features < length (perturbation_vector w))%nat \/ (standard_sizes E /\ length (signature w) <> 64%nat).

Lemma dequantization_not_outside checks (fs : list b64) given (step : b64) : three_bit_dequantization Bops checks fs given step <> Outside.
Proof.
  unfold three_bit_dequantization. destruct (three_bit_quantization Bops checks fs step) as [(q & b)|r|] eqn:Eq; cbn [bind].
  - destruct (quantization_inv Bops checks fs step q b Eq) as (No & _).
    assert (N : checks = true -> Forall (fun q => q <> - 2 ^ 63) (quantize Bops fs step)) by (intros Hc; specialize (No Hc); unfold quantize; rewrite Forall_map; exact No).
    destruct (C04_shape_contract step fs checks N) as (_ & H). destruct (H given) as [(_ & _ & r & D & _)|(_ & D)]; unfold three_bit_dequantization in D; rewrite Eq in D; cbn [bind] in D; rewrite D; discriminate.
  - discriminate.
  - intros _. destruct checks.
    + destruct (Forall_dec (fun q => q <> - 2 ^ 63) ltac:(intros x; destruct (Z.eq_dec x (- 2 ^ 63)); [right; lia|left; assumption]) (quantize Bops fs step)) as [H|H].
      * destruct (C04_shape_contract step fs true (fun _ => H)) as ((q & b & E1 & _) & _). congruence.
      * rewrite C04_i64_min_panics in Eq by exact H. discriminate.
    + destruct (C04_shape_contract step fs false ltac:(discriminate)) as ((q & b & E1 & _) & _). congruence.
Qed.
Lemma verify_not_outside E data sig pk : verify E data sig pk <> Outside.
Proof. destruct (C41_verify_domain E data sig pk) as [((v & ->) & _)|((r & ->) & _)]; discriminate. Qed.

(** Such bytes can be hidden in any picture with room for them (binary64, no key needed, the picture changes as little as by watermarking): the
    authenticator then panics instead of returning false. *)
Theorem C79_f64_crafted_channels_make_the_authenticator_panic : forall K, ldpc_shape K -> ldpc_decodes K ->
  forall E equalize features_of checks channel image n levels (depth : b64) payload,
  gray_picture channel n levels -> from_shape_vec (gwidth channel) (gheight channel) (gray_raw channel) = Ok image -> (levels <= 10)%nat -> usable n levels ->
  bytes payload -> 1 <= Z.of_nat (length payload) <= 65533 ->
  (stored_size n levels (length payload) <= band_capacity n levels)%nat -> fin depth -> (65 / 64 * 2 ^ (levels + 1) <= toR depth <= 2 ^ 20)%R ->
  gray_room channel n levels (8 * stored_size n levels (length payload)) (3 * toR depth / 2 ^ (levels + 2)) ->
  exists crafted, embed Bops K image payload depth levels = Ok crafted /\
    let crafted_channel := mkGray n n (into_raw_vec crafted) in
    gray_picture crafted_channel n levels
    /\ forall amount step features, measures equalize features_of crafted_channel amount features -> breaks_the_parser E payload (length features) ->
       is_panic (authenticate_channel Bops K E equalize features_of checks crafted_channel depth step amount levels) = true.
Proof.
  intros K Hsh Hdec E eq fo checks ch im n L depth pl Hg Eim HL10 Hu Bp Hlen Hcap Fd Hd Hroom.
  destruct (gray_array ch n L Hg) as (im' & Eim' & Him & Hcell). assert (im' = im) by congruence. subst im'.
  destruct (C31_f64_embed_then_extract_returns_the_payload K Hsh Hdec im n L depth pl Him HL10 Hu Bp Hlen Hcap Fd Hd) as (out & Eo & Pout & Ex);
    [now apply (gray_room_array ch)|].
  destruct (array_gray out n L Pout) as (Gout & Fout). exists out. split; [exact Eo|]. cbn zeta. split; [exact Gout|].
  intros amount step fs (e & M1 & M2) Hb.
  unfold authenticate_channel, channel_features. cbn [gwidth gheight gray_raw] in *. rewrite Fout. cbn [bind]. rewrite M1. cbn [bind]. rewrite M2. cbn [bind]. rewrite Ex. cbn [bind].
  destruct (watermark_deserialize pl) as [w|r|] eqn:Ew; cbn [bind]; [|reflexivity|now apply deserialize_not_outside in Ew].
  destruct (three_bit_dequantization Bops checks fs (perturbation_vector w) step) as [r|r|] eqn:Er; cbn [bind]; [|reflexivity|now apply dequantization_not_outside in Er].
  destruct (dequantization_near Bops checks fs _ step r Er) as (L1 & L2 & _).
  destruct (Hb w Ew) as [C|[C|(S & C)]].
  - exfalso. apply C. rewrite <- L2, Nat.mul_comm. apply Nat.mod_mul. lia.
  - lia.
  - destruct (C41_sizes E S) as (P & _). apply P. left. exact C.
Qed.

(** ** Witnesses *)
Lemma toy_sizes : standard_sizes toy_ed.
Proof.
  split; intros b H; cbn [signature_from_bytes pubkey_from_bytes keypair_from_bytes toy_ed] in H.
  - destruct (Nat.eqb (length b) 64) eqn:E; [now apply Nat.eqb_eq|exfalso; apply H; reflexivity].
  - destruct (Nat.eqb (length b) 32) eqn:E; [now apply Nat.eqb_eq|exfalso; apply H; reflexivity].
  - destruct (Nat.eqb (length b) 64) eqn:E; [now apply Nat.eqb_eq|exfalso; apply H; reflexivity].
Qed.
(** one zero byte, and the empty watermark *)
Example C79_witness : breaks_the_parser toy_ed [0] 11 /\ breaks_the_parser toy_ed [0; 0; 0] 11 /\ watermark_deserialize [0; 0; 0] = Ok (mkWatermark [] [] []).
Proof.
  split; [intros w H; discriminate|]. split; [|reflexivity]. intros w H. right. right. split; [exact toy_sizes|].
  assert (w = mkWatermark [] [] []) by (cbn in H; congruence). subst w. cbn. lia.
Qed.
Example C79_f64_instance : exists image crafted, from_shape_vec 512 512 (gray_raw grey512) = Ok image
  /\ embed Bops toy_ldpc image [0] (f_of_Z Bops 100) 3 = Ok crafted
  /\ is_panic (authenticate_channel Bops toy_ldpc toy_ed (fun l => l) toy_features_f64 true (mkGray 512 512 (into_raw_vec crafted)) (f_of_Z Bops 100) (f_of_Z Bops 1) 11 3) = true.
Proof.
  destruct (gray_array grey512 512 3 grey512_picture) as (im & Eim & _).
  destruct (b_of_Z_ok 100) as (F1 & V1); [lia|]. change (b_of_Z 100) with (f_of_Z Bops 100) in *.
  destruct (C79_f64_crafted_channels_make_the_authenticator_panic toy_ldpc toy_shape toy_decodes toy_ed (fun l => l) toy_features_f64 true grey512 im 512 3 (f_of_Z Bops 100) [0]
              grey512_picture Eim ltac:(lia) usable_512) as (cr & E1 & G & A).
  - constructor; [unfold byte; lia|constructor].
  - cbn. lia.
  - vm_compute. lia.
  - exact F1.
  - rewrite V1. simpl. lra.
  - apply grey512_room. rewrite V1. simpl. lra.
  - exists im, cr. split; [exact Eim|]. split; [exact E1|]. cbn zeta in A.
    destruct (gray_array _ 512 3 G) as (om & Eom & _). apply (A 11%nat (f_of_Z Bops 1) (repeat (b_dyadic 5 (-1)) 11)).
    + exists om. split; [exact Eom|reflexivity].
    + intros w H. discriminate.
Qed.

Print Assumptions C41_sizes.
Print Assumptions C40_f64_watermark_panics_on_inadmissible_amounts.
Print Assumptions C38_f64_text_can_be_replaced_without_the_key.
Print Assumptions C79_a_verdict_is_returned_iff.
Print Assumptions C79_f64_crafted_channels_make_the_authenticator_panic.
Print Assumptions C49_f64_tall_pictures_are_rejected.
