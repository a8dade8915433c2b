(** Properties C36-C41 and C58: watermarking and authentication of one channel (lib/sia/rust/watermarking/src/process.rs) and the
    signature API (lib/sia/rust/signature/src/lib.rs), relative to the laws of the LDPC coder (EncodingProofs.v) and of Ed25519
    ([signature_format], [key_pair], ProcessProofs.v).  The histogram equalisation and the feature extractor are arbitrary functions
    unless said otherwise. *)
From Coq Require Import Reals Lra.
From Flocq Require Import Core BinarySingleNaN.
From Verif Require Import Outcome Floats FloatFacts Bits ListFacts Quantization QuantProofs QuantReal QuantFloat PropsQuant Codecs CodecProofs WatermarkProofs PropsCodec
  Encoding EncodingProofs PropsEncoding Matrix MatrixFacts PropsHaar Stego StegoProofs StegoMarks PropsStego Embedding EmbeddingProofs EmbeddingEffect PropsEmbedding PropsEmbedding2
  Signature Process ProcessProofs Toy Zernike ZernikeProofs PropsZernike.
Open Scope Z_scope.

(** ** Specification vocabulary *)

(** An n x n gray channel with 8-bit pixels, n divisible by 2^levels. *)
Definition gray_picture (channel : gray) (n levels : nat) : Prop :=
  gwidth channel = n /\ gheight channel = n /\ length (gray_raw channel) = (n * n)%nat /\ bytes (gray_raw channel)
  /\ (n mod 2 ^ levels = 0)%nat /\ (1 <= levels <= 30)%nat /\ Z.of_nat (n * n) < 2 ^ 53.

(** Pixel (i, j) of the n x n array the program builds from the channel. *)
Definition gray_pixel (channel : gray) (n i j : nat) : option Z := nth_error (gray_raw channel) (n * i + j).

(** The pixels that carry data are at least [margin] away from 0 and 255. *)
Definition gray_room (channel : gray) (n levels bits : nat) (margin : R) : Prop :=
  forall i j v, (i < n)%nat -> (j < n)%nat -> gray_pixel channel n i j = Some v -> in_first_blocks n levels bits i j ->
    (margin <= IZR v <= 255 - margin)%R.

(** Size of the serialised watermark for [amount] features: 3 length bytes, 3 bits per feature, a 64-byte signature and the 12
    bytes of "Hello world!". *)
Definition payload_size (amount : nat) : nat := (79 + (3 * amount + 7) / 8)%nat.

(** ** helpers *)
Lemma gray_array channel n levels : gray_picture channel n levels ->
  exists image, from_shape_vec (gwidth channel) (gheight channel) (gray_raw channel) = Ok image /\ picture image n levels
    /\ forall i j, (i < n)%nat -> (j < n)%nat -> cell image i j = gray_pixel channel n i j.
Proof.
  intros (W & H & Hl & Hb & Hm & HL & Hr). rewrite W, H.
  unfold from_shape_vec. rewrite Hl, Nat.eqb_refl. eexists. split; [reflexivity|].
  assert (Hwf : wf (mkArray2 n n (split_rows n n (gray_raw channel)))).
  { split; cbn [rows dim0 dim1]; [apply split_rows_length|now apply split_rows_wf]. }
  assert (Hcell : forall i j, (i < n)%nat -> (j < n)%nat -> cell (mkArray2 n n (split_rows n n (gray_raw channel))) i j = gray_pixel channel n i j)
    by (intros i j Hi Hj; now apply cell_split).
  split; [|exact Hcell]. split; [repeat split; try assumption; apply Hwf || apply HL|].
  apply image8_cells; [exact Hwf|]. intros i j v E.
  destruct (Nat.lt_ge_cases i n) as [Hi|Hi], (Nat.lt_ge_cases j n) as [Hj|Hj]; try (rewrite cell_none in E by (try exact Hwf; cbn [dim0 dim1]; lia); discriminate).
  rewrite Hcell in E by assumption. unfold gray_pixel in E. apply nth_error_In in E. unfold bytes in Hb. rewrite Forall_forall in Hb. now apply Hb.
Qed.

Lemma gray_room_array channel image n levels bits margin : picture image n levels ->
  (forall i j, (i < n)%nat -> (j < n)%nat -> cell image i j = gray_pixel channel n i j) -> gray_room channel n levels bits margin ->
  room image n levels bits margin.
Proof.
  intros (Hc & _) Hcell Hr i j v E Hblk. destruct (cell_some_lt image n levels i j v Hc E) as (Hi & Hj).
  rewrite Hcell in E by assumption. exact (Hr i j v Hi Hj E Hblk).
Qed.

Lemma array_gray out n levels : picture out n levels -> gray_picture (mkGray n n (into_raw_vec out)) n levels
  /\ from_shape_vec n n (into_raw_vec out) = Ok out.
Proof.
  intros ((Hwf & D0 & D1 & Hm & HL & Hr) & H8). split.
  - unfold gray_picture. cbn [gwidth gheight gray_raw]. repeat split; try assumption; try apply HL.
    + rewrite into_raw_vec_length, D0, D1 by exact Hwf. reflexivity.
    + unfold into_raw_vec, bytes. apply Forall_concat. apply H8.
  - rewrite <- D0 at 1. rewrite <- D1. now apply from_into.
Qed.

Lemma text_ok : Forall scalar WATERMARK_TEXT /\ length (string_as_bytes WATERMARK_TEXT) = 12%nat.
Proof.
  split; [|vm_compute; reflexivity].
  assert (E : WATERMARK_TEXT = [72; 101; 108; 108; 111; 32; 119; 111; 114; 108; 100; 33]) by (vm_compute; reflexivity). rewrite E.
  repeat (apply Forall_cons; [unfold scalar; lia|]). apply Forall_nil.
Qed.

Lemma payload_of pad bits sig k : length pad = 8%nat -> bytes sig -> length sig = 64%nat -> length bits = (3 * k)%nat -> (k <= 85)%nat ->
  exists payload, watermark_serialize pad (mkWatermark bits sig WATERMARK_TEXT) = Ok payload /\ bytes payload
    /\ length payload = payload_size k /\ watermark_deserialize payload = Ok (mkWatermark bits sig WATERMARK_TEXT).
Proof.
  intros Hp Hb Hl Hbits Hk. destruct text_ok as (T1 & T2).
  destruct (payload_ok pad (mkWatermark bits sig WATERMARK_TEXT) Hp) as (pl & E1 & E2 & E3 & E4); cbn [signature text perturbation_vector]; try assumption.
  - unfold fits. cbn [signature text perturbation_vector]. rewrite T2. lia.
  - exists pl. split; [exact E1|]. split; [exact E2|]. split; [|exact E4]. rewrite E3. cbn [signature text perturbation_vector].
    rewrite T2, Hl, Hbits. unfold payload_size. lia.
Qed.

Lemma payload_size_range k : (k <= 85)%nat -> (79 <= payload_size k <= 111)%nat.
Proof. intros H. unfold payload_size. assert ((3 * k + 7) / 8 < 33)%nat by (apply Nat.div_lt_upper_bound; lia). lia. Qed.

(** *** C36 *)
(** Exact reals.  A channel with enough head-room is marked; and whatever the feature extractor is, if the features of the marked
    channel are within one quantisation step of the original ones, the marked channel authenticates. *)
Theorem C36_watermarked_channel_authenticates : forall K, ldpc_shape K -> ldpc_decodes K ->
  forall E, signature_format E -> key_pair E PRIVATE_KEY PUBLIC_KEY ->
  forall equalize features_of checks pad, length pad = 8%nat ->
  forall channel n levels depth step amount features,
  gray_picture channel n levels -> usable n levels -> measures equalize features_of channel amount features ->
  (0 < step)%R -> Forall (fun x => fits_i64 (Zfloor (x / step))) features -> (length features <= 85)%nat ->
  (stored_size n levels (payload_size (length features)) <= band_capacity n levels)%nat -> (2 ^ (levels + 1) < depth)%R ->
  gray_room channel n levels (8 * stored_size n levels (payload_size (length features))) (3 * depth / 2 ^ (levels + 2)) ->
  exists marked, watermark_channel Rops K E equalize features_of checks pad channel depth step amount levels = Ok marked
    /\ gray_picture marked n levels
    /\ forall noised, measures equalize features_of marked amount noised ->
         Forall2 (fun x x' => (Rabs (x' - x) <= step)%R) features noised ->
         authenticate_channel Rops K E equalize features_of checks marked depth step amount levels = Ok true.
Proof.
  intros K Hsh Hdec E HE Hk eq fo checks pad Hpad ch n L depth step amount fs Hg Hu Hm Hst Hfit H85 Hcap Hd Hroom.
  destruct (gray_array ch n L Hg) as (im & Eim & Him & Hcell).
  assert (Ho : no_overflow Rops step checks fs) by now apply no_overflow_real.
  pose proof (quantization_ok Rops step checks fs Ho) as Eq. set (q := quantize Rops fs step) in *. set (bits := flat_map (bits3 Rops step) fs) in *.
  destruct (quantization_inv Rops checks fs step q bits Eq) as (_ & _ & Lb).
  destruct (sign_verify E _ _ (vec_i64_to_bytes q) HE Hk) as (sig & Es & Ls & Bs & Ev).
  destruct (payload_of pad bits sig (length fs) Hpad Bs Ls Lb H85) as (pl & Ep & Bp & Lp & Edp).
  pose proof (payload_size_range _ H85) as Hsz.
  destruct (C30_embed_then_extract_returns_the_payload K Hsh Hdec im n L depth pl Him Hu Bp) as (out & Eo & Pout & Ex);
    [rewrite Lp; lia|rewrite Lp; exact Hcap|exact Hd|rewrite Lp; now apply (gray_room_array ch)|].
  destruct (array_gray out n L Pout) as (Gout & Fout). pose proof Hg as (W & H & _).
  pose proof Pout as ((Hwf & D0 & D1 & _) & _).
  exists (mkGray n n (into_raw_vec out)). split; [|split; [exact Gout|]].
  - pose proof (watermark_run Rops K E eq fo checks pad ch im amount fs step q bits sig pl out depth L Eim Hm Eq Es Ep Eo Hwf ltac:(congruence) ltac:(congruence)) as R.
    rewrite W, H in R. exact R.
  - intros noised Hm' Hn.
    rewrite (authenticate_run Rops K E eq fo checks (mkGray n n (into_raw_vec out)) out amount noised step (mkWatermark bits sig WATERMARK_TEXT) pl depth L Fout Hm' Ex Edp).
    cbn [perturbation_vector signature].
    destruct (C01_noise_up_to_one_step_is_absorbed step fs noised checks Hst Hfit Hn) as (bits' & E1 & E2).
    assert (bits' = bits) by congruence. subst bits'. assert (Eqq : q = map (fun x => Zfloor (x / step)) fs) by congruence.
    rewrite E2. cbn [bind]. rewrite <- Eqq. exact Ev.
Qed.

(** IEEE double precision, as compiled. *)
Theorem C36_f64_watermarked_channel_authenticates : forall K, ldpc_shape K -> ldpc_decodes K ->
  forall E, signature_format E -> key_pair E PRIVATE_KEY PUBLIC_KEY ->
  forall equalize features_of checks pad, length pad = 8%nat ->
  forall channel n levels (depth step : b64) amount features,
  gray_picture channel n levels -> (levels <= 10)%nat -> usable n levels -> measures equalize features_of channel amount features ->
  fin step -> (bpow radix2 (-500) <= toR step <= bpow radix2 500)%R ->
  (checks = true -> Forall (fun q => q <> - 2 ^ 63) (quantize Bops features step)) -> (length features <= 85)%nat ->
  (stored_size n levels (payload_size (length features)) <= band_capacity n levels)%nat ->
  fin depth -> (65 / 64 * 2 ^ (levels + 1) <= toR depth <= 2 ^ 20)%R ->
  gray_room channel n levels (8 * stored_size n levels (payload_size (length features))) (3 * toR depth / 2 ^ (levels + 2)) ->
  exists marked, watermark_channel Bops K E equalize features_of checks pad channel depth step amount levels = Ok marked
    /\ gray_picture marked n levels
    /\ (forall noised, measures equalize features_of marked amount noised ->
         Forall2 (fun x x' : b64 => fin x /\ fin x' /\ (Rabs (toR x) <= bpow radix2 29 * toR step)%R
             /\ (Rabs (toR x' - toR x) <= (1 - bpow radix2 (-20)) * toR step)%R
             /\ (forall m : Z, (m = 0%Z /\ 0 <= toR x') \/ bpow radix2 (-20) * toR step <= Rabs (toR x' - IZR m * toR step))%R)
           features noised ->
         authenticate_channel Bops K E equalize features_of checks marked depth step amount levels = Ok true)
    /\ (measures equalize features_of marked amount features ->
         authenticate_channel Bops K E equalize features_of checks marked depth step amount levels = Ok true).
Proof.
  intros K Hsh Hdec E HE Hk eq fo checks pad Hpad ch n L depth step amount fs Hg HL10 Hu Hm Fst Hst Hq H85 Hcap Fd Hd Hroom.
  destruct (gray_array ch n L Hg) as (im & Eim & Him & Hcell).
  destruct (C02_f64_noiseless step fs checks Hq) as (bits & Eq & Enl). set (q := quantize Bops fs step) in *.
  destruct (quantization_inv Bops checks fs step q bits Eq) as (_ & _ & Lb).
  destruct (sign_verify E _ _ (vec_i64_to_bytes q) HE Hk) as (sig & Es & Ls & Bs & Ev).
  destruct (payload_of pad bits sig (length fs) Hpad Bs Ls Lb H85) as (pl & Ep & Bp & Lp & Edp).
  pose proof (payload_size_range _ H85) as Hsz.
  destruct (C31_f64_embed_then_extract_returns_the_payload K Hsh Hdec im n L depth pl Him HL10 Hu Bp) as (out & Eo & Pout & Ex);
    [rewrite Lp; lia|rewrite Lp; exact Hcap|exact Fd|exact Hd|rewrite Lp; now apply (gray_room_array ch)|].
  destruct (array_gray out n L Pout) as (Gout & Fout). pose proof Hg as (W & H & _).
  pose proof Pout as ((Hwf & D0 & D1 & _) & _).
  exists (mkGray n n (into_raw_vec out)). split; [|split; [exact Gout|split]].
  - pose proof (watermark_run Bops K E eq fo checks pad ch im amount fs step q bits sig pl out depth L Eim Hm Eq Es Ep Eo Hwf ltac:(congruence) ltac:(congruence)) as R.
    rewrite W, H in R. exact R.
  - intros noised Hm' Hn.
    rewrite (authenticate_run Bops K E eq fo checks (mkGray n n (into_raw_vec out)) out amount noised step (mkWatermark bits sig WATERMARK_TEXT) pl depth L Fout Hm' Ex Edp).
    cbn [perturbation_vector signature].
    destruct (C02_f64_noise_outside_guard_band step fs noised checks Fst Hst Hn) as (q' & bits' & E1 & E2).
    assert (bits' = bits) by congruence. assert (q' = q) by congruence. subst bits' q'. rewrite E2. exact Ev.
  - intros Hm'.
    rewrite (authenticate_run Bops K E eq fo checks (mkGray n n (into_raw_vec out)) out amount fs step (mkWatermark bits sig WATERMARK_TEXT) pl depth L Fout Hm' Ex Edp).
    cbn [perturbation_vector signature]. rewrite Enl. exact Ev.
Qed.

(** *** C37 *)
(** Exactly when a channel authenticates: its pixels carry a payload, the payload parses as a watermark, the features of the
    channel itself are corrected with the perturbation vector of that watermark, and the public key verifies the watermark's
    signature on the little-endian bytes of the corrected integers. *)
Theorem C37_authentic_iff_signature_on_restored_features :
  forall (F : Type) (O : FOps F) K E equalize features_of checks channel depth step amount levels,
  authenticate_channel O K E equalize features_of checks channel depth step amount levels = Ok true <->
  exists image features payload w restored pb vk sig,
    from_shape_vec (gwidth channel) (gheight channel) (gray_raw channel) = Ok image
    /\ measures equalize features_of channel amount features
    /\ extract O K image depth levels = Ok payload /\ watermark_deserialize payload = Ok w
    /\ three_bit_dequantization O checks features (perturbation_vector w) step = Ok restored
    /\ decode_hex PUBLIC_KEY = Ok (Some pb) /\ pubkey_from_bytes E pb = Some vk
    /\ signature_from_bytes E (signature w) = Some sig
    /\ ed_verify E vk (vec_i64_to_bytes restored) sig = true.
Proof.
  intros F O K E eq fo checks ch depth step amount L. split.
  - intros H. unfold authenticate_channel in H. apply bind_ok in H as ((im & fs) & H1 & H). apply channel_features_inv in H1 as (H1 & H2).
    apply bind_ok in H as (pl & H3 & H). apply bind_ok in H as (w & H4 & H). apply bind_ok in H as (r & H5 & H).
    unfold verify, decode_hex_unwrap in H. apply bind_ok in H as (pb & H6 & H). apply bind_ok in H6 as (o & H6 & H6').
    destruct o as [pb'|]; [|discriminate]. assert (pb' = pb) by congruence. subst pb'.
    apply bind_ok in H as (vk & H7 & H). apply bind_ok in H as (sg & H8 & H).
    destruct (pubkey_from_bytes E pb) as [vk'|] eqn:E7; [|discriminate]. destruct (signature_from_bytes E (signature w)) as [sg'|] eqn:E8; [|discriminate].
    cbn [unwrap_err] in H7, H8. assert (vk' = vk) by congruence. assert (sg' = sg) by congruence. subst vk' sg'.
    exists im, fs, pl, w, r, pb, vk, sg. repeat split; try assumption; congruence.
  - intros (im & fs & pl & w & r & pb & vk & sg & H1 & H2 & H3 & H4 & H5 & H6 & H7 & H8 & H9).
    rewrite (authenticate_run O K E eq fo checks ch im amount fs step w pl depth L H1 H2 H3 H4), H5. cbn [bind].
    unfold verify, decode_hex_unwrap. rewrite H6. cbn [bind]. rewrite H7. cbn [unwrap_err bind]. rewrite H8. cbn [unwrap_err bind]. now rewrite H9.
Qed.

(** [signed]: the integer vectors ever signed with the private key.  The scheme is unforgeable: the public key accepts a
    signature only on their bytes. *)
Definition unforgeable (E : ed25519) (pk : list Z) (signed : list Z -> Prop) : Prop :=
  forall pb vk data sig, decode_hex pk = Ok (Some pb) -> pubkey_from_bytes E pb = Some vk -> ed_verify E vk data sig = true ->
    exists v, signed v /\ Forall (fun x => - 2 ^ 63 <= x < 2 ^ 63) v /\ data = vec_i64_to_bytes v.

Lemma i64_bytes_inj v w : Forall (fun x => - 2 ^ 63 <= x < 2 ^ 63) v -> Forall (fun x => - 2 ^ 63 <= x < 2 ^ 63) w ->
  vec_i64_to_bytes v = vec_i64_to_bytes w -> v = w.
Proof.
  intros Hv Hw E. destruct C11_integer_bytes as (H & _). destruct (H v Hv) as (E1 & _). destruct (H w Hw) as (E2 & _). congruence.
Qed.

Lemma dequantization_near {F} (O : FOps F) checks xs given step r : three_bit_dequantization O checks xs given step = Ok r ->
  (length r <= length xs)%nat /\ (3 * length r = length given)%nat
  /\ forall i q x, nth_error r i = Some q -> nth_error xs i = Some x ->
     q = quantize1 O step x \/ q = quantize1 O step (f_add O x step) \/ q = quantize1 O step (f_sub O x step).
Proof.
  intros H.
  assert (Ho : no_overflow O step checks xs).
  { pose proof H as H'. unfold three_bit_dequantization in H'. apply bind_ok in H' as ((q & b) & Hq & _). now apply quantization_inv in Hq. }
  destruct (Nat.eq_dec (length given mod 3) 0) as [E3|N3]; [|rewrite dequantization_panics in H by (try exact Ho; left; exact N3); discriminate].
  destruct (le_lt_dec (length given) (3 * length xs)) as [Hle|Hgt]; [|rewrite dequantization_panics in H by (try exact Ho; right; exact Hgt); discriminate].
  rewrite dequantization_ok in H by assumption. assert (Er : r = map (quantize1 O step) (restore_all O step xs (chunks 3 given))) by congruence.
  assert (Lr : (3 * length r = length given)%nat).
  { rewrite Er, map_length. unfold restore_all. rewrite map_length, combine_length, chunks_length by lia.
    pose proof (Nat.div_mod (length given) 3 ltac:(lia)) as D. rewrite E3 in D.
    replace (length given + 3 - 1)%nat with (2 + (length given / 3) * 3)%nat by lia.
    rewrite Nat.div_add by lia. change (2 / 3)%nat with 0%nat. lia. }
  split; [lia|]. split; [exact Lr|]. intros i q x Hq Hx. rewrite Er, nth_error_map in Hq. unfold restore_all in Hq. rewrite nth_error_map in Hq.
  destruct (nth_error (combine xs (chunks 3 given)) i) as [(x', g)|] eqn:Ec; [|discriminate]. cbn [option_map fst snd] in Hq.
  assert (x' = x).
  { clear - Hx Ec. revert xs Hx Ec. generalize (chunks 3 given) as gs. induction i as [|i IH]; intros [|g' gs] [|a xs] Hx Ec; cbn in *; try discriminate; [congruence|].
    now apply (IH gs xs). }
  subst x'. assert (Eqq : q = quantize1 O step (restore_l O step x g)) by congruence. rewrite Eqq. unfold restore_l, restore.
  repeat match goal with |- context [if ?b then _ else _] => destruct b end; auto.
Qed.

Theorem C37_only_images_close_to_signed_features_authenticate : forall K E equalize features_of checks channel depth step amount levels signed,
  unforgeable E PUBLIC_KEY signed -> (0 < step)%R ->
  authenticate_channel Rops K E equalize features_of checks channel depth step amount levels = Ok true ->
  forall features, measures equalize features_of channel amount features -> Forall (fun x => fits_i64 (Zfloor (x / step))) features ->
  exists v, signed v /\ (length v <= length features)%nat
    /\ forall i q x, nth_error v i = Some q -> nth_error features i = Some x -> Z.abs (q - Zfloor (x / step)) <= 1.
Proof.
  intros K E eq fo checks ch depth step amount L signed Hu Hs H fs Hm Hfit.
  apply C37_authentic_iff_signature_on_restored_features in H as (im & fs' & pl & w & r & pb & vk & sg & H1 & H2 & H3 & H4 & H5 & H6 & H7 & H8 & H9).
  assert (fs' = fs).
  { destruct Hm as (e & M1 & M2), H2 as (e' & M1' & M2'). congruence. }
  subst fs'. destruct (Hu pb vk _ sg H6 H7 H9) as (v & Sv & Iv & Ev).
  destruct (dequantization_near Rops checks fs _ step r H5) as (Lr & _ & Hr).
  assert (Hbin : forall i q x, nth_error r i = Some q -> nth_error fs i = Some x ->
            - 2 ^ 63 <= q < 2 ^ 63 /\ Z.abs (q - Zfloor (x / step)) <= 1).
  { intros i q x Hq Hx. assert (Fx : fits_i64 (Zfloor (x / step))) by (rewrite Forall_forall in Hfit; apply Hfit; eapply nth_error_In; exact Hx).
    unfold fits_i64 in Fx. change (Zfloor (x / step)) with (QuantReal.bin step x) in *. destruct (bin_shift step Hs x) as (B1 & B2).
    destruct (Hr i q x Hq Hx) as [ -> |[ -> | -> ]]; cbn [f_add f_sub Rops];
      rewrite quantize1_bin by (unfold in_i64, i64_min, i64_max; rewrite ?B1, ?B2; lia); rewrite ?B1, ?B2; lia. }
  assert (r = v).
  { apply i64_bytes_inj; [|exact Iv|exact Ev]. apply Forall_forall. intros q Hq. apply In_nth_error in Hq as (i & Hq).
    assert (Hi : (i < length fs)%nat) by (assert (i < length r)%nat by (apply nth_error_Some; congruence); lia).
    destruct (nth_error fs i) as [x|] eqn:Ex; [|apply nth_error_None in Ex; lia]. apply (Hbin i q x Hq Ex). }
  subst v. exists r. split; [exact Sv|]. split; [exact Lr|]. intros i q x Hq Hx. now apply (Hbin i q x).
Qed.

(** In double precision: each signed integer is the quantisation of the image's own feature, or of that feature plus or minus one step. *)
Theorem C37_f64_only_images_close_to_signed_features_authenticate : forall K E equalize features_of checks channel (depth step : b64) amount levels signed,
  unforgeable E PUBLIC_KEY signed ->
  authenticate_channel Bops K E equalize features_of checks channel depth step amount levels = Ok true ->
  forall features, measures equalize features_of channel amount features ->
  exists v, signed v /\ (length v <= length features)%nat
    /\ forall i q x, nth_error v i = Some q -> nth_error features i = Some x ->
       q = quantize1 Bops step x \/ q = quantize1 Bops step (f_add Bops x step) \/ q = quantize1 Bops step (f_sub Bops x step).
Proof.
  intros K E eq fo checks ch depth step amount L signed Hu H fs Hm.
  apply C37_authentic_iff_signature_on_restored_features in H as (im & fs' & pl & w & r & pb & vk & sg & H1 & H2 & H3 & H4 & H5 & H6 & H7 & H8 & H9).
  assert (fs' = fs).
  { destruct Hm as (e & M1 & M2), H2 as (e' & M1' & M2'). congruence. }
  subst fs'. destruct (Hu pb vk _ sg H6 H7 H9) as (v & Sv & Iv & Ev).
  destruct (dequantization_near Bops checks fs _ step r H5) as (Lr & _ & Hr).
  assert (r = v).
  { apply i64_bytes_inj; [|exact Iv|exact Ev]. apply Forall_forall. intros q Hq. apply In_nth_error in Hq as (i & Hq).
    assert (Hi : (i < length fs)%nat) by (assert (i < length r)%nat by (apply nth_error_Some; congruence); lia).
    destruct (nth_error fs i) as [x|] eqn:Ex; [|apply nth_error_None in Ex; lia].
    assert (B : forall y : b64, - 2 ^ 63 <= quantize1 Bops step y < 2 ^ 63).
    { intros y. unfold quantize1, f_to_i64. generalize (f_floor Bops (f_div Bops y step)). intros z. cbn [f_cast Bops].
      pose proof (b_cast_range i64_min i64_max z ltac:(unfold i64_min, i64_max; lia)) as Hz. unfold i64_min, i64_max in *. lia. }
    destruct (Hr i q x Hq Ex) as [ -> |[ -> | -> ]]; apply B. }
  subst v. exists r. split; [exact Sv|]. split; [exact Lr|]. exact Hr.
Qed.

(** *** C58 *)
(** Features beyond the stored perturbation vector are not looked at: with 3k stored bits the verdict is a function of the
    first k features. *)
Theorem C58_only_the_stored_number_of_features_is_checked :
  forall (F : Type) (O : FOps F) K E equalize features_of checks channel channel' depth step amount levels image image' payload payload' w k features features',
  from_shape_vec (gwidth channel) (gheight channel) (gray_raw channel) = Ok image ->
  from_shape_vec (gwidth channel') (gheight channel') (gray_raw channel') = Ok image' ->
  extract O K image depth levels = Ok payload -> extract O K image' depth levels = Ok payload' ->
  watermark_deserialize payload = Ok w -> watermark_deserialize payload' = Ok w -> length (perturbation_vector w) = (3 * k)%nat ->
  measures equalize features_of channel amount features -> measures equalize features_of channel' amount features' ->
  (k <= length features)%nat -> (k <= length features')%nat -> firstn k features = firstn k features' ->
  (checks = true -> Forall (fun q => q <> - 2 ^ 63) (quantize O features step) /\ Forall (fun q => q <> - 2 ^ 63) (quantize O features' step)) ->
  authenticate_channel O K E equalize features_of checks channel depth step amount levels
  = authenticate_channel O K E equalize features_of checks channel' depth step amount levels.
Proof.
  intros F O K E eq fo checks ch ch' depth step amount L im im' pl pl' w k fs fs' H1 H1' H3 H3' H4 H4' Hk H2 H2' L1 L2 Hf Ho.
  rewrite (authenticate_run O K E eq fo checks ch im amount fs step w pl depth L H1 H2 H3 H4).
  rewrite (authenticate_run O K E eq fo checks ch' im' amount fs' step w pl' depth L H1' H2' H3' H4').
  assert (N1 : no_overflow O step checks fs).
  { intros Hc. destruct (Ho Hc) as (A & _). unfold quantize in A. rewrite Forall_map in A. exact A. }
  assert (N2 : no_overflow O step checks fs').
  { intros Hc. destruct (Ho Hc) as (_ & A). unfold quantize in A. rewrite Forall_map in A. exact A. }
  assert (M3 : (length (perturbation_vector w) mod 3 = 0)%nat) by (rewrite Hk, Nat.mul_comm; apply Nat.mod_mul; lia).
  rewrite !dequantization_ok by (try assumption; lia). do 3 f_equal. unfold restore_all.
  assert (Lc : length (chunks 3 (perturbation_vector w)) = k).
  { rewrite chunks_length, Hk by lia. replace (3 * k + 3 - 1)%nat with (2 + k * 3)%nat by lia. rewrite Nat.div_add by lia. reflexivity. }
  revert Lc. generalize (chunks 3 (perturbation_vector w)) as gs. clear - L1 L2 Hf. revert fs fs' L1 L2 Hf.
  induction k as [|k IH]; intros [|x xs] [|y ys] L1 L2 Hf [|g gs] Lc; cbn [length] in *; try lia; try reflexivity; try discriminate.
  cbn [firstn] in Hf. assert (x = y) by congruence. subst y. cbn [combine map fst snd]. f_equal. apply IH; try lia. congruence.
Qed.

(** *** C38 *)
(** The text plays no role in the verdict. *)
Theorem C38_verdict_ignores_the_text :
  forall (F : Type) (O : FOps F) K E equalize features_of checks channel channel' depth step amount levels image image' payload payload' w w' features,
  from_shape_vec (gwidth channel) (gheight channel) (gray_raw channel) = Ok image ->
  from_shape_vec (gwidth channel') (gheight channel') (gray_raw channel') = Ok image' ->
  extract O K image depth levels = Ok payload -> extract O K image' depth levels = Ok payload' ->
  watermark_deserialize payload = Ok w -> watermark_deserialize payload' = Ok w' ->
  perturbation_vector w = perturbation_vector w' -> signature w = signature w' ->
  measures equalize features_of channel amount features -> measures equalize features_of channel' amount features ->
  authenticate_channel O K E equalize features_of checks channel depth step amount levels
  = authenticate_channel O K E equalize features_of checks channel' depth step amount levels.
Proof.
  intros F O K E eq fo checks ch ch' depth step amount L im im' pl pl' w w' fs H1 H1' H3 H3' H4 H4' Ep Es H2 H2'.
  rewrite (authenticate_run O K E eq fo checks ch im amount fs step w pl depth L H1 H2 H3 H4).
  rewrite (authenticate_run O K E eq fo checks ch' im' amount fs step w' pl' depth L H1' H2' H3' H4'). now rewrite Ep, Es.
Qed.

(** Forging the text: whoever has the perturbation vector and the signature of an authentic image (they are stored in the image)
    can embed them with any other text, without the private key, into any picture with head-room; the result authenticates
    whenever its features are within one step of the signed ones. *)
Theorem C38_text_can_be_replaced_without_the_key : forall K, ldpc_shape K -> ldpc_decodes K ->
  forall E, signature_format E -> forall equalize features_of checks pad, length pad = 8%nat ->
  forall signed_features step quantised bits sig new_text, (0 < step)%R ->
  Forall (fun x => fits_i64 (Zfloor (x / step))) signed_features -> (length signed_features <= 85)%nat ->
  three_bit_quantization Rops checks signed_features step = Ok (quantised, bits) ->
  bytes sig -> length sig = 64%nat -> verify E (vec_i64_to_bytes quantised) sig PUBLIC_KEY = Ok true ->
  Forall scalar new_text -> (length (string_as_bytes new_text) <= 255)%nat ->
  exists payload, watermark_serialize pad (mkWatermark bits sig new_text) = Ok payload /\
  forall channel image n levels depth amount,
  gray_picture channel n levels -> from_shape_vec (gwidth channel) (gheight channel) (gray_raw channel) = Ok image -> usable n levels ->
  (stored_size n levels (length payload) <= band_capacity n levels)%nat -> (2 ^ (levels + 1) < depth)%R ->
  gray_room channel n levels (8 * stored_size n levels (length payload)) (3 * depth / 2 ^ (levels + 2)) ->
  exists forged, embed Rops K image payload depth levels = Ok forged /\
    let forged_channel := mkGray n n (into_raw_vec forged) in
    forall noised, measures equalize features_of forged_channel amount noised ->
      Forall2 (fun x x' => (Rabs (x' - x) <= step)%R) signed_features noised ->
      extract Rops K forged depth levels = Ok payload
      /\ watermark_deserialize payload = Ok (mkWatermark bits sig new_text)
      /\ authenticate_channel Rops K E equalize features_of checks forged_channel depth step amount levels = Ok true.
Proof.
  intros K Hsh Hdec E HE eq fo checks pad Hpad fs step q bits sig txt Hst Hfit H85 Eq Bs Ls Ev Ht Lt.
  destruct (quantization_inv Rops checks fs step q bits Eq) as (_ & _ & Lb).
  destruct (payload_ok pad (mkWatermark bits sig txt) Hpad) as (pl & E1 & E2 & E3 & E4); cbn [signature text perturbation_vector]; try assumption.
  { unfold fits. cbn [signature text perturbation_vector]. lia. }
  cbn [signature text perturbation_vector] in E3. exists pl. split; [exact E1|].
  intros ch im n L depth amount Hg Eim Hu Hcap Hd Hroom.
  destruct (gray_array ch n L Hg) as (im' & Eim' & Him & Hcell). assert (im' = im) by congruence. subst im'.
  assert (Hlen : (1 <= Z.of_nat (length pl) <= 65533)%Z).
  { assert ((length bits + 7) / 8 < 33)%nat by (apply Nat.div_lt_upper_bound; lia). lia. }
  destruct (C30_embed_then_extract_returns_the_payload K Hsh Hdec im n L depth pl Him Hu E2 Hlen Hcap Hd) as (out & Eo & Pout & Ex);
    [now apply (gray_room_array ch)|].
  destruct (array_gray out n L Pout) as (Gout & Fout). exists out. split; [exact Eo|]. cbn zeta. intros noised Hm' Hn.
  split; [exact Ex|]. split; [exact E4|].
  rewrite (authenticate_run Rops K E eq fo checks (mkGray n n (into_raw_vec out)) out amount noised step (mkWatermark bits sig txt) pl depth L Fout Hm' Ex E4).
  cbn [perturbation_vector signature].
  destruct (C01_noise_up_to_one_step_is_absorbed step fs noised checks Hst Hfit Hn) as (bits' & F1 & F2).
  assert (bits' = bits) by congruence. subst bits'. assert (Eqq : q = map (fun x => Zfloor (x / step)) fs) by congruence.
  rewrite F2. cbn [bind]. rewrite <- Eqq. exact Ev.
Qed.
