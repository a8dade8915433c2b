(** Properties C39-C41: sizes at which one channel can be watermarked and authenticated, the admissible numbers of features, and the
    contract of the signature API; witnesses for C36-C41 and C58. *)
From Coq Require Import Reals Lra.
From Flocq Require Import Core BinarySingleNaN.
From Verif Require Import Outcome Floats FloatFacts Bits ListFacts Quantization QuantProofs QuantReal QuantFloat PropsQuant Codecs CodecProofs WatermarkProofs PropsCodec
  Encoding EncodingProofs PropsEncoding Matrix MatrixFacts Haar HaarProofs PropsHaar Stego StegoProofs StegoMarks PropsStego Embedding EmbeddingProofs EmbeddingEffect PropsEmbedding PropsEmbedding2
  Signature Process ProcessProofs PropsProcess Toy Zernike ZernikeProofs PropsZernike.
Open Scope Z_scope.

(** *** C39 *)
Lemma encode_total K n L payload ser : ldpc_shape K -> bytes payload -> data_serialize payload = Ok ser ->
  exists enc, encode K ser (band_capacity n L) = Ok enc.
Proof.
  intros Hsh Hb Eser. destruct (code_cases (band_capacity n L)) as [(Hc & _)|(_ & Hn)].
  - destruct (C17_encoded_size K Hsh _ Hc) as (Henc & _).
    assert (Bs : bytes ser).
    { unfold data_serialize in Eser. destruct (65535 <? Z.of_nat (length payload)) eqn:E; [discriminate|].
      assert (Es : ser = vec_u16_to_bytes [Z.of_nat (length payload) mod 65536] ++ payload) by congruence. rewrite Es.
      unfold vec_u16_to_bytes. cbn [flat_map]. rewrite app_nil_r. apply Forall_app. split; [apply le_bytes_bytes|exact Hb]. }
    destruct (Henc ser Bs) as (enc & E & _). eauto.
  - rewrite uncoded_encode by exact Hn. eauto.
Qed.

(** Which pictures can be watermarked: the serialised watermark of 79 + ceil(3k/8) bytes must fit after coding. *)
Theorem C39_watermarking_returns_iff_the_payload_fits : forall (F : Type) (O : FOps F) K, ldpc_shape K ->
  forall E, signature_format E -> key_pair E PRIVATE_KEY PUBLIC_KEY ->
  forall equalize features_of checks pad, length pad = 8%nat ->
  forall channel n levels depth step amount features size,
  gray_picture channel n levels -> measures equalize features_of channel amount features ->
  (checks = true -> Forall (fun q => q <> - 2 ^ 63) (quantize O features step)) -> (length features <= 85)%nat ->
  embedded_size n levels (payload_size (length features)) size ->
  let result := watermark_channel O K E equalize features_of checks pad channel depth step amount levels in
  let capacity := band_capacity n levels in
  ((capacity < 9)%nat -> result = Panic MinCapacity)
  /\ ((9 <= capacity < size)%nat -> result = Panic NoCapacity)
  /\ ((9 <= capacity)%nat -> (size <= capacity)%nat -> exists marked, result = Ok marked /\ gwidth marked = n /\ gheight marked = n
        /\ length (gray_raw marked) = (n * n)%nat).
Proof.
  intros F O K Hsh E HE Hk eq fo checks pad Hpad ch n L depth step amount fs size Hg Hm Hq H85 Hsz result cap.
  destruct (gray_array ch n L Hg) as (im & Eim & (Hc & H8) & Hcell). pose proof Hg as (W & H & _).
  assert (Ho : no_overflow O step checks fs).
  { intros Hck. specialize (Hq Hck). unfold quantize in Hq. rewrite Forall_map in Hq. exact Hq. }
  pose proof (quantization_ok O step checks fs Ho) as Eq. set (q := quantize O fs step) in *. set (bits := flat_map (bits3 O step) fs) in *.
  destruct (quantization_inv O checks fs step q bits Eq) as (_ & _ & Lb).
  destruct (sign_verify E _ _ (vec_i64_to_bytes q) HE Hk) as (sig & Es & Ls & Bs & Ev).
  destruct (payload_of pad bits sig (length fs) Hpad Bs Ls Lb H85) as (pl & Ep & Bp & Lp & Edp).
  pose proof (payload_size_range _ H85) as Hrange.
  destruct (data_roundtrip pl [] ltac:(lia)) as (ser & Eser & _).
  destruct (encode_total K n L pl ser Hsh Bp Eser) as (enc & Eenc).
  destruct (encoded_size_ok K n L pl ser enc Hsh Bp Eser Eenc) as ((S1 & S2) & Benc). destruct Hsz as (T1 & T2).
  assert (Hsize : size = length enc).
  { rewrite <- Lp in T1, T2. destruct (code_cases (band_capacity n L)) as [(Y & _)|(N & _)]; [rewrite S1, T1 by exact Y|rewrite S2, T2 by exact N]; reflexivity. }
  pose proof Hc as (Hwf & E0 & E1 & Hmod & HL & Hr). pose proof (carrier_band im n L Hc) as (_ & Hrep & _).
  split; [|split].
  - intros Hcap. unfold result. eapply watermark_embed_panic; try eassumption. unfold cap, band_capacity in Hcap. fold (band n L) in Hcap.
    assert (EW : exists C, dwt_2d O (mapv (f_of_Z O) im) L false = Ok C).
    { destruct (dwt_2d_ok O false L (mapv (f_of_Z O) im)) as (C & EC & _); [now apply mapv_wf|cbn [mapv dim0 dim1]; rewrite E0, E1; split; assumption|lia|eauto]. }
    destruct EW as (C & EC). unfold embed. rewrite EC. cbn [bind]. rewrite E0, E1, !ll_side_ok by lia. fold (band n L). cbn [bind].
    rewrite get_domain_capacity_small by assumption. reflexivity.
  - intros (Hc9 & Hlt). unfold result. eapply watermark_embed_panic; try eassumption.
    destruct (embed_run O K im n L depth pl ser enc Hc Hc9 Eser Eenc) as (_ & Hno). apply Hno. rewrite <- Hsize. exact Hlt.
  - intros Hc9 Hle. destruct (embed_run O K im n L depth pl ser enc Hc Hc9 Eser Eenc) as (Hok & _).
    destruct Hok as (R & Eo & WR & R0 & R1 & _); [rewrite <- Hsize; exact Hle|].
    set (out := mapv (fun x => f_to_u8 O (f_round O x)) R) in *.
    assert (Wout : wf out) by now apply mapv_wf.
    pose proof (watermark_run O K E eq fo checks pad ch im amount fs step q bits sig pl out depth L Eim Hm Eq Es Ep Eo Wout ltac:(cbn; congruence) ltac:(cbn; congruence)) as Run.
    rewrite W, H in Run. unfold result. exists (mkGray n n (into_raw_vec out)). split; [exact Run|]. cbn [gwidth gheight gray_raw]. split; [reflexivity|]. split; [reflexivity|].
    rewrite into_raw_vec_length by exact Wout. cbn [out mapv dim0 dim1]. now rewrite R0, R1.
Qed.

(** The front-ends: eleven features, three levels. *)
Corollary C39_eleven_features : forall (F : Type) (O : FOps F) K, ldpc_shape K ->
  forall E, signature_format E -> key_pair E PRIVATE_KEY PUBLIC_KEY ->
  forall equalize features_of checks pad, length pad = 8%nat ->
  forall channel n depth step features,
  gray_picture channel n 3 -> measures equalize features_of channel 11 features -> length features = 11%nat ->
  (checks = true -> Forall (fun q => q <> - 2 ^ 63) (quantize O features step)) ->
  let result := watermark_channel O K E equalize features_of checks pad channel depth step 11 3 in
  (n = 256%nat \/ n = 128%nat -> result = Panic NoCapacity)
  /\ ((n < 72)%nat -> result = Panic MinCapacity)
  /\ (n = 512%nat -> exists marked, result = Ok marked).
Proof.
  intros F O K Hsh E HE Hk eq fo checks pad Hpad ch n depth step fs Hg Hm L11 Hq result.
  pose proof (fun size => C39_watermarking_returns_iff_the_payload_fits F O K Hsh E HE Hk eq fo checks pad Hpad ch n 3 depth step 11 fs size Hg Hm Hq ltac:(lia)) as T.
  rewrite L11 in T. change (payload_size 11) with 84%nat in T.
  split; [|split].
  - intros [ -> | -> ].
    + destruct (T 192%nat) as (_ & T2 & _).
      { replace (band_capacity 256 3) with 128%nat by (vm_compute; reflexivity). split; [intros _; vm_compute; reflexivity|].
        replace (band_capacity 256 3) with 128%nat by (vm_compute; reflexivity). unfold coded. lia. }
      apply T2. replace (band_capacity 256 3) with 128%nat by (vm_compute; reflexivity). lia.
    + destruct (T 192%nat) as (_ & T2 & _).
      { replace (band_capacity 128 3) with 32%nat by (vm_compute; reflexivity). split; [intros _; vm_compute; reflexivity|].
        replace (band_capacity 128 3) with 32%nat by (vm_compute; reflexivity). unfold coded. lia. }
      apply T2. replace (band_capacity 128 3) with 32%nat by (vm_compute; reflexivity). lia.
  - intros Hn. assert (Hcap : (band_capacity n 3 < 9)%nat).
    { unfold band_capacity. change (2 ^ 3)%nat with 8%nat. pose proof Hg as (_ & _ & _ & _ & Hmod & _). change (2 ^ 3)%nat with 8%nat in Hmod.
      pose proof (Nat.div_mod n 8 ltac:(lia)). assert (n / 8 <= 8)%nat by lia. apply Nat.div_lt_upper_bound; [lia|]. nia. }
    destruct (code_cases (band_capacity n 3)) as [(Y & _)|(N & _)]; [unfold coded in Y; lia|].
    destruct (T 88%nat) as (T1 & _); [|now apply T1]. split; [contradiction|reflexivity].
  - intros ->. destruct (T 256%nat) as (_ & _ & T3).
    { replace (band_capacity 512 3) with 512%nat by (vm_compute; reflexivity). split; [intros _; vm_compute; reflexivity|].
        replace (band_capacity 512 3) with 512%nat by (vm_compute; reflexivity). unfold coded. lia. }
    destruct T3 as (mk & E1 & _); [vm_compute; lia|vm_compute; lia|]. exists mk. exact E1.
Qed.

(** Below 1024 pixels only side 512 can be authenticated with eleven features: every other size either cannot be watermarked
    or never gives a verdict afterwards. *)
Lemma uncoded_extract_panics {F} (O : FOps F) K out n L depth payload ser enc : carrier out n L -> ~ coded (band_capacity n L) ->
  (9 <= band_capacity n L)%nat -> bytes enc -> (length enc <= band_capacity n L)%nat ->
  data_serialize payload = Ok ser -> encode K ser (band_capacity n L) = Ok enc -> (length payload <= 253)%nat -> (band_capacity n L < 256 * (2 + length payload))%nat ->
  (forall C, in_domain (band n L) C -> dim0 C = n -> dim1 C = n -> (forall i j, get O C i j = transform O false n n L (get O (mapv (f_of_Z O) out)) i j) ->
     forall k, (k < 8 * length enc)%nat -> cell_bit O depth (band n L) C k = payload_bit enc k) ->
  extract O K out depth L = Panic SliceRange.
Proof.
  intros Hc Hn H9 Benc Lenc Eser Eenc Hl Hcap Hbits.
  destruct (extract_bits O K out n L depth enc Hc H9 Benc Lenc Hbits) as (tail & Bt & Lt & EX). fold (band n L) in EX, Lt.
  destruct (code_cases (band_capacity n L)) as [(Y & _)|(_ & E)]; [contradiction|].
  rewrite EX. unfold band_capacity in E, Eenc. fold (band n L) in E, Eenc. rewrite uncoded_decode by exact E. cbn [bind].
  rewrite uncoded_encode in Eenc by exact E. assert (Ee : enc = be16 (Z.of_nat (length ser) mod 65536) ++ ser) by congruence.
  rewrite data_serialize_ok in Eser by lia. assert (Es : ser = u16_to_le (Z.of_nat (length payload)) ++ payload) by congruence.
  assert (Ls : length ser = (2 + length payload)%nat) by (rewrite Es, app_length; unfold u16_to_le; rewrite le_bytes_length; reflexivity).
  unfold band_capacity in *. fold (band n L) in *. set (cap := (band n L * band n L / 8)%nat) in *.
  assert (Lse : (length enc = 2 + length ser)%nat) by (rewrite Ee, app_length; reflexivity).
  rewrite Ee, Ls. unfold be16. rewrite <- app_assoc. cbn [app].
  rewrite (Z.mod_small (Z.of_nat (2 + length payload))) by lia.
  rewrite data_deserialize_eq by (try (unfold byte; apply Z.mod_pos_bound; lia); apply len_pos_nonnil; rewrite app_length; lia).
  rewrite (Z.div_small (Z.of_nat (2 + length payload))) by lia.
  rewrite (Z.mod_small (Z.of_nat (2 + length payload)) 256) by lia.
  rewrite (proj2 (Nat.leb_gt _ _)); [reflexivity|]. rewrite app_length, Z.mod_0_l by lia. lia.
Qed.

Lemma watermark_inv {F} (O : FOps F) K E eq fo checks pad ch depth step amount L marked :
  watermark_channel O K E eq fo checks pad ch depth step amount L = Ok marked ->
  exists im fs q bits sig pl out, from_shape_vec (gwidth ch) (gheight ch) (gray_raw ch) = Ok im /\ measures eq fo ch amount fs
    /\ three_bit_quantization O checks fs step = Ok (q, bits) /\ sign E (vec_i64_to_bytes q) PRIVATE_KEY PUBLIC_KEY = Ok sig
    /\ watermark_serialize pad (mkWatermark bits sig WATERMARK_TEXT) = Ok pl /\ embed O K im pl depth L = Ok out
    /\ marked = mkGray (gwidth ch) (gheight ch) (into_raw_vec out).
Proof.
  intros H. unfold watermark_channel in H. apply bind_ok in H as ((im & fs) & H1 & H). apply channel_features_inv in H1 as (H1 & H2).
  apply bind_ok in H as ((q & bits) & H3 & H). apply bind_ok in H as (sig & H4 & H). apply bind_ok in H as (pl & H5 & H). apply bind_ok in H as (out & H6 & H).
  exists im, fs, q, bits, sig, pl, out. repeat split; try assumption. cbn zeta in H. destruct (_ <=? _)%nat; [congruence|discriminate].
Qed.

Lemma never_verdict {F} (O : FOps F) K E eq fo checks channel image depth step amount L :
  from_shape_vec (gwidth channel) (gheight channel) (gray_raw channel) = Ok image -> is_panic (extract O K image depth L) = true ->
  forall verdict, authenticate_channel O K E eq fo checks channel depth step amount L <> Ok verdict.
Proof.
  intros H1 H2 v H. unfold authenticate_channel in H. apply bind_ok in H as ((im & fs) & H3 & H). apply channel_features_inv in H3 as (H3 & _).
  assert (im = image) by congruence. subst im. destruct (extract O K image depth L); discriminate.
Qed.

Lemma small_sides n pl_len : (n mod 8 = 0)%nat -> (n < 1024)%nat -> n <> 512%nat -> pl_len = 84%nat -> usable n 3 ->
  (band_capacity n 3 < stored_size n 3 pl_len)%nat.
Proof.
  intros Hm Hn N5 -> Hu. apply C57_usable_sides_below_1024 in Hu as [ -> |[ -> | -> ]]; try assumption; [vm_compute; lia|vm_compute; lia|congruence].
Qed.

Lemma cap_below_1024 n : (n < 1024)%nat -> (band_capacity n 3 < Z.to_nat 2048)%nat.
Proof.
  intros H. unfold band_capacity. change (2 ^ 3)%nat with 8%nat. assert (n / 8 < 128)%nat by (apply Nat.div_lt_upper_bound; lia).
  apply Nat.div_lt_upper_bound; [lia|]. nia.
Qed.

Theorem C39_below_1024_only_side_512_can_authenticate : forall K, ldpc_shape K -> forall E, signature_format E ->
  forall equalize features_of checks pad channel n depth step features marked, length pad = 8%nat ->
  gray_picture channel n 3 -> (n < 1024)%nat -> n <> 512%nat -> measures equalize features_of channel 11 features -> length features = 11%nat ->
  (16 < depth)%R -> gray_room channel n 3 (8 * 88) (3 * depth / 32) ->
  watermark_channel Rops K E equalize features_of checks pad channel depth step 11 3 = Ok marked ->
  forall verdict, authenticate_channel Rops K E equalize features_of checks marked depth step 11 3 <> Ok verdict.
Proof.
  intros K Hsh E HE eq fo checks pad ch n depth step fs marked Hpad Hg Hn N5 Hm L11 Hd Hroom H.
  apply watermark_inv in H as (im & fs' & q & bits & sig & pl & out & H1 & H2 & H3 & H4 & H5 & H6 & H7).
  assert (fs' = fs) by (destruct Hm as (e & M1 & M2), H2 as (e' & M1' & M2'); congruence). subst fs'.
  destruct (quantization_inv Rops checks fs step q bits H3) as (_ & _ & Lb).
  assert (Hsig : bytes sig /\ length sig = 64%nat).
  { unfold sign in H4. apply bind_ok in H4 as (a & _ & H4). apply bind_ok in H4 as (b & _ & H4). apply bind_ok in H4 as (c & _ & H4).
    assert (Es : sig = signature_to_bytes E (ed_sign E c (vec_i64_to_bytes q))) by congruence. rewrite Es. split; apply HE. }
  destruct Hsig as (Bs & Ls). destruct (payload_of pad bits sig 11 Hpad Bs Ls ltac:(lia) ltac:(lia)) as (pl' & Ep & Bp & Lp & _).
  assert (pl' = pl) by congruence. subst pl'. change (payload_size 11) with 84%nat in Lp.
  destruct (gray_array ch n 3 Hg) as (im' & Eim & Him & Hcell). assert (im' = im) by congruence. subst im'. pose proof Him as (Hc & H8).
  pose proof Hg as (W & Hh & _). pose proof Hc as (_ & _ & _ & Hmod & _). change (2 ^ 3)%nat with 8%nat in Hmod.
  destruct (embed_inv Rops K im n 3 depth pl out Hc H6) as (H9 & ser & enc & E1 & E2 & E3).
  assert (Hd0 : (0 < depth)%R) by lra.
  destruct (embed_effect_real K im n 3 depth pl ser enc Hc H8 Hd0 H9 E1 E2 E3) as (out' & Eo & Heff).
  assert (out' = out) by congruence. subst out'. pose proof (eff_shape _ _ _ _ _ _ _ _ _ Heff) as Pout.
  destruct (array_gray out n 3 Pout) as (Gout & Fout).
  destruct (encoded_size_ok K n 3 pl ser enc Hsh Bp E1 E2) as ((S1 & S2) & Benc).
  subst marked. rewrite W, Hh. apply (never_verdict Rops K E eq fo checks _ out); [exact Fout|].
  destruct (code_cases (band_capacity n 3)) as [(Y & _)|(N & _)].
  - destruct (Nat.eq_dec (band_capacity n 3 mod codeword_size (band_capacity n 3)) 0) as [Z0|Z0].
    + exfalso. pose proof (small_sides n (length pl) Hmod Hn N5 Lp (conj Y Z0)) as Hs. rewrite (S1 Y) in E3.
      unfold band_capacity at 1 in Hs. fold (band n 3) in Hs. lia.
    + apply (C57_ragged_sizes_always_panic R Rops K out n 3 depth (proj1 Pout) Y Z0).
  - specialize (S2 N). rewrite Lp in S2.
    rewrite (uncoded_extract_panics Rops K out n 3 depth pl ser enc (proj1 Pout) N H9 Benc E3 E1 E2); [reflexivity|lia| |].
    + rewrite Lp. pose proof (cap_below_1024 n Hn). lia.
    + apply (marked_bits_real im n 3 depth out enc _ Him Heff); [simpl; lra|exact E3|]. rewrite S2.
      apply (gray_room_array ch); [exact Him|exact Hcell|]. replace (2 ^ (3 + 2))%R with 32%R by (simpl; ring). exact Hroom.
Qed.

Theorem C39_f64_below_1024_only_side_512_can_authenticate : forall K, ldpc_shape K -> forall E, signature_format E ->
  forall equalize features_of checks pad channel n (depth step : b64) features marked, length pad = 8%nat ->
  gray_picture channel n 3 -> (n < 1024)%nat -> n <> 512%nat -> measures equalize features_of channel 11 features -> length features = 11%nat ->
  fin depth -> (65 / 4 <= toR depth <= 2 ^ 20)%R -> gray_room channel n 3 (8 * 88) (3 * toR depth / 32) ->
  watermark_channel Bops K E equalize features_of checks pad channel depth step 11 3 = Ok marked ->
  forall verdict, authenticate_channel Bops K E equalize features_of checks marked depth step 11 3 <> Ok verdict.
Proof.
  intros K Hsh E HE eq fo checks pad ch n depth step fs marked Hpad Hg Hn N5 Hm L11 Fd Hd Hroom H.
  apply watermark_inv in H as (im & fs' & q & bits & sig & pl & out & H1 & H2 & H3 & H4 & H5 & H6 & H7).
  assert (fs' = fs) by (destruct Hm as (e & M1 & M2), H2 as (e' & M1' & M2'); congruence). subst fs'.
  destruct (quantization_inv Bops checks fs step q bits H3) as (_ & _ & Lb).
  assert (Hsig : bytes sig /\ length sig = 64%nat).
  { unfold sign in H4. apply bind_ok in H4 as (a & _ & H4). apply bind_ok in H4 as (b & _ & H4). apply bind_ok in H4 as (c & _ & H4).
    assert (Es : sig = signature_to_bytes E (ed_sign E c (vec_i64_to_bytes q))) by congruence. rewrite Es. split; apply HE. }
  destruct Hsig as (Bs & Ls). destruct (payload_of pad bits sig 11 Hpad Bs Ls ltac:(lia) ltac:(lia)) as (pl' & Ep & Bp & Lp & _).
  assert (pl' = pl) by congruence. subst pl'. change (payload_size 11) with 84%nat in Lp.
  destruct (gray_array ch n 3 Hg) as (im' & Eim & Him & Hcell). assert (im' = im) by congruence. subst im'. pose proof Him as (Hc & H8).
  pose proof Hg as (W & Hh & _). pose proof Hc as (_ & _ & _ & Hmod & _). change (2 ^ 3)%nat with 8%nat in Hmod.
  destruct (embed_inv Bops K im n 3 depth pl out Hc H6) as (H9 & ser & enc & E1 & E2 & E3).
  assert (Hd20 : (toR depth <= bpow radix2 20)%R) by (simpl bpow; lra).
  assert (Hd0 : (/ 1024 <= toR depth)%R) by lra.
  destruct (embed_effect_float K im n 3 depth pl ser enc Hc H8 ltac:(lia) Fd (conj Hd0 Hd20) H9 E1 E2 E3) as (out' & Eo & Heff).
  assert (out' = out) by congruence. subst out'. pose proof (eff_shape _ _ _ _ _ _ _ _ _ Heff) as Pout.
  destruct (array_gray out n 3 Pout) as (Gout & Fout).
  destruct (encoded_size_ok K n 3 pl ser enc Hsh Bp E1 E2) as ((S1 & S2) & Benc).
  subst marked. rewrite W, Hh. apply (never_verdict Bops K E eq fo checks _ out); [exact Fout|].
  destruct (code_cases (band_capacity n 3)) as [(Y & _)|(N & _)].
  - destruct (Nat.eq_dec (band_capacity n 3 mod codeword_size (band_capacity n 3)) 0) as [Z0|Z0].
    + exfalso. pose proof (small_sides n (length pl) Hmod Hn N5 Lp (conj Y Z0)) as Hs. rewrite (S1 Y) in E3.
      unfold band_capacity at 1 in Hs. fold (band n 3) in Hs. lia.
    + apply (C57_ragged_sizes_always_panic b64 Bops K out n 3 depth (proj1 Pout) Y Z0).
  - specialize (S2 N). rewrite Lp in S2.
    rewrite (uncoded_extract_panics Bops K out n 3 depth pl ser enc (proj1 Pout) N H9 Benc E3 E1 E2); [reflexivity|lia| |].
    + rewrite Lp. pose proof (cap_below_1024 n Hn). lia.
    + apply (marked_bits_float im n 3 depth out enc Him ltac:(lia) Fd Heff); [simpl; simpl bpow in Hd20; lra|exact E3|]. rewrite S2.
      apply (gray_room_array ch); [exact Him|exact Hcell|]. replace (2 ^ (3 + 2))%R with 32%R by (simpl; ring). exact Hroom.
Qed.

(** *** C40 *)
Lemma decode_hex_unwrap_outside s : decode_hex_unwrap s <> Outside.
Proof.
  unfold decode_hex_unwrap. destruct C12_hex_codec as (_ & _ & _ & _ & H). pose proof (H s).
  destruct (decode_hex s) as [[b|]| |]; cbn [bind]; try discriminate. congruence.
Qed.
Lemma sign_outside E data sk pk : sign E data sk pk <> Outside.
Proof.
  unfold sign. pose proof (decode_hex_unwrap_outside sk). destruct (decode_hex_unwrap sk); cbn [bind]; try discriminate; [|congruence].
  pose proof (decode_hex_unwrap_outside pk). destruct (decode_hex_unwrap pk); cbn [bind]; try discriminate; [|congruence].
  destruct (keypair_from_bytes E (a ++ a0)); cbn [unwrap_err bind]; discriminate.
Qed.

(** More than 85 features cannot be watermarked: 3 bits each exceed the one-byte length field. *)
Theorem C40_more_than_85_features_panic : forall (F : Type) (O : FOps F) K E equalize features_of checks pad channel depth step amount levels,
  (85 < amount)%nat ->
  (forall image, (exists r, features_of image amount = Panic r) \/ exists features, features_of image amount = Ok features /\ length features = amount) ->
  is_panic (watermark_channel O K E equalize features_of checks pad channel depth step amount levels) = true.
Proof.
  intros F O K E eq fo checks pad ch depth step amount L Ha Hf. unfold watermark_channel, channel_features, from_shape_vec.
  destruct (Nat.eqb (length (gray_raw ch)) _); [|reflexivity]. cbn [bind]. destruct (Nat.eqb (length (eq (gray_raw ch))) _); [|reflexivity]. cbn [bind].
  destruct (Hf (mkArray2 (gwidth ch) (gheight ch) (split_rows (gwidth ch) (gheight ch) (eq (gray_raw ch))))) as [(r & ->)|(fs & -> & Lf)]; [reflexivity|].
  cbn [bind]. destruct (three_bit_quantization O checks fs step) as [(q, bits)| |] eqn:Eq; cbn [bind]; [|reflexivity|].
  - destruct (quantization_inv O checks fs step q bits Eq) as (_ & _ & Lb).
    pose proof (sign_outside E (vec_i64_to_bytes q) PRIVATE_KEY PUBLIC_KEY). destruct (sign E (vec_i64_to_bytes q) PRIVATE_KEY PUBLIC_KEY) as [sig| |]; cbn [bind]; [|reflexivity|congruence].
    rewrite serialize_toolong; [reflexivity|]. unfold fits. cbn [perturbation_vector]. lia.
  - exfalso. unfold three_bit_quantization in Eq.
    assert (Hno : mapM (fun p => reminder_bits O checks step (fst p) (snd p)) (combine fs (quantize O fs step)) <> Outside).
    { apply mapM_outside. intros (x, y). unfold reminder_bits, i64_minus_1. cbn [fst snd].
      destruct (y =? i64_min); [destruct checks|]; cbn [bind]; try discriminate; destruct (two_bits_from_integer _); discriminate. }
    destruct (mapM _ _); cbn [bind] in Eq; try discriminate. congruence.
Qed.

(** With the repository's own feature extractor (exact reals): 0 features or more than 85 always panic, on every channel. *)
Theorem C40_zernike_feature_amounts : forall K E equalize gamma checks pad channel depth step amount levels,
  (0 < gwidth channel)%nat -> (Z.of_nat amount <= 2 ^ 63) -> amount = 0%nat \/ (85 < amount)%nat ->
  is_panic (watermark_channel Rops K E equalize (fun image n => calculate_features gamma checks image MomentsZernike n) checks pad channel depth step amount levels) = true.
Proof.
  intros K E eq g checks pad ch depth step amount L Hw Ha [ -> |H85].
  - unfold watermark_channel, channel_features, from_shape_vec.
    destruct (Nat.eqb (length (gray_raw ch)) _); [|reflexivity]. cbn [bind]. destruct (Nat.eqb (length (eq (gray_raw ch))) _); [|reflexivity]. cbn [bind].
    destruct (C44_degenerate_requests g checks (mkArray2 (gwidth ch) (gheight ch) (split_rows (gwidth ch) (gheight ch) (eq (gray_raw ch)))) 0) as ((r & ->) & _). reflexivity.
  - unfold watermark_channel, channel_features, from_shape_vec.
    destruct (Nat.eqb (length (gray_raw ch)) _); [|reflexivity]. cbn [bind]. destruct (Nat.eqb (length (eq (gray_raw ch))) (gwidth ch * gheight ch)) eqn:El; [|reflexivity]. cbn [bind].
    apply Nat.eqb_eq in El. set (im := mkArray2 (gwidth ch) (gheight ch) (split_rows (gwidth ch) (gheight ch) (eq (gray_raw ch)))).
    assert (Wim : wf im) by (split; cbn [rows dim0 dim1 im]; [apply split_rows_length|now apply split_rows_wf]).
    destruct (le_lt_dec (gheight ch) (gwidth ch)) as [Hle|Hlt].
    + destruct (C44_number_and_indices_of_features g checks im amount) as (fs & Ef & Lf & _); [unfold amount_ok; lia|exact Wim|exact Hle|].
      pose proof (C40_more_than_85_features_panic R Rops K E (fun l => l) (fun _ _ => Ok fs) checks pad (mkGray 0 0 []) depth step amount L H85 ltac:(intros; right; eauto)) as P.
      unfold watermark_channel, channel_features, from_shape_vec in P. cbn [gwidth gheight gray_raw length Nat.mul Nat.eqb bind] in P.
      rewrite Ef. cbn [bind] in *.
      destruct (three_bit_quantization Rops checks fs step) as [(q, bits)| |] eqn:Eq; cbn [bind] in *; [|reflexivity|discriminate].
      destruct (sign E (vec_i64_to_bytes q) PRIVATE_KEY PUBLIC_KEY) as [sig| |]; cbn [bind] in *; [|reflexivity|discriminate].
      destruct (quantization_inv Rops checks fs step q bits Eq) as (_ & _ & Lb).
      rewrite serialize_toolong; [reflexivity|]. unfold fits. cbn [perturbation_vector]. lia.
    + destruct (C49_tall_images_are_rejected g checks im amount Wim) as (r & Er); [cbn [im dim0 dim1]; lia|exact Ha|]. rewrite Er. reflexivity.
Qed.

(** *** C41 *)
Theorem C41_sign_then_verify : forall E sk pk data, signature_format E -> key_pair E sk pk ->
  exists sig, sign E data sk pk = Ok sig /\ length sig = 64%nat /\ verify E data sig pk = Ok true.
Proof. intros E sk pk data H1 H2. destruct (sign_verify E sk pk data H1 H2) as (s & A & B & _ & C). exists s. auto. Qed.

(** [verify] gives a verdict exactly for a well-formed public key and a well-formed signature; anything else panics (it does not return
    false). *)
Theorem C41_verify_domain : forall E data sig pk,
  (exists verdict, verify E data sig pk = Ok verdict) /\
     (exists pb vk s, decode_hex pk = Ok (Some pb) /\ pubkey_from_bytes E pb = Some vk /\ signature_from_bytes E sig = Some s
        /\ verify E data sig pk = Ok (ed_verify E vk data s))
  \/ (exists r, verify E data sig pk = Panic r) /\
     ~ (exists pb vk s, decode_hex pk = Ok (Some pb) /\ pubkey_from_bytes E pb = Some vk /\ signature_from_bytes E sig = Some s).
Proof.
  intros E data sig pk. unfold verify, decode_hex_unwrap. destruct C12_hex_codec as (_ & _ & _ & _ & H). specialize (H pk).
  destruct (decode_hex pk) as [[pb|]|r|] eqn:Ed; cbn [bind]; [| | |congruence].
  - destruct (pubkey_from_bytes E pb) as [vk|] eqn:Ek; cbn [unwrap_err bind].
    + destruct (signature_from_bytes E sig) as [s|] eqn:Es; cbn [unwrap_err bind].
      * left. split; [eauto|]. exists pb, vk, s. auto.
      * right. split; [eauto|]. intros (a & b & c & _ & _ & C). discriminate.
    + right. split; [eauto|]. intros (a & b & c & A & B & _). congruence.
  - right. split; [eauto|]. intros (a & b & c & A & _). congruence.
  - right. split; [eauto|]. intros (a & b & c & A & _). congruence.
Qed.

(** [sign] never looks at anything but the two keys and the data, and needs both keys well-formed. *)
Theorem C41_sign_domain : forall E data sk pk sig, sign E data sk pk = Ok sig <->
  exists sb pb kp, decode_hex sk = Ok (Some sb) /\ decode_hex pk = Ok (Some pb) /\ keypair_from_bytes E (sb ++ pb) = Some kp
    /\ sig = signature_to_bytes E (ed_sign E kp data).
Proof.
  intros E data sk pk sig. unfold sign, decode_hex_unwrap. split.
  - destruct (decode_hex sk) as [[sb|]|r|]; cbn [bind]; try discriminate. destruct (decode_hex pk) as [[pb|]|r|]; cbn [bind]; try discriminate.
    destruct (keypair_from_bytes E (sb ++ pb)) as [kp|] eqn:Ek; cbn [unwrap_err bind]; [|discriminate]. intros H. exists sb, pb, kp. repeat split; congruence.
  - intros (sb & pb & kp & -> & -> & H & ->). cbn [bind]. rewrite H. reflexivity.
Qed.

(** Generated key pairs, printed as hexadecimal text, can be used for signing and verifying. *)
Theorem C41_generated_keys_work : forall E secret_bytes public_bytes kp vk data, signature_format E ->
  bytes secret_bytes -> bytes public_bytes -> keypair_from_bytes E (secret_bytes ++ public_bytes) = Some kp ->
  pubkey_from_bytes E public_bytes = Some vk -> (forall d, ed_verify E vk d (ed_sign E kp d) = true) ->
  let '(private_key, public_key) := generate secret_bytes public_bytes in
  exists sig, sign E data private_key public_key = Ok sig /\ verify E data sig public_key = Ok true.
Proof.
  intros E sb pb kp vk data HE Bs Bp Hk Hv Hok. cbn [generate].
  destruct (sign_verify E (encode_hex sb) (encode_hex pb) data HE) as (s & A & _ & _ & C); [|eauto].
  exists sb, pb, kp, vk. destruct C12_hex_codec as (H & _). rewrite !H by assumption. auto.
Qed.

(** ** Witnesses: the hypotheses can be met *)
(** A toy signature scheme: one key, the signature is a checksum bit in a 64-byte frame. *)
Definition toy_parity (data : list Z) : bool := Z.odd (fold_right Z.add 0 data).
Definition toy_ed : ed25519 := {|
  keypair := unit; pubkey := unit; ed_signature := bool;
  keypair_from_bytes := fun l => if Nat.eqb (length l) 64 then Some tt else None;
  pubkey_from_bytes := fun l => if Nat.eqb (length l) 32 then Some tt else None;
  signature_from_bytes := fun l => if Nat.eqb (length l) 64 then Some (Z.odd (nth 0 l 0)) else None;
  signature_to_bytes := fun b : bool => Z.b2z b :: repeat 0 63;
  ed_sign := fun _ data => toy_parity data;
  ed_verify := fun _ data s => Bool.eqb (toy_parity data) s
|}.
Lemma toy_format : signature_format toy_ed.
Proof.
  split.
  - intros [|]; reflexivity.
  - intros s. reflexivity.
  - intros [|]; apply Forall_forall; intros x [ <- |Hx]; try (cbn; unfold byte; lia); apply repeat_spec in Hx; subst x; unfold byte; lia.
Qed.
Lemma toy_keys : key_pair toy_ed PRIVATE_KEY PUBLIC_KEY.
Proof.
  destruct (decode_hex PRIVATE_KEY) as [[sb|]| |] eqn:E1; try (vm_compute in E1; discriminate).
  destruct (decode_hex PUBLIC_KEY) as [[pb|]| |] eqn:E2; try (vm_compute in E2; discriminate).
  exists sb, pb, tt, tt. split; [exact E1|]. split; [exact E2|].
  assert (L1 : length sb = 32%nat) by (vm_compute in E1; congruence || (injection E1 as <-; reflexivity)).
  assert (L2 : length pb = 32%nat) by (vm_compute in E2; congruence || (injection E2 as <-; reflexivity)).
  cbn. rewrite app_length, L1, L2. cbn. split; [reflexivity|]. split; [reflexivity|]. intros data. apply eqb_reflx.
Qed.

Definition grey512 : gray := mkGray 512 512 (repeat 128 (512 * 512)).
Lemma grey512_picture : gray_picture grey512 512 3.
Proof.
  unfold gray_picture. split; [reflexivity|]. split; [reflexivity|]. split; [apply repeat_length|]. split.
  - apply Forall_forall. intros x Hx. apply repeat_spec in Hx. subst x. unfold byte. lia.
  - split; [reflexivity|]. split; [lia|]. rewrite Nat2Z.inj_mul. lia.
Qed.
Lemma grey512_room bits margin : (margin <= 127)%R -> gray_room grey512 512 3 bits margin.
Proof.
  intros H i j v _ _ E _. unfold gray_pixel in E. apply nth_error_In, repeat_spec in E. subst v. lra.
Qed.
Lemma usable_512 : usable 512 3. Proof. apply usable_b. vm_compute. reflexivity. Qed.
Lemma fits_512 : (stored_size 512 3 (payload_size 11) <= band_capacity 512 3)%nat. Proof. vm_compute. lia. Qed.

(** A toy feature extractor over the reals: the value of the first pixel, repeated. *)
Definition toy_features (image : array2 Z) (amount : nat) : outcome (list R) :=
  Ok (repeat (match cell image 0 0 with Some v => IZR v | None => 0%R end) amount).

Lemma Forall_repeat {A} (P : A -> Prop) x k : P x -> Forall P (repeat x k).
Proof. intros H. apply Forall_forall. intros y Hy. apply repeat_spec in Hy. now subst y. Qed.
Lemma Forall2_repeat {A B} (P : A -> B -> Prop) x y k : P x y -> Forall2 P (repeat x k) (repeat y k).
Proof. intros H. induction k; constructor; assumption. Qed.

(** A grey 512 x 512 channel is watermarked at depth 100 and quantisation step 10 and the result authenticates, although the
    marking may move the feature by 9 units. *)
Example C36_instance : exists marked,
  watermark_channel Rops toy_ldpc toy_ed (fun l => l) toy_features true (repeat false 8) grey512 100%R 10%R 11 3 = Ok marked
  /\ authenticate_channel Rops toy_ldpc toy_ed (fun l => l) toy_features true marked 100%R 10%R 11 3 = Ok true.
Proof.
  destruct (gray_array grey512 512 3 grey512_picture) as (im & Eim & Him & Hcell).
  assert (E00 : cell im 0 0 = Some 128).
  { rewrite Hcell by lia. unfold gray_pixel, grey512. cbn [gray_raw]. rewrite Nat.mul_0_r, Nat.add_0_l.
    replace (512 * 512)%nat with (S (512 * 512 - 1)) by lia. reflexivity. }
  assert (Hm : measures (fun l => l) toy_features grey512 11 (repeat 128%R 11)).
  { exists im. split; [exact Eim|]. unfold toy_features. now rewrite E00. }
  destruct (C36_watermarked_channel_authenticates toy_ldpc toy_shape toy_decodes toy_ed toy_format toy_keys (fun l => l) toy_features true (repeat false 8) eq_refl
              grey512 512 3 100%R 10%R 11 (repeat 128%R 11) grey512_picture usable_512 Hm) as (mk & E1 & G & A).
  - lra.
  - apply Forall_repeat. replace (Zfloor (128 / 10)) with 12%Z by (symmetry; apply Zfloor_imp; simpl; lra). unfold fits_i64. lia.
  - rewrite repeat_length. lia.
  - rewrite repeat_length. exact fits_512.
  - simpl. lra.
  - apply grey512_room. simpl. lra.
  - exists mk. split; [exact E1|].
    apply watermark_inv in E1 as (im' & fs' & q & bits & sig & pl & out & H1 & H2 & H3 & H4 & H5 & H6 & H7).
    assert (im' = im) by congruence. subst im'.
    destruct (gray_array mk 512 3 G) as (om & Eom & (Hom & _) & _). rewrite H7 in Eom. cbn [gwidth gheight gray_raw grey512] in Eom.
    destruct Him as (Hc & H8). destruct (embed_inv Rops toy_ldpc im 512 3 100%R pl out Hc H6) as (H9 & ser & enc & F1 & F2 & F3).
    destruct (embed_effect_real toy_ldpc im 512 3 100%R pl ser enc Hc H8 ltac:(lra) H9 F1 F2 F3) as (out' & Eo & Heff).
    assert (out' = out) by congruence. subst out'. destruct (array_gray out 512 3 (eff_shape _ _ _ _ _ _ _ _ _ Heff)) as (_ & Fout).
    assert (om = out) by congruence. subst om.
    destruct (cell_bounds out 0 0) as (w & Ew); [apply Hom|destruct Hom as (_ & -> & _); lia|destruct Hom as (_ & _ & -> & _); lia|].
    pose proof (C32_pixel_change_bound toy_ldpc im 512 3 100%R pl out (conj Hc H8) ltac:(lra) H6 0 0 128 w E00 Ew) as Hb.
    apply (A (repeat (IZR w) 11)).
    + exists out. rewrite H7. cbn [gwidth gheight gray_raw grey512]. split; [exact Eom|]. unfold toy_features. now rewrite Ew.
    + apply Forall2_repeat. simpl in Hb. lra.
Qed.

(** The double-precision theorem at the parameters of the command line's depth (100.0) and the quantisation step 1.0. *)
Definition toy_features_f64 (image : array2 Z) (amount : nat) : outcome (list b64) := Ok (repeat (b_dyadic 5 (-1)) amount).
Example C36_f64_instance : exists marked,
  watermark_channel Bops toy_ldpc toy_ed (fun l => l) toy_features_f64 true (repeat false 8) grey512 (f_of_Z Bops 100) (f_of_Z Bops 1) 11 3 = Ok marked
  /\ authenticate_channel Bops toy_ldpc toy_ed (fun l => l) toy_features_f64 true marked (f_of_Z Bops 100) (f_of_Z Bops 1) 11 3 = Ok true.
Proof.
  destruct (gray_array grey512 512 3 grey512_picture) as (im & Eim & Him & Hcell).
  assert (Hm : measures (fun l => l) toy_features_f64 grey512 11 (repeat (b_dyadic 5 (-1)) 11)) by (exists im; split; [exact Eim|reflexivity]).
  destruct (b_of_Z_ok 100) as (F1 & V1); [lia|]. destruct (b_of_Z_ok 1) as (F2 & V2); [lia|].
  change (b_of_Z 100) with (f_of_Z Bops 100) in *. change (b_of_Z 1) with (f_of_Z Bops 1) in *.
  destruct (C36_f64_watermarked_channel_authenticates toy_ldpc toy_shape toy_decodes toy_ed toy_format toy_keys (fun l => l) toy_features_f64 true (repeat false 8) eq_refl
              grey512 512 3 (f_of_Z Bops 100) (f_of_Z Bops 1) 11 (repeat (b_dyadic 5 (-1)) 11) grey512_picture ltac:(lia) usable_512 Hm F2) as (mk & E1 & G & _ & A).
  - rewrite V2. split; [apply Rle_trans with (bpow radix2 0); [apply bpow_le; lia|simpl; lra]|apply Rle_trans with (bpow radix2 0); [simpl; lra|apply bpow_le; lia]].
  - intros _. unfold quantize. rewrite Forall_map. apply Forall_repeat. vm_compute. discriminate.
  - rewrite repeat_length. lia.
  - rewrite repeat_length. exact fits_512.
  - exact F1.
  - rewrite V1. simpl. lra.
  - apply grey512_room. rewrite V1. simpl. lra.
  - exists mk. split; [exact E1|]. apply A. destruct (gray_array mk 512 3 G) as (om & Eom & _). exists om. split; [exact Eom|reflexivity].
Qed.

(** C37: the toy scheme together with a "signed" set that makes it unforgeable (everything of even or odd checksum is accepted, so the
    set must be all vectors: the hypothesis is about the scheme, and a scheme that accepts one signature per signed vector meets it). *)
Definition strict_ed (v0 : list Z) : ed25519 := {|
  keypair := unit; pubkey := unit; ed_signature := unit;
  keypair_from_bytes := fun _ => Some tt; pubkey_from_bytes := fun _ => Some tt;
  signature_from_bytes := fun l => if Nat.eqb (length l) 64 then Some tt else None;
  signature_to_bytes := fun _ => repeat 0 64;
  ed_sign := fun _ _ => tt;
  ed_verify := fun _ data _ => if list_eq_dec Z.eq_dec data (vec_i64_to_bytes v0) then true else false
|}.
Example C37_witness : unforgeable (strict_ed [-3; 12]) PUBLIC_KEY (fun v => v = [-3; 12]).
Proof.
  intros pb vk data sig _ _ H. cbn [ed_verify strict_ed] in H. destruct (list_eq_dec Z.eq_dec data (vec_i64_to_bytes [-3; 12])) as [E|]; [|discriminate].
  exists [-3; 12]. split; [reflexivity|]. split; [repeat constructor; lia|exact E].
Qed.
(** and a channel that authenticates exists (C36_instance); the two exact characterisations apply to it: *)
Example C37_instance : exists channel image features payload w restored,
  authenticate_channel Rops toy_ldpc toy_ed (fun l => l) toy_features true channel 100%R 10%R 11 3 = Ok true
  /\ from_shape_vec (gwidth channel) (gheight channel) (gray_raw channel) = Ok image
  /\ measures (fun l => l) toy_features channel 11 features
  /\ extract Rops toy_ldpc image 100%R 3 = Ok payload /\ watermark_deserialize payload = Ok w
  /\ three_bit_dequantization Rops true features (perturbation_vector w) 10%R = Ok restored.
Proof.
  destruct C36_instance as (mk & _ & A). pose proof A as A'.
  apply C37_authentic_iff_signature_on_restored_features in A' as (im & fs & pl & w & r & pb & vk & sg & H1 & H2 & H3 & H4 & H5 & _).
  exists mk, im, fs, pl, w, r. repeat split; assumption.
Qed.
Example C40_witness : exists channel, (0 < gwidth channel)%nat /\ (85 < 86)%nat
  /\ is_panic (watermark_channel Rops toy_ldpc toy_ed (fun l => l) toy_features true (repeat false 8) channel 100%R 10%R 86 3) = true.
Proof.
  exists grey512. split; [cbn; lia|]. split; [lia|]. apply C40_more_than_85_features_panic; [lia|]. intros im. right. eexists. split; [reflexivity|]. apply repeat_length.
Qed.
Example C41_witness : signature_format toy_ed /\ key_pair toy_ed PRIVATE_KEY PUBLIC_KEY
  /\ (exists r, verify toy_ed [1; 2] (repeat 0 63) PUBLIC_KEY = Panic r)
  /\ verify toy_ed [1; 2] (repeat 0 64) PUBLIC_KEY = Ok false.
Proof. split; [exact toy_format|]. split; [exact toy_keys|]. split; [eexists|]; vm_compute; reflexivity. Qed.

(** C39: a 384 x 384 channel is watermarked without complaint and never gives a verdict. *)
Example C39_instance : exists channel marked, gray_picture channel 384 3
  /\ watermark_channel Rops toy_ldpc toy_ed (fun l => l) toy_features true (repeat false 8) channel 100%R 10%R 11 3 = Ok marked
  /\ forall verdict, authenticate_channel Rops toy_ldpc toy_ed (fun l => l) toy_features true marked 100%R 10%R 11 3 <> Ok verdict.
Proof.
  set (ch := mkGray 384 384 (repeat 128 (384 * 384))).
  assert (G : gray_picture ch 384 3).
  { unfold gray_picture, ch. cbn [gwidth gheight gray_raw]. split; [reflexivity|]. split; [reflexivity|]. split; [apply repeat_length|]. split.
    - apply Forall_forall. intros x Hx. apply repeat_spec in Hx. subst x. unfold byte. lia.
    - split; [reflexivity|]. split; [lia|]. rewrite Nat2Z.inj_mul. lia. }
  destruct (gray_array ch 384 3 G) as (im & Eim & Him & Hcell).
  assert (E00 : cell im 0 0 = Some 128).
  { rewrite Hcell by lia. unfold gray_pixel, ch. cbn [gray_raw]. rewrite Nat.mul_0_r, Nat.add_0_l.
    replace (384 * 384)%nat with (S (384 * 384 - 1)) by lia. reflexivity. }
  assert (Hm : measures (fun l => l) toy_features ch 11 (repeat 128%R 11)) by (exists im; split; [exact Eim|unfold toy_features; now rewrite E00]).
  assert (Ecap : band_capacity 384 3 = 288%nat) by (vm_compute; reflexivity).
  destruct (C39_watermarking_returns_iff_the_payload_fits R Rops toy_ldpc toy_shape toy_ed toy_format toy_keys (fun l => l) toy_features true (repeat false 8) eq_refl
              ch 384 3 100%R 10%R 11 (repeat 128%R 11) 88 G Hm) as (_ & _ & H).
  - intros _. unfold quantize. rewrite Forall_map. apply Forall_repeat. rewrite quantize1_bin.
    + unfold QuantReal.bin. replace (Zfloor (128 / 10)) with 12%Z by (symmetry; apply Zfloor_imp; simpl; lra). lia.
    + unfold QuantReal.bin. replace (Zfloor (128 / 10)) with 12%Z by (symmetry; apply Zfloor_imp; simpl; lra). unfold in_i64, i64_min, i64_max. lia.
  - rewrite repeat_length. lia.
  - unfold embedded_size. rewrite Ecap. split; [unfold coded; lia|reflexivity].
  - rewrite Ecap in H. destruct H as (mk & E1 & _); [lia|lia|]. exists ch, mk. split; [exact G|]. split; [exact E1|].
    apply (C39_below_1024_only_side_512_can_authenticate toy_ldpc toy_shape toy_ed toy_format (fun l => l) toy_features true (repeat false 8) ch 384 100%R 10%R (repeat 128%R 11) mk);
      try assumption; try lia; try lra; try reflexivity.
    intros i j v _ _ E _. unfold gray_pixel, ch in E. cbn [gray_raw] in E. apply nth_error_In, repeat_spec in E. subst v. lra.
Qed.

Print Assumptions C36_watermarked_channel_authenticates.
Print Assumptions C36_f64_watermarked_channel_authenticates.
Print Assumptions C37_authentic_iff_signature_on_restored_features.
Print Assumptions C37_only_images_close_to_signed_features_authenticate.
Print Assumptions C37_f64_only_images_close_to_signed_features_authenticate.
Print Assumptions C38_verdict_ignores_the_text.
Print Assumptions C38_text_can_be_replaced_without_the_key.
Print Assumptions C39_watermarking_returns_iff_the_payload_fits.
Print Assumptions C39_eleven_features.
Print Assumptions C39_below_1024_only_side_512_can_authenticate.
Print Assumptions C39_f64_below_1024_only_side_512_can_authenticate.
Print Assumptions C40_more_than_85_features_panic.
Print Assumptions C40_zernike_feature_amounts.
Print Assumptions C41_sign_then_verify.
Print Assumptions C41_verify_domain.
Print Assumptions C41_sign_domain.
Print Assumptions C41_generated_keys_work.
Print Assumptions C58_only_the_stored_number_of_features_is_checked.
