(** Composition of the components: lib/sia/rust/watermarking/src/process.rs and lib/sia/rust/signature/src/lib.rs. *)
From Verif Require Import Outcome Floats Bits ListFacts Quantization QuantProofs Codecs CodecProofs WatermarkProofs PropsCodec Encoding EncodingProofs
  Matrix MatrixFacts Stego StegoProofs Embedding EmbeddingProofs Signature Process.
Open Scope Z_scope.

(** ** Laws of the Ed25519 library (oracle) *)
(** Signatures are 64 bytes and parse back. *)
Record signature_format (E : ed25519) : Prop := {
  sf_parse : forall s, signature_from_bytes E (signature_to_bytes E s) = Some s;
  sf_length : forall s, length (signature_to_bytes E s) = 64%nat;
  sf_bytes : forall s, bytes (signature_to_bytes E s)
}.
(** [sk], [pk] are hexadecimal texts of a private and a public key that belong together. *)
Definition key_pair (E : ed25519) (sk pk : list Z) : Prop :=
  exists sb pb kp vk, decode_hex sk = Ok (Some sb) /\ decode_hex pk = Ok (Some pb)
    /\ keypair_from_bytes E (sb ++ pb) = Some kp /\ pubkey_from_bytes E pb = Some vk
    /\ forall data, ed_verify E vk data (ed_sign E kp data) = true.

Lemma sign_verify E sk pk data : signature_format E -> key_pair E sk pk ->
  exists sig, sign E data sk pk = Ok sig /\ length sig = 64%nat /\ bytes sig /\ verify E data sig pk = Ok true.
Proof.
  intros [P L B] (sb & pb & kp & vk & H1 & H2 & H3 & H4 & H5). unfold sign, verify, decode_hex_unwrap.
  rewrite H1, H2. cbn [bind]. rewrite H3, H4. cbn [unwrap_err bind]. eexists. split; [reflexivity|].
  split; [apply L|]. split; [apply B|]. rewrite P. cbn [unwrap_err bind]. now rewrite H5.
Qed.

(** ** serialised watermark *)
Lemma payload_ok pad w : length pad = 8%nat -> bytes (signature w) -> Forall scalar (text w) -> fits w ->
  exists payload, watermark_serialize pad w = Ok payload /\ bytes payload
    /\ length payload = (3 + (length (perturbation_vector w) + 7) / 8 + length (signature w) + length (string_as_bytes (text w)))%nat
    /\ watermark_deserialize payload = Ok w.
Proof.
  intros Hp Hs Ht Hf. pose proof Hf as (F1 & F2 & F3).
  destruct (C07_watermark_roundtrip pad w [] Hp Ht F1 F2 F3) as (bs & E1 & E2). rewrite app_nil_r in E2.
  exists bs. split; [exact E1|].
  pose proof (serialize_ok pad w Hf) as E3. assert (Eb : bs = header w ++ raw_bytes pad (perturbation_vector w) ++ signature w ++ string_as_bytes (text w)) by congruence.
  destruct (C06_perturbation_bytes_roundtrip pad (perturbation_vector w) Hp ltac:(lia)) as (pb & E4 & L4 & B4 & _).
  assert (Epb : raw_bytes pad (perturbation_vector w) = pb).
  { rewrite perturbation_vector_as_bytes_ok in E4 by lia. congruence. }
  split; [|split; [|exact E2]].
  - rewrite Eb, Epb. apply Forall_app. split; [|apply Forall_app; split; [exact B4|apply Forall_app; split; [exact Hs|now apply C13_utf8_roundtrip]]].
    unfold header. repeat constructor; unfold byte; lia.
  - rewrite Eb, Epb, !app_length, L4. unfold header. cbn [length]. lia.
Qed.

(** ** the channel *)
Lemma cell_split {A} d0 d1 (v : list A) i j : (j < d1)%nat -> (i < d0)%nat ->
  cell (mkArray2 d0 d1 (split_rows d0 d1 v)) i j = nth_error v (d1 * i + j).
Proof.
  unfold cell. cbn [rows]. intros Hj. revert v d0. induction i as [|i IH]; intros v [|d0] Hi; try lia; cbn [split_rows nth_error].
  - rewrite Nat.mul_0_r. cbn [Nat.add]. revert v j Hj. clear. induction d1 as [|d IH]; intros [|a v] j Hj; try lia; [now destruct j|].
    destruct j; [reflexivity|]. cbn [firstn nth_error]. apply IH. lia.
  - rewrite IH by lia. replace (d1 * S i + j)%nat with (d1 + (d1 * i + j))%nat by lia. revert v. generalize (d1 * i + j)%nat as k. clear.
    induction d1 as [|d IH]; intros k [|a v]; try reflexivity; [now destruct k|]. cbn [skipn Nat.add nth_error]. apply IH.
Qed.

Lemma quantization_inv {F} (O : FOps F) checks xs step q bits : three_bit_quantization O checks xs step = Ok (q, bits) ->
  no_overflow O step checks xs /\ q = quantize O xs step /\ length bits = (3 * length xs)%nat.
Proof.
  intros H.
  assert (Ho : no_overflow O step checks xs).
  { intros Hc. subst checks. destruct (Forall_dec (fun x => quantize1 O step x <> i64_min)) with (l := xs) as [Y|N]; [|exact Y|].
    - intros x. destruct (Z.eq_dec (quantize1 O step x) i64_min); [right; tauto|left; assumption].
    - rewrite quantization_overflow in H by exact N. discriminate. }
  split; [exact Ho|]. rewrite quantization_ok in H by exact Ho. split; [congruence|].
  assert (Hb : bits = flat_map (bits3 O step) xs) by congruence. rewrite Hb. clear. induction xs as [|x t IH]; [reflexivity|].
  cbn [flat_map]. rewrite app_length, IH, bits3_length. cbn [length]. lia.
Qed.

Section Run.
Context {F : Type} (O : FOps F) (K : ldpc) (E : ed25519) (equalize : list Z -> list Z) (features_of : array2 Z -> nat -> outcome (list F)).

(** The features the program computes for a channel. *)
Definition measures (channel : gray) (amount : nat) (features : list F) : Prop :=
  exists equalised, from_shape_vec (gwidth channel) (gheight channel) (equalize (gray_raw channel)) = Ok equalised
    /\ features_of equalised amount = Ok features.

Lemma channel_features_ok channel amount image features :
  from_shape_vec (gwidth channel) (gheight channel) (gray_raw channel) = Ok image -> measures channel amount features ->
  channel_features equalize features_of channel amount = Ok (image, features).
Proof. intros H1 (e & H2 & H3). unfold channel_features. rewrite H1, H2. cbn [bind]. rewrite H3. reflexivity. Qed.

Lemma channel_features_inv channel amount image features : channel_features equalize features_of channel amount = Ok (image, features) ->
  from_shape_vec (gwidth channel) (gheight channel) (gray_raw channel) = Ok image /\ measures channel amount features.
Proof.
  unfold channel_features. intros H. apply bind_ok in H as (a & H1 & H). apply bind_ok in H as (e & H2 & H). apply bind_ok in H as (f & H3 & H).
  assert (a = image) by congruence. assert (f = features) by congruence. subst a f. split; [exact H1|]. exists e. split; assumption.
Qed.

Lemma watermark_run checks pad channel image amount features step q bits sig payload out depth levels :
  from_shape_vec (gwidth channel) (gheight channel) (gray_raw channel) = Ok image -> measures channel amount features ->
  three_bit_quantization O checks features step = Ok (q, bits) ->
  sign E (vec_i64_to_bytes q) PRIVATE_KEY PUBLIC_KEY = Ok sig ->
  watermark_serialize pad (mkWatermark bits sig WATERMARK_TEXT) = Ok payload ->
  embed O K image payload depth levels = Ok out -> wf out -> dim0 out = gwidth channel -> dim1 out = gheight channel ->
  watermark_channel O K E equalize features_of checks pad channel depth step amount levels
  = Ok (mkGray (gwidth channel) (gheight channel) (into_raw_vec out)).
Proof.
  intros H1 H2 H3 H4 H5 H6 Hwf D0 D1. unfold watermark_channel. rewrite (channel_features_ok _ _ _ _ H1 H2). cbn [bind].
  rewrite H3. cbn [bind]. rewrite H4. cbn [bind]. rewrite H5. cbn [bind]. rewrite H6. cbn [bind].
  rewrite into_raw_vec_length, D0, D1, Nat.leb_refl by exact Hwf. reflexivity.
Qed.

Lemma watermark_embed_panic checks pad channel image amount features step q bits sig payload r depth levels :
  from_shape_vec (gwidth channel) (gheight channel) (gray_raw channel) = Ok image -> measures channel amount features ->
  three_bit_quantization O checks features step = Ok (q, bits) ->
  sign E (vec_i64_to_bytes q) PRIVATE_KEY PUBLIC_KEY = Ok sig ->
  watermark_serialize pad (mkWatermark bits sig WATERMARK_TEXT) = Ok payload ->
  embed O K image payload depth levels = Panic r ->
  watermark_channel O K E equalize features_of checks pad channel depth step amount levels = Panic r.
Proof.
  intros H1 H2 H3 H4 H5 H6. unfold watermark_channel. rewrite (channel_features_ok _ _ _ _ H1 H2). cbn [bind].
  rewrite H3. cbn [bind]. rewrite H4. cbn [bind]. rewrite H5. cbn [bind]. rewrite H6. reflexivity.
Qed.

Lemma authenticate_run checks channel image amount features step w payload depth levels :
  from_shape_vec (gwidth channel) (gheight channel) (gray_raw channel) = Ok image -> measures channel amount features ->
  extract O K image depth levels = Ok payload -> watermark_deserialize payload = Ok w ->
  authenticate_channel O K E equalize features_of checks channel depth step amount levels
  = (q <- three_bit_dequantization O checks features (perturbation_vector w) step ;; verify E (vec_i64_to_bytes q) (signature w) PUBLIC_KEY).
Proof.
  intros H1 H2 H3 H4. unfold authenticate_channel. rewrite (channel_features_ok _ _ _ _ H1 H2). cbn [bind].
  rewrite H3. cbn [bind]. rewrite H4. reflexivity.
Qed.

End Run.
