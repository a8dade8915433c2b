(** Properties C30-C35 and C57: embedding and extraction (lib/sia/rust/embedding/src/lib.rs). *)
From Coq Require Import Reals Lra.
From Flocq Require Import Core BinarySingleNaN.
From Verif Require Import Outcome Floats FloatFacts Bits ListFacts IndexArithProofs Codecs CodecProofs WatermarkProofs Encoding EncodingProofs PropsEncoding
  Matrix MatrixFacts Haar HaarProofs HaarReal HaarFloat PropsHaar QuantFloat Stego StegoProofs StegoMarks PropsStego Embedding EmbeddingProofs EmbeddingEffect Toy.
Open Scope R_scope.

(** ** Specification vocabulary *)

(** [picture image n levels]: an n x n 8-bit picture, n divisible by 2^levels. *)
Definition picture (image : array2 Z) (n levels : nat) : Prop := carrier image n levels /\ image8 image.

(** Capacity in bytes of the low-pass band of an n x n picture. *)
Definition band_capacity (n levels : nat) : nat := ((n / 2 ^ levels) * (n / 2 ^ levels) / 8)%nat.

(** Number of bytes stored for a payload: two bytes of frame length, two of encoder length, whole code words. *)
Definition stored_size (n levels len : nat) : nat :=
  let cap := band_capacity n levels in ((len + 4 + message_size cap - 1) / message_size cap * codeword_size cap)%nat.

(** The 2^levels x 2^levels pixel block of pixel (i, j) is one of the first [bits] blocks in row-major order. *)
Definition in_first_blocks (n levels bits i j : nat) : Prop :=
  ((n / 2 ^ levels) * (i / 2 ^ levels) + j / 2 ^ levels < bits)%nat.

(** Pixels carrying data are at least [margin] away from 0 and 255. *)
Definition room (image : array2 Z) (n levels bits : nat) (margin : R) : Prop :=
  forall i j v, cell image i j = Some v -> in_first_blocks n levels bits i j -> margin <= IZR v <= 255 - margin.

(** The sizes for which the encoder and decoder agree. *)
Definition usable (n levels : nat) : Prop :=
  coded (band_capacity n levels) /\ (band_capacity n levels mod codeword_size (band_capacity n levels) = 0)%nat.

(** ** helpers *)
Lemma used_blocks n L enc i j : (n mod 2 ^ L = 0)%nat -> (i < n)%nat -> (j < n)%nat ->
  used (band n L) enc (i / 2 ^ L) (j / 2 ^ L) = true <-> in_first_blocks n L (8 * length enc) i j.
Proof.
  intros Hm Hi Hj. unfold used, in_first_blocks, band. pose proof (pow2_pos L) as Hp.
  assert (G : forall k, (k < n)%nat -> (k / 2 ^ L < n / 2 ^ L)%nat).
  { intros k Hk. apply Nat.div_lt_upper_bound; [lia|]. pose proof (Nat.div_mod n (2 ^ L) ltac:(lia)). lia. }
  rewrite (proj2 (Nat.ltb_lt _ _) (G i Hi)), (proj2 (Nat.ltb_lt _ _) (G j Hj)). cbn [andb]. apply Nat.ltb_lt.
Qed.
Lemma used_blocks_false n L enc i j : (n mod 2 ^ L = 0)%nat -> (i < n)%nat -> (j < n)%nat ->
  ~ in_first_blocks n L (8 * length enc) i j -> used (band n L) enc (i / 2 ^ L) (j / 2 ^ L) = false.
Proof.
  intros Hm Hi Hj H. destruct (used _ _ _ _) eqn:E; [|reflexivity]. apply used_blocks in E; try assumption. contradiction.
Qed.

Lemma cell_some_lt {A} (m : array2 A) n L i j v : carrier m n L -> cell m i j = Some v -> (i < n)%nat /\ (j < n)%nat.
Proof.
  intros (Hwf & E0 & E1 & _) Ev.
  destruct (Nat.lt_ge_cases i n), (Nat.lt_ge_cases j n); try (rewrite cell_none in Ev by (try exact Hwf; lia); discriminate). auto.
Qed.

Lemma embed_inv {F} (O : FOps F) K m n L depth payload out : carrier m n L -> embed O K m payload depth L = Ok out ->
  let s := band n L in
  (9 <= s * s / 8)%nat /\ exists ser enc, data_serialize payload = Ok ser /\ encode K ser (s * s / 8) = Ok enc /\ (length enc <= s * s / 8)%nat.
Proof.
  intros Hc E s. pose proof (carrier_band m n L Hc) as (_ & Hrep & Hdiv & _). fold s in Hrep. pose proof Hc as (Hwf & E0 & E1 & Hmod & HL & Hr).
  destruct (le_lt_dec 9 (s * s / 8)) as [H9|H9].
  - split; [exact H9|].
    destruct (data_serialize payload) as [ser| |] eqn:Eser.
    2,3: exfalso; unfold embed in E; apply bind_ok in E as (C & _ & E); rewrite E0, E1, !ll_side_ok in E by lia; fold s in E; cbn [bind] in E;
      rewrite get_domain_capacity_ok, Eser in E by assumption; discriminate.
    destruct (encode K ser (s * s / 8)) as [enc| |] eqn:Eenc.
    2,3: exfalso; unfold embed in E; apply bind_ok in E as (C & _ & E); rewrite E0, E1, !ll_side_ok in E by lia; fold s in E; cbn [bind] in E;
      rewrite get_domain_capacity_ok, Eser in E by assumption; cbn [bind] in E; rewrite Eenc in E; discriminate.
    exists ser, enc. split; [reflexivity|]. split; [exact Eenc|].
    destruct (le_lt_dec (length enc) (s * s / 8)) as [Hl|Hl]; [exact Hl|exfalso].
    destruct (embed_run O K m n L depth payload ser enc Hc H9 Eser Eenc) as (_ & Hno). rewrite (Hno Hl) in E. discriminate.
  - exfalso. unfold embed in E. apply bind_ok in E as (C & _ & E). rewrite E0, E1, !ll_side_ok in E by lia. fold s in E. cbn [bind] in E.
    rewrite get_domain_capacity_small in E by assumption. discriminate.
Qed.

Lemma pow_half_3 L depth : (/ 2) ^ L * (3 / 4 * depth) = 3 * depth / 2 ^ (L + 2).
Proof. rewrite pow_inv, pow_add. simpl (2 ^ 2). field. apply pow_nonzero. lra. Qed.

Lemma used_cell n L enc k : (0 < band n L)%nat -> (k < 8 * length enc)%nat -> (length enc <= band n L * band n L / 8)%nat ->
  used (band n L) enc (k / band n L) (k mod band n L) = true /\ (k < band n L * band n L)%nat.
Proof.
  intros Hs Hk Hl. set (s := band n L) in *. pose proof (Nat.mul_div_le (s * s) 8 ltac:(lia)).
  assert (Hk2 : (k < s * s)%nat) by lia. destruct (place_lt s k Hs Hk2) as (H1 & H2).
  split; [|exact Hk2]. unfold used. rewrite (proj2 (Nat.ltb_lt _ _) H1), (proj2 (Nat.ltb_lt _ _) H2), place_inv by exact Hs. cbn [andb].
  apply Nat.ltb_lt. exact Hk.
Qed.

Lemma cell_bit_get {F} (O : FOps F) depth n L C k : in_domain (band n L) C -> (k < band n L * band n L)%nat -> (0 < band n L)%nat ->
  cell_bit O depth (band n L) C k = bit_of O depth (get O C (k / band n L) (k mod band n L)).
Proof.
  intros (Hwf & H0 & H1) Hk Hs. destruct (place_lt (band n L) k Hs Hk) as (P1 & P2).
  unfold cell_bit, cell_at. rewrite (cell_get O) by (try exact Hwf; lia). reflexivity.
Qed.

Lemma marked_bits_real m n L depth out enc Q : picture m n L -> effect m out n L depth enc 0 0 Q -> 2 ^ (L + 1) < depth ->
  (length enc <= band n L * band n L / 8)%nat -> room m n L (8 * length enc) (3 * depth / 2 ^ (L + 2)) ->
  forall C, in_domain (band n L) C -> dim0 C = n -> dim1 C = n ->
    (forall i j, get Rops C i j = transform Rops false n n L (get Rops (mapv (f_of_Z Rops) out)) i j) ->
    forall k, (k < 8 * length enc)%nat -> cell_bit Rops depth (band n L) C k = payload_bit enc k.
Proof.
  intros (Hc & H8) Heff Hd Hlen Hroom C Hdom C0 C1 GC k Hk. set (s := band n L) in *.
  pose proof (carrier_band m n L Hc) as (_ & _ & Hdiv & _).
  assert (Hd0 : 0 < depth) by (assert (0 < 2 ^ (L + 1)) by (apply pow_lt; lra); lra).
  assert (Hs : (0 < s)%nat).
  { destruct s; [|lia]. cbn in Hlen. lia. }
  destruct (used_cell n L enc k Hs Hk Hlen) as (Hu & Hk2). fold s in Hu, Hk2.
  unfold s. rewrite cell_bit_get by assumption. fold s. rewrite GC.
  rewrite (transform_ext Rops false n n L _ (pixR out) Hdiv) by (intros; apply get_pixR).
  destruct (marked_coefficients m out n L depth enc 0 0 Q Hc H8 ltac:(lra) Hd0 Heff) with (i := (k / s)%nat) (j := (k mod s)%nat) as (r & _ & Hr).
  - intros i j v Ev Hu'. rewrite pow_half_3. destruct (cell_some_lt m n L i j v Hc Ev) as (Hi & Hj).
    apply (Hroom i j v Ev). apply used_blocks; try assumption. apply Hc.
  - exact Hu.
  - fold s in Hr. rewrite place_inv in Hr by exact Hs.
    rewrite (bit_of_real depth r (payload_bit enc k)); [rewrite Rlt_bool_true by exact Hd0; reflexivity|lra|].
    rewrite (Rabs_pos_eq depth) by lra. eapply Rle_lt_trans; [exact Hr|]. rewrite pow_add in Hd. simpl in Hd. lra.
Qed.

Lemma marked_bits_float m n L (depth : b64) out enc : picture m n L -> (L <= 10)%nat -> fin depth ->
  effect m out n L (toR depth) enc (bpow radix2 (-10)) (bpow radix2 (-12)) (fun _ _ r => (Z.abs r <= 2 ^ 41)%Z) ->
  65 / 64 * 2 ^ (L + 1) <= toR depth <= bpow radix2 20 ->
  (length enc <= band n L * band n L / 8)%nat -> room m n L (8 * length enc) (3 * toR depth / 2 ^ (L + 2)) ->
  forall C, in_domain (band n L) C -> dim0 C = n -> dim1 C = n ->
    (forall i j, get Bops C i j = transform Bops false n n L (get Bops (mapv (f_of_Z Bops) out)) i j) ->
    forall k, (k < 8 * length enc)%nat -> cell_bit Bops depth (band n L) C k = payload_bit enc k.
Proof.
  intros (Hc & H8) HL Fd Heff Hd Hlen Hroom C Hdom C0 C1 GC k Hk. set (s := band n L) in *.
  pose proof (carrier_band m n L Hc) as (Hsn & _ & Hdiv & _). fold s in Hsn.
  assert (HpL : 1 <= 2 ^ L) by (apply pow_R1_Rle; lra).
  assert (Hd' : 65 / 32 * 2 ^ L <= toR depth) by (rewrite pow_add in Hd; simpl (2 ^ 1) in Hd; lra).
  assert (Hd0 : 0 < toR depth) by lra.
  assert (Hord : bpow radix2 (-500) <= toR depth <= bpow radix2 500).
  { split; [apply Rle_trans with (bpow radix2 0); [apply bpow_le; lia|simpl bpow; lra]|]. apply Rle_trans with (bpow radix2 20); [apply Hd|apply bpow_le; lia]. }
  assert (Hs : (0 < s)%nat).
  { destruct s; [|lia]. cbn in Hlen. lia. }
  destruct (used_cell n L enc k Hs Hk Hlen) as (Hu & Hk2). fold s in Hu, Hk2.
  unfold s. rewrite cell_bit_get by assumption. fold s. rewrite GC.
  destruct (eff_shape _ _ _ _ _ _ _ _ _ Heff) as (Hco & H8o).
  assert (HA : approx n n (bpow radix2 (-24)) (transform Bops false n n L (get Bops (mapv (f_of_Z Bops) out))) (transR false n n L (pixR out))).
  { destruct Hco as (_ & E0 & E1 & _). pose proof (pixR_bounded out H8o) as Hb. pose proof (pix_float out H8o) as Hp. rewrite E0, E1 in *.
    apply analysis_float; assumption. }
  assert (Hb10 : 0 <= bpow radix2 (-10) < / 2) by (simpl bpow; lra).
  destruct (marked_coefficients m out n L (toR depth) enc (bpow radix2 (-10)) (bpow radix2 (-12)) _ Hc H8 (bpow_ge_0 _ _) Hd0 Heff)
    with (i := (k / s)%nat) (j := (k mod s)%nat) as (r & HQ & Hr).
  - intros i j v Ev Hu'. rewrite pow_half_3. destruct (cell_some_lt m n L i j v Hc Ev) as (Hi & Hj).
    apply (Hroom i j v Ev). apply used_blocks; try assumption. apply Hc.
  - exact Hu.
  - fold s in Hr. rewrite place_inv in Hr by exact Hs.
    destruct (place_lt s k Hs Hk2) as (P1 & P2). destruct (HA (k / s)%nat (k mod s)%nat ltac:(lia) ltac:(lia)) as (FC & HC).
    apply (bit_of_float depth Fd Hord r (payload_bit enc k)); [exact FC|exact HQ|].
    set (t := transR false n n L (pixR out) (k / s)%nat (k mod s)%nat) in *. set (q := toR depth * _) in *.
    set (c := toR (transform Bops _ _ _ _ _ _ _)) in *. replace (c - q) with ((c - t) + (t - q)) by ring. eapply Rle_trans; [apply Rabs_triang|].
    simpl bpow in *. lra.
Qed.

(** *** C30 *)
Theorem C30_embed_then_extract_returns_the_payload : forall K, ldpc_shape K -> ldpc_decodes K ->
  forall image n levels depth payload,
  picture image n levels -> usable n levels -> bytes payload -> (1 <= Z.of_nat (length payload) <= 65533)%Z ->
  (stored_size n levels (length payload) <= band_capacity n levels)%nat ->
  2 ^ (levels + 1) < depth -> room image n levels (8 * stored_size n levels (length payload)) (3 * depth / 2 ^ (levels + 2)) ->
  exists marked, embed Rops K image payload depth levels = Ok marked /\ picture marked n levels
    /\ extract Rops K marked depth levels = Ok payload.
Proof.
  intros K Hsh Hdec m n L depth payload Hp (Hcod & Hmod) Hb Hl Hfit Hd Hroom. pose proof Hp as (Hc & H8).
  destruct (extract_payload Rops K m n L depth payload Hc Hsh Hdec Hcod Hmod Hb Hl Hfit) as (ser & enc & E1 & E2 & E3 & E4 & E5 & E6 & _).
  assert (Hd0 : 0 < depth) by (assert (0 < 2 ^ (L + 1)) by (apply pow_lt; lra); lra).
  destruct (embed_effect_real K m n L depth payload ser enc Hc H8 Hd0 E5 E1 E2 E3) as (out & Eo & Heff).
  exists out. split; [exact Eo|]. split; [exact (eff_shape _ _ _ _ _ _ _ _ _ Heff)|].
  destruct (extract_payload Rops K out n L depth payload (proj1 (eff_shape _ _ _ _ _ _ _ _ _ Heff)) Hsh Hdec Hcod Hmod Hb Hl Hfit)
    as (ser' & enc' & E1' & E2' & _ & _ & _ & _ & HX).
  assert (ser' = ser) by congruence. subst ser'. assert (enc' = enc) by congruence. subst enc'.
  apply HX. apply (marked_bits_real m n L depth out enc _ Hp Heff Hd E3). rewrite E6. exact Hroom.
Qed.

(** *** C31 *)
Theorem C31_f64_embed_then_extract_returns_the_payload : forall K, ldpc_shape K -> ldpc_decodes K ->
  forall image n levels (depth : b64) payload,
  picture image n levels -> (levels <= 10)%nat -> usable n levels -> bytes payload -> (1 <= Z.of_nat (length payload) <= 65533)%Z ->
  (stored_size n levels (length payload) <= band_capacity n levels)%nat ->
  fin depth -> 65 / 64 * 2 ^ (levels + 1) <= toR depth <= 2 ^ 20 ->
  room image n levels (8 * stored_size n levels (length payload)) (3 * toR depth / 2 ^ (levels + 2)) ->
  exists marked, embed Bops K image payload depth levels = Ok marked /\ picture marked n levels
    /\ extract Bops K marked depth levels = Ok payload.
Proof.
  intros K Hsh Hdec m n L depth payload Hp HL (Hcod & Hmod) Hb Hl Hfit Fd Hd Hroom. pose proof Hp as (Hc & H8).
  destruct (extract_payload Bops K m n L depth payload Hc Hsh Hdec Hcod Hmod Hb Hl Hfit) as (ser & enc & E1 & E2 & E3 & E4 & E5 & E6 & _).
  assert (Hd20 : toR depth <= bpow radix2 20) by (simpl bpow; lra).
  assert (Hd0 : / 1024 <= toR depth) by (assert (1 <= 2 ^ (L + 1)) by (apply pow_R1_Rle; lra); lra).
  destruct (embed_effect_float K m n L depth payload ser enc Hc H8 HL Fd (conj Hd0 Hd20) E5 E1 E2 E3) as (out & Eo & Heff).
  exists out. split; [exact Eo|]. split; [exact (eff_shape _ _ _ _ _ _ _ _ _ Heff)|].
  destruct (extract_payload Bops K out n L depth payload (proj1 (eff_shape _ _ _ _ _ _ _ _ _ Heff)) Hsh Hdec Hcod Hmod Hb Hl Hfit)
    as (ser' & enc' & E1' & E2' & _ & _ & _ & _ & HX).
  assert (ser' = ser) by congruence. subst ser'. assert (enc' = enc) by congruence. subst enc'.
  apply HX. apply (marked_bits_float m n L depth out enc Hp HL Fd Heff (conj (proj1 Hd) Hd20) E3). rewrite E6. exact Hroom.
Qed.

(** *** C32 *)
Theorem C32_pixel_change_bound : forall K image n levels depth payload marked,
  picture image n levels -> 0 < depth -> embed Rops K image payload depth levels = Ok marked ->
  forall i j v w, cell image i j = Some v -> cell marked i j = Some w -> Rabs (IZR w - IZR v) <= 3 * depth / 2 ^ (levels + 2) + / 2.
Proof.
  intros K m n L depth payload out (Hc & H8) Hd E i j v w Ev Ew.
  destruct (embed_inv Rops K m n L depth payload out Hc E) as (H9 & ser & enc & E1 & E2 & E3).
  destruct (embed_effect_real K m n L depth payload ser enc Hc H8 Hd H9 E1 E2 E3) as (out' & Eo & Heff).
  assert (out' = out) by congruence. subst out'.
  pose proof (pixel_change m out n L depth enc 0 0 _ Hc H8 ltac:(lra) Hd Heff i j v w Ev Ew) as H.
  rewrite <- pow_half_3. replace (3 / 4 + 4 * 0) with (3 / 4) in H by lra. lra.
Qed.

Theorem C32_f64_pixel_change_bound : forall K image n levels (depth : b64) payload marked,
  picture image n levels -> (levels <= 10)%nat -> fin depth -> / 1024 <= toR depth <= 2 ^ 20 ->
  embed Bops K image payload depth levels = Ok marked ->
  forall i j v w, cell image i j = Some v -> cell marked i j = Some w ->
    Rabs (IZR w - IZR v) <= (3 / 4 + / 1024) * toR depth / 2 ^ levels + / 2 + / 1024.
Proof.
  intros K m n L depth payload out (Hc & H8) HL Fd Hd E i j v w Ev Ew.
  destruct (embed_inv Bops K m n L depth payload out Hc E) as (H9 & ser & enc & E1 & E2 & E3).
  assert (Hd20 : toR depth <= bpow radix2 20) by (simpl bpow; lra).
  destruct (embed_effect_float K m n L depth payload ser enc Hc H8 HL Fd (conj (proj1 Hd) Hd20) H9 E1 E2 E3) as (out' & Eo & Heff).
  assert (out' = out) by congruence. subst out'.
  assert (Hb10 : 0 <= bpow radix2 (-10) < / 2) by (simpl bpow; lra).
  assert (Hd0 : 0 < toR depth) by lra.
  pose proof (pixel_change m out n L (toR depth) enc _ _ _ Hc H8 (bpow_ge_0 _ _) Hd0 Heff i j v w Ev Ew) as H.
  eapply Rle_trans; [exact H|]. rewrite pow_inv. unfold Rdiv at 2. rewrite (Rmult_comm (_ * toR depth)). simpl bpow.
  assert (0 < / 2 ^ L) by (apply Rinv_0_lt_compat, pow_lt; lra).
  apply Rplus_le_compat; [apply Rplus_le_compat_r|]; [|lra]. apply Rmult_le_compat_l; [lra|]. apply Rmult_le_compat_r; lra.
Qed.

Lemma IZR_change k B c : Rabs (IZR c) <= B -> B < IZR (k + 1) -> (Z.abs c <= k)%Z.
Proof. intros H H2. rewrite <- abs_IZR in H. assert (Z.abs c < k + 1)%Z by (apply lt_IZR; lra). lia. Qed.

(** Depths and levels of the command line (100.0, 3) and of the web front-end (500.0, 3). *)
Theorem C32_f64_pixel_change_of_the_front_ends : forall K image n payload marked,
  picture image n 3 ->
  (embed Bops K image payload (f_of_Z Bops 100) 3 = Ok marked ->
   forall i j v w, cell image i j = Some v -> cell marked i j = Some w -> (Z.abs (w - v) <= 9)%Z)
  /\ (embed Bops K image payload (f_of_Z Bops 500) 3 = Ok marked ->
   forall i j v w, cell image i j = Some v -> cell marked i j = Some w -> (Z.abs (w - v) <= 47)%Z).
Proof.
  intros K m n payload out Hp. split; intros E i j v w Ev Ew.
  - destruct (b_of_Z_ok 100) as (F1 & V1); [lia|]. change (b_of_Z 100) with (f_of_Z Bops 100) in *.
    pose proof (C32_f64_pixel_change_bound K m n 3 (f_of_Z Bops 100) payload out Hp ltac:(lia) F1 ltac:(rewrite V1; simpl; lra) E i j v w Ev Ew) as H.
    rewrite <- minus_IZR in H. apply (IZR_change _ _ _ H). rewrite V1. simpl. lra.
  - destruct (b_of_Z_ok 500) as (F1 & V1); [lia|]. change (b_of_Z 500) with (f_of_Z Bops 500) in *.
    pose proof (C32_f64_pixel_change_bound K m n 3 (f_of_Z Bops 500) payload out Hp ltac:(lia) F1 ltac:(rewrite V1; simpl; lra) E i j v w Ev Ew) as H.
    rewrite <- minus_IZR in H. apply (IZR_change _ _ _ H). rewrite V1. simpl. lra.
Qed.

(** *** C33 *)
Definition embedded_size (n levels len size : nat) : Prop :=
  (coded (band_capacity n levels) -> size = stored_size n levels len)
  /\ (~ coded (band_capacity n levels) -> size = (len + 4)%nat).

Lemma encoded_size_ok K n L payload ser enc : ldpc_shape K -> bytes payload -> data_serialize payload = Ok ser ->
  encode K ser (band_capacity n L) = Ok enc -> embedded_size n L (length payload) (length enc) /\ bytes enc.
Proof.
  intros Hsh Hb Eser Eenc.
  assert (Hs : length ser = (length payload + 2)%nat /\ bytes ser).
  { unfold data_serialize in Eser. destruct (65535 <? Z.of_nat (length payload))%Z eqn:E; [discriminate|].
    assert (Es : ser = vec_u16_to_bytes [Z.of_nat (length payload) mod 65536]%Z ++ payload) by congruence.
    rewrite Es. unfold vec_u16_to_bytes. cbn [flat_map]. rewrite app_nil_r. unfold u16_to_le. split.
    - rewrite app_length, le_bytes_length. lia.
    - apply Forall_app. split; [apply le_bytes_bytes|exact Hb]. }
  destruct Hs as (Ls & Bs). unfold embedded_size, stored_size.
  destruct (code_cases (band_capacity n L)) as [(Hc & _)|(Hn & Ecode)].
  - destruct (C17_encoded_size K Hsh _ Hc) as (Henc & _). destruct (Henc ser Bs) as (enc' & E' & Be & Le).
    assert (enc' = enc) by congruence. subst enc'. split; [|exact Be]. split; [|contradiction]. intros _. rewrite Le, Ls. do 2 f_equal. lia.
  - unfold encode in Eenc. rewrite Ecode in Eenc. rewrite u16_to_bytes_eq in Eenc by (apply Z.mod_pos_bound; lia).
    assert (Ee : enc = [Z.of_nat (length ser) mod 65536 / 256 mod 256; Z.of_nat (length ser) mod 65536 mod 256]%Z ++ ser) by congruence.
    rewrite Ee. split.
    + split; [contradiction|]. intros _. rewrite app_length, Ls. cbn [length]. lia.
    + apply Forall_app. split; [|exact Bs]. repeat constructor; apply Z.mod_pos_bound; lia.
Qed.

Theorem C33_unused_blocks_are_unchanged : forall K, ldpc_shape K -> forall image n levels depth payload marked size,
  picture image n levels -> bytes payload -> 0 < depth -> embed Rops K image payload depth levels = Ok marked ->
  embedded_size n levels (length payload) size ->
  forall i j, (i < n)%nat -> (j < n)%nat -> ~ in_first_blocks n levels (8 * size) i j -> cell marked i j = cell image i j.
Proof.
  intros K Hsh m n L depth payload out size (Hc & H8) Hb Hd E Hsz i j Hi Hj Hblk.
  destruct (embed_inv Rops K m n L depth payload out Hc E) as (H9 & ser & enc & E1 & E2 & E3).
  destruct (embed_effect_real K m n L depth payload ser enc Hc H8 Hd H9 E1 E2 E3) as (out' & Eo & Heff).
  assert (out' = out) by congruence. subst out'.
  destruct (encoded_size_ok K n L payload ser enc Hsh Hb E1 E2) as ((S1 & S2) & _). destruct Hsz as (T1 & T2).
  assert (Hsize : size = length enc) by (destruct (code_cases (band_capacity n L)) as [(Y & _)|(N & _)]; [rewrite S1, T1 by exact Y|rewrite S2, T2 by exact N]; reflexivity).
  subst size. apply (unused_unchanged m out n L depth enc 0 0 _ Hc H8 ltac:(lra) Heff i j Hi Hj).
  apply used_blocks_false; try assumption. apply Hc.
Qed.

Theorem C33_f64_unused_blocks_are_unchanged : forall K, ldpc_shape K -> forall image n levels (depth : b64) payload marked size,
  picture image n levels -> (levels <= 10)%nat -> bytes payload -> fin depth -> / 1024 <= toR depth <= 2 ^ 20 ->
  embed Bops K image payload depth levels = Ok marked ->
  embedded_size n levels (length payload) size ->
  forall i j, (i < n)%nat -> (j < n)%nat -> ~ in_first_blocks n levels (8 * size) i j -> cell marked i j = cell image i j.
Proof.
  intros K Hsh m n L depth payload out size (Hc & H8) HL Hb Fd Hd E Hsz i j Hi Hj Hblk.
  destruct (embed_inv Bops K m n L depth payload out Hc E) as (H9 & ser & enc & E1 & E2 & E3).
  assert (Hd20 : toR depth <= bpow radix2 20) by (simpl bpow; lra).
  destruct (embed_effect_float K m n L depth payload ser enc Hc H8 HL Fd (conj (proj1 Hd) Hd20) H9 E1 E2 E3) as (out' & Eo & Heff).
  assert (out' = out) by congruence. subst out'.
  destruct (encoded_size_ok K n L payload ser enc Hsh Hb E1 E2) as ((S1 & S2) & _). destruct Hsz as (T1 & T2).
  assert (Hsize : size = length enc) by (destruct (code_cases (band_capacity n L)) as [(Y & _)|(N & _)]; [rewrite S1, T1 by exact Y|rewrite S2, T2 by exact N]; reflexivity).
  subst size. assert (Hb10 : 0 <= bpow radix2 (-10) < / 2) by (simpl bpow; lra).
  apply (unused_unchanged m out n L (toR depth) enc _ _ _ Hc H8 Hb10 Heff i j Hi Hj).
  apply used_blocks_false; try assumption. apply Hc.
Qed.
