(** Property C121: enormous depths print a bar code.  With a depth from 512 * 2^(levels + 2) on (16384 for the library's three levels) every used block becomes entirely white (bit 1) or black
    (bit 0), whatever was there; the embedding depth does not read it (C119), but the negative of the result is read at any depth from 2041 to 4079
    (lib/sia/rust/embedding/src/lib.rs: embed, extract; lib/sia/rust/embedding/src/io/steganography.rs:54-79, 129-147; lib/sia/rust/watermarking/src/lib.rs: watermark). *)
From Coq Require Import Reals Lra.
From Flocq Require Import Core BinarySingleNaN.
From Verif Require Import Outcome Floats FloatFacts Bits ListFacts Quantization QuantProofs QuantReal QuantFloat PropsQuant PropsQuant2 Codecs CodecProofs WatermarkProofs PropsCodec
  Encoding EncodingProofs PropsEncoding Matrix MatrixFacts Haar HaarProofs HaarReal HaarFloat PropsHaar Stego StegoProofs StegoMarks PropsStego Embedding EmbeddingProofs EmbeddingEffect PropsEmbedding PropsEmbedding2 PropsEmbedding3 PropsRobust
  Signature Process ProcessProofs Toy Zernike ZernikeProofs PropsZernike ZernikeBound PropsZernike2 ZernikeGen PropsZernikeF64 LibmSpec LibmExact PropsZernikeAcc
  PropsProcess PropsProcess2 Image PropsImage PropsProcess3 PropsProcess4 PropsProcess5 PropsProcess6 PropsTamper Equalize PropsEqualize PropsShipped PropsShipped2 PropsInteger PropsClipping PropsClipping2 PropsRepair PropsRepair2 PropsVerdict PropsUnused PropsForged PropsBright PropsBlockwise PropsFaint PropsInvisible PropsUnmarked PropsUseless.
Open Scope R_scope.

(** ** Specification vocabulary *)
(** The picture as a bar code of the stored bits: block number k (row by row) is white if bit k is set and black if not; the blocks after the last bit are those of the original. *)
Definition bar_code (image marked : array2 Z) (n levels : nat) (stored : list Z) : Prop :=
  forall i j, (i < n)%nat -> (j < n)%nat -> let k := (n / 2 ^ levels * (i / 2 ^ levels) + j / 2 ^ levels)%nat in
    cell marked i j = if (k <? 8 * length stored)%nat then Some (if payload_bit stored k then 255 else 0)%Z else cell image i j.

(** ** Proofs *)
Lemma overshoot (v c d : R) L b : 0 <= v <= 255 -> 0 <= c <= 255 * 2 ^ L -> 511 * 2 ^ (L + 2) <= d ->
  let x := v + (d * (IZR 0 + quarter b) - c) / 2 ^ L in if b then 256 <= x else x <= - 256.
Proof.
  intros Hv Hc Hd x. assert (P : 0 < 2 ^ L) by (apply pow_lt; lra). rewrite pow_add in Hd. simpl (2 ^ 2) in Hd. replace (2 * (2 * 1)) with 4 in Hd by ring.
  assert (C : 0 <= c / 2 ^ L <= 255).
  { split; [unfold Rdiv; apply Rmult_le_pos; [apply Hc|left; now apply Rinv_0_lt_compat]|]. apply (Rmult_le_reg_r (2 ^ L)); [exact P|]. unfold Rdiv. rewrite Rmult_assoc, Rinv_l, Rmult_1_r by lra. apply Hc. }
  assert (Q : 511 <= d / 4 / 2 ^ L). { apply (Rmult_le_reg_r (2 ^ L)); [exact P|]. unfold Rdiv. rewrite (Rmult_assoc (d * / 4)), Rinv_l, Rmult_1_r by lra. lra. }
  unfold x, quarter. destruct b.
  - replace (v + (d * (0 + / 4) - c) / 2 ^ L) with (v + d / 4 / 2 ^ L - c / 2 ^ L) by (field; lra). lra.
  - replace (v + (d * (0 + - / 4) - c) / 2 ^ L) with (v - d / 4 / 2 ^ L - c / 2 ^ L) by (field; lra). lra.
Qed.
Lemma cut_off x : (255 <= x -> clamp 0 255 (nearest x) = 255%Z) /\ (x <= 0 -> clamp 0 255 (nearest x) = 0%Z).
Proof.
  pose proof (nearest_half x) as N. apply Rabs_le_inv in N. split; intros H; unfold clamp.
  - assert (254 < nearest x)%Z by (apply lt_IZR; simpl; lra). lia.
  - assert (nearest x < 1)%Z by (apply lt_IZR; simpl; lra). lia.
Qed.

(** *** C121, exact arithmetic: any number of levels *)
Theorem C121_enormous_depths_print_a_bar_code : forall K image n levels depth payload marked, picture image n levels -> 511 * 2 ^ (levels + 2) <= depth ->
  embed Rops K image payload depth levels = Ok marked ->
  exists frame stored, data_serialize payload = Ok frame /\ encode K frame (band_capacity n levels) = Ok stored /\ bar_code image marked n levels stored.
Proof.
  intros K m n L d pl out (Hc & H8) Hd E. destruct (embed_pixels_real K m n L d pl out Hc E) as (_ & _ & ser & enc & E1 & E2 & _ & H).
  exists ser, enc. split; [exact E1|]. split; [exact E2|]. intros i j Hi Hj. cbv zeta. fold (block_number n L i j). pose proof Hc as (Wf & D0 & D1 & _).
  destruct (cell_bounds m i j Wf ltac:(lia) ltac:(lia)) as (v & Ev). rewrite (H i j v Ev). pose proof (image8_cell m i j v H8 Ev) as (V1 & V2). unfold pixel_shift.
  assert (P : 0 < 2 ^ L) by (apply pow_lt; lra). pose proof (coefficient_range m L (i / 2 ^ L) (j / 2 ^ L) H8) as Hr. set (c := coefficient m L _ _) in *. clearbody c.
  destruct (block_number n L i j <? 8 * length enc)%nat eqn:Eb.
  - assert (N : nearest (c / d) = 0%Z).
    { pose proof Hd as Hd'. rewrite pow_add in Hd'. simpl (2 ^ 2) in Hd'. apply nearest_imp. rewrite Rminus_0_r. assert (0 <= c / d < / 2).
      { split; [apply Rmult_le_pos; [apply Hr|]; left; apply Rinv_0_lt_compat; lra|]. apply (Rmult_lt_reg_r d); [lra|]. unfold Rdiv. rewrite Rmult_assoc, Rinv_l, Rmult_1_r by lra. lra. }
      rewrite Rabs_pos_eq; lra. }
    rewrite N. apply IZR_le in V1. pose proof (overshoot (IZR v) c d L (payload_bit enc (block_number n L i j)) ltac:(split; [exact V1|apply (IZR_le v 255); lia]) Hr Hd) as O. cbv zeta in O.
    f_equal. destruct (payload_bit enc (block_number n L i j)); apply cut_off; lra.
  - rewrite Ev. f_equal. rewrite Rplus_0_r, (nearest_imp (IZR v) v) by (rewrite Rminus_self, Rabs_R0; lra). unfold clamp. lia.
Qed.

(** *** C121, binary64 *)
Theorem C121_f64_enormous_depths_print_a_bar_code : forall K image n levels (depth : b64) payload marked, picture image n levels -> (levels <= 10)%nat -> fin depth ->
  512 * 2 ^ (levels + 2) <= toR depth <= 2 ^ 20 -> embed Bops K image payload depth levels = Ok marked ->
  exists frame stored, data_serialize payload = Ok frame /\ encode K frame (band_capacity n levels) = Ok stored /\ bar_code image marked n levels stored.
Proof.
  intros K m n L d pl out (Hc & H8) HL Fd Hd E. destruct (embed_inv Bops K m n L d pl out Hc E) as (H9 & ser & enc & E1 & E2 & E3).
  assert (P1 : 1 <= 2 ^ L) by (apply pow_R1_Rle; lra). assert (P : 0 < 2 ^ L) by lra.
  assert (Hd4 : 2048 * 2 ^ L <= toR d) by (destruct Hd as (Hd & _); rewrite pow_add in Hd; simpl (2 ^ 2) in Hd; lra).
  assert (Hd' : bpow radix2 (- (0)) <= toR d <= bpow radix2 20) by (simpl bpow; lra).
  destruct (embed_effect_float_gen 0 K m n L d pl ser enc ltac:(lia) Hc H8 HL Fd Hd' H9 E1 E2 E3) as (out' & Eo & Heff).
  assert (out' = out) by congruence. subst out'. pose proof (carrier_band m n L Hc) as (_ & _ & Hdiv & _). pose proof Hc as (Wf & D0 & D1 & Hmod & _).
  exists ser, enc. split; [exact E1|]. split; [exact E2|]. intros i j Hi Hj. cbv zeta. fold (block_number n L i j).
  destruct (cell_bounds m i j Wf ltac:(lia) ltac:(lia)) as (v & Ev). pose proof (image8_cell m i j v H8 Ev) as (V1 & V2).
  destruct (block_number n L i j <? 8 * length enc)%nat eqn:Eb; pose proof Eb as Hu; rewrite <- (used_number n L enc i j Hmod Hi Hj) in Hu.
  - destruct Heff as [_ (D & _ & Hpix & HD)]. destruct (Hpix i j Hi Hj) as (x & Hx & ->). unfold pixR in Hx. rewrite Ev in Hx.
    destruct (HD _ _ Hu) as (r & (_ & Hr) & HDr & _). rewrite coefficient_eq in Hr, HDr by (try exact Hdiv; now apply block_lt).
    pose proof (coefficient_range m L (i / 2 ^ L) (j / 2 ^ L) H8) as Hcr. set (c := coefficient m L _ _) in *. clearbody c.
    change (band n L * (i / 2 ^ L) + j / 2 ^ L)%nat with (block_number n L i j) in HDr. set (DD := D _ _) in *. clearbody DD.
    assert (Q : 0 <= c / toR d <= / 8).
    { split; [apply Rmult_le_pos; [apply Hcr|]; left; apply Rinv_0_lt_compat; lra|]. apply (Rmult_le_reg_r (toR d)); [lra|]. unfold Rdiv. rewrite Rmult_assoc, Rinv_l, Rmult_1_r by lra. lra. }
    assert (r = 0)%Z; [|subst r].
    { apply Rabs_le_inv in Hr. simpl (bpow radix2 (0 - 23)) in Hr. assert (-1 < r < 1)%Z; [|lia]. split; apply lt_IZR; simpl (IZR 1); simpl (IZR (-1)); lra. }
    assert (Bd : toR d * bpow radix2 (0 - 24) <= / 16). { apply Rle_trans with (2 ^ 20 * bpow radix2 (0 - 24)); [apply Rmult_le_compat_r; [apply bpow_ge_0|apply Hd]|simpl; lra]. }
    pose proof (overshoot (IZR v) c (toR d) L (payload_bit enc (block_number n L i j)) ltac:(split; [apply (IZR_le 0); lia|apply (IZR_le v 255); lia]) Hcr ltac:(rewrite pow_add; simpl (2 ^ 2); lra)) as O. cbv zeta in O.
    set (t := toR d * (IZR 0 + quarter (payload_bit enc (block_number n L i j)))) in *. clearbody t.
    assert (Y : Rabs ((/ 2) ^ L * DD - (t - c) / 2 ^ L) <= / 16).
    { rewrite pow_inv. replace (/ 2 ^ L * DD - (t - c) / 2 ^ L) with (/ 2 ^ L * (c + DD - t)) by (field; lra). rewrite Rabs_mult, (Rabs_pos_eq (/ 2 ^ L)) by (left; now apply Rinv_0_lt_compat).
      apply Rle_trans with (1 * Rabs (c + DD - t)); [apply Rmult_le_compat_r; [apply Rabs_pos|rewrite <- Rinv_1; apply Rinv_le_contravar; lra]|]. lra. }
    apply Rabs_le_inv in Y. apply Rabs_le_inv in Hx. simpl (bpow radix2 (-10)) in Hx.
    f_equal. destruct (payload_bit enc (block_number n L i j)); apply cut_off; lra.
  - assert (Hb10 : 0 <= bpow radix2 (-10) < / 2) by (simpl bpow; lra). rewrite (unused_unchanged m out n L (toR d) enc _ _ _ Hc H8 Hb10 Heff i j Hi Hj Hu). reflexivity.
Qed.

(** *** The bar code is not lost: the negative of the used blocks is read at every whole depth from 2041 to 4079. *)
Lemma low_reads_one (d x : b64) : fin d -> 1 <= toR d <= 2 ^ 20 -> fin x -> 0 <= toR x <= / 1000 -> bit_of Bops d x = true.
Proof.
  intros Fd Hd FC Hx. assert (Hd0 : 0 < toR d) by lra.
  assert (Hq : 0 <= toR x / toR d <= / 1000).
  { split; [apply Rmult_le_pos; [lra|]; left; now apply Rinv_0_lt_compat|]. apply (Rmult_le_reg_r (toR d)); [exact Hd0|]. unfold Rdiv. rewrite Rmult_assoc, Rinv_l, Rmult_1_r by lra. lra. }
  destruct (b_div_ok x d FC ltac:(lra)) as (F1 & V1); [apply (small_le _ 1); [lia|]; rewrite Rabs_pos_eq by lra; simpl; lra|].
  assert (Hq1 : Rabs (toR (f_div Bops x d)) < / 2).
  { rewrite V1. pose proof (rnd_err (toR x / toR d)) as Er. rewrite (Rabs_pos_eq (toR x / toR d)) in Er by lra. apply Rabs_le_inv in Er. pose proof eta_le_u. assert (U : u53 <= / 1000000) by (unfold u53; simpl; lra). pose proof u53_pos.
    assert (bpow radix2 (-60) <= / 1000000) by (simpl; lra). apply Rabs_def1; nra. }
  destruct (b_round_ok _ F1) as (F2 & V2).
  assert (Z0 : toR (f_round Bops (f_div Bops x d)) = 0). { rewrite V2. replace (Znearest (Z.leb 0) (toR (f_div Bops x d))) with 0%Z; [reflexivity|]. symmetry. apply Znearest_imp. now rewrite Rminus_0_r. }
  destruct (b_mul_ok d _ Fd F2) as (F3 & V3); [rewrite Z0, Rmult_0_r; apply (small_IZR 0); lia|]. rewrite Z0, Rmult_0_r, rnd_0 in V3.
  destruct (b_sub_ok x _ FC F3) as (F4 & V4); [rewrite V3, Rminus_0_r; apply (small_le _ 100); [lia|]; rewrite Rabs_pos_eq by lra; simpl; lra|].
  unfold bit_of. destruct (b_of_Z_ok 0) as (Z1 & Z2); [lia|]. change (f_of_Z Bops 0) with (b_of_Z 0). rewrite (b_ge_ok _ _ F4 Z1), V4, V3, Z2, Rminus_0_r. apply Rle_bool_true. rewrite <- rnd_0. apply rnd_le. lra.
Qed.
Lemma white_reads_zero D : (2041 <= D <= 4079)%Z -> ~ border D 16320 /\ bit_read D 16320 = false.
Proof.
  intros H. unfold border, bit_read. split.
  - intros X. apply Z.mod_divide in X as (q & X); [|lia]. assert (q = 1 \/ q = 2 \/ q <= 0 \/ 3 <= q)%Z by lia. nia.
  - rewrite Z.mod_small by lia. apply Z.ltb_ge. lia.
Qed.
Lemma constant_block m L bi bj v : (forall p q, (p < 2 ^ L)%nat -> (q < 2 ^ L)%nat -> pixel m (2 ^ L * bi + p) (2 ^ L * bj + q) = v) -> block_total m L bi bj = (Z.of_nat (2 ^ L) * (Z.of_nat (2 ^ L) * v))%Z.
Proof.
  intros H. unfold block_total. assert (A : forall k w (f : nat -> Z), (forall p, (p < k)%nat -> f p = w) -> zsum k f = (Z.of_nat k * w)%Z).
  { clear. intros k w f. induction k as [|k IH]; intros X; [reflexivity|]. cbn [zsum]. rewrite IH by (intros; apply X; lia). rewrite X by lia. lia. }
  apply A. intros p Hp. apply A. intros q Hq. now apply H.
Qed.

Theorem C121_f64_the_negative_of_the_bar_code_is_read : forall K, ldpc_shape K -> ldpc_decodes K -> forall image n (depth : b64) payload,
  picture image n 3 -> usable n 3 -> bytes payload -> (1 <= Z.of_nat (length payload) <= 65533)%Z -> (stored_size n 3 (length payload) <= band_capacity n 3)%nat ->
  fin depth -> 16384 <= toR depth <= 2 ^ 20 ->
  exists marked, embed Bops K image payload depth 3 = Ok marked /\ picture marked n 3
    /\ forall received reading, (2041 <= reading <= 4079)%Z -> picture received n 3 ->
       (forall i j v, (n / 8 * (i / 8) + j / 8 < 8 * stored_size n 3 (length payload))%nat -> cell marked i j = Some v -> cell received i j = Some (255 - v)%Z) ->
       extract Bops K received (f_of_Z Bops reading) 3 = Ok payload.
Proof.
  intros K Hsh Hdec m n d pl Hp (Hcod & Hmod) Hb Hl Hfit Fd Hd. pose proof Hp as (Hc & H8).
  assert (EX : exists out, embed Bops K m pl d 3 = Ok out /\ picture out n 3).
  { destruct (extract_payload Bops K m n 3 d pl Hc Hsh Hdec Hcod Hmod Hb Hl Hfit) as (ser & enc & E1 & E2 & E3 & E4 & E5 & E6 & _).
    destruct (embed_effect_float_gen 0 K m n 3 d pl ser enc ltac:(lia) Hc H8 ltac:(lia) Fd ltac:(simpl bpow; lra) E5 E1 E2 E3) as (out & Eo & Heff).
    exists out. split; [exact Eo|exact (eff_shape _ _ _ _ _ _ _ _ _ Heff)]. }
  destruct EX as (out & Eo & Pout). exists out. split; [exact Eo|]. split; [exact Pout|]. intros rc D HD Prc Hneg. pose proof Prc as (Hrc & H8r).
  destruct (C121_f64_enormous_depths_print_a_bar_code K m n 3 d pl out Hp ltac:(lia) Fd ltac:(simpl (2 ^ (3 + 2)); lra) Eo) as (ser' & enc' & E1' & E2' & Hbar).
  destruct (extract_payload Bops K rc n 3 (f_of_Z Bops D) pl Hrc Hsh Hdec Hcod Hmod Hb Hl Hfit) as (ser & enc & E1 & E2 & E3 & E4 & E5 & E6 & HX).
  assert (ser' = ser) by congruence. subst ser'. unfold band_capacity in E2'. fold (band n 3) in E2'. assert (enc' = enc) by congruence. subst enc'.
  destruct (b_of_Z_ok D) as (FD & VD); [lia|]. change (b_of_Z D) with (f_of_Z Bops D) in *. assert (RD : 2041 <= IZR D <= 4079) by (split; [apply (IZR_le 2041)|apply (IZR_le _ 4079)]; lia).
  apply HX. intros C Hdom C0 C1 GC k Hk.
  assert (Hs0 : (0 < band n 3)%nat) by (destruct (band n 3); [cbn in E5; lia|lia]).
  destruct (used_cell n 3 enc k Hs0 Hk E3) as (_ & Hk2). destruct (place_lt (band n 3) k Hs0 Hk2) as (P1 & P2).
  assert (PI : (n / 8 * (k / band n 3) + k mod band n 3 = k)%nat) by (change (n / 8)%nat with (band n 3); pose proof (Nat.div_mod k (band n 3) ltac:(lia)); lia).
  pose proof (carrier_band rc n 3 Hrc) as (Hsn & _ & Hdiv & _). pose proof Hrc as (Wr & R0 & R1 & Rm & _).
  assert (Em : (n = 8 * band n 3)%nat) by (unfold band; change (2 ^ 3)%nat with 8%nat in *; pose proof (Nat.div_mod n 8 ltac:(lia)); lia).
  rewrite cell_bit_get by assumption. rewrite GC.
  set (bi := (k / band n 3)%nat) in *. set (bj := (k mod band n 3)%nat) in *.
  assert (T : block_total rc 3 bi bj = if payload_bit enc k then 0%Z else 16320%Z).
  { rewrite (constant_block rc 3 bi bj (if payload_bit enc k then 0 else 255)%Z); [change (2 ^ 3)%nat with 8%nat; destruct (payload_bit enc k); reflexivity|]. change (2 ^ 3)%nat with 8%nat. intros p q Hpp Hqq.
    assert (I1 : ((8 * bi + p) / 8 = bi)%nat) by (rewrite (Nat.mul_comm 8 bi), Nat.div_add_l, Nat.div_small by lia; lia). assert (I2 : ((8 * bj + q) / 8 = bj)%nat) by (rewrite (Nat.mul_comm 8 bj), Nat.div_add_l, Nat.div_small by lia; lia).
    pose proof (Hbar (8 * bi + p)%nat (8 * bj + q)%nat ltac:(lia) ltac:(lia)) as B. cbv zeta in B. change (2 ^ 3)%nat with 8%nat in B. rewrite I1, I2, PI, (proj2 (Nat.ltb_lt _ _) Hk) in B.
    assert (G := Hneg (8 * bi + p)%nat (8 * bj + q)%nat _ ltac:(rewrite I1, I2, PI; unfold stored_size, band_capacity; fold (band n 3); rewrite <- E6; exact Hk) B). unfold pixel. rewrite G. destruct (payload_bit enc k); reflexivity. }
  assert (HA : approx n n (bpow radix2 (-24)) (transform Bops false n n 3 (get Bops (mapv (f_of_Z Bops) rc))) (transR false n n 3 (pixR rc))).
  { pose proof (pixR_bounded rc H8r) as Hbd. pose proof (pix_float rc H8r) as Hpx. rewrite R0, R1 in *. apply analysis_float; try assumption. lia. }
  destruct (HA bi bj ltac:(lia) ltac:(lia)) as (FC & HC). rewrite coefficient_eq in HC by assumption.
  destruct (payload_bit enc k) eqn:Ebit.
  - assert (Pos : corner_pos n 0 255 (get Bops (mapv (f_of_Z Bops) rc))).
    { intros i j Hi Hj. simpl (2 ^ 0)%nat in Hi, Hj. rewrite Nat.div_1_r in Hi, Hj. pose proof (pix_float rc H8r) as Hpx. rewrite R0, R1 in Hpx. destruct (Hpx i j Hi Hj) as (F & V). split; [exact F|].
      assert (Q : toR (get Bops (mapv (f_of_Z Bops) rc) i j) = pixR rc i j) by (apply Rabs_le_inv in V; lra). rewrite Q. unfold pixR.
      destruct (cell_bounds rc i j Wr) as (v & Ev); [lia|lia|]. rewrite Ev. pose proof (image8_cell rc i j v H8r Ev) as (V1 & V2). split; [apply (IZR_le 0); lia|apply (IZR_le v 255); lia]. }
    destruct (corner_all n 3 _ Rm ltac:(lia) Pos 3 (le_n 3) bi bj P1 P2) as (_ & VC0 & _).
    change (fold_left (iteration Bops false n n) (seq 0 3) (get Bops (mapv (f_of_Z Bops) rc))) with (transform Bops false n n 3 (get Bops (mapv (f_of_Z Bops) rc))) in *.
    set (x := transform Bops false n n 3 (get Bops (mapv (f_of_Z Bops) rc)) bi bj) in *. clearbody x.
    unfold coefficient in HC. rewrite T in HC. apply Rabs_le_inv in HC. apply low_reads_one; [exact FD|rewrite VD; lra|exact FC|]. split; [exact VC0|]. simpl (bpow radix2 (-24)) in HC. simpl (2 ^ 3) in HC. lra.
  - rewrite coefficient_sum, T in HC. destruct (white_reads_zero D HD) as (B1 & B2). rewrite (bit_of_sum D _ 16320 ltac:(lia) ltac:(lia) B1 FC HC). exact B2.
Qed.

(** *** Whole pictures: the call returns Ok, and in the first blocks every colour of every pixel is 0 or 255. *)
Section Barcode.
Open Scope Z_scope.
Context (K : ldpc) (Hsh : ldpc_shape K) (Hdec : ldpc_decodes K) (E : ed25519) (HE : signature_format E) (Hk : key_pair E PRIVATE_KEY PUBLIC_KEY).
Context (M : libm b64) (HM : accurate M) (gamma : b64 -> b64) (checks : bool) (pad : list bool) (Hpad : length pad = 8%nat).
Let features_of := zernike_f64 M gamma checks.
Let one : b64 := f_of_Z Bops 1.

Lemma barcode_channel (depth : b64) channel n marked : fin depth -> (16384 <= toR depth <= 2 ^ 20)%R -> gray_picture channel n 3 -> side_ok n -> usable n 3 ->
  (stored_size n 3 (payload_size 11) <= band_capacity n 3)%nat ->
  watermark_channel Bops K E equalize_histogram features_of checks pad channel depth one 11 3 = Ok marked ->
  forall k v, (block_of n k < carrying_blocks n)%nat -> nth_error (gray_raw marked) k = Some v -> v = 0 \/ v = 255.
Proof.
  intros Fd Hd0 Hg Hs Hu Hcap H k v Hblk Ev. pose proof (usable_side n 3 Hu) as Hn. pose proof Hg as (Wd & Hh & Hl & _ & Hmod & HL & Hr).
  destruct (gray_array channel n 3 Hg) as (im & Eim & Hp & Hcell).
  apply watermark_inv in H as (im' & fs & q & bits & sig & pl & out & H1 & H2 & H3 & H4 & H5 & H6 & ->).
  assert (im' = im) by congruence. subst im'. cbn [gray_raw] in Ev.
  destruct (measured_1000 M HM gamma checks channel n 3 11 fs Hg Hn Hs ltac:(lia) H2) as (Lf & _).
  destruct (payload_length E HE Hk checks pad Hpad fs q bits sig pl Lf H3 H4 H5) as (Bp & Lp & _).
  pose proof Hp as ((Wf & D0 & D1 & P) & H8). destruct (C35_embed_keeps_the_shape K im pl depth 3 out Wf H6) as (O8 & O0 & O1).
  assert (Hpo : picture out n 3) by (split; [split; [apply O8|]; split; [congruence|]; split; [congruence|exact P]|exact O8]).
  destruct (array_gray out n 3 Hpo) as (Gm & Fm). destruct (gray_array _ n 3 Gm) as (om & Eom & _ & Ocell). cbn [gwidth gheight gray_raw] in Eom.
  assert (om = out) by congruence. subst om.
  destruct Gm as (_ & _ & Lm & _). cbn [gray_raw] in Lm.
  assert (Hkn : (k < n * n)%nat) by (rewrite <- Lm; apply nth_error_Some; congruence).
  pose proof (Nat.div_mod k n ltac:(lia)) as Dm. pose proof (Nat.mod_upper_bound k n ltac:(lia)) as Mb.
  assert (Hd : (k / n < n)%nat) by (apply Nat.div_lt_upper_bound; lia).
  pose proof (Ocell (k / n)%nat (k mod n)%nat Hd Mb) as B. unfold gray_pixel in B. cbn [gray_raw] in B. rewrite <- Dm, Ev in B.
  destruct (C121_f64_enormous_depths_print_a_bar_code K im n 3 depth pl out Hp ltac:(lia) Fd ltac:(simpl (2 ^ (3 + 2))%R; lra) H6) as (ser & enc & E1 & E2 & Hblack).
  pose proof (payload_size_range 11 ltac:(lia)) as Hsz. destruct Hu as (Hcod & Hmc).
  destruct (extract_payload Bops K im n 3 depth pl (proj1 Hp) Hsh Hdec Hcod Hmc Bp ltac:(rewrite Lp; lia) ltac:(rewrite Lp; exact Hcap)) as (ser' & enc' & F1 & F2 & _ & _ & _ & Len & _).
  assert (ser' = ser) by congruence. subst ser'. assert (enc' = enc) by (change (band_capacity n 3) with (band n 3 * band n 3 / 8)%nat in E2; congruence). subst enc'. rewrite Lp in Len.
  specialize (Hblack (k / n)%nat (k mod n)%nat Hd Mb). cbv zeta in Hblack. rewrite B in Hblack. change (2 ^ 3)%nat with 8%nat in Hblack.
  destruct (Nat.ltb_spec (n / 8 * (k / n / 8) + k mod n / 8) (8 * length enc)) as [_|G]; [|exfalso; rewrite Len in G; exact (Nat.lt_irrefl _ (Nat.lt_le_trans _ _ _ Hblk G))]. assert (X : v = if payload_bit enc (n / 8 * (k / n / 8) + k mod n / 8) then 255 else 0) by congruence.
  destruct (payload_bit _ _); auto.
Qed.

Theorem C121_f64_watermarking_prints_bar_codes : forall image n (depth : b64), fin depth -> (16384 <= toR depth <= 2 ^ 20)%R ->
  well_formed image -> dimensions image = (n, n) -> (n mod 8 = 0)%nat -> side_ok n -> usable n 3 -> (stored_size n 3 (payload_size 11) <= band_capacity n 3)%nat ->
  exists result, watermark_image Bops K E equalize_histogram features_of checks pad image depth one 11 = Ok result /\ dimensions result = dimensions image
    /\ forall k p q, nth_error (get_pixels image) k = Some p -> nth_error (get_pixels result) k = Some q -> (block_of n k < carrying_blocks n)%nat ->
         ch4 q = ch4 p /\ forall sel, In sel [ch1; ch2; ch3] -> sel q = 0 \/ sel q = 255.
Proof.
  intros image n depth Fd Hd Hw Ed Hm8 Hs Hu Hcap.
  assert (Hr : Z.of_nat (n * n) < 2 ^ 53) by (unfold side_ok in Hs; rewrite Nat2Z.inj_mul; nia).
  assert (Gp : forall sel, sel = ch1 \/ sel = ch2 \/ sel = ch3 -> gray_picture (component sel image) n 3) by (intros sel Hsel; now apply component_picture).
  assert (Ch : forall sel, sel = ch1 \/ sel = ch2 \/ sel = ch3 -> exists marked, watermark_channel Bops K E equalize_histogram features_of checks pad (component sel image) depth one 11 3 = Ok marked).
  { intros sel Hsel. apply (faint_channel K Hsh Hdec E HE Hk M HM gamma checks pad Hpad depth _ n (Gp sel Hsel) Hs Hu Hcap). }
  destruct (C42_watermark_returns_iff_the_channels_do b64 Bops K E equalize_histogram features_of checks pad image depth one 11) as (_ & (_ & Ret)).
  destruct Ret as (result & H); [split; [apply Ch; auto|intros _; split; apply Ch; auto]|]. exists result. split; [exact H|].
  destruct (C42_watermark_preserves_size_layout_and_alpha K E equalize_histogram features_of checks pad image depth one 11 result Hw H) as (D & X2 & X3 & X4 & X5 & Ha & H1 & H2 & H3).
  split; [exact D|]. intros k p q Ep Eq Hblk.
  assert (S : forall sel, sel = ch1 \/ sel = ch2 \/ sel = ch3 -> watermark_channel Bops K E equalize_histogram features_of checks pad (component sel image) depth one 11 3 = Ok (component sel result) -> sel q = 0 \/ sel q = 255).
  { intros sel Hsel Hc. apply (barcode_channel depth (component sel image) n (component sel result) Fd Hd (Gp sel Hsel) Hs Hu Hcap Hc k _ Hblk). unfold component. cbn [gray_raw]. rewrite nth_error_map, Eq. reflexivity. }
  split; [pose proof (map_nth_error ch4 k _ Eq) as A; rewrite Ha in A; rewrite (map_nth_error ch4 k _ Ep) in A; congruence|].
  intros sel [ <- |[ <- |[ <- |[]]]]; apply S; auto.
Qed.
End Barcode.

(** ** The hypotheses are met: depth 20000 on the coloured picture of 512 x 512 pixels and on the grey picture of 128 x 128. *)
Lemma depth_20000 : fin (f_of_Z Bops 20000) /\ 16384 <= toR (f_of_Z Bops 20000) <= 2 ^ 20.
Proof. destruct (b_of_Z_ok 20000) as (F & V); [lia|]. change (b_of_Z 20000) with (f_of_Z Bops 20000) in *. split; [exact F|]. rewrite V. simpl (2 ^ 20). lra. Qed.
Opaque colour512 watermark_image.
Example C121_instance : exists result,
  watermark_image Bops toy_ldpc toy_ed equalize_histogram (zernike_f64 exact_libm (fun x => x) true) true (repeat false 8) colour512 (f_of_Z Bops 20000) (f_of_Z Bops 1) 11 = Ok result
  /\ forall k p q, nth_error (get_pixels colour512) k = Some p -> nth_error (get_pixels result) k = Some q -> (block_of 512 k < carrying_blocks 512)%nat ->
     ch4 q = ch4 p /\ forall sel, In sel [ch1; ch2; ch3] -> sel q = 0%Z \/ sel q = 255%Z.
Proof.
  destruct C83_512_is_usable as (A & B & C & D). assert (Ed : dimensions colour512 = (512, 512)%nat) by reflexivity. destruct depth_20000 as (F & V).
  destruct (C121_f64_watermarking_prints_bar_codes toy_ldpc toy_shape toy_decodes toy_ed toy_format toy_keys exact_libm exact_libm_accurate (fun x => x) true (repeat false 8) eq_refl colour512 512 (f_of_Z Bops 20000)
    F V colour512_wf Ed A B C D) as (result & H1 & _ & H2). exists result. now split.
Qed.
Lemma negative_exists out n : picture out n 3 -> exists rc, picture rc n 3 /\ forall i j v, cell out i j = Some v -> cell rc i j = Some (255 - v)%Z.
Proof.
  intros (Hc & H8). exists (mapv (fun v => 255 - v)%Z out). split.
  - split; [now apply carrier_mapv|]. apply image8_cells; [apply mapv_wf; apply Hc|]. intros i j v Ev. rewrite cell_mapv in Ev. destruct (cell out i j) as [w|] eqn:Ew; [|discriminate].
    pose proof (image8_cell out i j w H8 Ew). assert (X : Some (255 - w)%Z = Some v) by exact Ev. assert (Y : forall a b : Z, Some a = Some b -> a = b) by (intros a b Q; congruence). apply Y in X. clear Ev. unfold byte in *. lia.
  - intros i j v Ev. rewrite cell_mapv, Ev. reflexivity.
Qed.
Example C121_instance_reading : exists marked received, embed Bops toy_ldpc grey128 (repeat 65%Z 12) (f_of_Z Bops 20000) 3 = Ok marked /\ (forall i j v, cell marked i j = Some v -> cell received i j = Some (255 - v)%Z)
  /\ extract Bops toy_ldpc received (f_of_Z Bops 3000) 3 = Ok (repeat 65%Z 12).
Proof.
  destruct depth_20000 as (F & V). destruct C30_witness as (H1 & H2 & H3 & H4 & H5 & _).
  destruct (C121_f64_the_negative_of_the_bar_code_is_read toy_ldpc H1 H2 grey128 128 (f_of_Z Bops 20000) (repeat 65%Z 12)) as (mk & E1 & Pm & E2); try assumption; try (rewrite repeat_length); try lia; try assumption.
  - apply Forall_forall. intros x Hx. apply repeat_spec in Hx. subst x. unfold byte. lia.
  - destruct (negative_exists mk 128 Pm) as (rc & Pr & Hr). exists mk, rc. split; [exact E1|]. split; [exact Hr|]. apply E2; [lia|exact Pr|]. intros i j v _ Ev. now apply Hr.
Qed.

Print Assumptions C121_enormous_depths_print_a_bar_code.
Print Assumptions C121_f64_enormous_depths_print_a_bar_code.
Print Assumptions C121_f64_the_negative_of_the_bar_code_is_read.
Print Assumptions C121_f64_watermarking_prints_bar_codes.
