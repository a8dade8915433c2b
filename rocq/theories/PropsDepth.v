(** Property C90: reading with another depth than the one used for writing (lib/sia/rust/embedding/src/lib.rs: embed, extract;
    lib/sia/rust/cli/src/main.rs uses depth 100, lib/sia/rust/web/src/lib.rs depth 500, both with three levels). *)
From Coq Require Import Reals Lra.
From Flocq Require Import Core BinarySingleNaN.
From Verif Require Import Outcome Floats FloatFacts Bits ListFacts IndexArithProofs Codecs CodecProofs WatermarkProofs Encoding EncodingProofs PropsEncoding
  Matrix MatrixFacts Haar HaarProofs HaarReal HaarFloat PropsHaar QuantFloat Stego StegoProofs StegoMarks PropsStego Embedding EmbeddingProofs EmbeddingEffect
  PropsEmbedding PropsEmbedding2 PropsEmbedding3 Toy PropsRobust PropsInteger PropsClipping.
Open Scope Z_scope.

(** ** Specification vocabulary *)
(** Writing at [depth] cuts so little off the pixels of the block at black and white that the bit can be read at depth [reading], with [t] to spare. *)
Definition readable_block (depth reading t : Z) (image : array2 Z) (bi bj : nat) : Prop :=
  excess image (strongest depth) bi bj <= 2 * reading - 33 - t /\ lack image (strongest depth) bi bj <= 2 * reading - 33 - t.
(** What the reader makes of a stored bit when the depth used for writing is [q] (an odd number) times its own:
    the same bit for q = 1, 5, 9, ..., the opposite one for q = 3, 7, 11, ... *)
Definition seen_at (q : Z) (b : bool) : bool := if q mod 4 =? 1 then b else negb b.

(** ** Arithmetic *)
Lemma seen_near D q r (b : bool) : Z.odd q = true ->
  exists r', 8 * (q * D) * r + (if b then 2 * (q * D) else - (2 * (q * D))) = 8 * D * r' + (if seen_at q b then 2 * D else - (2 * D)).
Proof.
  intros Ho. unfold seen_at. pose proof (Z.div_mod q 4 ltac:(lia)) as E. pose proof (Z.mod_pos_bound q 4 ltac:(lia)) as B. set (k := q / 4) in *.
  assert (H13 : q mod 4 = 1 \/ q mod 4 = 3).
  { apply Zodd_bool_iff in Ho. apply Zodd_ex in Ho as (m & Hm). lia. }
  destruct H13 as [H|H]; rewrite H in *; cbn [Z.eqb Pos.eqb]; destruct b; cbn [negb].
  - exists (q * r + k). nia.
  - exists (q * r - k). nia.
  - exists (q * r + k + 1). nia.
  - exists (q * r - k - 1). nia.
Qed.

Lemma readable_sum K image n depth payload marked : 1 <= depth <= 4096 -> picture image n 3 ->
  embed Bops K image payload (f_of_Z Bops depth) 3 = Ok marked ->
  exists frame stored, data_serialize payload = Ok frame /\ encode K frame (band_capacity n 3) = Ok stored
  /\ forall bi bj reading t, (bi < n / 8)%nat -> (bj < n / 8)%nat -> (n / 8 * bi + bj < 8 * length stored)%nat -> readable_block depth reading t image bi bj ->
     exists r, Z.abs (block_total marked 3 bi bj - (8 * depth * r + (if payload_bit stored (n / 8 * bi + bj) then 2 * depth else - (2 * depth)))) <= 2 * reading - 1 - t
       /\ Z.abs (block_total image 3 bi bj - 8 * depth * r) <= 4 * depth.
Proof.
  intros HD Hp Em. destruct (embedded_block K image n depth payload marked HD Hp Em) as (ser & enc & E1 & E2 & H). exists ser, enc. split; [exact E1|]. split; [exact E2|].
  intros bi bj rd t Hi Hj Hk (W1 & W2). destruct (H bi bj Hi Hj Hk) as (r & N & Hr & HN & Ha). exists r. split; [|exact Hr].
  revert Ha HN. set (b := payload_bit enc (n / 8 * bi + bj)). clearbody b. intros Ha HN.
  assert (Hv : forall p q, (p < 8)%nat -> (q < 8)%nat -> 0 <= pixel image (8 * bi + p) (8 * bj + q) <= 255) by (intros; apply pixel_range, Hp).
  rewrite (block_total_dsum marked).
  pose proof (sum_after depth r N b _ _ _ (2 * rd - 33 - t) (proj1 HD) Hr HN (block_total_dsum image bi bj) Hv Ha (excess_le _ _ _ _ _ W1) (lack_le _ _ _ _ _ W2)) as X.
  cbv beta in X. revert X. generalize (dsum (fun p q => pixel marked (8 * bi + p) (8 * bj + q))). intros s X. lia.
Qed.

(** *** C90, every odd ratio of the depths: each carrying block is read as [seen_at] says. *)
Theorem C90_f64_what_another_depth_reads : forall K image n q reading payload marked, 1 <= reading -> q * reading <= 4096 -> 0 < q -> Z.odd q = true ->
  picture image n 3 -> embed Bops K image payload (f_of_Z Bops (q * reading)) 3 = Ok marked ->
  exists frame stored, data_serialize payload = Ok frame /\ encode K frame (band_capacity n 3) = Ok stored
    /\ forall received, picture received n 3 -> exists bytes_read, length bytes_read = band_capacity n 3 /\ bytes bytes_read
       /\ extract Bops K received (f_of_Z Bops reading) 3 = bind (decode K bytes_read (band_capacity n 3)) data_deserialize
       /\ forall bi bj t, (bi < n / 8)%nat -> (bj < n / 8)%nat -> let k := (n / 8 * bi + bj)%nat in (k < 8 * length stored)%nat ->
          readable_block (q * reading) reading t image bi bj -> Z.abs (block_total received 3 bi bj - block_total marked 3 bi bj) <= t ->
          payload_bit bytes_read k = seen_at q (payload_bit stored k).
Proof.
  intros K m n q D payload out HD1 HD2 Hq Ho Hp E. assert (HD : 1 <= q * D <= 4096) by nia. assert (HDr : 1 <= D <= 4096) by nia.
  destruct (embed_inv Bops K m n 3 _ payload out (proj1 Hp) E) as (H9 & ser0 & enc0 & Hser & Henc & Hlen).
  destruct (readable_sum K m n (q * D) payload out HD Hp E) as (ser & enc & E1 & E2 & HS). exists ser, enc. split; [exact E1|]. split; [exact E2|].
  unfold band_capacity in E2. fold (band n 3) in E2. assert (ser0 = ser) by congruence. subst ser0. assert (enc0 = enc) by congruence. subst enc0.
  intros rc Prc. destruct (C86_f64_extraction_in_integers K rc n D HDr Prc H9) as (rb & Lb & Bb & Hbits & EX). exists rb. split; [exact Lb|]. split; [exact Bb|]. split; [exact EX|].
  intros bi bj t Hi Hj k Hk Hw Hn. assert (Hk2 : (k < 8 * band_capacity n 3)%nat) by (unfold band_capacity; fold (band n 3); lia). specialize (Hbits k Hk2). cbv zeta in Hbits.
  assert (Ki : (k / (n / 8) = bi)%nat) by (unfold k; symmetry; apply (Nat.div_unique _ _ _ bj); lia).
  assert (Kj : (k mod (n / 8) = bj)%nat) by (unfold k; symmetry; apply (Nat.mod_unique _ _ bi); lia). rewrite Ki, Kj in Hbits.
  destruct (HS bi bj D t Hi Hj Hk Hw) as (r & Hr & _). fold k in Hr. destruct (seen_near D q r (payload_bit enc k) Ho) as (r' & Er). rewrite Er in Hr.
  revert Hbits Hr Hn. generalize (block_total rc 3 bi bj) (block_total out 3 bi bj). intros T T' Hbits Hr Hn.
  destruct (bit_read_near D r' (seen_at q (payload_bit enc k)) T ltac:(lia) ltac:(lia)) as (B1 & B2). rewrite (Hbits B2). exact B1.
Qed.

(** *** C90: the payload comes back at a fifth, a ninth, ... of the depth. *)
Theorem C90_f64_reading_at_a_fraction_of_the_depth : forall K, ldpc_shape K -> ldpc_decodes K ->
  forall image n q reading payload t, 1 <= reading -> q * reading <= 4096 -> 0 < q -> q mod 4 = 1 ->
  picture image n 3 -> usable n 3 -> bytes payload -> 1 <= Z.of_nat (length payload) <= 65533 ->
  (stored_size n 3 (length payload) <= band_capacity n 3)%nat ->
  (forall bi bj, (bi < n / 8)%nat -> (bj < n / 8)%nat -> (n / 8 * bi + bj < 8 * stored_size n 3 (length payload))%nat -> readable_block (q * reading) reading t image bi bj) ->
  exists marked, embed Bops K image payload (f_of_Z Bops (q * reading)) 3 = Ok marked /\ picture marked n 3
    /\ forall received, picture received n 3 -> sums_within marked received n (8 * stored_size n 3 (length payload)) t ->
       extract Bops K received (f_of_Z Bops reading) 3 = Ok payload.
Proof.
  intros K Hsh Hdec m n q D payload t HD1 HD2 Hq Hq4 Hp Hu Hb Hl Hfit Hw. pose proof Hu as (Hcod & Hmod). pose proof Hp as (Hc & H8).
  assert (HD : 1 <= q * D <= 4096) by nia. assert (HDr : 1 <= D <= 4096) by nia.
  assert (Ho : Z.odd q = true) by (rewrite (Z.div_mod q 4) by lia; rewrite Hq4, Z.odd_add, Z.odd_mul; reflexivity).
  assert (Hs : forall b, seen_at q b = b) by (intros b; unfold seen_at; rewrite Hq4; reflexivity).
  destruct (b_of_Z_ok (q * D)) as (Fd & Vd); [lia|]. change (b_of_Z (q * D)) with (f_of_Z Bops (q * D)) in *.
  assert (D1 : (1 <= IZR (q * D))%R) by (apply (IZR_le 1); lia). assert (D2 : (IZR (q * D) <= 4096)%R) by (apply (IZR_le _ 4096); lia).
  assert (Hd' : (bpow radix2 (- (0)) <= toR (f_of_Z Bops (q * D)) <= bpow radix2 20)%R) by (rewrite Vd; simpl bpow; lra).
  assert (EX : exists out, embed Bops K m payload (f_of_Z Bops (q * D)) 3 = Ok out /\ picture out n 3).
  { destruct (extract_payload Bops K m n 3 (f_of_Z Bops (q * D)) payload Hc Hsh Hdec Hcod Hmod Hb Hl Hfit) as (ser & enc & E1 & E2 & E3 & E4 & E5 & E6 & _).
    destruct (embed_effect_float_gen 0 K m n 3 (f_of_Z Bops (q * D)) payload ser enc ltac:(lia) Hc H8 ltac:(lia) Fd Hd' E5 E1 E2 E3) as (out & Eo & Heff).
    exists out. split; [exact Eo|exact (eff_shape _ _ _ _ _ _ _ _ _ Heff)]. }
  destruct EX as (out & Eo & Pout). exists out. split; [exact Eo|]. split; [exact Pout|]. intros rc Prc Hsum. pose proof Prc as (Hrc & H8r).
  destruct (extract_payload Bops K rc n 3 (f_of_Z Bops D) payload Hrc Hsh Hdec Hcod Hmod Hb Hl Hfit) as (ser & enc & E1 & E2 & E3 & E4 & E5 & E6 & HX).
  destruct (readable_sum K m n (q * D) payload out HD Hp Eo) as (ser' & enc' & E1' & E2' & HS).
  assert (ser' = ser) by congruence. subst ser'. unfold band_capacity in E2'. fold (band n 3) in E2'. assert (enc' = enc) by congruence. subst enc'.
  apply HX. intros C Hdom C0 C1 GC k Hk.
  assert (Hs0 : (0 < band n 3)%nat) by (destruct (band n 3); [cbn in E5; lia|lia]).
  destruct (used_cell n 3 enc k Hs0 Hk E3) as (_ & Hk2). destruct (place_lt (band n 3) k Hs0 Hk2) as (P1 & P2).
  assert (PI : (n / 8 * (k / band n 3) + k mod band n 3 = k)%nat) by (change (n / 8)%nat with (band n 3); pose proof (Nat.div_mod k (band n 3) ltac:(lia)); lia).
  pose proof (carrier_band rc n 3 Hrc) as (Hsn & _ & Hdiv & _).
  rewrite cell_bit_get by assumption. rewrite GC.
  assert (HA : approx n n (bpow radix2 (-24)) (transform Bops false n n 3 (get Bops (mapv (f_of_Z Bops) rc))) (transR false n n 3 (pixR rc))).
  { destruct Hrc as (_ & X0 & X1 & _). pose proof (pixR_bounded rc H8r) as Hbd. pose proof (pix_float rc H8r) as Hpx. rewrite X0, X1 in *. apply analysis_float; try assumption. lia. }
  destruct (HA (k / band n 3)%nat (k mod band n 3)%nat ltac:(lia) ltac:(lia)) as (FC & HC). rewrite coefficient_eq in HC by assumption. rewrite coefficient_sum in HC.
  assert (Hk8 : (n / 8 * (k / band n 3) + k mod band n 3 < 8 * length enc)%nat) by (rewrite PI; exact Hk).
  assert (Hk9 : (n / 8 * (k / band n 3) + k mod band n 3 < 8 * stored_size n 3 (length payload))%nat) by (unfold stored_size, band_capacity; fold (band n 3); rewrite <- E6; exact Hk8).
  destruct (HS (k / band n 3)%nat (k mod band n 3)%nat D t P1 P2 Hk8 (Hw _ _ P1 P2 Hk9)) as (r & Hr & _). pose proof (Hsum _ _ P1 P2 Hk9) as Hn. rewrite PI in Hr.
  destruct (seen_near D q r (payload_bit enc k) Ho) as (r' & Er). rewrite Er, Hs in Hr.
  pose proof (block_sum_range rc (k / band n 3) (k mod band n 3) H8r) as HT.
  revert HC Hr Hn HT. generalize (block_total rc 3 (k / band n 3) (k mod band n 3)) (block_total out 3 (k / band n 3) (k mod band n 3)). intros T T' HC Hr Hn HT.
  destruct (bit_read_near D r' (payload_bit enc k) T ltac:(lia) ltac:(lia)) as (B1 & B2).
  rewrite (bit_of_sum D _ T HDr HT B2 FC HC). exact B1.
Qed.

(** *** The other way round it does not work: read at five times the depth, a block whose sum is not near a multiple of that depth's
    interval (40 times the writing depth) shows the same bit whatever was stored. *)
Theorem C90_f64_at_five_times_the_depth_most_bits_are_lost : forall K image n depth payload marked, 17 <= depth -> 5 * depth <= 4096 ->
  picture image n 3 -> embed Bops K image payload (f_of_Z Bops depth) 3 = Ok marked ->
  exists frame stored bytes_read, data_serialize payload = Ok frame /\ encode K frame (band_capacity n 3) = Ok stored
    /\ length bytes_read = band_capacity n 3 /\ bytes bytes_read
    /\ extract Bops K marked (f_of_Z Bops (5 * depth)) 3 = bind (decode K bytes_read (band_capacity n 3)) data_deserialize
    /\ forall bi bj, (bi < n / 8)%nat -> (bj < n / 8)%nat -> let k := (n / 8 * bi + bj)%nat in let sum := block_total image 3 bi bj in (k < 8 * length stored)%nat ->
       readable_block depth depth 0 image bi bj ->
       (4 * depth < sum mod (40 * depth) < 20 * depth -> payload_bit bytes_read k = true)
       /\ (20 * depth < sum mod (40 * depth) < 36 * depth -> payload_bit bytes_read k = false).
Proof.
  intros K m n D payload out HD1 HD2 Hp E. assert (HD : 1 <= D <= 4096) by lia.
  destruct (embed_inv Bops K m n 3 _ payload out (proj1 Hp) E) as (H9 & ser0 & enc0 & Hser & Henc & Hlen).
  destruct (readable_sum K m n D payload out HD Hp E) as (ser & enc & E1 & E2 & HS).
  assert (Pout : picture out n 3).
  { destruct (b_of_Z_ok D) as (Fd & Vd); [lia|]. change (b_of_Z D) with (f_of_Z Bops D) in *.
    assert (A1 : (1 <= IZR D)%R) by (apply (IZR_le 1); lia). assert (A2 : (IZR D <= 4096)%R) by (apply (IZR_le _ 4096); lia).
    assert (Hd' : (bpow radix2 (- (0)) <= toR (f_of_Z Bops D) <= bpow radix2 20)%R) by (rewrite Vd; simpl bpow; lra).
    destruct (embed_effect_float_gen 0 K m n 3 (f_of_Z Bops D) payload ser0 enc0 ltac:(lia) (proj1 Hp) (proj2 Hp) ltac:(lia) Fd Hd' H9 Hser Henc Hlen) as (out' & Eo & Heff).
    assert (out' = out) by congruence. subst out'. exact (eff_shape _ _ _ _ _ _ _ _ _ Heff). }
  destruct (C86_f64_extraction_in_integers K out n (5 * D) ltac:(lia) Pout H9) as (rb & Lb & Bb & Hbits & EX).
  exists ser, enc, rb. split; [exact E1|]. split; [exact E2|]. split; [exact Lb|]. split; [exact Bb|]. split; [exact EX|].
  unfold band_capacity in E2. fold (band n 3) in E2. assert (ser0 = ser) by congruence. subst ser0. assert (enc0 = enc) by congruence. subst enc0.
  intros bi bj Hi Hj k sum Hk Hw. assert (Hk2 : (k < 8 * band_capacity n 3)%nat) by (unfold band_capacity; fold (band n 3); lia). specialize (Hbits k Hk2). cbv zeta in Hbits.
  assert (Ki : (k / (n / 8) = bi)%nat) by (unfold k; symmetry; apply (Nat.div_unique _ _ _ bj); lia).
  assert (Kj : (k mod (n / 8) = bj)%nat) by (unfold k; symmetry; apply (Nat.mod_unique _ _ bi); lia). rewrite Ki, Kj in Hbits.
  destruct (HS bi bj D 0 Hi Hj Hk Hw) as (r & Hr & HT). fold k in Hr. fold sum in HT. clearbody sum.
  revert Hbits Hr. generalize (block_total out 3 bi bj). intros T' Hbits Hr.
  assert (Hb : Z.abs (T' - 8 * D * r) <= 4 * D - 1) by (destruct (payload_bit enc k); lia). clear Hr.
  pose proof (Z.div_mod sum (40 * D) ltac:(lia)) as DM. set (c := sum / (40 * D)) in *. set (u := sum mod (40 * D)) in *. clearbody c u.
  split; intros Hu.
  - assert (Hr1 : 5 * c + 1 <= r <= 5 * c + 2) by nia.
    assert (R : 40 * D * c < T' < 40 * D * c + 20 * D) by nia.
    assert (M1 : T' mod (8 * (5 * D)) = T' - 40 * D * c) by (symmetry; apply (Z.mod_unique_pos _ _ c); lia).
    assert (M2 : T' mod (4 * (5 * D)) = T' - 40 * D * c) by (symmetry; apply (Z.mod_unique_pos _ _ (2 * c)); lia).
    rewrite Hbits by (unfold border; lia). unfold bit_read. apply Z.ltb_lt. lia.
  - assert (Hr1 : 5 * c + 3 <= r <= 5 * c + 4) by nia.
    assert (R : 40 * D * c + 20 * D < T' < 40 * D * c + 40 * D) by nia.
    assert (M1 : T' mod (8 * (5 * D)) = T' - 40 * D * c) by (symmetry; apply (Z.mod_unique_pos _ _ c); lia).
    assert (M2 : T' mod (4 * (5 * D)) = T' - 40 * D * c - 20 * D) by (symmetry; apply (Z.mod_unique_pos _ _ (2 * c + 1)); lia).
    rewrite Hbits by (unfold border; lia). unfold bit_read. apply Z.ltb_ge. lia.
Qed.

(** *** Exact arithmetic, every number of levels and every real depth. *)
Theorem C90_reading_at_a_fraction_of_the_depth : forall K, ldpc_shape K -> ldpc_decodes K ->
  forall image n levels (reading : R) (k : Z) payload marked received budget, (0 <= k)%Z -> (0 < reading)%R -> let depth := (IZR (4 * k + 1) * reading)%R in
  picture image n levels -> usable n levels -> bytes payload -> 1 <= Z.of_nat (length payload) <= 65533 ->
  (stored_size n levels (length payload) <= band_capacity n levels)%nat ->
  room image n levels (8 * stored_size n levels (length payload)) (3 * depth / 2 ^ (levels + 2)) ->
  embed Rops K image payload depth levels = Ok marked -> picture received n levels ->
  block_noise marked received n levels (8 * stored_size n levels (length payload)) budget -> (2 ^ levels / 2 + budget <= reading / 4)%R ->
  extract Rops K received reading levels = Ok payload.
Proof.
  intros K Hsh Hdec m n L rd k payload out rc budget Hk Hrd depth Hp (Hcod & Hmod) Hb Hl Hfit Hroom Eo (Hrc & _) Hnoise Hbud. pose proof Hp as (Hc & H8).
  assert (Hk1 : (1 <= IZR (4 * k + 1))%R) by (apply (IZR_le 1); lia). assert (Hd0 : (0 < depth)%R) by (unfold depth; nra).
  destruct (extract_payload Rops K rc n L rd payload Hrc Hsh Hdec Hcod Hmod Hb Hl Hfit) as (ser & enc & E1 & E2 & E3 & E4 & E5 & E6 & HX).
  destruct (embed_effect_real K m n L depth payload ser enc Hc H8 Hd0 E5 E1 E2 E3) as (out' & Eo' & Heff).
  assert (out' = out) by congruence. subst out'. apply HX. unfold stored_size, band_capacity in Hnoise, Hroom. fold (band n L) in Hnoise, Hroom. rewrite <- E6 in Hnoise, Hroom.
  intros C Hdom C0 C1 GC i Hi. set (s := band n L) in *.
  pose proof (carrier_band m n L Hc) as (_ & _ & Hdiv & _).
  assert (Hs : (0 < s)%nat) by (destruct s; [cbn in E3; lia|lia]).
  destruct (used_cell n L enc i Hs Hi E3) as (Hu & Hk2). fold s in Hu, Hk2.
  unfold s. rewrite cell_bit_get by assumption. fold s. rewrite GC.
  rewrite (transform_ext Rops false n n L _ (pixR rc) Hdiv) by (intros; apply get_pixR).
  destruct (marked_coefficients m out n L depth enc 0 0 _ Hc H8 ltac:(lra) Hd0 Heff) with (i := (i / s)%nat) (j := (i mod s)%nat) as (r & _ & Hr).
  - intros x y v Ev Hu'. rewrite pow_half_3. destruct (cell_some_lt m n L x y v Hc Ev) as (Hx & Hy).
    apply (Hroom x y v Ev). apply used_blocks; try assumption. apply Hc.
  - exact Hu.
  - fold s in Hr. rewrite place_inv in Hr by exact Hs. destruct (place_lt s i Hs Hk2) as (P1 & P2).
    pose proof (noise_coefficient out rc n L _ budget (i / s) (i mod s) Hnoise P1 P2 ltac:(fold s; rewrite place_inv by exact Hs; exact Hi)) as Hnz.
    rewrite !coefficient_eq in * by assumption.
    set (b := payload_bit enc i) in *. clearbody b.
    rewrite (bit_of_real rd ((4 * k + 1) * r + (if b then k else - k)) b); [rewrite Rlt_bool_true by exact Hrd; reflexivity|lra|].
    rewrite (Rabs_pos_eq rd) by lra.
    replace (rd * (IZR ((4 * k + 1) * r + (if b then k else - k)) + quarter b))%R with (depth * (IZR r + quarter b))%R.
    2:{ unfold depth. destruct b; unfold quarter; rewrite ?plus_IZR, ?mult_IZR, ?opp_IZR, ?plus_IZR, ?mult_IZR; simpl; field. }
    set (w := (depth * (IZR r + quarter b))%R) in *.
    replace (coefficient rc L (i / s) (i mod s) - w)%R
      with ((coefficient rc L (i / s) (i mod s) - coefficient out L (i / s) (i mod s)) + (coefficient out L (i / s) (i mod s) - w))%R by ring.
    eapply Rle_lt_trans; [apply Rabs_triang|]. lra.
Qed.

(** ** Concrete cases *)
Lemma flat128_readable v depth reading t bi bj : strongest depth <= v <= 255 - strongest depth -> t <= 2 * reading - 33 -> (bi < 16)%nat -> (bj < 16)%nat ->
  readable_block depth reading t (wit_matrix v 128 128) bi bj.
Proof.
  intros Hv Ht Hi Hj. unfold readable_block, excess, lack. rewrite !over_block_dsum.
  rewrite (dsum_ext _ (fun _ _ => 0)) by (intros p q Hp Hq; cbv beta; rewrite flat128_pixel by lia; lia).
  rewrite (dsum_ext (fun p q => Z.max 0 (strongest depth - _)) (fun _ _ => 0)) by (intros p q Hp Hq; cbv beta; rewrite flat128_pixel by lia; lia).
  rewrite dsum_const. lia.
Qed.
(** A flat picture marked at the web page's depth 500 is read at the command line's depth 100 = 500 / 5, with every pixel changed by up to two levels. *)
Example C90_instance : exists marked, embed Bops toy_ldpc (wit_matrix 131 128 128) (repeat 65 12) (f_of_Z Bops 500) 3 = Ok marked
  /\ forall received, picture received 128 3 -> pixel_noise marked received 2 -> extract Bops toy_ldpc received (f_of_Z Bops 100) 3 = Ok (repeat 65 12).
Proof.
  destruct C30_witness as (H1 & H2 & _ & H4 & H5 & _).
  destruct (C90_f64_reading_at_a_fraction_of_the_depth toy_ldpc H1 H2 (wit_matrix 131 128 128) 128 5 100 (repeat 65 12) (64 * 2)) as (mk & E & P & X).
  - lia.
  - lia.
  - lia.
  - reflexivity.
  - apply flat128_picture. lia.
  - exact H4.
  - apply Forall_forall. intros x Hx. apply repeat_spec in Hx. subst x. unfold byte. lia.
  - rewrite repeat_length. lia.
  - rewrite repeat_length. exact H5.
  - intros bi bj Hi Hj _. change (128 / 8)%nat with 16%nat in *. apply flat128_readable; try assumption; [|lia]. change (strongest (5 * 100)) with 47. lia.
  - exists mk. split; [exact E|]. intros rc Prc Hn. apply X; [exact Prc|]. now apply noise_sums.
Qed.
(** The same at depth 300 = 3 * 100 shows the opposite bits at depth 100; and a flat picture of grey value 100 marked at depth 100 shows nothing but zeros at depth 500. *)
Example C90_opposite_instance : seen_at 3 true = false /\ seen_at 3 false = true /\ seen_at 5 true = true /\ seen_at 5 false = false
  /\ forall bi bj, (bi < 16)%nat -> (bj < 16)%nat -> readable_block 300 100 128 (wit_matrix 131 128 128) bi bj.
Proof. repeat (split; [reflexivity|]). intros bi bj Hi Hj. apply flat128_readable; try assumption; [change (strongest 300) with 28|]; lia. Qed.
Example C90_lost_instance : forall bi bj, (bi < 16)%nat -> (bj < 16)%nat -> readable_block 100 100 0 (wit_matrix 100 128 128) bi bj
  /\ 20 * 100 < block_total (wit_matrix 100 128 128) 3 bi bj mod (40 * 100) < 36 * 100.
Proof.
  intros bi bj Hi Hj. split; [apply flat128_readable; try assumption; [change (strongest 100) with 9|]; lia|].
  rewrite block_total_dsum, (dsum_ext _ (fun _ _ => 100)) by (intros p q Hp Hq; apply flat128_pixel; lia). rewrite dsum_const. vm_compute. split; reflexivity.
Qed.
(** Exact arithmetic: hypotheses met by the flat picture, ratio 5, and no later change. *)
Example C90_exact_instance : exists marked, embed Rops toy_ldpc (wit_matrix 131 128 128) (repeat 65 12) (IZR (4 * 1 + 1) * 100)%R 3 = Ok marked
  /\ extract Rops toy_ldpc marked 100%R 3 = Ok (repeat 65 12).
Proof.
  destruct C30_witness as (H1 & H2 & _ & H4 & H5 & _). pose proof (flat128_picture 131 ltac:(lia)) as Hp. pose proof H4 as (Hcod & Hmod).
  assert (HB : bytes (repeat 65 12)) by (apply Forall_forall; intros x Hx; apply repeat_spec in Hx; subst x; unfold byte; lia).
  assert (HL : 1 <= Z.of_nat (length (repeat 65 12)) <= 65533) by (rewrite repeat_length; lia).
  assert (HF : (stored_size 128 3 (length (repeat 65 12)) <= band_capacity 128 3)%nat) by (rewrite repeat_length; exact H5).
  destruct (extract_payload Rops toy_ldpc (wit_matrix 131 128 128) 128 3 100%R (repeat 65 12) (proj1 Hp) H1 H2 Hcod Hmod HB HL HF) as (ser & enc & E1 & E2 & E3 & E4 & E5 & E6 & _).
  assert (Hd0 : (0 < IZR (4 * 1 + 1) * 100)%R) by (simpl; lra).
  destruct (embed_effect_real toy_ldpc (wit_matrix 131 128 128) 128 3 (IZR (4 * 1 + 1) * 100)%R (repeat 65 12) ser enc (proj1 Hp) (proj2 Hp) Hd0 E5 E1 E2 E3) as (out & Eo & Heff).
  exists out. split; [exact Eo|]. pose proof (eff_shape _ _ _ _ _ _ _ _ _ Heff) as Pout.
  apply (C90_reading_at_a_fraction_of_the_depth toy_ldpc H1 H2 (wit_matrix 131 128 128) 128 3 100%R 1 (repeat 65 12) out out 1%R ltac:(lia) ltac:(lra) Hp H4 HB HL HF); [|exact Eo|exact Pout| |simpl; lra].
  - intros i j v Ev _. apply cell_wit in Ev. subst v. simpl. lra.
  - intros bi bj Hi Hj _. rewrite Z.sub_diag. replace (IZR 0) with 0%R by reflexivity. rewrite Rabs_R0. simpl. lra.
Qed.

Print Assumptions C90_f64_what_another_depth_reads.
Print Assumptions C90_f64_reading_at_a_fraction_of_the_depth.
Print Assumptions C90_f64_at_five_times_the_depth_most_bits_are_lost.
Print Assumptions C90_reading_at_a_fraction_of_the_depth.
