(** Properties C61-C63: what embedding does to every pixel, embedding twice, and tolerance of the marks
    (lib/sia/rust/embedding/src/lib.rs). *)
From Coq Require Import Reals Lra.
From Flocq Require Import Core BinarySingleNaN.
From Verif Require Import Outcome Floats FloatFacts Bits ListFacts IndexArithProofs Codecs CodecProofs WatermarkProofs Encoding EncodingProofs PropsEncoding
  Matrix MatrixFacts Haar HaarProofs HaarReal HaarFloat PropsHaar QuantFloat Stego StegoProofs StegoMarks PropsStego Embedding EmbeddingProofs EmbeddingEffect
  PropsEmbedding PropsEmbedding2 Toy.
Open Scope R_scope.

(** ** Specification vocabulary *)
Fixpoint zsum (n : nat) (f : nat -> Z) : Z := match n with O => 0%Z | S k => (zsum k f + f k)%Z end.
Definition pixel (image : array2 Z) (i j : nat) : Z := match cell image i j with Some v => v | None => 0%Z end.

(** Sum of the pixels of block (bi, bj) of side 2^levels. *)
Definition block_total (image : array2 Z) (levels bi bj : nat) : Z :=
  zsum (2 ^ levels) (fun p => zsum (2 ^ levels) (fun q => pixel image (2 ^ levels * bi + p) (2 ^ levels * bj + q))).
(** 2^levels times the mean grey value of the block. *)
Definition coefficient (image : array2 Z) (levels bi bj : nat) : R := IZR (block_total image levels bi bj) / 2 ^ levels.

(** Number of the block of pixel (i, j), in row-major order. *)
Definition block_number (n levels i j : nat) : nat := (n / 2 ^ levels * (i / 2 ^ levels) + j / 2 ^ levels)%nat.

(** The grey value added to each pixel of the block of (i, j), before rounding: the block's coefficient moves to the middle of the
    upper (bit 1) or lower (bit 0) half around the nearest multiple of the depth. *)
Definition pixel_shift (image : array2 Z) (n levels : nat) (depth : R) (stored : list Z) (i j : nat) : R :=
  let c := coefficient image levels (i / 2 ^ levels) (j / 2 ^ levels) in
  if (block_number n levels i j <? 8 * length stored)%nat
  then (depth * (IZR (nearest (c / depth)) + quarter (payload_bit stored (block_number n levels i j))) - c) / 2 ^ levels
  else 0.

(** ** helpers *)
Lemma zsum_sumn n f : IZR (zsum n f) = sumn n (fun k => IZR (f k)).
Proof. induction n; cbn [zsum sumn]; [reflexivity|]. rewrite plus_IZR, IHn. reflexivity. Qed.
Lemma zsum_ext n f g : (forall k, (k < n)%nat -> f k = g k) -> zsum n f = zsum n g.
Proof. induction n; intros H; cbn [zsum]; [reflexivity|]. rewrite IHn, H; auto. Qed.
Lemma zsum_add n f a : zsum n (fun k => f k + a)%Z = (zsum n f + Z.of_nat n * a)%Z.
Proof. induction n; cbn [zsum]; [lia|]. rewrite IHn. lia. Qed.
Lemma zsum_diff n f g t : (forall k, (k < n)%nat -> Z.abs (f k - g k) <= t)%Z -> (Z.abs (zsum n f - zsum n g) <= Z.of_nat n * t)%Z.
Proof.
  induction n as [|n IH]; intros H; cbn [zsum]; [lia|]. specialize (IH ltac:(intros; apply H; lia)). specialize (H n ltac:(lia)). lia.
Qed.

Lemma pixR_pixel m i j : pixR m i j = IZR (pixel m i j).
Proof. unfold pixR, pixel. destruct (cell m i j); reflexivity. Qed.

Lemma block_total_blocksum m L i j : IZR (block_total m L i j) = blocksum (2 ^ L) (pixR m) i j.
Proof.
  unfold block_total, blocksum. rewrite zsum_sumn. apply sumn_ext. intros p _. rewrite zsum_sumn. apply sumn_ext. intros q _.
  now rewrite pixR_pixel.
Qed.

Lemma coefficient_eq m n L i j : divisible n n L -> (i < band n L)%nat -> (j < band n L)%nat ->
  transR false n n L (pixR m) i j = coefficient m L i j.
Proof.
  intros Hdiv Hi Hj. rewrite trans_LL by assumption. unfold coefficient. rewrite block_total_blocksum, pow_inv. unfold Rdiv. ring.
Qed.

Lemma block_lt n L k : (n mod 2 ^ L = 0)%nat -> (k < n)%nat -> (k / 2 ^ L < band n L)%nat.
Proof.
  intros Hm Hk. unfold band. pose proof (pow2_pos L). apply Nat.div_lt_upper_bound; [lia|]. pose proof (Nat.div_mod n (2 ^ L) ltac:(lia)). lia.
Qed.

Lemma used_number n L enc i j : (n mod 2 ^ L = 0)%nat -> (i < n)%nat -> (j < n)%nat ->
  used (band n L) enc (i / 2 ^ L) (j / 2 ^ L) = (block_number n L i j <? 8 * length enc)%nat.
Proof.
  intros Hm Hi Hj. unfold used, block_number. rewrite (proj2 (Nat.ltb_lt _ _) (block_lt n L i Hm Hi)), (proj2 (Nat.ltb_lt _ _) (block_lt n L j Hm Hj)).
  reflexivity.
Qed.

Lemma embed_pixels_real K m n L depth payload out : carrier m n L -> embed Rops K m payload depth L = Ok out ->
  let s := band n L in
  carrier out n L /\ image8 out /\ exists ser enc, data_serialize payload = Ok ser /\ encode K ser (s * s / 8) = Ok enc /\ (length enc <= s * s / 8)%nat /\
  forall i j v, cell m i j = Some v -> cell out i j = Some (clamp 0 255 (nearest (IZR v + pixel_shift m n L depth enc i j))).
Proof.
  intros Hc E s. destruct (embed_inv Rops K m n L depth payload out Hc E) as (H9 & ser & enc & Hser & Henc & Hlen). fold s in H9, Henc, Hlen.
  destruct (embed_run Rops K m n L depth payload ser enc Hc H9 Hser Henc) as (Hrun & _).
  destruct (Hrun Hlen) as (R & ER & WR & R0 & R1 & GR). fold s in GR. rewrite E in ER.
  assert (Eo : out = mapv (fun x => f_to_u8 Rops (f_round Rops x)) R) by congruence. rewrite Eo. clear ER Hrun.
  pose proof (carrier_band m n L Hc) as (Hs & Hrep & Hdiv & Hn).
  split; [apply carrier_mapv; destruct Hc as (_ & _ & _ & Hc'); repeat split; try assumption; try apply WR; apply Hc'|].
  split.
  { apply image8_cells; [now apply mapv_wf|]. intros i j v Ev. rewrite cell_mapv in Ev. destruct (cell R i j); [|discriminate].
    cbn [option_map] in Ev. assert (Ev' : v = f_to_u8 Rops (f_round Rops r)) by congruence. rewrite Ev'. apply clamp_byte. }
  exists ser, enc. split; [exact Hser|]. split; [exact Henc|]. split; [exact Hlen|].
  set (C := transR false n n L (pixR m)) in *.
  set (D := fun i j => marked_coefficient Rops depth s enc C i j - C i j).
  assert (HD0 : forall i j, used s enc i j = false -> D i j = 0).
  { intros i j Hu. unfold D, marked_coefficient. fold (used s enc i j). rewrite Hu. ring. }
  intros i j v Ev. destruct (cell_some_lt m n L i j v Hc Ev) as (Hi & Hj).
  rewrite cell_mapv, (cell_get Rops) by (try exact WR; lia). cbn [option_map]. f_equal.
  unfold f_to_u8. cbn [f_cast f_round Rops]. rewrite Ztrunc_IZR. fold (nearest (get Rops R i j)). f_equal. f_equal.
  transitivity (pixR m i j + (/ 2) ^ L * D (i / 2 ^ L)%nat (j / 2 ^ L)%nat).
  - rewrite GR by assumption. transitivity (transR true n n L (lin 1 1 C D) i j).
    + apply transform_ext; [exact Hdiv|]. intros a b. unfold lin, D.
      assert (E2 : forall a b, transR false n n L (get Rops (mapv (f_of_Z Rops) m)) a b = C a b).
      { intros a' b'. apply transform_ext; [exact Hdiv|]. intros. apply get_pixR. }
      unfold marked_coefficient. rewrite E2. destruct (_ && _)%bool; ring.
    + rewrite trans_lin. unfold lin at 1. unfold C. rewrite trans_bwd_fwd by exact Hdiv.
      rewrite trans_bwd_LL; try assumption; [ring|]. intros a b Hab. apply HD0. unfold used.
      destruct (Nat.ltb_spec a s), (Nat.ltb_spec b s); try reflexivity. exfalso. apply Hab. split; assumption.
  - unfold pixR. rewrite Ev. f_equal. unfold pixel_shift. rewrite <- (used_number n L enc i j) by (try assumption; apply Hc). fold s.
    destruct (used s enc (i / 2 ^ L) (j / 2 ^ L)) eqn:Hu.
    + unfold D, marked_coefficient. fold (used s enc (i / 2 ^ L) (j / 2 ^ L)). rewrite Hu, mark_real.
      unfold C. rewrite coefficient_eq by (try exact Hdiv; apply block_lt; try assumption; apply Hc).
      unfold block_number. fold (band n L). fold s. rewrite pow_inv. unfold Rdiv. ring.
    + rewrite HD0 by exact Hu. ring.
Qed.

(** *** C61 *)
Theorem C61_embedding_in_closed_form : forall K image n levels depth payload marked,
  picture image n levels -> embed Rops K image payload depth levels = Ok marked ->
  exists frame stored, data_serialize payload = Ok frame /\ encode K frame (band_capacity n levels) = Ok stored
    /\ forall i j v, cell image i j = Some v ->
       cell marked i j = Some (clamp 0 255 (nearest (IZR v + pixel_shift image n levels depth stored i j))).
Proof.
  intros K m n L depth payload out (Hc & H8) E.
  destruct (embed_pixels_real K m n L depth payload out Hc E) as (_ & _ & ser & enc & E1 & E2 & _ & H). exists ser, enc. auto.
Qed.

Theorem C61_extraction_in_closed_form : forall K image n levels depth,
  picture image n levels -> (9 <= band_capacity n levels)%nat ->
  exists received, length received = band_capacity n levels /\ bytes received
    /\ (forall k, (k < 8 * band_capacity n levels)%nat ->
         let c := coefficient image levels (k / (n / 2 ^ levels)) (k mod (n / 2 ^ levels)) in
         payload_bit received k = true <-> 0 <= c - depth * IZR (nearest (c / depth)))
    /\ extract Rops K image depth levels = bind (decode K received (band_capacity n levels)) data_deserialize.
Proof.
  intros K m n L depth (Hc & H8) H9. unfold band_capacity in *. fold (band n L) in *.
  destruct (extract_run Rops K m n L depth Hc H9) as (C & Hdom & C0 & C1 & GC & EX).
  pose proof (carrier_band m n L Hc) as (_ & Hrep & Hdiv & _).
  pose proof (read_ok Rops depth (band n L) C Hrep Hdom) as Erd. set (rc := map _ _) in Erd.
  destruct (read_bits Rops depth (band n L) C _ Hrep Hdom Erd) as (Ll & Hbits).
  exists rc. split; [exact Ll|]. split; [exact (read_bytes Rops depth (band n L) C _ Hrep Hdom Erd)|]. split.
  - intros k Hk. cbv zeta. rewrite <- nth_bits, Hbits by (rewrite Ll; exact Hk).
    assert (Hs : (0 < band n L)%nat) by (destruct (band n L); [cbn in H9; lia|lia]).
    assert (Hk2 : (k < band n L * band n L)%nat) by (pose proof (Nat.mul_div_le (band n L * band n L) 8 ltac:(lia)); lia).
    rewrite cell_bit_get by assumption. rewrite GC.
    rewrite (transform_ext Rops false n n L _ (pixR m) Hdiv) by (intros; apply get_pixR).
    destruct (place_lt (band n L) k Hs Hk2) as (P1 & P2). rewrite coefficient_eq by assumption.
    unfold bit_of. cbn [f_ge f_sub f_mul f_div f_round f_of_Z Rops]. fold (nearest (coefficient m L (k / band n L) (k mod band n L) / depth)).
    destruct (Rle_bool_spec 0 (coefficient m L (k / band n L) (k mod band n L)
       - depth * IZR (nearest (coefficient m L (k / band n L) (k mod band n L) / depth)))) as [Hx|Hx]; split; try tauto; try discriminate.
    intros Hy. lra.
  - rewrite EX, Erd. reflexivity.
Qed.

(** *** C62 *)
(** Half-up rounding on the non-negative side. *)
Lemma nearest_shift v y : 0 <= IZR v + y -> nearest (IZR v + y) = (v + Zfloor (y + / 2))%Z.
Proof.
  intros H. unfold nearest. replace (v + Zfloor (y + / 2))%Z with (Zfloor (IZR v + y + / 2))
    by (apply Zfloor_imp; rewrite !plus_IZR; pose proof (Zfloor_lb (y + / 2)); pose proof (Zfloor_ub (y + / 2)); lra).
  set (x := IZR v + y) in *. unfold Znearest.
  assert (H0 : (0 <= Zfloor x)%Z) by (apply Zfloor_lub; exact H). rewrite (proj2 (Z.leb_le _ _) H0).
  destruct (Rcompare_spec (x - IZR (Zfloor x)) (/ 2)) as [Hc|Hc|Hc].
  - symmetry. apply Zfloor_imp. pose proof (Zfloor_lb x). rewrite plus_IZR. lra.
  - assert (Hne : IZR (Zfloor x) <> x) by lra. rewrite Zceil_floor_neq by exact Hne. symmetry. apply Zfloor_imp. rewrite !plus_IZR. lra.
  - assert (Hne : IZR (Zfloor x) <> x) by lra. rewrite Zceil_floor_neq by exact Hne. symmetry. apply Zfloor_imp. pose proof (Zfloor_ub x). rewrite !plus_IZR. lra.
Qed.

Lemma room_number (m : array2 Z) n L (enc : list Z) margin i j v : carrier m n L -> room m n L (8 * length enc) margin -> cell m i j = Some v ->
  (block_number n L i j <? 8 * length enc)%nat = true -> margin <= IZR v <= 255 - margin.
Proof. intros Hc Hroom Ev Hb. apply (Hroom i j v Ev). unfold in_first_blocks. apply Nat.ltb_lt in Hb. exact Hb. Qed.

Lemma shift_bound m n L depth enc i j : 0 < depth -> Rabs (pixel_shift m n L depth enc i j) <= 3 * depth / 2 ^ (L + 2).
Proof.
  intros Hd. assert (HpL : 0 < 2 ^ L) by (apply pow_lt; lra).
  assert (Hm : 0 < 3 * depth / 2 ^ (L + 2)) by (unfold Rdiv; apply Rmult_lt_0_compat; [lra|apply Rinv_0_lt_compat, pow_lt; lra]).
  unfold pixel_shift. destruct (_ <? _)%nat; [|rewrite Rabs_R0; lra].
  set (c := coefficient _ _ _ _). set (b := payload_bit _ _). rewrite <- mark_real.
  pose proof (mark_real_err depth b c ltac:(lra)) as H. rewrite (Rabs_pos_eq depth) in H by lra.
  unfold Rdiv at 1. rewrite Rabs_mult, (Rabs_pos_eq (/ 2 ^ L)) by (left; now apply Rinv_0_lt_compat).
  apply Rle_trans with (3 / 4 * depth * / 2 ^ L); [apply Rmult_le_compat_r; [left; now apply Rinv_0_lt_compat|exact H]|].
  right. rewrite pow_add. simpl (2 ^ 2). field. lra.
Qed.

Lemma clamp_id k : (0 <= k <= 255)%Z -> clamp 0 255 k = k.
Proof. unfold clamp. lia. Qed.

(** Without saturation every pixel of a block moves by the same whole number of grey levels. *)
Lemma uniform_move m n L depth enc i j v : carrier m n L -> image8 m -> 0 < depth ->
  room m n L (8 * length enc) (3 * depth / 2 ^ (L + 2)) -> cell m i j = Some v ->
  0 <= IZR v + pixel_shift m n L depth enc i j <= 255 /\
  clamp 0 255 (nearest (IZR v + pixel_shift m n L depth enc i j)) = (v + Zfloor (pixel_shift m n L depth enc i j + / 2))%Z.
Proof.
  intros Hc H8 Hd Hroom Ev. pose proof (shift_bound m n L depth enc i j Hd) as Hb. apply Rabs_le_inv in Hb.
  assert (Hr : 0 <= IZR v + pixel_shift m n L depth enc i j <= 255).
  { destruct (block_number n L i j <? 8 * length enc)%nat eqn:Eb.
    - pose proof (room_number m n L enc _ i j v Hc Hroom Ev Eb). lra.
    - unfold pixel_shift. rewrite Eb. pose proof (image8_cell m i j v H8 Ev) as (H1 & H2). assert (H3 : (v <= 255)%Z) by lia. apply IZR_le in H1. apply IZR_le in H3. lra. }
  split; [exact Hr|]. rewrite nearest_shift by lra. apply clamp_id. rewrite <- nearest_shift by lra.
  pose proof (nearest_half (IZR v + pixel_shift m n L depth enc i j)) as Hh. apply Rabs_le_inv in Hh.
  split; [apply Z.lt_succ_r|apply Z.lt_succ_r]; apply lt_IZR; rewrite succ_IZR; lra.
Qed.

Definition block_move (m : array2 Z) n L depth enc bi bj : Z := Zfloor (pixel_shift m n L depth enc (2 ^ L * bi) (2 ^ L * bj) + / 2).

Lemma pixel_shift_block m n L depth enc i j i' j' : (i / 2 ^ L = i' / 2 ^ L)%nat -> (j / 2 ^ L = j' / 2 ^ L)%nat ->
  pixel_shift m n L depth enc i j = pixel_shift m n L depth enc i' j'.
Proof. intros E1 E2. unfold pixel_shift, block_number. rewrite E1, E2. reflexivity. Qed.

Lemma place_lt_n n L k q : (n mod 2 ^ L = 0)%nat -> (k < band n L)%nat -> (q < 2 ^ L)%nat -> (2 ^ L * k + q < n)%nat.
Proof. intros Hm Hk Hq. unfold band in Hk. pose proof (Nat.mul_div_le n (2 ^ L) ltac:(pose proof (pow2_pos L); lia)). nia. Qed.

Lemma moved_total m out n L (mv : nat -> nat -> Z) : carrier m n L ->
  (forall i j v, cell m i j = Some v -> cell out i j = Some (v + mv (i / 2 ^ L)%nat (j / 2 ^ L)%nat)%Z) ->
  forall bi bj, (bi < band n L)%nat -> (bj < band n L)%nat ->
  coefficient out L bi bj = coefficient m L bi bj + 2 ^ L * IZR (mv bi bj).
Proof.
  intros Hc H bi bj Hbi Hbj. assert (Hm : (n mod 2 ^ L = 0)%nat) by apply Hc.
  assert (E : block_total out L bi bj = (block_total m L bi bj + Z.of_nat (2 ^ L) * (Z.of_nat (2 ^ L) * mv bi bj))%Z).
  { unfold block_total. rewrite <- zsum_add. apply zsum_ext. intros p Hp. rewrite <- zsum_add. apply zsum_ext. intros q Hq.
    pose proof (place_lt_n n L bi p Hm Hbi Hp) as Hi. pose proof (place_lt_n n L bj q Hm Hbj Hq) as Hj.
    destruct (cell_bounds m (2 ^ L * bi + p) (2 ^ L * bj + q)) as (v & Ev); [apply Hc|destruct Hc as (_ & -> & _); exact Hi|destruct Hc as (_ & _ & -> & _); exact Hj|].
    unfold pixel. rewrite (H _ _ _ Ev), Ev, !place_div by assumption. reflexivity. }
  unfold coefficient. assert (HINR : INR (2 ^ L) = 2 ^ L) by (rewrite pow_INR; reflexivity).
  rewrite E, plus_IZR, !mult_IZR, <- !INR_IZR_INZ, !HINR. field. apply pow_nonzero. lra.
Qed.

(** The shift of a block that already carries the right bit undoes the rounding of the first embedding. *)
Lemma second_shift m out n L depth enc : carrier m n L -> carrier out n L -> 2 ^ (L + 1) < depth ->
  (forall i j v, cell m i j = Some v -> cell out i j = Some (v + block_move m n L depth enc (i / 2 ^ L)%nat (j / 2 ^ L)%nat)%Z) ->
  forall i j, (i < n)%nat -> (j < n)%nat -> 
  pixel_shift out n L depth enc i j = pixel_shift m n L depth enc i j - IZR (block_move m n L depth enc (i / 2 ^ L)%nat (j / 2 ^ L)%nat)
  /\ ((block_number n L i j <? 8 * length enc)%nat = true -> exists (r : Z) b,
        Rabs (coefficient out L (i / 2 ^ L) (j / 2 ^ L) / depth - (IZR r + quarter b)) <= 2 ^ L / (2 * depth)).
Proof.
  intros Hc Hco Hd H i j Hi Hj. assert (Hm : (n mod 2 ^ L = 0)%nat) by apply Hc.
  assert (HpL : 0 < 2 ^ L) by (apply pow_lt; lra).
  set (mv := block_move m n L depth enc) in *. set (bi := (i / 2 ^ L)%nat). set (bj := (j / 2 ^ L)%nat).
  assert (Hsb : pixel_shift m n L depth enc (2 ^ L * bi) (2 ^ L * bj) = pixel_shift m n L depth enc i j).
  { pose proof (pow2_pos L). apply pixel_shift_block; rewrite (Nat.mul_comm (2 ^ L)), Nat.div_mul by lia; reflexivity. }
  assert (Hmv : mv bi bj = Zfloor (pixel_shift m n L depth enc i j + / 2)) by (unfold mv, block_move; rewrite Hsb; reflexivity).
  destruct (block_number n L i j <? 8 * length enc)%nat eqn:Eb.
  - pose proof (moved_total m out n L mv Hc H bi bj (block_lt n L i Hm Hi) (block_lt n L j Hm Hj)) as Ec.
    set (s := pixel_shift m n L depth enc i j) in *. set (k := mv bi bj) in *.
    assert (Hks : Rabs (IZR k - s) <= / 2).
    { rewrite Hmv. pose proof (Zfloor_lb (s + / 2)). pose proof (Zfloor_ub (s + / 2)). apply Rabs_le. lra. }
    assert (Es : coefficient m L bi bj + 2 ^ L * s = depth * (IZR (nearest (coefficient m L bi bj / depth)) + quarter (payload_bit enc (block_number n L i j)))).
    { unfold s, pixel_shift. rewrite Eb. fold bi bj. field. lra. }
    set (r := nearest (coefficient m L bi bj / depth)) in *. set (q := quarter _) in *.
    rewrite pow_add in Hd. simpl (2 ^ 1) in Hd. assert (Hd0 : 0 < depth) by lra.
    assert (Hq0 : Rabs (coefficient out L bi bj / depth - (IZR r + q)) <= 2 ^ L / (2 * depth)).
    { rewrite Ec.
      replace ((coefficient m L bi bj + 2 ^ L * IZR k) / depth - (IZR r + q)) with (2 ^ L * (IZR k - s) / depth)
        by (replace (coefficient m L bi bj) with (depth * (IZR r + q) - 2 ^ L * s) by lra; field; lra).
      unfold Rdiv. rewrite !Rabs_mult, (Rabs_pos_eq (2 ^ L)), (Rabs_pos_eq (/ depth)) by (try (left; apply Rinv_0_lt_compat); lra).
      apply Rmult_le_reg_r with depth; [exact Hd0|]. rewrite Rmult_assoc, Rinv_l, Rmult_1_r by lra.
      replace (2 ^ L * / (2 * depth) * depth) with (2 ^ L * / 2) by (field; lra). nra. }
    assert (Hq : Rabs (coefficient out L bi bj / depth - (IZR r + q)) < / 4).
    { eapply Rle_lt_trans; [exact Hq0|]. apply Rmult_lt_reg_r with (2 * depth); [lra|]. unfold Rdiv. rewrite Rmult_assoc, Rinv_l by lra. lra. }
    assert (Hn : nearest (coefficient out L bi bj / depth) = r).
    { apply nearest_imp. apply Rabs_def2 in Hq. unfold q, quarter in Hq. apply Rabs_def1; destruct (payload_bit _ _); lra. }
    split; [|intros _; exists r, (payload_bit enc (block_number n L i j)); exact Hq0].
    unfold pixel_shift. rewrite Eb. fold bi bj. rewrite Hn, Ec. fold q. rewrite <- Es. field. lra.
  - split; [|discriminate]. unfold pixel_shift in Hmv |- *. rewrite Eb in *. fold bi bj. rewrite Hmv, Rplus_0_l.
    replace (Zfloor (/ 2)) with 0%Z by (symmetry; apply Zfloor_imp; simpl; lra). simpl. ring.
Qed.

Theorem C62_embedding_again_changes_nothing : forall K, ldpc_shape K -> forall image n levels depth payload marked size,
  picture image n levels -> bytes payload -> 2 ^ (levels + 1) < depth ->
  embedded_size n levels (length payload) size -> room image n levels (8 * size) (3 * depth / 2 ^ (levels + 2)) ->
  embed Rops K image payload depth levels = Ok marked -> embed Rops K marked payload depth levels = Ok marked.
Proof.
  intros K Hsh m n L depth payload out size (Hc & H8) Hb Hd (T1 & T2) Hroom E.
  assert (Hd0 : 0 < depth) by (assert (0 < 2 ^ (L + 1)) by (apply pow_lt; lra); lra).
  destruct (embed_inv Rops K m n L depth payload out Hc E) as (H9 & _).
  destruct (embed_pixels_real K m n L depth payload out Hc E) as (Hco & H8o & ser & enc & E1 & E2 & E3 & Hpix).
  destruct (encoded_size_ok K n L payload ser enc Hsh Hb E1 E2) as ((S1 & S2) & _).
  assert (Hsize : size = length enc) by (destruct (code_cases (band_capacity n L)) as [(Y & _)|(N & _)]; [rewrite S1, T1 by exact Y|rewrite S2, T2 by exact N]; reflexivity).
  subst size.
  assert (Hmove : forall i j v, cell m i j = Some v -> cell out i j = Some (v + block_move m n L depth enc (i / 2 ^ L)%nat (j / 2 ^ L)%nat)%Z).
  { intros i j v Ev. rewrite (Hpix i j v Ev). f_equal. destruct (uniform_move m n L depth enc i j v Hc H8 Hd0 Hroom Ev) as (_ & ->).
    unfold block_move. pose proof (pow2_pos L).
    rewrite (pixel_shift_block m n L depth enc (2 ^ L * (i / 2 ^ L)) (2 ^ L * (j / 2 ^ L)) i j); [reflexivity| |];
      rewrite (Nat.mul_comm (2 ^ L)), Nat.div_mul by lia; reflexivity. }
  destruct (embed_run Rops K out n L depth payload ser enc Hco H9 E1 E2) as (Hrun & _). destruct (Hrun E3) as (R & ER & _).
  set (out2 := mapv _ R) in ER. rewrite ER. f_equal.
  destruct (embed_pixels_real K out n L depth payload out2 Hco ER) as (Hco2 & _ & ser' & enc' & E1' & E2' & _ & Hpix2).
  assert (ser' = ser) by congruence. subst ser'. assert (enc' = enc) by congruence. subst enc'. clearbody out2.
  destruct Hco2 as (W2 & A0 & A1 & _). destruct Hco as (W1 & B0 & B1 & Hmod & Hrest).
  apply array2_ext; try assumption; try congruence. intros i j.
  destruct (Nat.lt_ge_cases i n) as [Hi|Hi]; [|rewrite !cell_none by (try assumption; lia); reflexivity].
  destruct (Nat.lt_ge_cases j n) as [Hj|Hj]; [|rewrite !cell_none by (try assumption; lia); reflexivity].
  destruct (cell_bounds m i j) as (v & Ev); [apply Hc|destruct Hc as (_ & -> & _); exact Hi|destruct Hc as (_ & _ & -> & _); exact Hj|].
  pose proof (Hmove i j v Ev) as Ew. rewrite (Hpix2 i j _ Ew), (Hpix i j v Ev). f_equal. f_equal. f_equal.
  rewrite (proj1 (second_shift m out n L depth enc Hc (conj W1 (conj B0 (conj B1 (conj Hmod Hrest)))) Hd Hmove i j Hi Hj)), plus_IZR. intros _ _. f_equal. f_equal. f_equal. ring.
Qed.

(** A second payload replaces the first one (the picture needs room for both marks). *)
Theorem C62_a_second_payload_replaces_the_first : forall K, ldpc_shape K -> ldpc_decodes K -> forall image n levels depth first second marked,
  picture image n levels -> usable n levels -> bytes second -> (1 <= Z.of_nat (length second) <= 65533)%Z ->
  (stored_size n levels (length second) <= band_capacity n levels)%nat -> 2 ^ (levels + 1) < depth ->
  room image n levels (8 * stored_size n levels (length second)) (6 * depth / 2 ^ (levels + 2) + / 2) ->
  embed Rops K image first depth levels = Ok marked ->
  exists marked2, embed Rops K marked second depth levels = Ok marked2 /\ extract Rops K marked2 depth levels = Ok second.
Proof.
  intros K Hsh Hdec m n L depth p1 p2 out Hp Hu Hb Hl Hfit Hd Hroom E. pose proof Hp as (Hc & H8).
  assert (Hd0 : 0 < depth) by (assert (0 < 2 ^ (L + 1)) by (apply pow_lt; lra); lra).
  destruct (embed_pixels_real K m n L depth p1 out Hc E) as (Hco & H8o & _).
  destruct (C30_embed_then_extract_returns_the_payload K Hsh Hdec out n L depth p2 (conj Hco H8o) Hu Hb Hl Hfit Hd) as (o2 & E2 & _ & X2); [|eauto].
  intros i j w Ew Hblk. destruct (cell_some_lt out n L i j w Hco Ew) as (Hi & Hj).
  destruct (cell_bounds m i j) as (v & Ev); [apply Hc|destruct Hc as (_ & -> & _); exact Hi|destruct Hc as (_ & _ & -> & _); exact Hj|].
  pose proof (C32_pixel_change_bound K m n L depth p1 out Hp Hd0 E i j v w Ev Ew) as Hch. apply Rabs_le_inv in Hch.
  pose proof (Hroom i j v Ev Hblk) as Hr. assert (He : 6 * depth / 2 ^ (L + 2) = 2 * (3 * depth / 2 ^ (L + 2))) by (unfold Rdiv; ring).
  rewrite He in Hr. lra.
Qed.

(** *** C63 *)
(** [received] differs from [marked] by less than [budget] in (2^levels times) the mean of every block that carries data. *)
Definition block_noise (marked received : array2 Z) (n levels bits : nat) (budget : R) : Prop :=
  forall bi bj, (bi < n / 2 ^ levels)%nat -> (bj < n / 2 ^ levels)%nat -> (n / 2 ^ levels * bi + bj < bits)%nat ->
    Rabs (IZR (block_total received levels bi bj - block_total marked levels bi bj)) / 2 ^ levels < budget.

(** Every pixel differs by at most [t]. *)
Definition pixel_noise (marked received : array2 Z) (t : Z) : Prop :=
  forall i j v w, cell marked i j = Some v -> cell received i j = Some w -> (Z.abs (w - v) <= t)%Z.

Lemma pixel_noise_block m rc n L bits t budget : carrier m n L -> carrier rc n L -> pixel_noise m rc t -> 2 ^ L * IZR t < budget ->
  block_noise m rc n L bits budget.
Proof.
  intros Hc Hr Hn Ht bi bj Hbi Hbj _. fold (band n L) in Hbi, Hbj. assert (Hm : (n mod 2 ^ L = 0)%nat) by apply Hc.
  assert (HpL : 0 < 2 ^ L) by (apply pow_lt; lra). assert (HINR : INR (2 ^ L) = 2 ^ L) by (rewrite pow_INR; reflexivity).
  assert (Hz : (Z.abs (block_total rc L bi bj - block_total m L bi bj) <= Z.of_nat (2 ^ L) * (Z.of_nat (2 ^ L) * t))%Z).
  { unfold block_total. apply zsum_diff. intros p Hp. apply zsum_diff. intros q Hq.
    pose proof (place_lt_n n L bi p Hm Hbi Hp) as Hi. pose proof (place_lt_n n L bj q Hm Hbj Hq) as Hj.
    destruct (cell_bounds m (2 ^ L * bi + p) (2 ^ L * bj + q)) as (v & Ev); [apply Hc|destruct Hc as (_ & -> & _); exact Hi|destruct Hc as (_ & _ & -> & _); exact Hj|].
    destruct (cell_bounds rc (2 ^ L * bi + p) (2 ^ L * bj + q)) as (w & Ew); [apply Hr|destruct Hr as (_ & -> & _); exact Hi|destruct Hr as (_ & _ & -> & _); exact Hj|].
    unfold pixel. rewrite Ev, Ew. exact (Hn _ _ _ _ Ev Ew). }
  apply IZR_le in Hz. rewrite abs_IZR, !mult_IZR, <- !INR_IZR_INZ, !HINR in Hz.
  apply Rmult_lt_reg_r with (2 ^ L); [exact HpL|]. unfold Rdiv. rewrite Rmult_assoc, Rinv_l, Rmult_1_r by lra. nra.
Qed.

Lemma noise_coefficient out rc n L bits budget i j : block_noise out rc n L bits budget -> (i < band n L)%nat -> (j < band n L)%nat ->
  (band n L * i + j < bits)%nat -> Rabs (coefficient rc L i j - coefficient out L i j) < budget.
Proof.
  intros H Hi Hj Hk. specialize (H i j Hi Hj Hk). rewrite minus_IZR in H. assert (HpL : 0 < 2 ^ L) by (apply pow_lt; lra).
  unfold coefficient. replace (IZR (block_total rc L i j) / 2 ^ L - IZR (block_total out L i j) / 2 ^ L)
    with ((IZR (block_total rc L i j) - IZR (block_total out L i j)) / 2 ^ L) by (field; lra).
  unfold Rdiv. rewrite Rabs_mult, (Rabs_pos_eq (/ 2 ^ L)) by (left; now apply Rinv_0_lt_compat). exact H.
Qed.

Lemma noisy_bits_real m n L depth out rc enc Q budget : picture m n L -> carrier rc n L -> effect m out n L depth enc 0 0 Q -> 0 < depth ->
  2 ^ L / 2 + budget <= depth / 4 -> block_noise out rc n L (8 * length enc) budget ->
  (length enc <= band n L * band n L / 8)%nat -> room m n L (8 * length enc) (3 * depth / 2 ^ (L + 2)) ->
  forall C, in_domain (band n L) C -> dim0 C = n -> dim1 C = n ->
    (forall i j, get Rops C i j = transform Rops false n n L (get Rops (mapv (f_of_Z Rops) rc)) i j) ->
    forall k, (k < 8 * length enc)%nat -> cell_bit Rops depth (band n L) C k = payload_bit enc k.
Proof.
  intros (Hc & H8) Hrc Heff Hd0 Hd Hnoise Hlen Hroom C Hdom C0 C1 GC k Hk. set (s := band n L) in *.
  pose proof (carrier_band m n L Hc) as (_ & _ & Hdiv & _).
  assert (Hs : (0 < s)%nat).
  { destruct s; [|lia]. cbn in Hlen. lia. }
  destruct (used_cell n L enc k Hs Hk Hlen) as (Hu & Hk2). fold s in Hu, Hk2.
  unfold s. rewrite cell_bit_get by assumption. fold s. rewrite GC.
  rewrite (transform_ext Rops false n n L _ (pixR rc) Hdiv) by (intros; apply get_pixR).
  destruct (marked_coefficients m out n L depth enc 0 0 Q Hc H8 ltac:(lra) Hd0 Heff) with (i := (k / s)%nat) (j := (k mod s)%nat) as (r & _ & Hr).
  - intros i j v Ev Hu'. rewrite pow_half_3. destruct (cell_some_lt m n L i j v Hc Ev) as (Hi & Hj).
    apply (Hroom i j v Ev). apply used_blocks; try assumption. apply Hc.
  - exact Hu.
  - fold s in Hr. rewrite place_inv in Hr by exact Hs. destruct (place_lt s k Hs Hk2) as (P1 & P2).
    pose proof (noise_coefficient out rc n L _ budget (k / s) (k mod s) Hnoise P1 P2 ltac:(fold s; rewrite place_inv by exact Hs; exact Hk)) as Hnz.
    rewrite !coefficient_eq in * by assumption.
    rewrite (bit_of_real depth r (payload_bit enc k)); [rewrite Rlt_bool_true by exact Hd0; reflexivity|lra|].
    rewrite (Rabs_pos_eq depth) by lra. set (q := depth * (IZR r + _)) in *.
    replace (coefficient rc L (k / s) (k mod s) - q)
      with ((coefficient rc L (k / s) (k mod s) - coefficient out L (k / s) (k mod s)) + (coefficient out L (k / s) (k mod s) - q)) by ring.
    eapply Rle_lt_trans; [apply Rabs_triang|]. lra.
Qed.

Theorem C63_small_block_changes_keep_the_payload : forall K, ldpc_shape K -> ldpc_decodes K ->
  forall image n levels depth payload marked received budget,
  picture image n levels -> usable n levels -> bytes payload -> (1 <= Z.of_nat (length payload) <= 65533)%Z ->
  (stored_size n levels (length payload) <= band_capacity n levels)%nat ->
  0 < depth -> room image n levels (8 * stored_size n levels (length payload)) (3 * depth / 2 ^ (levels + 2)) ->
  embed Rops K image payload depth levels = Ok marked -> picture received n levels ->
  block_noise marked received n levels (8 * stored_size n levels (length payload)) budget -> 2 ^ levels / 2 + budget <= depth / 4 ->
  extract Rops K received depth levels = Ok payload.
Proof.
  intros K Hsh Hdec m n L depth payload out rc budget Hp (Hcod & Hmod) Hb Hl Hfit Hd0 Hroom Eo (Hrc & _) Hnoise Hbud. pose proof Hp as (Hc & H8).
  destruct (extract_payload Rops K rc n L depth payload Hrc Hsh Hdec Hcod Hmod Hb Hl Hfit) as (ser & enc & E1 & E2 & E3 & E4 & E5 & E6 & HX).
  destruct (embed_effect_real K m n L depth payload ser enc Hc H8 Hd0 E5 E1 E2 E3) as (out' & Eo' & Heff).
  assert (out' = out) by congruence. subst out'. apply HX.
  apply (noisy_bits_real m n L depth out rc enc _ budget Hp Hrc Heff Hd0 Hbud); [rewrite E6; exact Hnoise|exact E3|rewrite E6; exact Hroom].
Qed.

Theorem C63_small_pixel_changes_keep_the_payload : forall K, ldpc_shape K -> ldpc_decodes K ->
  forall image n levels depth payload marked received t,
  picture image n levels -> usable n levels -> bytes payload -> (1 <= Z.of_nat (length payload) <= 65533)%Z ->
  (stored_size n levels (length payload) <= band_capacity n levels)%nat ->
  0 < depth -> room image n levels (8 * stored_size n levels (length payload)) (3 * depth / 2 ^ (levels + 2)) ->
  embed Rops K image payload depth levels = Ok marked -> picture received n levels ->
  pixel_noise marked received t -> 2 ^ levels * (IZR t + / 2) < depth / 4 ->
  extract Rops K received depth levels = Ok payload.
Proof.
  intros K Hsh Hdec m n L depth payload out rc t Hp Hu Hb Hl Hfit Hd0 Hroom Eo Hr Hnoise Hbud.
  destruct (embed_pixels_real K m n L depth payload out (proj1 Hp) Eo) as (Hco & _).
  apply (C63_small_block_changes_keep_the_payload K Hsh Hdec m n L depth payload out rc (depth / 4 - 2 ^ L / 2) Hp Hu Hb Hl Hfit Hd0 Hroom Eo Hr); [|lra].
  apply (pixel_noise_block out rc n L _ t); [exact Hco|exact (proj1 Hr)|exact Hnoise|lra].
Qed.

(** ** f64 *)
(** The exact values deciding about the block of (i, j) are not (nearly) half-way between two integers. *)
Definition clear_of_ties (image : array2 Z) (n levels : nat) (depth : R) (stored : list Z) (i j : nat) : Prop :=
  (block_number n levels i j < 8 * length stored)%nat ->
  forall k : Z, / 2 ^ 20 < Rabs (coefficient image levels (i / 2 ^ levels) (j / 2 ^ levels) / depth - (IZR k + / 2))
    /\ / 512 < Rabs (pixel_shift image n levels depth stored i j - (IZR k + / 2)).

Lemma far_from_half y d : (forall k : Z, d < Rabs (y - (IZR k + / 2))) -> forall x, Rabs (x - y) <= d -> nearest x = nearest y.
Proof.
  intros Hk x Hx. pose proof (nearest_half y) as Hh. apply Rabs_le_inv in Hh. apply Rabs_le_inv in Hx. set (k := nearest y) in *.
  pose proof (Hk k) as H1. pose proof (Hk (k - 1)%Z) as H2. rewrite minus_IZR in H2.
  assert (y < IZR k + / 2 - d) by (rewrite Rabs_left1 in H1; lra).
  assert (IZR k - / 2 + d < y) by (rewrite Rabs_pos_eq in H2; lra).
  apply nearest_imp. apply Rabs_def1; lra.
Qed.
Lemma near_unique y d r : (forall k : Z, d < Rabs (y - (IZR k + / 2))) -> Rabs (y - IZR r) <= / 2 + d -> nearest y = r.
Proof.
  intros Hk Hr. apply Rabs_le_inv in Hr. pose proof (Hk r) as H1. pose proof (Hk (r - 1)%Z) as H2. rewrite minus_IZR in H2.
  assert (y < IZR r + / 2).
  { destruct (Rlt_le_dec y (IZR r + / 2)) as [H|H]; [exact H|]. rewrite Rabs_pos_eq in H1; lra. }
  assert (IZR r - / 2 < y).
  { destruct (Rlt_le_dec (IZR r - / 2) y) as [H'|H']; [exact H'|]. rewrite Rabs_left1 in H2; lra. }
  apply nearest_imp. apply Rabs_def1; lra.
Qed.

Lemma embed_pixels_float K m n L (depth : b64) payload out : carrier m n L -> image8 m -> (L <= 10)%nat -> fin depth -> 1 <= toR depth <= 4096 ->
  embed Bops K m payload depth L = Ok out ->
  let s := band n L in
  carrier out n L /\ image8 out /\ exists ser enc, data_serialize payload = Ok ser /\ encode K ser (s * s / 8) = Ok enc /\ (length enc <= s * s / 8)%nat /\
  forall i j v, cell m i j = Some v -> clear_of_ties m n L (toR depth) enc i j ->
    cell out i j = Some (clamp 0 255 (nearest (IZR v + pixel_shift m n L (toR depth) enc i j))).
Proof.
  intros Hc H8 HL Fd Hd E s. destruct (embed_inv Bops K m n L depth payload out Hc E) as (H9 & ser & enc & Hser & Henc & Hlen). fold s in H9, Henc, Hlen.
  assert (Hd' : bpow radix2 (- (0)) <= toR depth <= bpow radix2 20) by (simpl bpow; lra).
  destruct (embed_effect_float_gen 0 K m n L depth payload ser enc ltac:(lia) Hc H8 HL Fd Hd' H9 Hser Henc Hlen) as (out' & Eo & Heff).
  assert (out' = out) by congruence. subst out'.
  pose proof (carrier_band m n L Hc) as (Hs & Hrep & Hdiv & Hn).
  destruct Heff as [(Hco & H8o) (D & HD0 & Hpix & HD)]. split; [exact Hco|]. split; [exact H8o|].
  exists ser, enc. split; [exact Hser|]. split; [exact Henc|]. split; [exact Hlen|].
  intros i j v Ev Hclear. destruct (cell_some_lt m n L i j v Hc Ev) as (Hi & Hj).
  destruct (Hpix i j Hi Hj) as (x & Hx & ->). do 2 f_equal. unfold pixR in Hx. rewrite Ev in Hx.
  assert (Hm : (n mod 2 ^ L = 0)%nat) by apply Hc.
  assert (HL1 : 2 <= 2 ^ L).
  { destruct L as [|L']; [destruct Hc as (_ & _ & _ & _ & HL0 & _); lia|]. cbn [pow]. assert (1 <= 2 ^ L') by (apply pow_R1_Rle; lra). lra. }
  destruct (block_number n L i j <? 8 * length enc)%nat eqn:Eb.
  - pose proof Eb as Hu. rewrite <- (used_number n L enc i j Hm Hi Hj) in Hu. apply Nat.ltb_lt in Eb. specialize (Hclear Eb).
    destruct (HD _ _ Hu) as (r & (_ & Hr) & HDr & _). rewrite coefficient_eq in Hr, HDr by (try exact Hdiv; now apply block_lt).
    set (c := coefficient m L (i / 2 ^ L) (j / 2 ^ L)) in *.
    assert (Hnr : nearest (c / toR depth) = r).
    { apply (near_unique _ (/ 2 ^ 20)); [intros k; apply Hclear|]. eapply Rle_trans; [exact Hr|]. simpl. lra. }
    fold (block_number n L i j) in HDr. change (band n L * (i / 2 ^ L) + j / 2 ^ L)%nat with (block_number n L i j) in HDr.
    assert (Es : 2 ^ L * pixel_shift m n L (toR depth) enc i j = toR depth * (IZR r + quarter (payload_bit enc (block_number n L i j))) - c).
    { unfold pixel_shift. rewrite (proj2 (Nat.ltb_lt _ _) Eb). fold c. rewrite Hnr. field. lra. }
    set (sh := pixel_shift m n L (toR depth) enc i j) in *. set (DD := D (i / 2 ^ L)%nat (j / 2 ^ L)%nat) in *.
    apply (far_from_half _ (/ 512)).
    + intros k. replace (IZR v + sh - (IZR k + / 2)) with (sh - (IZR (k - v) + / 2)) by (rewrite minus_IZR; ring). apply Hclear.
    + assert (Hsd : Rabs ((/ 2) ^ L * DD - sh) <= / 8192).
      { replace ((/ 2) ^ L * DD - sh) with ((/ 2) ^ L * (DD - 2 ^ L * sh)) by (rewrite pow_inv; field; lra). rewrite Es.
        replace (DD - (toR depth * (IZR r + quarter (payload_bit enc (block_number n L i j))) - c))
          with (c + DD - toR depth * (IZR r + quarter (payload_bit enc (block_number n L i j)))) by ring.
        rewrite Rabs_mult, pow_inv, (Rabs_pos_eq (/ 2 ^ L)) by (left; apply Rinv_0_lt_compat; lra).
        apply Rle_trans with (/ 2 * (bpow radix2 (-24) * 4096)); [|simpl bpow; lra].
        apply Rmult_le_compat; [left; apply Rinv_0_lt_compat; lra|apply Rabs_pos|apply Rinv_le_contravar; lra|].
        eapply Rle_trans; [exact HDr|]. apply Rmult_le_compat_l; [apply bpow_ge_0|lra]. }
      apply Rabs_le_inv in Hsd. apply Rabs_le_inv in Hx. apply Rabs_le. simpl bpow in Hx. lra.
  - pose proof Eb as Hu. rewrite <- (used_number n L enc i j Hm Hi Hj) in Hu. rewrite (HD0 _ _ Hu) in Hx.
    unfold pixel_shift. rewrite Eb. rewrite Rplus_0_r, Rmult_0_r, Rplus_0_r in *.
    rewrite (nearest_imp x v) by (simpl bpow in Hx; lra). symmetry. apply nearest_imp. rewrite Rminus_self, Rabs_R0. lra.
Qed.

Theorem C61_f64_agrees_with_the_closed_form_off_ties : forall K image n levels (depth : b64) payload marked,
  picture image n levels -> (levels <= 10)%nat -> fin depth -> 1 <= toR depth <= 4096 ->
  embed Bops K image payload depth levels = Ok marked ->
  exists frame stored, data_serialize payload = Ok frame /\ encode K frame (band_capacity n levels) = Ok stored
    /\ forall i j v, cell image i j = Some v -> clear_of_ties image n levels (toR depth) stored i j ->
       cell marked i j = Some (clamp 0 255 (nearest (IZR v + pixel_shift image n levels (toR depth) stored i j))).
Proof.
  intros K m n L depth payload out (Hc & H8) HL Fd Hd E.
  destruct (embed_pixels_float K m n L depth payload out Hc H8 HL Fd Hd E) as (_ & _ & ser & enc & E1 & E2 & _ & H). exists ser, enc. auto.
Qed.

Theorem C62_f64_embedding_again_changes_nothing : forall K, ldpc_shape K -> forall image n levels (depth : b64) payload marked frame stored,
  picture image n levels -> (levels <= 10)%nat -> fin depth -> 65 / 64 * 2 ^ (levels + 1) <= toR depth <= 4096 ->
  data_serialize payload = Ok frame -> encode K frame (band_capacity n levels) = Ok stored ->
  (forall i j, (i < n)%nat -> (j < n)%nat -> clear_of_ties image n levels (toR depth) stored i j) ->
  room image n levels (8 * length stored) (3 * toR depth / 2 ^ (levels + 2)) ->
  embed Bops K image payload depth levels = Ok marked -> embed Bops K marked payload depth levels = Ok marked.
Proof.
  intros K Hsh m n L depth payload out ser enc (Hc & H8) HL Fd Hd E1 E2 Hclear Hroom E.
  unfold band_capacity in E2. fold (band n L) in E2.
  assert (HpL : 1 <= 2 ^ L) by (apply pow_R1_Rle; lra).
  assert (HdL : 65 / 32 * 2 ^ L <= toR depth) by (rewrite pow_add in Hd; simpl (2 ^ 1) in Hd; lra).
  assert (Hd1 : 1 <= toR depth <= 4096) by lra. assert (Hd0 : 0 < toR depth) by lra.
  assert (Hd2 : 2 ^ (L + 1) < toR depth) by (rewrite pow_add; simpl (2 ^ 1); lra).
  destruct (embed_inv Bops K m n L depth payload out Hc E) as (H9 & _).
  destruct (embed_pixels_float K m n L depth payload out Hc H8 HL Fd Hd1 E) as (Hco & H8o & ser' & enc' & E1' & E2' & E3 & Hpix).
  assert (ser' = ser) by congruence. subst ser'. assert (enc' = enc) by congruence. subst enc'.
  assert (Hmove : forall i j v, cell m i j = Some v -> cell out i j = Some (v + block_move m n L (toR depth) enc (i / 2 ^ L)%nat (j / 2 ^ L)%nat)%Z).
  { intros i j v Ev. destruct (cell_some_lt m n L i j v Hc Ev) as (Hi & Hj). rewrite (Hpix i j v Ev (Hclear i j Hi Hj)). f_equal.
    destruct (uniform_move m n L (toR depth) enc i j v Hc H8 Hd0 Hroom Ev) as (_ & ->).
    unfold block_move. pose proof (pow2_pos L).
    rewrite (pixel_shift_block m n L (toR depth) enc (2 ^ L * (i / 2 ^ L)) (2 ^ L * (j / 2 ^ L)) i j); [reflexivity| |];
      rewrite (Nat.mul_comm (2 ^ L)), Nat.div_mul by lia; reflexivity. }
  destruct (embed_run Bops K out n L depth payload ser enc Hco H9 E1 E2) as (Hrun & _). destruct (Hrun E3) as (R & ER & _).
  set (out2 := mapv _ R) in ER. rewrite ER. f_equal.
  destruct (embed_pixels_float K out n L depth payload out2 Hco H8o HL Fd Hd1 ER) as (Hco2 & _ & ser' & enc' & E1'' & E2'' & _ & Hpix2).
  assert (ser' = ser) by congruence. subst ser'. assert (enc' = enc) by congruence. subst enc'. clearbody out2.
  destruct Hco2 as (W2 & A0 & A1 & _). pose proof Hco as (W1 & B0 & B1 & _).
  apply array2_ext; try assumption; try congruence. intros i j Hi Hj. rewrite A0 in Hi. rewrite A1 in Hj.
  destruct (cell_bounds m i j) as (v & Ev); [apply Hc|destruct Hc as (_ & -> & _); exact Hi|destruct Hc as (_ & _ & -> & _); exact Hj|].
  pose proof (Hmove i j v Ev) as Ew. destruct (second_shift m out n L (toR depth) enc Hc Hco Hd2 Hmove i j Hi Hj) as (Esh & Hcoef).
  rewrite (Hpix2 i j _ Ew).
  - rewrite (Hpix i j v Ev (Hclear i j Hi Hj)), Esh, plus_IZR. f_equal. f_equal. f_equal. ring.
  - intros Hb k. destruct (Hcoef (proj2 (Nat.ltb_lt _ _) Hb)) as (r & b & Hr). split.
    + assert (Hq : 2 ^ L / (2 * toR depth) <= 16 / 65).
      { apply Rmult_le_reg_r with (2 * toR depth); [lra|]. unfold Rdiv at 1. rewrite Rmult_assoc, Rinv_l by lra. lra. }
      set (y := coefficient out L (i / 2 ^ L) (j / 2 ^ L) / toR depth) in *. apply Rabs_le_inv in Hr.
      assert (Hk : IZR k + / 2 <= IZR r - / 2 \/ IZR r + / 2 <= IZR k + / 2).
      { destruct (Z.le_gt_cases r k) as [Hrk|Hrk]; [right; apply IZR_le in Hrk; lra|left].
        assert (Hrk' : (k + 1 <= r)%Z) by lia. apply IZR_le in Hrk'. rewrite plus_IZR in Hrk'. lra. }
      apply Rlt_le_trans with (/ 1024); [simpl; lra|].
      destruct Hk as [Hk|Hk]; [rewrite Rabs_pos_eq|rewrite Rabs_left1]; unfold quarter in Hr; destruct b; lra.
    + rewrite Esh. set (mv := block_move _ _ _ _ _ _ _) in *.
      replace (pixel_shift m n L (toR depth) enc i j - IZR mv - (IZR k + / 2)) with (pixel_shift m n L (toR depth) enc i j - (IZR (k + mv) + / 2)) by (rewrite plus_IZR; ring).
      apply (Hclear i j Hi Hj Hb).
Qed.

Lemma noisy_bits_float m n L (depth : b64) out rc enc tol budget : picture m n L -> picture rc n L -> (L <= 10)%nat -> fin depth ->
  effect m out n L (toR depth) enc (bpow radix2 (-10)) (bpow radix2 (0 - 24)) (float_index m n L (toR depth) tol) ->
  1 <= toR depth <= bpow radix2 20 -> 2 ^ L * (/ 2 + / 1024) + budget <= (/ 4 - / 512) * toR depth ->
  block_noise out rc n L (8 * length enc) budget ->
  (length enc <= band n L * band n L / 8)%nat -> room m n L (8 * length enc) (3 * toR depth / 2 ^ (L + 2)) ->
  forall C, in_domain (band n L) C -> dim0 C = n -> dim1 C = n ->
    (forall i j, get Bops C i j = transform Bops false n n L (get Bops (mapv (f_of_Z Bops) rc)) i j) ->
    forall k, (k < 8 * length enc)%nat -> cell_bit Bops depth (band n L) C k = payload_bit enc k.
Proof.
  intros (Hc & H8) (Hrc & H8r) HL Fd Heff Hd Hbud Hnoise Hlen Hroom C Hdom C0 C1 GC k Hk. set (s := band n L) in *.
  pose proof (carrier_band m n L Hc) as (Hsn & _ & Hdiv & _). fold s in Hsn.
  assert (HpL : 1 <= 2 ^ L) by (apply pow_R1_Rle; lra). assert (Hd0 : 0 < toR depth) by lra.
  assert (Hord : bpow radix2 (-500) <= toR depth <= bpow radix2 500).
  { split; [apply Rle_trans with (bpow radix2 0); [apply bpow_le; lia|simpl bpow; lra]|]. apply Rle_trans with (bpow radix2 20); [apply Hd|apply bpow_le; lia]. }
  assert (Hs : (0 < s)%nat).
  { destruct s; [|lia]. cbn in Hlen. lia. }
  destruct (used_cell n L enc k Hs Hk Hlen) as (Hu & Hk2). fold s in Hu, Hk2.
  unfold s. rewrite cell_bit_get by assumption. fold s. rewrite GC.
  assert (HA : approx n n (bpow radix2 (-24)) (transform Bops false n n L (get Bops (mapv (f_of_Z Bops) rc))) (transR false n n L (pixR rc))).
  { destruct Hrc as (_ & E0 & E1 & _). pose proof (pixR_bounded rc H8r) as Hb. pose proof (pix_float rc H8r) as Hp. rewrite E0, E1 in *.
    apply analysis_float; assumption. }
  destruct (marked_coefficients m out n L (toR depth) enc (bpow radix2 (-10)) (bpow radix2 (0 - 24)) _ Hc H8 (bpow_ge_0 _ _) Hd0 Heff)
    with (i := (k / s)%nat) (j := (k mod s)%nat) as (r & HQ & Hr).
  - intros i j v Ev Hu'. rewrite pow_half_3. destruct (cell_some_lt m n L i j v Hc Ev) as (Hi & Hj).
    apply (Hroom i j v Ev). apply used_blocks; try assumption. apply Hc.
  - exact Hu.
  - fold s in Hr. rewrite place_inv in Hr by exact Hs.
    destruct (place_lt s k Hs Hk2) as (P1 & P2). destruct (HA (k / s)%nat (k mod s)%nat ltac:(lia) ltac:(lia)) as (FC & HC).
    pose proof (noise_coefficient out rc n L _ budget (k / s) (k mod s) Hnoise P1 P2 ltac:(fold s; rewrite place_inv by exact Hs; exact Hk)) as Hnz.
    rewrite coefficient_eq in Hr, HC by assumption.
    apply (bit_of_float depth Fd Hord r (payload_bit enc k)); [exact FC|exact (proj1 HQ)|].
    set (t := coefficient out L (k / s)%nat (k mod s)%nat) in *. set (t' := coefficient rc L (k / s)%nat (k mod s)%nat) in *. set (q := toR depth * _) in *.
    set (c := toR (transform Bops _ _ _ _ _ _ _)) in *. replace (c - q) with ((c - t') + ((t' - t) + (t - q))) by ring. eapply Rle_trans; [apply Rabs_triang|].
    pose proof (Rabs_triang (t' - t) (t - q)) as Ht. simpl bpow in *. lra.
Qed.

Theorem C63_f64_small_block_changes_keep_the_payload : forall K, ldpc_shape K -> ldpc_decodes K ->
  forall image n levels (depth : b64) payload marked received budget,
  picture image n levels -> (levels <= 10)%nat -> usable n levels -> bytes payload -> (1 <= Z.of_nat (length payload) <= 65533)%Z ->
  (stored_size n levels (length payload) <= band_capacity n levels)%nat ->
  fin depth -> 1 <= toR depth <= 2 ^ 20 -> room image n levels (8 * stored_size n levels (length payload)) (3 * toR depth / 2 ^ (levels + 2)) ->
  embed Bops K image payload depth levels = Ok marked -> picture received n levels ->
  block_noise marked received n levels (8 * stored_size n levels (length payload)) budget ->
  2 ^ levels * (/ 2 + / 1024) + budget <= (/ 4 - / 512) * toR depth ->
  extract Bops K received depth levels = Ok payload.
Proof.
  intros K Hsh Hdec m n L depth payload out rc budget Hp HL (Hcod & Hmod) Hb Hl Hfit Fd Hd Hroom Eo Hrc Hnoise Hbud. pose proof Hp as (Hc & H8).
  destruct (extract_payload Bops K rc n L depth payload (proj1 Hrc) Hsh Hdec Hcod Hmod Hb Hl Hfit) as (ser & enc & E1 & E2 & E3 & E4 & E5 & E6 & HX).
  assert (Hd' : bpow radix2 (- (0)) <= toR depth <= bpow radix2 20) by (simpl bpow; lra).
  destruct (embed_effect_float_gen 0 K m n L depth payload ser enc ltac:(lia) Hc H8 HL Fd Hd' E5 E1 E2 E3) as (out' & Eo' & Heff).
  assert (out' = out) by congruence. subst out'. apply HX.
  apply (noisy_bits_float m n L depth out rc enc _ budget Hp Hrc HL Fd Heff Hd' Hbud); [rewrite E6; exact Hnoise|exact E3|rewrite E6; exact Hroom].
Qed.

Theorem C63_f64_small_pixel_changes_keep_the_payload : forall K, ldpc_shape K -> ldpc_decodes K ->
  forall image n levels (depth : b64) payload marked received t,
  picture image n levels -> (levels <= 10)%nat -> usable n levels -> bytes payload -> (1 <= Z.of_nat (length payload) <= 65533)%Z ->
  (stored_size n levels (length payload) <= band_capacity n levels)%nat ->
  fin depth -> 1 <= toR depth <= 2 ^ 20 -> room image n levels (8 * stored_size n levels (length payload)) (3 * toR depth / 2 ^ (levels + 2)) ->
  embed Bops K image payload depth levels = Ok marked -> picture received n levels ->
  pixel_noise marked received t -> 2 ^ levels * (IZR t + / 2 + / 1024) < (/ 4 - / 512) * toR depth ->
  extract Bops K received depth levels = Ok payload.
Proof.
  intros K Hsh Hdec m n L depth payload out rc t Hp HL Hu Hb Hl Hfit Fd Hd Hroom Eo Hr Hnoise Hbud.
  assert (Hco : carrier out n L).
  { destruct (embed_inv Bops K m n L depth payload out (proj1 Hp) Eo) as (H9 & ser & enc & E1 & E2 & E3).
    assert (Hd' : bpow radix2 (- (0)) <= toR depth <= bpow radix2 20) by (simpl bpow; lra).
    destruct (embed_effect_float_gen 0 K m n L depth payload ser enc ltac:(lia) (proj1 Hp) (proj2 Hp) HL Fd Hd' H9 E1 E2 E3) as (out' & Eo' & Heff).
    assert (out' = out) by congruence. subst out'. exact (proj1 (eff_shape _ _ _ _ _ _ _ _ _ Heff)). }
  apply (C63_f64_small_block_changes_keep_the_payload K Hsh Hdec m n L depth payload out rc ((/ 4 - / 512) * toR depth - 2 ^ L * (/ 2 + / 1024)) Hp HL Hu Hb Hl Hfit Fd Hd Hroom Eo Hr); [|lra].
  apply (pixel_noise_block out rc n L _ t); [exact Hco|exact (proj1 Hr)|exact Hnoise|lra].
Qed.

(** At the depths of the command line (100) and of the web front-end (500), three levels: every pixel may change by 2 and by 15
    grey levels. *)
Theorem C63_f64_tolerance_of_the_front_ends : forall K, ldpc_shape K -> ldpc_decodes K ->
  forall image n payload marked received, picture image n 3 -> usable n 3 -> bytes payload -> (1 <= Z.of_nat (length payload) <= 65533)%Z ->
  (stored_size n 3 (length payload) <= band_capacity n 3)%nat -> picture received n 3 ->
  (room image n 3 (8 * stored_size n 3 (length payload)) (75 / 8) ->
   embed Bops K image payload (f_of_Z Bops 100) 3 = Ok marked -> pixel_noise marked received 2 ->
   extract Bops K received (f_of_Z Bops 100) 3 = Ok payload)
  /\ (room image n 3 (8 * stored_size n 3 (length payload)) (375 / 8) ->
   embed Bops K image payload (f_of_Z Bops 500) 3 = Ok marked -> pixel_noise marked received 15 ->
   extract Bops K received (f_of_Z Bops 500) 3 = Ok payload).
Proof.
  intros K Hsh Hdec m n payload out rc Hp Hu Hb Hl Hfit Hr. split; intros Hroom E Hn.
  - destruct (b_of_Z_ok 100) as (F1 & V1); [lia|]. change (b_of_Z 100) with (f_of_Z Bops 100) in *.
    apply (C63_f64_small_pixel_changes_keep_the_payload K Hsh Hdec m n 3 (f_of_Z Bops 100) payload out rc 2 Hp ltac:(lia) Hu Hb Hl Hfit F1); try assumption; rewrite V1; try (simpl; lra).
    replace (3 * 100 / 2 ^ (3 + 2)) with (75 / 8) by (simpl; lra). exact Hroom.
  - destruct (b_of_Z_ok 500) as (F1 & V1); [lia|]. change (b_of_Z 500) with (f_of_Z Bops 500) in *.
    apply (C63_f64_small_pixel_changes_keep_the_payload K Hsh Hdec m n 3 (f_of_Z Bops 500) payload out rc 15 Hp ltac:(lia) Hu Hb Hl Hfit F1); try assumption; rewrite V1; try (simpl; lra).
    replace (3 * 500 / 2 ^ (3 + 2)) with (375 / 8) by (simpl; lra). exact Hroom.
Qed.

(** Brightening (or darkening) the whole picture by about half a depth inverts every stored bit. *)
Definition brightened (marked received : array2 Z) (d : Z) : Prop :=
  forall i j v, cell marked i j = Some v -> cell received i j = Some (v + d)%Z.

Lemma brightened_coefficient m rc n L d : carrier m n L -> brightened m rc d -> forall bi bj, (bi < band n L)%nat -> (bj < band n L)%nat ->
  coefficient rc L bi bj = coefficient m L bi bj + 2 ^ L * IZR d.
Proof. intros Hc H bi bj Hi Hj. apply (moved_total m rc n L (fun _ _ => d) Hc); assumption. Qed.

Lemma inverted_mark (depth : R) r b : depth * (IZR r + quarter b) + depth / 2 = depth * (IZR (if b then r + 1 else r) + quarter (negb b)).
Proof. unfold quarter. destruct b; cbn [negb]; [rewrite plus_IZR|]; field. Qed.

Lemma read_generic {F} (O : FOps F) rc n L depth (p : nat -> bool) len : carrier rc n L -> (len <= band n L * band n L / 8)%nat ->
  (forall C, in_domain (band n L) C -> dim0 C = n -> dim1 C = n ->
    (forall i j, get O C i j = transform O false n n L (get O (mapv (f_of_Z O) rc)) i j) ->
    forall k, (k < 8 * len)%nat -> cell_bit O depth (band n L) C k = p k) ->
  exists C received, dwt_2d O (mapv (f_of_Z O) rc) L false = Ok C /\ read O C (n / 2 ^ L) (n / 2 ^ L) depth = Ok received
    /\ forall k, (k < 8 * len)%nat -> payload_bit received k = p k.
Proof.
  intros Hc Hlen H. pose proof (carrier_band rc n L Hc) as (Hsn & Hrep & Hdiv & _). destruct Hc as (Hwf & E0 & E1 & Hmod & HL & Hr).
  assert (Hwf' : wf (mapv (f_of_Z O) rc)) by now apply mapv_wf.
  destruct (dwt_2d_ok O false L (mapv (f_of_Z O) rc) Hwf') as (C & EC & WC & A0 & A1 & GC); [cbn [mapv dim0 dim1]; rewrite E0, E1; exact Hdiv|lia|].
  cbn [mapv dim0 dim1] in A0, A1, GC. rewrite E0, E1 in *. fold (band n L).
  assert (Hdom : in_domain (band n L) C) by (split; [exact WC|]; rewrite A0, A1; split; exact Hsn).
  pose proof (read_ok O depth (band n L) C Hrep Hdom) as Erd. exists C. eexists. split; [exact EC|]. split; [exact Erd|].
  destruct (read_bits O depth (band n L) C _ Hrep Hdom Erd) as (Ll & Hbits). intros k Hk. rewrite <- nth_bits, Hbits by (rewrite Ll; lia).
  apply H; assumption.
Qed.

Theorem C63_brightening_by_half_a_depth_inverts_every_bit : forall K image n levels depth payload marked received d frame stored,
  picture image n levels -> 0 < depth -> data_serialize payload = Ok frame -> encode K frame (band_capacity n levels) = Ok stored ->
  room image n levels (8 * length stored) (3 * depth / 2 ^ (levels + 2)) ->
  embed Rops K image payload depth levels = Ok marked -> picture received n levels -> brightened marked received d ->
  Rabs (2 ^ levels * IZR d - depth / 2) + 2 ^ levels / 2 < depth / 4 ->
  exists coefficients read_bytes, dwt_2d Rops (mapv IZR received) levels false = Ok coefficients
    /\ read Rops coefficients (n / 2 ^ levels) (n / 2 ^ levels) depth = Ok read_bytes
    /\ forall k, (k < 8 * length stored)%nat -> payload_bit read_bytes k = negb (payload_bit stored k).
Proof.
  intros K m n L depth payload out rc d ser enc Hp Hd0 E1 E2 Hroom Eo (Hrc & _) Hbr Hd. pose proof Hp as (Hc & H8).
  destruct (embed_inv Rops K m n L depth payload out Hc Eo) as (H9 & ser' & enc' & E1' & E2' & E3).
  assert (ser' = ser) by congruence. subst ser'. unfold band_capacity in E2. fold (band n L) in E2. assert (enc' = enc) by congruence. subst enc'.
  destruct (embed_effect_real K m n L depth payload ser enc Hc H8 Hd0 H9 E1 E2 E3) as (out' & Eo' & Heff).
  assert (out' = out) by congruence. subst out'. pose proof (eff_shape _ _ _ _ _ _ _ _ _ Heff) as (Hco & _).
  change (mapv IZR rc) with (mapv (f_of_Z Rops) rc). apply (read_generic Rops rc n L depth (fun k => negb (payload_bit enc k)) (length enc) Hrc E3).
  intros C Hdom C0 C1 GC k Hk. set (s := band n L) in *. pose proof (carrier_band m n L Hc) as (_ & _ & Hdiv & _).
  assert (Hs : (0 < s)%nat) by (destruct s; [cbn in E3; lia|lia]).
  destruct (used_cell n L enc k Hs Hk E3) as (Hu & Hk2). fold s in Hu, Hk2.
  unfold s. rewrite cell_bit_get by assumption. fold s. rewrite GC.
  rewrite (transform_ext Rops false n n L _ (pixR rc) Hdiv) by (intros; apply get_pixR).
  destruct (marked_coefficients m out n L depth enc 0 0 _ Hc H8 ltac:(lra) Hd0 Heff) with (i := (k / s)%nat) (j := (k mod s)%nat) as (r & _ & Hr).
  - intros i j v Ev Hu'. rewrite pow_half_3. destruct (cell_some_lt m n L i j v Hc Ev) as (Hi & Hj).
    apply (Hroom i j v Ev). apply used_blocks; try assumption. apply Hc.
  - exact Hu.
  - fold s in Hr. rewrite place_inv in Hr by exact Hs. destruct (place_lt s k Hs Hk2) as (P1 & P2).
    rewrite coefficient_eq in Hr |- * by assumption. rewrite (brightened_coefficient out rc n L d Hco Hbr _ _ P1 P2).
    rewrite (bit_of_real depth (if payload_bit enc k then r + 1 else r) (negb (payload_bit enc k))); [rewrite Rlt_bool_true by exact Hd0; reflexivity|lra|].
    rewrite (Rabs_pos_eq depth), <- inverted_mark by lra. set (q := depth * (IZR r + _)) in *. set (t := coefficient out L _ _) in *.
    replace (t + 2 ^ L * IZR d - (q + depth / 2)) with ((t - q) + (2 ^ L * IZR d - depth / 2)) by ring.
    eapply Rle_lt_trans; [apply Rabs_triang|]. lra.
Qed.

Theorem C63_f64_brightening_by_half_a_depth_inverts_every_bit : forall K image n levels (depth : b64) payload marked received d frame stored,
  picture image n levels -> (levels <= 10)%nat -> fin depth -> 1 <= toR depth <= 2 ^ 20 ->
  data_serialize payload = Ok frame -> encode K frame (band_capacity n levels) = Ok stored ->
  room image n levels (8 * length stored) (3 * toR depth / 2 ^ (levels + 2)) ->
  embed Bops K image payload depth levels = Ok marked -> picture received n levels -> brightened marked received d ->
  Rabs (2 ^ levels * IZR d - toR depth / 2) + 2 ^ levels * (/ 2 + / 1024) <= (/ 4 - / 512) * toR depth ->
  exists coefficients read_bytes, dwt_2d Bops (mapv (f_of_Z Bops) received) levels false = Ok coefficients
    /\ read Bops coefficients (n / 2 ^ levels) (n / 2 ^ levels) depth = Ok read_bytes
    /\ forall k, (k < 8 * length stored)%nat -> payload_bit read_bytes k = negb (payload_bit stored k).
Proof.
  intros K m n L depth payload out rc d ser enc Hp HL Fd Hd1 E1 E2 Hroom Eo (Hrc & H8r) Hbr Hd. pose proof Hp as (Hc & H8).
  assert (Hd0 : 0 < toR depth) by lra.
  destruct (embed_inv Bops K m n L depth payload out Hc Eo) as (H9 & ser' & enc' & E1' & E2' & E3).
  assert (ser' = ser) by congruence. subst ser'. unfold band_capacity in E2. fold (band n L) in E2. assert (enc' = enc) by congruence. subst enc'.
  assert (Hd' : bpow radix2 (- (0)) <= toR depth <= bpow radix2 20) by (simpl bpow; lra).
  destruct (embed_effect_float_gen 0 K m n L depth payload ser enc ltac:(lia) Hc H8 HL Fd Hd' H9 E1 E2 E3) as (out' & Eo' & Heff).
  assert (out' = out) by congruence. subst out'. pose proof (eff_shape _ _ _ _ _ _ _ _ _ Heff) as (Hco & _).
  apply (read_generic Bops rc n L depth (fun k => negb (payload_bit enc k)) (length enc) Hrc E3).
  intros C Hdom C0 C1 GC k Hk. set (s := band n L) in *. pose proof (carrier_band m n L Hc) as (Hsn & _ & Hdiv & _). fold s in Hsn.
  assert (HpL : 1 <= 2 ^ L) by (apply pow_R1_Rle; lra).
  assert (Hord : bpow radix2 (-500) <= toR depth <= bpow radix2 500).
  { split; [apply Rle_trans with (bpow radix2 0); [apply bpow_le; lia|simpl bpow; lra]|]. apply Rle_trans with (bpow radix2 20); [apply Hd'|apply bpow_le; lia]. }
  assert (Hs : (0 < s)%nat) by (destruct s; [cbn in E3; lia|lia]).
  destruct (used_cell n L enc k Hs Hk E3) as (Hu & Hk2). fold s in Hu, Hk2.
  unfold s. rewrite cell_bit_get by assumption. fold s. rewrite GC.
  assert (HA : approx n n (bpow radix2 (-24)) (transform Bops false n n L (get Bops (mapv (f_of_Z Bops) rc))) (transR false n n L (pixR rc))).
  { destruct Hrc as (_ & A0 & A1 & _). pose proof (pixR_bounded rc H8r) as Hb. pose proof (pix_float rc H8r) as Hpf. rewrite A0, A1 in *.
    apply analysis_float; assumption. }
  destruct (marked_coefficients m out n L (toR depth) enc (bpow radix2 (-10)) (bpow radix2 (0 - 24)) _ Hc H8 (bpow_ge_0 _ _) Hd0 Heff)
    with (i := (k / s)%nat) (j := (k mod s)%nat) as (r & (HQ & Hidx) & Hr).
  - intros i j v Ev Hu'. rewrite pow_half_3. destruct (cell_some_lt m n L i j v Hc Ev) as (Hi & Hj).
    apply (Hroom i j v Ev). apply used_blocks; try assumption. apply Hc.
  - exact Hu.
  - fold s in Hr. rewrite place_inv in Hr by exact Hs.
    destruct (place_lt s k Hs Hk2) as (P1 & P2). destruct (HA (k / s)%nat (k mod s)%nat ltac:(lia) ltac:(lia)) as (FC & HC).
    assert (Hr40 : (Z.abs r <= 2 ^ 21 + 1)%Z).
    { pose proof (coefficient_bound m n L (k / s) (k mod s) Hc H8 HL ltac:(lia) ltac:(lia)) as HB.
      set (cm := transR false n n L (pixR m) (k / s)%nat (k mod s)%nat) in *.
      assert (Hcd : Rabs (cm / toR depth) <= bpow radix2 20).
      { unfold Rdiv. rewrite Rabs_mult, (Rabs_pos_eq (/ toR depth)) by (left; now apply Rinv_0_lt_compat).
        rewrite <- (Rmult_1_r (bpow radix2 20)). apply Rmult_le_compat; [apply Rabs_pos|left; now apply Rinv_0_lt_compat|exact HB|].
        rewrite <- Rinv_1. apply Rinv_le_contravar; lra. }
      apply le_IZR. rewrite abs_IZR. apply Rabs_le_inv in Hcd. apply Rabs_le_inv in Hidx. simpl bpow in *. simpl (2 ^ 21 + 1)%Z. apply Rabs_le. lra. }
    rewrite coefficient_eq in Hr, HC by assumption. rewrite (brightened_coefficient out rc n L d Hco Hbr _ _ P1 P2) in HC.
    apply (bit_of_float depth Fd Hord (if payload_bit enc k then r + 1 else r) (negb (payload_bit enc k))); [exact FC|destruct (payload_bit enc k); lia|].
    rewrite <- inverted_mark. set (q := toR depth * _) in *. set (t := coefficient out L (k / s)%nat (k mod s)%nat) in *.
    set (c := toR (transform Bops _ _ _ _ _ _ _)) in *.
    replace (c - (q + toR depth / 2)) with ((c - (t + 2 ^ L * IZR d)) + ((2 ^ L * IZR d - toR depth / 2) + (t - q))) by ring. eapply Rle_trans; [apply Rabs_triang|].
    pose proof (Rabs_triang (2 ^ L * IZR d - toR depth / 2) (t - q)) as Ht. simpl bpow in *. lra.
Qed.

(** ** Witnesses: the mid-grey 128 x 128 picture of C30, depth 100, three levels, twelve bytes of payload *)
Definition wit_payload : list Z := repeat 65%Z 12.
Lemma wit_payload_ok : bytes wit_payload /\ (1 <= Z.of_nat (length wit_payload) <= 65533)%Z /\ (stored_size 128 3 (length wit_payload) <= band_capacity 128 3)%nat.
Proof.
  split; [apply Forall_forall; intros x Hx; apply repeat_spec in Hx; subst x; unfold byte; lia|].
  destruct C30_witness as (_ & _ & _ & _ & H & _). unfold wit_payload. rewrite repeat_length. split; [lia|exact H].
Qed.
Lemma wit_marked_f64 : exists marked, embed Bops toy_ldpc grey128 wit_payload (f_of_Z Bops 100) 3 = Ok marked /\ picture marked 128 3
  /\ forall i j w, cell marked i j = Some w -> (119 <= w <= 137)%Z.
Proof.
  destruct C30_witness as (H1 & H2 & H3 & H4 & H5 & _). destruct C31_witness as (H6 & H7 & H8). destruct wit_payload_ok as (P1 & P2 & P3).
  destruct (C31_f64_embed_then_extract_returns_the_payload toy_ldpc H1 H2 grey128 128 3 (f_of_Z Bops 100) wit_payload H3 ltac:(lia) H4 P1 P2 P3 H6 H7) as (mk & E1 & Hp & _).
  { unfold wit_payload. rewrite repeat_length. exact H8. }
  exists mk. split; [exact E1|]. split; [exact Hp|]. intros i j w Ew.
  destruct (cell_some_lt mk 128 3 i j w (proj1 Hp) Ew) as (Hi & Hj).
  destruct (cell_bounds grey128 i j) as (v & Ev); [apply wit_wf|exact Hi|exact Hj|].
  pose proof (proj1 (C32_f64_pixel_change_of_the_front_ends toy_ldpc grey128 128 wit_payload mk H3) E1 i j v w Ev Ew) as Hch.
  apply cell_wit in Ev. subst v. lia.
Qed.
Lemma mapv_picture mk n L d : picture mk n L -> (forall i j w, cell mk i j = Some w -> (0 <= w + d < 256)%Z) -> picture (mapv (fun w => w + d)%Z mk) n L.
Proof.
  intros (Hc & _) H. split; [now apply carrier_mapv|]. apply image8_cells; [apply mapv_wf; apply Hc|]. intros i j v E. rewrite cell_mapv in E.
  destruct (cell mk i j) as [w|] eqn:Ew; [|discriminate]. cbn [option_map] in E. assert (E' : v = (w + d)%Z) by congruence. subst v. exact (H i j w Ew).
Qed.
(** every pixel two levels brighter: the payload comes out of the f64 model *)
Example C63_witness : exists marked received, embed Bops toy_ldpc grey128 wit_payload (f_of_Z Bops 100) 3 = Ok marked /\ picture received 128 3
  /\ pixel_noise marked received 2 /\ received <> marked /\ extract Bops toy_ldpc received (f_of_Z Bops 100) 3 = Ok wit_payload.
Proof.
  destruct wit_marked_f64 as (mk & E & Hp & Hr). destruct C30_witness as (H1 & H2 & H3 & H4 & H5 & _). destruct wit_payload_ok as (P1 & P2 & P3).
  assert (Hpr : picture (mapv (fun w => w + 2)%Z mk) 128 3) by (apply mapv_picture; [exact Hp|intros i j w Ew; specialize (Hr i j w Ew); lia]).
  assert (Hn : pixel_noise mk (mapv (fun w => w + 2)%Z mk) 2).
  { intros i j v w Ev Ew. rewrite cell_mapv, Ev in Ew. cbn [option_map] in Ew. assert (w = (v + 2)%Z) by congruence. subst w. lia. }
  exists mk, (mapv (fun w => w + 2)%Z mk). split; [exact E|]. split; [exact Hpr|]. split; [exact Hn|]. split.
  - intros Heq. destruct (cell_bounds mk 0 0) as (v & Ev); [apply Hp|destruct Hp as ((_ & -> & _) & _); lia|destruct Hp as ((_ & _ & -> & _) & _); lia|].
    pose proof (f_equal (fun x => cell x 0 0) Heq) as Hc0. cbn beta in Hc0. rewrite cell_mapv, Ev in Hc0. cbn [option_map] in Hc0.
    assert (Hv : (v + 2 = v)%Z) by congruence. lia.
  - apply (proj1 (C63_f64_tolerance_of_the_front_ends toy_ldpc H1 H2 grey128 128 wit_payload mk _ H3 H4 P1 P2 P3 Hpr)); [|exact E|exact Hn].
    intros i j v Ev _. apply cell_wit in Ev. subst v. lra.
Qed.
(** every pixel six levels brighter: the hypotheses of the inversion theorem hold *)
Example C63_brightening_witness : exists marked received, embed Bops toy_ldpc grey128 wit_payload (f_of_Z Bops 100) 3 = Ok marked /\ picture received 128 3
  /\ brightened marked received 6 /\ Rabs (2 ^ 3 * IZR 6 - 100 / 2) + 2 ^ 3 * (/ 2 + / 1024) <= (/ 4 - / 512) * 100.
Proof.
  destruct wit_marked_f64 as (mk & E & Hp & Hr). exists mk, (mapv (fun w => w + 6)%Z mk). split; [exact E|]. split.
  - apply mapv_picture; [exact Hp|intros i j w Ew; specialize (Hr i j w Ew); lia].
  - split; [intros i j v Ev; rewrite cell_mapv, Ev; reflexivity|]. rewrite Rabs_left1; simpl; lra.
Qed.

Lemma zsum_const n a : zsum n (fun _ => a) = (Z.of_nat n * a)%Z.
Proof. induction n; cbn [zsum]; [reflexivity|]. rewrite IHn. lia. Qed.
Lemma grey128_coefficient i j : (i < 128)%nat -> (j < 128)%nat -> coefficient grey128 3 (i / 2 ^ 3) (j / 2 ^ 3) = 1024.
Proof.
  intros Hi Hj. unfold coefficient, block_total.
  rewrite (zsum_ext _ _ (fun _ => 1024%Z)).
  - rewrite zsum_const. simpl. lra.
  - intros p Hp. rewrite (zsum_ext _ _ (fun _ => 128%Z)); [rewrite zsum_const; reflexivity|]. intros q Hq. unfold pixel.
    assert (Hdm : (128 mod 2 ^ 3 = 0)%nat) by reflexivity.
    pose proof (place_lt_n 128 3 _ p Hdm (block_lt 128 3 i Hdm Hi) Hp). pose proof (place_lt_n 128 3 _ q Hdm (block_lt 128 3 j Hdm Hj) Hq).
    destruct (cell_bounds grey128 (2 ^ 3 * (i / 2 ^ 3) + p) (2 ^ 3 * (j / 2 ^ 3) + q)) as (v & Ev); [apply wit_wf|assumption|assumption|].
    rewrite Ev. now apply cell_wit in Ev.
Qed.
Lemma grey128_clear stored i j : (i < 128)%nat -> (j < 128)%nat -> clear_of_ties grey128 128 3 100 stored i j.
Proof.
  intros Hi Hj Hb k. rewrite grey128_coefficient by assumption.
  assert (Hn : nearest (1024 / 100) = 10%Z) by (apply nearest_imp; apply Rabs_def1; lra). split.
  - assert (Hk : IZR k <= 9 \/ 10 <= IZR k) by (destruct (Z.le_gt_cases k 9) as [H|H]; [left; now apply IZR_le in H|right; assert (H' : (10 <= k)%Z) by lia; now apply IZR_le in H']).
    apply Rlt_le_trans with (/ 1024); [simpl; lra|]. destruct Hk; [rewrite Rabs_pos_eq|rewrite Rabs_left1]; lra.
  - unfold pixel_shift. rewrite (proj2 (Nat.ltb_lt _ _) Hb), grey128_coefficient, Hn by assumption. simpl (2 ^ 3).
    destruct (payload_bit _ _); unfold quarter.
    + assert (Hk : IZR k <= -1 \/ 0 <= IZR k) by (destruct (Z.le_gt_cases k (-1)) as [H|H]; [left; now apply IZR_le in H|right; assert (H' : (0 <= k)%Z) by lia; now apply IZR_le in H']).
      destruct Hk; [rewrite Rabs_pos_eq|rewrite Rabs_left1]; lra.
    + assert (Hk : IZR k <= -7 \/ -6 <= IZR k) by (destruct (Z.le_gt_cases k (-7)) as [H|H]; [left; now apply IZR_le in H|right; assert (H' : (-6 <= k)%Z) by lia; now apply IZR_le in H']).
      destruct Hk; [rewrite Rabs_pos_eq|rewrite Rabs_left1]; lra.
Qed.
(** embedding twice in the f64 model *)
Example C62_witness : exists marked, embed Bops toy_ldpc grey128 wit_payload (f_of_Z Bops 100) 3 = Ok marked
  /\ embed Bops toy_ldpc marked wit_payload (f_of_Z Bops 100) 3 = Ok marked /\ marked <> grey128.
Proof.
  destruct wit_marked_f64 as (mk & E & Hp & Hr). exists mk. split; [exact E|].
  destruct (b_of_Z_ok 100) as (F1 & V1); [lia|]. change (b_of_Z 100) with (f_of_Z Bops 100) in *.
  destruct (C61_f64_agrees_with_the_closed_form_off_ties toy_ldpc grey128 128 3 (f_of_Z Bops 100) wit_payload mk grey128_picture ltac:(lia) F1 ltac:(rewrite V1; lra) E)
    as (ser & enc & E1 & E2 & Hcl). split.
  - apply (C62_f64_embedding_again_changes_nothing toy_ldpc toy_shape grey128 128 3 (f_of_Z Bops 100) wit_payload mk ser enc grey128_picture); try assumption; try lia.
    + rewrite V1. simpl. lra.
    + intros i j Hi Hj. rewrite V1. now apply grey128_clear.
    + rewrite V1. intros i j v Ev _. apply cell_wit in Ev. subst v. simpl. lra.
  - intros Heq. destruct C30_witness as (T1 & T2 & _). destruct wit_payload_ok as (P1 & _).
    assert (E1' : ser = [12; 0]%Z ++ wit_payload) by (vm_compute in E1; vm_compute; congruence).
    assert (Hb1 : exists b, payload_bit enc 1 = b) by eauto. destruct Hb1 as (b & Hb1).
    assert (Eenc : encode toy_ldpc ([12; 0]%Z ++ wit_payload) (band_capacity 128 3) = Ok enc) by (rewrite <- E1'; exact E2).
    assert (Hlen : (8 * length enc = 256)%nat /\ payload_bit enc 0 = false) by (vm_compute in Eenc; assert (Ex : enc = [0; 14; 12; 0; 65; 65; 65; 65; 65; 65; 65; 65; 65; 65; 65; 65; 0; 14; 12; 0; 65; 65; 65; 65; 65; 65; 65; 65; 65; 65; 65; 65]%Z) by congruence; rewrite Ex; split; reflexivity).
    destruct Hlen as (Hlen & Hbit0).
    assert (Ev : cell grey128 0 0 = Some 128%Z) by reflexivity.
    pose proof (Hcl 0%nat 0%nat 128%Z Ev) as Hc0. rewrite V1 in Hc0. specialize (Hc0 (grey128_clear enc 0 0 ltac:(lia) ltac:(lia))).
    rewrite Heq, Ev in Hc0. assert (Hz : 128%Z = clamp 0 255 (nearest (IZR 128 + pixel_shift grey128 128 3 100 enc 0 0))) by congruence.
    assert (Hsh : pixel_shift grey128 128 3 100 enc 0 0 = - (49 / 8)).
    { unfold pixel_shift, block_number. change (0 / 2 ^ 3)%nat with 0%nat. rewrite Hlen.
      replace (coefficient grey128 3 0 0) with 1024 by (symmetry; apply (grey128_coefficient 0 0); lia).
      assert (Hn : nearest (1024 / 100) = 10%Z) by (apply nearest_imp; apply Rabs_def1; lra). rewrite Hn.
      change (128 / 2 ^ 3 * 0 + 0)%nat with 0%nat. change (0 <? 256)%nat with true. rewrite Hbit0. unfold quarter. simpl. lra. }
    rewrite Hsh in Hz. rewrite (nearest_imp _ 122) in Hz by (apply Rabs_def1; simpl; lra). discriminate.
Qed.

Print Assumptions C61_embedding_in_closed_form.
Print Assumptions C61_extraction_in_closed_form.
Print Assumptions C61_f64_agrees_with_the_closed_form_off_ties.
Print Assumptions C62_embedding_again_changes_nothing.
Print Assumptions C62_a_second_payload_replaces_the_first.
Print Assumptions C62_f64_embedding_again_changes_nothing.
Print Assumptions C63_small_block_changes_keep_the_payload.
Print Assumptions C63_small_pixel_changes_keep_the_payload.
Print Assumptions C63_f64_small_block_changes_keep_the_payload.
Print Assumptions C63_f64_small_pixel_changes_keep_the_payload.
Print Assumptions C63_f64_tolerance_of_the_front_ends.
Print Assumptions C63_brightening_by_half_a_depth_inverts_every_bit.
Print Assumptions C63_f64_brightening_by_half_a_depth_inverts_every_bit.
