(** Property C86: what the compiled embedding and extraction do to a picture, in integers (three levels, as both front ends use:
    lib/sia/rust/watermarking/src/lib.rs:11, 56; lib/sia/rust/embedding/src/lib.rs: embed, extract).  No square root, no rounding and no
    floating point is left in the statements: they speak of the sums of the 8x8 blocks of pixels. *)
From Coq Require Import Reals Lra.
From Flocq Require Import Core BinarySingleNaN.
From Verif Require Import Outcome Floats FloatFacts Bits ListFacts IndexArithProofs Codecs CodecProofs WatermarkProofs Encoding EncodingProofs PropsEncoding
  Matrix MatrixFacts Haar HaarProofs HaarReal HaarFloat PropsHaar QuantFloat Stego StegoProofs StegoMarks PropsStego Embedding EmbeddingProofs EmbeddingEffect
  PropsEmbedding PropsEmbedding2 Toy PropsRobust.
Open Scope Z_scope.

(** ** Specification vocabulary *)
(** The sum of the pixels of the 8x8 block of (i, j). *)
Definition block_sum (image : array2 Z) (i j : nat) : Z := block_total image 3 (i / 8) (j / 8).
(** The bin of a block sum: bins are 8 * depth wide and centred on the multiples of 8 * depth. *)
Definition bin (depth sum : Z) : Z := (sum + 4 * depth) / (8 * depth).
(** The sum the block should get: a quarter bin above (bit 1) or below (bit 0) the centre of its bin. *)
Definition wanted (depth : Z) (bit : bool) (sum : Z) : Z := 8 * depth * bin depth sum + (if bit then 2 * depth else - (2 * depth)).
(** What is added to each of the 64 pixels: the missing amount divided by 64, to the nearest integer, halves up. *)
Definition added (depth : Z) (bit : bool) (sum : Z) : Z := (wanted depth bit sum - sum + 32) / 64.
(** The bit a block sum is read as. *)
Definition bit_read (depth sum : Z) : bool := sum mod (8 * depth) <? 4 * depth.
(** A picture after storing bits: the pixels of the first blocks (one per bit, row by row) are shifted, the others stay. *)
Definition stores (n : nat) (depth : Z) (stored : list Z) (image : array2 Z) (i j : nat) (v : Z) : Z :=
  let k := (n / 8 * (i / 8) + j / 8)%nat in
  if (k <? 8 * length stored)%nat then clamp 0 255 (v + added depth (payload_bit stored k) (block_sum image i j)) else v.
(** A block sum on which the rounding has to break a tie: a border between bins, or an amount that is half-way between integers. *)
Definition tie (depth sum : Z) : Prop := sum mod (8 * depth) = 4 * depth \/ exists bit, (wanted depth bit sum - sum) mod 64 = 32.
(** A block sum on a border of the half bins. *)
Definition border (depth sum : Z) : Prop := sum mod (4 * depth) = 0.

(** ** Proofs *)
Lemma zsum_bounds n f a b : (forall k, (k < n)%nat -> a <= f k <= b) -> Z.of_nat n * a <= zsum n f <= Z.of_nat n * b.
Proof. induction n; intros H; cbn [zsum]; [lia|]. specialize (IHn ltac:(auto)). pose proof (H n ltac:(lia)). lia. Qed.
Lemma pixel_range m i j : image8 m -> 0 <= pixel m i j <= 255.
Proof. intros H. unfold pixel. destruct (cell m i j) as [v|] eqn:E; [|lia]. pose proof (image8_cell m i j v H E) as Hb. unfold byte in Hb. lia. Qed.
Lemma block_sum_range m bi bj : image8 m -> 0 <= block_total m 3 bi bj <= 16320.
Proof.
  intros H. unfold block_total.
  assert (A : forall p, 0 <= zsum (2 ^ 3) (fun q => pixel m (2 ^ 3 * bi + p) (2 ^ 3 * bj + q)) <= 2040).
  { intros p. pose proof (zsum_bounds (2 ^ 3) (fun q => pixel m (2 ^ 3 * bi + p) (2 ^ 3 * bj + q)) 0 255 ltac:(intros; now apply pixel_range)) as X. change (Z.of_nat (2 ^ 3)) with 8 in X. lia. }
  pose proof (zsum_bounds (2 ^ 3) (fun p => zsum (2 ^ 3) (fun q => pixel m (2 ^ 3 * bi + p) (2 ^ 3 * bj + q))) 0 2040 ltac:(intros; apply A)) as X.
  change (Z.of_nat (2 ^ 3)) with 8 in X. lia.
Qed.

Lemma pow8 : (2 ^ 3 = 8)%R. Proof. simpl; lra. Qed.
Lemma coefficient_sum m bi bj : coefficient m 3 bi bj = (IZR (block_total m 3 bi bj) / 8)%R.
Proof. unfold coefficient. now rewrite pow8. Qed.

(** Rounding a ratio of integers half up. *)
Lemma floor_ratio a b : 0 < b -> Zfloor (IZR a / IZR b) = a / b.
Proof.
  intros Hb. apply Zfloor_imp. assert (B : (0 < IZR b)%R) by now apply (IZR_lt 0). pose proof (Z.div_mod a b ltac:(lia)) as Hd. pose proof (Z.mod_pos_bound a b Hb) as Hm.
  rewrite plus_IZR. assert (E : (IZR a = IZR b * IZR (a / b) + IZR (a mod b))%R) by (rewrite <- mult_IZR, <- plus_IZR; now f_equal).
  assert (M0 : (0 <= IZR (a mod b))%R) by (apply (IZR_le 0); lia). assert (M1 : (IZR (a mod b) < IZR b)%R) by (apply IZR_lt; lia).
  split; apply Rmult_le_reg_r with (IZR b) || apply Rmult_lt_reg_r with (IZR b); try exact B; unfold Rdiv; rewrite Rmult_assoc, Rinv_l, Rmult_1_r by lra; lra.
Qed.
Lemma nearest_nonneg x : (0 <= x)%R -> nearest x = Zfloor (x + / 2).
Proof. intros H. pose proof (nearest_shift 0 x ltac:(lra)) as E. rewrite Rplus_0_l in E. rewrite E. lia. Qed.
Lemma bin_nearest D T : 0 < D -> 0 <= T -> nearest (IZR T / 8 / IZR D) = bin D T.
Proof.
  intros HD HT. assert (B : (0 < IZR D)%R) by now apply (IZR_lt 0). assert (A : (0 <= IZR T)%R) by now apply (IZR_le 0).
  rewrite nearest_nonneg.
  - unfold bin. rewrite <- floor_ratio by lia. f_equal. rewrite plus_IZR, !mult_IZR. field. lra.
  - unfold Rdiv. repeat apply Rmult_le_pos; try exact A; try lra. left. now apply Rinv_0_lt_compat.
Qed.
Lemma ratio_far a b k : 0 < b -> a mod b <> 0 -> (/ IZR b <= Rabs (IZR a / IZR b - IZR k))%R.
Proof.
  intros Hb Hm. assert (B : (0 < IZR b)%R) by now apply (IZR_lt 0).
  replace (IZR a / IZR b - IZR k)%R with (IZR (a - b * k) * / IZR b)%R by (rewrite minus_IZR, mult_IZR; field; lra).
  rewrite Rabs_mult, (Rabs_pos_eq (/ IZR b)) by (left; now apply Rinv_0_lt_compat).
  rewrite <- (Rmult_1_l (/ IZR b)) at 1. apply Rmult_le_compat_r; [left; now apply Rinv_0_lt_compat|]. rewrite <- abs_IZR. apply (IZR_le 1).
  assert (a - b * k <> 0); [|lia]. intros E. apply Hm. replace a with (k * b) by lia. apply Z.mod_mul. lia.
Qed.
Lemma shift_sum m n D enc i j : 0 < D -> image8 m ->
  pixel_shift m n 3 (IZR D) enc i j =
    (let k := (n / 8 * (i / 8) + j / 8)%nat in if (k <? 8 * length enc)%nat then IZR (wanted D (payload_bit enc k) (block_sum m i j) - block_sum m i j) / 64 else 0)%R.
Proof.
  intros HD H8. unfold pixel_shift, block_number, block_sum. change (2 ^ 3)%nat with 8%nat. cbv zeta. destruct (_ <? _)%nat; [|reflexivity].
  rewrite coefficient_sum. pose proof (block_sum_range m (i / 8) (j / 8) H8) as HT. set (T := block_total m 3 (i / 8) (j / 8)) in *.
  rewrite bin_nearest by lia. rewrite pow8. unfold wanted. rewrite minus_IZR, plus_IZR, !mult_IZR. generalize (payload_bit enc (n / 8 * (i / 8) + j / 8)). intros b. generalize (bin D T). intros r. clearbody T. generalize (IZR T) (IZR r). intros t ir.
  replace (IZR (if b then 2 * D else - (2 * D))) with (8 * (IZR D * quarter b))%R; [generalize (quarter b) (IZR D); intros; lra|].
  unfold quarter. destruct b; [rewrite mult_IZR|rewrite opp_IZR, mult_IZR]; simpl; lra.
Qed.

Lemma stored_value m n D enc i j v : 0 < D -> image8 m -> cell m i j = Some v ->
  clamp 0 255 (nearest (IZR v + pixel_shift m n 3 (IZR D) enc i j)) = stores n D enc m i j v.
Proof.
  intros HD H8 Ev. pose proof (image8_cell m i j v H8 Ev) as Hv. unfold byte in Hv. rewrite shift_sum by assumption. unfold stores. cbv zeta. destruct (_ <? _)%nat.
  - set (N := wanted D _ _ - _). assert (Ea : added D (payload_bit enc (n / 8 * (i / 8) + j / 8)) (block_sum m i j) = Zfloor (IZR N / 64 + / 2)).
    { unfold added. fold N. rewrite <- floor_ratio by lia. f_equal. rewrite plus_IZR. simpl. lra. }
    rewrite Ea. destruct (Rle_lt_dec 0 (IZR v + IZR N / 64)) as [H|H]; [now rewrite nearest_shift|].
    pose proof (nearest_half (IZR v + IZR N / 64)) as Hh. apply Rabs_le_inv in Hh. pose proof (Zfloor_lb (IZR N / 64 + / 2)) as Hf.
    assert (A : (IZR (nearest (IZR v + IZR N / 64)) < 1)%R) by lra. assert (B : (IZR (v + Zfloor (IZR N / 64 + / 2)) < 1)%R) by (rewrite plus_IZR; lra).
    apply (lt_IZR _ 1) in A. apply (lt_IZR _ 1) in B. unfold clamp. lia.
  - rewrite Rplus_0_r. rewrite (nearest_imp _ v) by (rewrite Rminus_eq_0, Rabs_R0; lra). apply clamp_id. lia.
Qed.

(** *** C86, exact arithmetic: for every whole number as depth. *)
Theorem C86_embedding_in_integers : forall K image n depth payload marked, 0 < depth ->
  picture image n 3 -> embed Rops K image payload (IZR depth) 3 = Ok marked ->
  exists frame stored, data_serialize payload = Ok frame /\ encode K frame (band_capacity n 3) = Ok stored
    /\ forall i j v, cell image i j = Some v -> cell marked i j = Some (stores n depth stored image i j v).
Proof.
  intros K m n D payload out HD Hp E. destruct (C61_embedding_in_closed_form K m n 3 (IZR D) payload out Hp E) as (ser & enc & E1 & E2 & H).
  exists ser, enc. split; [exact E1|]. split; [exact E2|]. intros i j v Ev. rewrite (H i j v Ev). f_equal. apply stored_value; [exact HD|apply Hp|exact Ev].
Qed.

Lemma bit_read_spec D T : 0 < D -> bit_read D T = (8 * D * bin D T <=? T).
Proof.
  intros HD. unfold bit_read, bin. pose proof (Z.div_mod T (8 * D) ltac:(lia)) as E. pose proof (Z.mod_pos_bound T (8 * D) ltac:(lia)) as M.
  set (q := T / (8 * D)) in *. set (r := T mod (8 * D)) in *. destruct (Z.ltb_spec r (4 * D)) as [H|H].
  - assert (X : (T + 4 * D) / (8 * D) = q) by (symmetry; apply (Z.div_unique_pos _ _ _ (r + 4 * D)); lia). rewrite X. symmetry. apply Z.leb_le. lia.
  - assert (X : (T + 4 * D) / (8 * D) = q + 1) by (symmetry; apply (Z.div_unique_pos _ _ _ (r - 4 * D)); lia). rewrite X. symmetry. apply Z.leb_gt. lia.
Qed.

Theorem C86_extraction_in_integers : forall K image n depth, 0 < depth ->
  picture image n 3 -> (9 <= band_capacity n 3)%nat ->
  exists received, length received = band_capacity n 3 /\ bytes received
    /\ (forall k, (k < 8 * band_capacity n 3)%nat -> payload_bit received k = bit_read depth (block_total image 3 (k / (n / 8)) (k mod (n / 8))))
    /\ extract Rops K image (IZR depth) 3 = bind (decode K received (band_capacity n 3)) data_deserialize.
Proof.
  intros K m n D HD Hp H9. destruct (C61_extraction_in_closed_form K m n 3 (IZR D) Hp H9) as (rc & L1 & B1 & Hb & X).
  exists rc. split; [exact L1|]. split; [exact B1|]. split; [|exact X]. intros k Hk. specialize (Hb k Hk). cbv zeta in Hb. change (2 ^ 3)%nat with 8%nat in Hb.
  pose proof (block_sum_range m (k / (n / 8)) (k mod (n / 8)) (proj2 Hp)) as HT. rewrite coefficient_sum in Hb. set (T := block_total m 3 _ _) in *.
  rewrite bin_nearest in Hb by lia. rewrite bit_read_spec by exact HD. apply Bool.eq_true_iff_eq. rewrite Hb, Z.leb_le.
  replace (IZR T / 8 - IZR D * IZR (bin D T))%R with (IZR (T - 8 * D * bin D T) / 8)%R by (rewrite minus_IZR, !mult_IZR; simpl; lra).
  split; intros H; [|unfold Rdiv; apply Rmult_le_pos; [apply (IZR_le 0); lia|lra]].
  assert (0 <= IZR (T - 8 * D * bin D T))%R by lra. apply (le_IZR 0) in H0. lia.
Qed.

(** ** f64 *)
Lemma quotient_clear D T k : 0 < D <= 4096 -> T mod (8 * D) <> 4 * D -> (/ 2 ^ 20 < Rabs (IZR T / 8 / IZR D - (IZR k + / 2)))%R.
Proof.
  intros HD Ht. assert (B : (0 < IZR D)%R) by (apply (IZR_lt 0); lia).
  replace (IZR T / 8 / IZR D - (IZR k + / 2))%R with (IZR (T - 4 * D) / IZR (8 * D) - IZR k)%R by (rewrite minus_IZR, !mult_IZR; field; lra).
  apply Rlt_le_trans with (/ IZR (8 * D))%R; [|apply ratio_far; [lia|]].
  - apply Rinv_lt_contravar; [apply Rmult_lt_0_compat; [apply (IZR_lt 0); lia|apply pow_lt; lra]|]. apply Rle_lt_trans with (IZR 32768); [apply IZR_le; lia|]. simpl pow. lra.
  - intros E. apply Ht. apply Z.mod_divide in E as (q & E); [|lia]. replace T with (4 * D + q * (8 * D)) by lia. rewrite Z.mod_add, Z.mod_small by lia. reflexivity.
Qed.
Lemma amount_clear N k : N mod 64 <> 32 -> (/ 512 < Rabs (IZR N / 64 - (IZR k + / 2)))%R.
Proof.
  intros Ht. replace (IZR N / 64 - (IZR k + / 2))%R with (IZR (N - 32) / IZR 64 - IZR k)%R by (rewrite minus_IZR; lra).
  apply Rlt_le_trans with (/ IZR 64)%R; [lra|]. apply ratio_far; [lia|].
  intros E. apply Ht. apply Z.mod_divide in E as (q & E); [|lia]. replace N with (32 + q * 64) by lia. now rewrite Z.mod_add by lia.
Qed.
Lemma not_tie_clear m n D enc i j : 0 < D <= 4096 -> image8 m -> ~ tie D (block_sum m i j) -> clear_of_ties m n 3 (IZR D) enc i j.
Proof.
  intros HD H8 Ht Hb k. split.
  - rewrite coefficient_sum. apply quotient_clear; [exact HD|]. intros X. apply Ht. left. exact X.
  - rewrite shift_sum by (try assumption; lia). cbv zeta. unfold block_number in Hb. change (2 ^ 3)%nat with 8%nat in Hb. rewrite (proj2 (Nat.ltb_lt _ _) Hb).
    apply amount_clear. intros X. apply Ht. right. eexists. exact X.
Qed.

(** *** C86 as compiled: every whole depth up to 4096, every block whose sum is not a tie. *)
Theorem C86_f64_embedding_in_integers : forall K image n depth payload marked, 1 <= depth <= 4096 ->
  picture image n 3 -> embed Bops K image payload (f_of_Z Bops depth) 3 = Ok marked ->
  exists frame stored, data_serialize payload = Ok frame /\ encode K frame (band_capacity n 3) = Ok stored
    /\ forall i j v, cell image i j = Some v -> ~ tie depth (block_sum image i j) -> cell marked i j = Some (stores n depth stored image i j v).
Proof.
  intros K m n D payload out HD Hp E. destruct (b_of_Z_ok D) as (F1 & V1); [lia|]. change (b_of_Z D) with (f_of_Z Bops D) in *.
  destruct (C61_f64_agrees_with_the_closed_form_off_ties K m n 3 (f_of_Z Bops D) payload out Hp ltac:(lia) F1) as (ser & enc & E1 & E2 & H); [rewrite V1; split; [apply (IZR_le 1)|apply (IZR_le _ 4096)]; lia|exact E|].
  exists ser, enc. split; [exact E1|]. split; [exact E2|]. intros i j v Ev Ht. rewrite V1 in H. rewrite (H i j v Ev).
  - f_equal. apply stored_value; [lia|apply Hp|exact Ev].
  - apply not_tie_clear; [lia|apply Hp|exact Ht].
Qed.

Lemma bin_bound D sum r : 1 <= D <= 4096 -> (Rabs (IZR sum / 8 / IZR D - IZR r) <= / 2 + bpow radix2 (0 - 23))%R -> Z.abs (sum - 8 * D * r) <= 4 * D.
Proof.
  intros HD Hr. assert (D1 : (1 <= IZR D)%R) by (apply (IZR_le 1); lia). assert (D2 : (IZR D <= 4096)%R) by (apply (IZR_le _ 4096); lia).
    assert (Er : (Rabs (IZR (sum - 8 * D * r)) <= IZR (4 * D) + / 2)%R).
    { replace (IZR (sum - 8 * D * r)) with (8 * IZR D * (IZR sum / 8 / IZR D - IZR r))%R by (rewrite minus_IZR, !mult_IZR; field; lra).
      rewrite Rabs_mult, (Rabs_pos_eq (8 * IZR D)) by lra. rewrite mult_IZR. simpl bpow in Hr. pose proof (Rabs_pos (IZR sum / 8 / IZR D - IZR r)). nra. }
    apply Z.lt_succ_r. apply lt_IZR. rewrite succ_IZR, abs_IZR. lra.
Qed.
Lemma amount_bound D sum r v (b : bool) (dd x : R) : 1 <= D <= 4096 ->
  (Rabs (IZR sum / 8 + dd - IZR D * (IZR r + quarter b)) <= bpow radix2 (0 - 24) * IZR D)%R -> (Rabs (x - (IZR v + (/ 2) ^ 3 * dd)) <= bpow radix2 (-10))%R ->
  Z.abs (64 * (nearest x - v) - (8 * D * r + (if b then 2 * D else - (2 * D)) - sum)) <= 32.
Proof.
  intros HD HDr Hx. assert (D1 : (1 <= IZR D)%R) by (apply (IZR_le 1); lia). assert (D2 : (IZR D <= 4096)%R) by (apply (IZR_le _ 4096); lia).
    set (N := 8 * D * r + (if b then 2 * D else - (2 * D)) - sum).
    assert (HN : (IZR N = 8 * (IZR D * (IZR r + quarter b) - IZR sum / 8))%R).
    { unfold N. rewrite minus_IZR, plus_IZR, !mult_IZR. unfold quarter. destruct b; [rewrite mult_IZR|rewrite opp_IZR, mult_IZR]; simpl; lra. }
    pose proof (nearest_half x) as Hh. apply Rabs_le_inv in Hh. apply Rabs_le_inv in Hx. apply Rabs_le_inv in HDr.
    assert (P8 : ((/ 2) ^ 3 = / 8)%R) by (simpl; lra). rewrite P8 in Hx. simpl bpow in *.
    assert (Bd : (- / 1024 <= dd + IZR sum / 8 - IZR D * (IZR r + quarter b) <= / 1024)%R) by lra.
    assert (F : (IZR (-33) < IZR (64 * (nearest x - v) - N) < IZR 33)%R).
    { rewrite minus_IZR, mult_IZR, minus_IZR, HN. simpl. lra. }
    destruct F as (Fa & Fb). apply lt_IZR in Fa. apply lt_IZR in Fb. lia.
Qed.

(** With no exception: where the rounding has to break a tie, the compiled program may take either neighbour, nothing else. *)
Theorem C86_f64_every_block : forall K image n depth payload marked, 1 <= depth <= 4096 ->
  picture image n 3 -> embed Bops K image payload (f_of_Z Bops depth) 3 = Ok marked ->
  exists frame stored, data_serialize payload = Ok frame /\ encode K frame (band_capacity n 3) = Ok stored
    /\ forall bi bj, (bi < n / 8)%nat -> (bj < n / 8)%nat -> let k := (n / 8 * bi + bj)%nat in let sum := block_total image 3 bi bj in
       ((8 * length stored <= k)%nat -> forall i j, (i / 8 = bi)%nat -> (j / 8 = bj)%nat -> cell marked i j = cell image i j)
       /\ ((k < 8 * length stored)%nat -> exists r, Z.abs (sum - 8 * depth * r) <= 4 * depth
            /\ forall i j v, (i / 8 = bi)%nat -> (j / 8 = bj)%nat -> cell image i j = Some v -> exists amount,
                 Z.abs (64 * amount - (8 * depth * r + (if payload_bit stored k then 2 * depth else - (2 * depth)) - sum)) <= 32
                 /\ cell marked i j = Some (clamp 0 255 (v + amount))).
Proof.
  intros K m n D payload out HD (Hc & H8) E. destruct (b_of_Z_ok D) as (Fd & Vd); [lia|]. change (b_of_Z D) with (f_of_Z Bops D) in *. set (d := f_of_Z Bops D) in *.
  destruct (embed_inv Bops K m n 3 d payload out Hc E) as (H9 & ser & enc & Hser & Henc & Hlen).
  assert (D1 : (1 <= IZR D)%R) by (apply (IZR_le 1); lia). assert (D2 : (IZR D <= 4096)%R) by (apply (IZR_le _ 4096); lia).
  assert (Hd' : (bpow radix2 (- (0)) <= toR d <= bpow radix2 20)%R) by (rewrite Vd; simpl bpow; lra).
  destruct (embed_effect_float_gen 0 K m n 3 d payload ser enc ltac:(lia) Hc H8 ltac:(lia) Fd Hd' H9 Hser Henc Hlen) as (out' & Eo & Heff).
  assert (out' = out) by congruence. subst out'. rewrite Vd in Heff. pose proof (carrier_band m n 3 Hc) as (Hs & Hrep & Hdiv & Hn).
  destruct Heff as [(Hco & H8o) (DD & HD0 & Hpix & HDD)].
  exists ser, enc. split; [exact Hser|]. split; [exact Henc|]. intros bi bj Hbi Hbj k sum. change (n / 8)%nat with (band n 3) in *.
  assert (Hm : (n mod 2 ^ 3 = 0)%nat) by apply Hc.
  assert (Dims : forall i j, cell m i j = None -> cell out i j = None).
  { intros i j En. destruct (cell out i j) as [w|] eqn:Ew; [|reflexivity]. destruct (cell_some_lt out n 3 i j w Hco Ew) as (Hi & Hj).
    destruct (cell_bounds m i j) as (v & Ev); [apply Hc|destruct Hc as (_ & -> & _); exact Hi|destruct Hc as (_ & _ & -> & _); exact Hj|congruence]. }
  split.
  - intros Hk i j Ei Ej. destruct (cell m i j) as [v|] eqn:Ev; [|now apply Dims]. destruct (cell_some_lt m n 3 i j v Hc Ev) as (Hi & Hj).
    destruct (Hpix i j Hi Hj) as (x & Hx & ->). change (2 ^ 3)%nat with 8%nat in Hx. rewrite Ei, Ej in Hx.
    pose proof (used_number n 3 enc i j Hm Hi Hj) as Hu. unfold block_number in Hu. change (2 ^ 3)%nat with 8%nat in Hu. change (n / 8)%nat with (band n 3) in Hu. rewrite Ei, Ej in Hu. fold k in Hu.
    rewrite (proj2 (Nat.ltb_ge _ _) Hk) in Hu. rewrite (HD0 _ _ Hu) in Hx. unfold pixR in Hx. rewrite Ev, Rmult_0_r, Rplus_0_r in Hx.
    rewrite (nearest_imp x v) by (simpl bpow in Hx; lra). f_equal. apply clamp_id. pose proof (image8_cell m i j v H8 Ev) as Hb. unfold byte in Hb. lia.
  - intros Hk.
    assert (Hu : used (band n 3) enc bi bj = true).
    { assert (I0 : (8 * bi < n)%nat) by (unfold band in *; change (2 ^ 3)%nat with 8%nat in *; pose proof (Nat.mul_div_le n 8 ltac:(lia)); nia). assert (J0 : (8 * bj < n)%nat) by (unfold band in *; change (2 ^ 3)%nat with 8%nat in *; pose proof (Nat.mul_div_le n 8 ltac:(lia)); nia).
      pose proof (used_number n 3 enc (8 * bi) (8 * bj) Hm I0 J0) as Hu. unfold block_number in Hu. change (2 ^ 3)%nat with 8%nat in Hu. change (n / 8)%nat with (band n 3) in Hu.
      assert (Q : forall z, (8 * z / 8 = z)%nat) by (intros z; rewrite Nat.mul_comm; apply Nat.div_mul; lia). rewrite !Q in Hu. fold k in Hu. rewrite Hu. now apply Nat.ltb_lt. }
    destruct (HDD _ _ Hu) as (r & (_ & Hr) & HDr & _). fold k in HDr. rewrite coefficient_eq in Hr, HDr by assumption. rewrite coefficient_sum in Hr, HDr.
    change (block_total m 3 bi bj) with sum in Hr, HDr. clearbody sum. set (b := payload_bit enc k) in *. clearbody b. exists r.
    assert (Zr : Z.abs (sum - 8 * D * r) <= 4 * D) by exact (bin_bound D sum r HD Hr).
    split; [exact Zr|]. intros i j v Ei Ej Ev. destruct (cell_some_lt m n 3 i j v Hc Ev) as (Hi & Hj).
    destruct (Hpix i j Hi Hj) as (x & Hx & Ew). change (2 ^ 3)%nat with 8%nat in Hx. rewrite Ei, Ej in Hx. unfold pixR in Hx. rewrite Ev in Hx.
    exists (nearest x - v). split; [|rewrite Ew; do 2 f_equal; lia].
    exact (amount_bound D sum r v b (DD bi bj) x HD HDr Hx).
Qed.

Lemma bit_of_sum D (v : b64) T : 1 <= D <= 4096 -> 0 <= T <= 16320 -> ~ border D T -> fin v -> (Rabs (toR v - IZR T / 8) <= bpow radix2 (-24))%R ->
  bit_of Bops (f_of_Z Bops D) v = bit_read D T.
Proof.
  intros HD HT Hb Fv Hv. destruct (b_of_Z_ok D) as (Fd & Vd); [lia|]. change (b_of_Z D) with (f_of_Z Bops D) in *. set (d := f_of_Z Bops D) in *.
  assert (D1 : (1 <= IZR D)%R) by (apply (IZR_le 1); lia). assert (D2 : (IZR D <= 4096)%R) by (apply (IZR_le _ 4096); lia).
  assert (T1 : (0 <= IZR T)%R) by (apply (IZR_le 0); lia). assert (T2 : (IZR T <= 16320)%R) by (apply (IZR_le _ 16320); lia). simpl bpow in Hv. apply Rabs_le_inv in Hv.
  assert (Hi : (0 < / IZR D <= 1)%R) by (split; [apply Rinv_0_lt_compat; lra|rewrite <- Rinv_1; apply Rinv_le_contravar; lra]).
  assert (Hq : (Rabs (toR v / IZR D) <= 4096)%R).
  { apply Rabs_le. unfold Rdiv. split; nra. }
  destruct (b_div_ok v d Fv) as (F1 & V1); [rewrite Vd; lra|rewrite Vd; apply small_le with 12%Z; [lia|simpl bpow; exact Hq]|]. rewrite Vd in V1.
  destruct (b_round_ok _ F1) as (F2 & V2). rewrite V1 in V2.
  assert (N : Znearest (Z.leb 0) (rnd (toR v / IZR D)) = bin D T).
  { rewrite <- bin_nearest by lia. fold (nearest (rnd (toR v / IZR D))). apply (far_from_half _ (/ 2 ^ 20)).
    - intros k. apply quotient_clear; [lia|]. intros E. apply Hb. unfold border. pose proof (Z.div_mod T (8 * D) ltac:(lia)) as X.
      replace T with ((2 * (T / (8 * D)) + 1) * (4 * D)) by lia. apply Z.mod_mul. lia.
    - pose proof (rnd_err (toR v / IZR D)) as He. unfold u53, eta in He. assert (Eta : (bpow radix2 (-1075) <= bpow radix2 (-60))%R) by (apply bpow_le; lia).
      assert (Hd : (Rabs (toR v / IZR D - IZR T / 8 / IZR D) <= / 2 ^ 24)%R).
      { replace (toR v / IZR D - IZR T / 8 / IZR D)%R with ((toR v - IZR T / 8) * / IZR D)%R by (field; lra). apply Rabs_le. simpl pow. split; nra. }
      apply Rabs_le_inv in Hd. apply Rabs_le_inv in He. pose proof (Rabs_pos (toR v / IZR D)). simpl bpow in *. apply Rabs_le. simpl pow in *. lra. }
  rewrite N in V2.
  assert (R0 : 0 <= bin D T <= 2040).
  { unfold bin. split; [apply Z.div_pos; lia|]. apply Z.lt_succ_r. apply Z.div_lt_upper_bound; [lia|]. nia. }
  destruct (b_mul_ok d (f_round Bops (f_div Bops v d)) Fd F2) as (F3 & V3).
  { rewrite Vd, V2, <- mult_IZR. apply small_IZR. nia. }
  rewrite Vd, V2, <- mult_IZR, rnd_IZR in V3 by nia.
  destruct (b_sub_ok v (f_mul Bops d (f_round Bops (f_div Bops v d))) Fv F3) as (F4 & V4).
  { rewrite V3. apply small_le with 40%Z; [lia|]. assert (P : (0 <= IZR (D * bin D T) <= 10000000)%R) by (split; [apply (IZR_le 0)|apply (IZR_le _ 10000000)]; nia).
    apply Rabs_le. simpl bpow. lra. }
  rewrite V3 in V4. unfold bit_of. change (f_of_Z Bops 0) with (b_of_Z 0). destruct (b_of_Z_ok 0) as (F0 & V0); [lia|].
  rewrite (b_ge_ok _ _ F4 F0), V0, V4. rewrite bit_read_spec by lia.
  assert (E : (toR v - IZR (D * bin D T) = (toR v - IZR T / 8) + IZR (T - 8 * D * bin D T) / 8)%R) by (rewrite minus_IZR, !mult_IZR; simpl; lra).
  assert (NZ : T - 8 * D * bin D T <> 0).
  { intros X. apply Hb. unfold border. replace T with (2 * bin D T * (4 * D)) by lia. apply Z.mod_mul. lia. }
  destruct (Z.leb_spec (8 * D * bin D T) T) as [H|H].
  - apply Rle_bool_true. rewrite <- rnd_0. apply rnd_le. rewrite E. assert (1 <= IZR (T - 8 * D * bin D T))%R by (apply (IZR_le 1); lia). lra.
  - apply Rle_bool_false. assert (X : (IZR (T - 8 * D * bin D T) <= -1)%R) by (apply (IZR_le _ (-1)); lia).
    apply Rle_lt_trans with (rnd (- / 16)); [apply rnd_le; rewrite E; lra|]. assert (G : rnd (- / 16) = (- / 16)%R).
    { replace (- / 16)%R with (IZR (-1) * bpow radix2 (-4))%R by (simpl; lra). apply rnd_generic, generic_dyadic; lia. }
    rewrite G. lra.
Qed.

Theorem C86_f64_extraction_in_integers : forall K image n depth, 1 <= depth <= 4096 ->
  picture image n 3 -> (9 <= band_capacity n 3)%nat ->
  exists received, length received = band_capacity n 3 /\ bytes received
    /\ (forall k, (k < 8 * band_capacity n 3)%nat -> let sum := block_total image 3 (k / (n / 8)) (k mod (n / 8)) in
          ~ border depth sum -> payload_bit received k = bit_read depth sum)
    /\ extract Bops K image (f_of_Z Bops depth) 3 = bind (decode K received (band_capacity n 3)) data_deserialize.
Proof.
  intros K m n D HD (Hc & H8) H9. unfold band_capacity in *. change (n / 2 ^ 3)%nat with (n / 8)%nat in *. change (n / 8)%nat with (band n 3) in *.
  destruct (extract_run Bops K m n 3 (f_of_Z Bops D) Hc H9) as (C & Hdom & C0 & C1 & GC & EX).
  pose proof (carrier_band m n 3 Hc) as (Hsn & Hrep & Hdiv & _).
  pose proof (read_ok Bops (f_of_Z Bops D) (band n 3) C Hrep Hdom) as Erd. set (rc := map _ _) in Erd.
  destruct (read_bits Bops (f_of_Z Bops D) (band n 3) C _ Hrep Hdom Erd) as (Ll & Hbits).
  exists rc. split; [exact Ll|]. split; [exact (read_bytes Bops (f_of_Z Bops D) (band n 3) C _ Hrep Hdom Erd)|]. split.
  - intros k Hk. cbv zeta. intros Hb. rewrite <- nth_bits, Hbits by (rewrite Ll; exact Hk).
    assert (Hs : (0 < band n 3)%nat) by (destruct (band n 3); [cbn in H9; lia|lia]).
    assert (Hk2 : (k < band n 3 * band n 3)%nat) by (pose proof (Nat.mul_div_le (band n 3 * band n 3) 8 ltac:(lia)); lia).
    rewrite cell_bit_get by assumption. rewrite GC.
    destruct (place_lt (band n 3) k Hs Hk2) as (P1 & P2).
    assert (HA : approx n n (bpow radix2 (-24)) (transform Bops false n n 3 (get Bops (mapv (f_of_Z Bops) m))) (transR false n n 3 (pixR m))).
    { destruct Hc as (_ & E0 & E1 & _). pose proof (pixR_bounded m H8) as Hbd. pose proof (pix_float m H8) as Hpx. rewrite E0, E1 in *. apply analysis_float; try assumption. lia. }
    destruct (HA (k / band n 3)%nat (k mod band n 3)%nat ltac:(lia) ltac:(lia)) as (FC & HC). rewrite coefficient_eq in HC by assumption. rewrite coefficient_sum in HC.
    apply bit_of_sum; [exact HD|apply block_sum_range; exact H8|exact Hb|exact FC|exact HC].
  - rewrite EX, Erd. reflexivity.
Qed.

(** The ties of the two front ends (depth 100 and 500), in simple terms. *)
Theorem C86_ties_of_the_front_ends : forall depth sum, depth = 100 \/ depth = 500 -> sum mod (8 * depth) <> 4 * depth -> sum mod 16 <> 8 -> ~ tie depth sum.
Proof.
  intros D T HD H1 H2 [H|(b & H)]; [contradiction|]. apply H2.
  assert (E : exists q, wanted D b T - T = 32 + 64 * q) by (exists ((wanted D b T - T) / 64); pose proof (Z.div_mod (wanted D b T - T) 64 ltac:(lia)); lia).
  destruct E as (q & E). unfold wanted in E. set (r := bin D T) in *.
  assert (X : exists z, T = 8 + z * 16).
  { destruct HD as [-> | ->]; destruct b.
    - exists (50 * r + 10 - 4 * q). lia.
    - exists (50 * r - 15 - 4 * q). lia.
    - exists (250 * r + 60 - 4 * q). lia.
    - exists (250 * r - 65 - 4 * q). lia. }
  destruct X as (z & ->). now rewrite Z.mod_add by lia.
Qed.

(** ** Concrete case: the flat grey picture 128 x 128, depth 100.  Every block sum is 8192, in bin 10 (centre 8000): a one moves the sum to 8200,
    which rounds to 0 per pixel; a zero moves it to 7800, -6 per pixel.  No ties, no borders. *)
Example C86_instance : forall payload marked, embed Bops toy_ldpc grey128 payload (f_of_Z Bops 100) 3 = Ok marked ->
  exists stored, forall i j, (i < 128)%nat -> (j < 128)%nat ->
    cell marked i j = Some (if (16 * (i / 8) + j / 8 <? 8 * length stored)%nat then if payload_bit stored (16 * (i / 8) + j / 8) then 128 else 122 else 128).
Proof.
  intros payload marked E. destruct (C86_f64_embedding_in_integers toy_ldpc grey128 128 100 payload marked ltac:(lia) grey128_picture E) as (ser & enc & _ & _ & H).
  exists enc. intros i j Hi Hj. destruct (cell_bounds grey128 i j) as (v & Ev); [apply wit_wf|exact Hi|exact Hj|].
  assert (S : block_sum grey128 i j = 8192).
  { pose proof (grey128_coefficient i j Hi Hj) as X. change (2 ^ 3)%nat with 8%nat in X. rewrite coefficient_sum in X. unfold block_sum. generalize dependent (block_total grey128 3 (i / 8) (j / 8)). intros T X.
    apply eq_IZR. lra. }
  rewrite (H i j v Ev) by (rewrite S; apply C86_ties_of_the_front_ends; [now left|vm_compute; discriminate|vm_compute; discriminate]).
  apply cell_wit in Ev. subst v. unfold stores. cbv zeta. rewrite S. change (128 / 8)%nat with 16%nat.
  destruct (_ <? _)%nat; [|reflexivity]. destruct (payload_bit _ _); reflexivity.
Qed.

Print Assumptions C86_embedding_in_integers.
Print Assumptions C86_extraction_in_integers.
Print Assumptions C86_f64_embedding_in_integers.
Print Assumptions C86_f64_every_block.
Print Assumptions C86_f64_extraction_in_integers.
Print Assumptions C86_ties_of_the_front_ends.
(** Read back without a watermark, the flat picture gives ones only: 8192 is 192 above a multiple of 800. *)
Example C86_instance_reading : exists received, length received = 32%nat /\ (forall k, (k < 256)%nat -> payload_bit received k = true)
  /\ extract Bops toy_ldpc grey128 (f_of_Z Bops 100) 3 = bind (decode toy_ldpc received 32) data_deserialize.
Proof.
  destruct (C86_f64_extraction_in_integers toy_ldpc grey128 128 100 ltac:(lia) grey128_picture) as (rc & L & _ & H & X); [vm_compute; lia|].
  change (band_capacity 128 3) with 32%nat in *. change (128 / 8)%nat with 16%nat in *. exists rc. split; [exact L|]. split; [|exact X].
  intros k Hk. specialize (H k Hk). cbv zeta in H.
  assert (A : (k / 16 < 16)%nat) by (apply Nat.div_lt_upper_bound; lia). pose proof (Nat.mod_upper_bound k 16 ltac:(lia)) as B.
  pose proof (grey128_coefficient (8 * (k / 16)) (8 * (k mod 16)) ltac:(lia) ltac:(lia)) as C. change (2 ^ 3)%nat with 8%nat in C.
  rewrite !(Nat.mul_comm 8), !Nat.div_mul in C by lia. rewrite coefficient_sum in C. generalize dependent (block_total grey128 3 (k / 16) (k mod 16)). intros T H C.
  assert (T = 8192) by (apply eq_IZR; lra). subst T. rewrite H; [reflexivity|]. vm_compute. discriminate.
Qed.
