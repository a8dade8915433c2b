(** Property C119: useless depths.  The library takes any number as depth.  With a depth above 510 * 2^levels (4080 for its three levels) every bit is read as one, whatever the picture;
    with a depth that is zero, infinite or no number every bit is read as zero; and with zero or no number embedding makes every block it uses black
    (lib/sia/rust/embedding/src/lib.rs: embed, extract; lib/sia/rust/embedding/src/io/steganography.rs:54-79, 129-147). *)
From Coq Require Import Reals Lra.
From Flocq Require Import Core BinarySingleNaN.
From Verif Require Import Outcome Floats FloatFacts Bits ListFacts Quantization QuantProofs QuantReal QuantFloat PropsQuant PropsQuant2 Codecs CodecProofs WatermarkProofs PropsCodec
  Encoding EncodingProofs PropsEncoding Matrix MatrixFacts Haar HaarProofs HaarReal HaarFloat PropsHaar Stego StegoProofs StegoMarks PropsStego Embedding EmbeddingProofs EmbeddingEffect PropsEmbedding PropsEmbedding2 PropsEmbedding3 PropsRobust
  Signature Process ProcessProofs Toy Zernike ZernikeProofs PropsZernike ZernikeBound PropsZernike2 ZernikeGen PropsZernikeF64 LibmSpec LibmExact PropsZernikeAcc
  PropsProcess PropsProcess2 Image PropsImage PropsProcess3 PropsProcess4 PropsProcess5 PropsProcess6 PropsTamper Equalize PropsEqualize PropsShipped PropsShipped2 PropsInteger PropsClipping PropsClipping2 PropsRepair PropsRepair2 PropsVerdict PropsUnused PropsForged PropsBright PropsBlockwise PropsFaint PropsInvisible PropsUnmarked.
Open Scope R_scope.

(** ** Specification vocabulary *)
(** What is read does not depend on the picture: all received bytes are [b]. *)
Definition reads_only {F} (O : FOps F) (K : ldpc) (image : array2 Z) (n levels : nat) (depth : F) (b : Z) : Prop :=
  extract O K image depth levels = bind (decode K (repeat b (band_capacity n levels)) (band_capacity n levels)) data_deserialize.
(** Zero (of either sign), infinite or not a number. *)
Definition not_ordinary (depth : b64) : Prop := match depth with B754_finite _ _ _ _ => False | _ => True end.
Definition zero_or_nan (depth : b64) : Prop := match depth with B754_zero _ | B754_nan => True | _ => False end.

(** ** Proofs *)
Lemma byte_255 k : (k < 8)%nat -> Z.testbit 255 (Z.of_nat k) = true.
Proof. intros H. do 8 (destruct k as [|k]; [reflexivity|]). lia. Qed.
Lemma repeat_bytes b c : byte b -> bytes (repeat b c).
Proof. intros H. apply Forall_forall. intros x Hx. apply repeat_spec in Hx. now subst x. Qed.
Lemma payload_bit_repeat b c k : (k < 8 * c)%nat -> payload_bit (repeat b c) k = Z.testbit b (Z.of_nat (k mod 8)).
Proof.
  intros H. unfold payload_bit. f_equal. apply nth_error_nth. apply nth_error_repeat. apply Nat.div_lt_upper_bound; lia.
Qed.
Lemma constant_bits (o : bool) l cap : bytes l -> length l = cap -> (forall k, (k < 8 * cap)%nat -> payload_bit l k = o) -> l = repeat (if o then 255 else 0)%Z cap.
Proof.
  intros B L H. apply bytes_by_bits; [exact B|apply repeat_bytes; destruct o; unfold byte; lia|now rewrite repeat_length|]. rewrite L. intros k Hk. rewrite H, payload_bit_repeat by exact Hk.
  destruct o; [symmetry; apply byte_255; apply Nat.mod_upper_bound; lia|symmetry; apply Z.testbit_0_l].
Qed.

Lemma coefficient_range m L bi bj : image8 m -> 0 <= coefficient m L bi bj <= 255 * 2 ^ L.
Proof.
  intros Hp. assert (P : 0 < 2 ^ L) by (apply pow_lt; lra). unfold coefficient.
  assert (T : (0 <= block_total m L bi bj <= 255 * Z.of_nat (2 ^ L * 2 ^ L))%Z).
    { unfold block_total. assert (A : forall p, (0 <= zsum (2 ^ L) (fun q => pixel m (2 ^ L * bi + p) (2 ^ L * bj + q)) <= 255 * Z.of_nat (2 ^ L))%Z).
      { intros p. pose proof (zsum_bounds (2 ^ L) (fun q => pixel m (2 ^ L * bi + p) (2 ^ L * bj + q)) 0 255 ltac:(intros; apply pixel_range; exact Hp)) as Y. lia. }
      pose proof (zsum_bounds (2 ^ L) (fun p => zsum (2 ^ L) (fun q => pixel m (2 ^ L * bi + p) (2 ^ L * bj + q))) 0 (255 * Z.of_nat (2 ^ L)) ltac:(intros; apply A)) as Y. rewrite Nat2Z.inj_mul. nia. }
    destruct T as (T1 & T2). apply IZR_le in T1. apply IZR_le in T2. rewrite mult_IZR, <- INR_IZR_INZ, mult_INR, pow_INR in T2. simpl (INR 2) in T2. split.
    - unfold Rdiv. apply Rmult_le_pos; [exact T1|]. left. now apply Rinv_0_lt_compat.
    - apply (Rmult_le_reg_r (2 ^ L)); [exact P|]. unfold Rdiv. rewrite Rmult_assoc, Rinv_l, Rmult_1_r by lra. simpl in T2. replace (1 + 1) with 2 in T2 by ring. lra.
Qed.

(** *** Too large: exact arithmetic *)
Theorem C119_large_depths_read_ones : forall K image n levels depth, picture image n levels -> (9 <= band_capacity n levels)%nat -> 510 * 2 ^ levels < depth ->
  reads_only Rops K image n levels depth 255.
Proof.
  intros K m n L d Hp H9 Hd. destruct (C61_extraction_in_closed_form K m n L d Hp H9) as (rc & Lr & Br & Hb & X). unfold reads_only. rewrite X. f_equal. f_equal.
  apply (constant_bits true); [exact Br|exact Lr|]. intros k Hk. apply (Hb k Hk). clear Hb X.
  set (c := coefficient m L _ _). assert (P : 0 < 2 ^ L) by (apply pow_lt; lra). assert (Hc : 0 <= c <= 255 * 2 ^ L) by (apply coefficient_range; apply Hp).
  assert (Hq : 0 <= c / d < / 2).
  { split; [apply Rmult_le_pos; [apply Hc|]; left; apply Rinv_0_lt_compat; lra|]. apply (Rmult_lt_reg_r d); [lra|]. unfold Rdiv. rewrite Rmult_assoc, Rinv_l, Rmult_1_r by lra. lra. }
  assert (N : nearest (c / d) = 0%Z). { unfold nearest. apply Znearest_imp. rewrite Rminus_0_r, Rabs_pos_eq by lra. lra. }
  rewrite N, Rmult_0_r, Rminus_0_r. apply Hc.
Qed.

(** *** Too large: binary64.  The coefficients of a picture are never negative. *)
Lemma plus2_pos (a b : b64) B : fin a -> fin b -> 0 <= toR a <= B -> 0 <= toR b <= B -> 1 <= B <= bpow radix2 500 ->
  fin (plus2 Bops a b) /\ 0 <= toR (plus2 Bops a b) <= 4 * B.
Proof.
  intros Fa Fb Ha Hb HB. destruct sqrt1_2_ok as (Fc & Hc). pose proof cc_pos as C0. pose proof cc_le as C1. assert (C2 : / 2 <= cc) by (pose proof cc_sq; nra).
  pose proof eta_le_u as Het. pose proof eta_pos as Het0. pose proof u53_pos as U0. assert (U : u53 <= / 1000000) by (unfold u53; simpl; lra). assert (Ee : bpow radix2 (-60) <= / 1000000) by (simpl; lra).
  apply Rabs_le_inv in Hc. unfold plus2. change (f_sqrt1_2 Bops) with b_sqrt1_2. set (C := toR b_sqrt1_2) in *.
  assert (HC : 0 <= C <= 1) by lra.
  assert (P : forall x : b64, fin x -> 0 <= toR x <= B -> fin (f_mul Bops b_sqrt1_2 x) /\ 0 <= toR (f_mul Bops b_sqrt1_2 x) <= 3 / 2 * B).
  { intros x Fx Hx. assert (X : 0 <= C * toR x <= B) by nra.
    destruct (b_mul_ok b_sqrt1_2 x Fc Fx) as (F & V); [fold C; apply (small_le _ 500); [lia|]; rewrite Rabs_pos_eq by lra; lra|]. fold C in V. split; [exact F|]. rewrite V. split; [rewrite <- rnd_0; apply rnd_le; lra|].
    pose proof (rnd_err (C * toR x)) as Er. rewrite (Rabs_pos_eq (C * toR x)) in Er by lra. apply Rabs_le_inv in Er. nra. }
  destruct (P a Fa Ha) as (F1 & V1). destruct (P b Fb Hb) as (F2 & V2).
  set (x := f_mul Bops b_sqrt1_2 a) in *. set (y := f_mul Bops b_sqrt1_2 b) in *.
  destruct (b_add_ok x y F1 F2) as (F & V).
  { apply (small_le _ 502); [lia|]. rewrite Rabs_pos_eq by lra. replace 502%Z with (2 + 500)%Z by lia. rewrite bpow_plus. simpl (bpow radix2 2). lra. }
  split; [exact F|]. rewrite V. split; [rewrite <- rnd_0; apply rnd_le; lra|].
  pose proof (rnd_err (toR x + toR y)) as Er. rewrite (Rabs_pos_eq (toR x + toR y)) in Er by lra. apply Rabs_le_inv in Er. nra.
Qed.
Definition corner_pos (n t : nat) (B : R) (N : nat -> nat -> b64) : Prop := forall i j, (i < n / 2 ^ t)%nat -> (j < n / 2 ^ t)%nat -> fin (N i j) /\ 0 <= toR (N i j) <= B.
Lemma corner_step n L t B N : (n mod 2 ^ L = 0)%nat -> (t < L)%nat -> 1 <= B <= bpow radix2 400 -> corner_pos n t B N -> corner_pos n (S t) (16 * B) (iteration Bops false n n N t).
Proof.
  intros Hm Ht HB H i j Hi Hj. destruct (half_even n L t Hm Ht) as (E & D). set (w := (n / 2 ^ t)%nat) in *. set (h := (n / 2 ^ S t)%nat) in *.
  assert (Hh : Nat.div2 w = h) by (rewrite D; apply Nat.div2_double).
  assert (HB5 : bpow radix2 400 <= bpow radix2 500) by (apply bpow_le; lia). assert (HB6 : 4 * bpow radix2 400 <= bpow radix2 500) by (replace 500%Z with (100 + 400)%Z by lia; rewrite bpow_plus; pose proof (bpow_gt_0 radix2 400); assert (4 <= bpow radix2 100) by (simpl; lra); nra).
  assert (R1 : forall i' j', (i' < w)%nat -> (j' < h)%nat -> fin (rows_pass Bops false w w N i' j') /\ 0 <= toR (rows_pass Bops false w w N i' j') <= 4 * B).
  { intros i' j' Hi' Hj'. unfold rows_pass. rewrite (proj2 (Nat.ltb_lt i' w)), (proj2 (Nat.ltb_lt j' w)) by lia. cbn [andb]. unfold step. rewrite Hh, (proj2 (Nat.ltb_lt j' h)) by lia.
    destruct (H i' (2 * j')%nat) as (A1 & A2); [lia|lia|]. destruct (H i' (2 * j' + 1)%nat) as (B1 & B2); [lia|lia|]. apply plus2_pos; try assumption. lra. }
  unfold iteration. fold w. unfold cols_pass. rewrite (proj2 (Nat.ltb_lt i w)), (proj2 (Nat.ltb_lt j w)) by lia. cbn [andb]. unfold step. rewrite Hh, (proj2 (Nat.ltb_lt i h)) by lia.
  destruct (R1 (2 * i)%nat j) as (A1 & A2); [lia|lia|]. destruct (R1 (2 * i + 1)%nat j) as (B1 & B2); [lia|lia|].
  replace (16 * B) with (4 * (4 * B)) by ring. apply plus2_pos; try assumption. lra.
Qed.
Lemma corner_all n L N : (n mod 2 ^ L = 0)%nat -> (L <= 10)%nat -> corner_pos n 0 255 N -> forall t, (t <= L)%nat -> corner_pos n t (255 * 16 ^ t) (fold_left (iteration Bops false n n) (seq 0 t) N).
Proof.
  intros Hm HL H. induction t as [|t IH]; intros Ht; [cbn [seq fold_left pow]; rewrite Rmult_1_r; exact H|].
  rewrite seq_S, fold_left_app. cbn [fold_left plus]. replace (255 * 16 ^ S t) with (16 * (255 * 16 ^ t)) by (simpl; ring).
  assert (P : 1 <= 16 ^ t <= 16 ^ 10) by (split; [apply pow_R1_Rle; lra|apply Rle_pow; [lra|lia]]).
  apply (corner_step n L t); [exact Hm|lia| |apply IH; lia]. split; [lra|]. apply Rle_trans with (bpow radix2 60); [|apply bpow_le; lia]. simpl (16 ^ 10) in P. simpl (bpow radix2 60). lra.
Qed.

Theorem C119_f64_large_depths_read_ones : forall K image n levels (depth : b64), picture image n levels -> (levels <= 10)%nat -> (9 <= band_capacity n levels)%nat ->
  fin depth -> 511 * 2 ^ levels <= toR depth -> reads_only Bops K image n levels depth 255.
Proof.
  intros K m n L d (Hc & H8) HL H9 Fd Hd. unfold reads_only. unfold band_capacity in *. change (n / 2 ^ L)%nat with (band n L) in *.
  destruct (extract_run Bops K m n L d Hc H9) as (C & Hdom & C0 & C1 & GC & EX).
  pose proof (carrier_band m n L Hc) as (Hsn & Hrep & Hdiv & _).
  pose proof (read_ok Bops d (band n L) C Hrep Hdom) as Erd. set (rc := map _ _) in Erd.
  destruct (read_bits Bops d (band n L) C _ Hrep Hdom Erd) as (Ll & Hbits).
  rewrite EX, Erd. cbn [bind]. f_equal. f_equal.
  apply (constant_bits true); [exact (read_bytes Bops d (band n L) C _ Hrep Hdom Erd)|exact Ll|]. intros k Hk. rewrite <- nth_bits, Hbits by (rewrite Ll; exact Hk).
  assert (Hs : (0 < band n L)%nat) by (destruct (band n L); [cbn in H9; lia|lia]).
  assert (Hk2 : (k < band n L * band n L)%nat) by (pose proof (Nat.mul_div_le (band n L * band n L) 8 ltac:(lia)); lia).
  rewrite cell_bit_get by assumption. rewrite GC.
  destruct (place_lt (band n L) k Hs Hk2) as (P1 & P2).
  pose proof Hc as (Wf & E0 & E1 & Hmod & _). pose proof (pix_float m H8) as Hpx. pose proof (pixR_bounded m H8) as Hbd. rewrite E0, E1 in *.
  assert (Pos : corner_pos n 0 255 (get Bops (mapv (f_of_Z Bops) m))).
  { intros i j Hi Hj. simpl (2 ^ 0)%nat in Hi, Hj. rewrite Nat.div_1_r in Hi, Hj. destruct (Hpx i j Hi Hj) as (F & V). split; [exact F|].
    assert (Q : toR (get Bops (mapv (f_of_Z Bops) m) i j) = pixR m i j) by (apply Rabs_le_inv in V; lra). rewrite Q. unfold pixR.
    destruct (cell_bounds m i j Wf) as (v & Ev); [lia|lia|]. rewrite Ev. pose proof (image8_cell m i j v H8 Ev) as (V1 & V2). split; [apply (IZR_le 0); lia|apply (IZR_le v 255); lia]. }
  destruct (corner_all n L _ Hmod HL Pos L (le_n L) (k / band n L)%nat (k mod band n L)%nat P1 P2) as (FC & VC0 & _).
  change (fold_left (iteration Bops false n n) (seq 0 L) (get Bops (mapv (f_of_Z Bops) m))) with (transform Bops false n n L (get Bops (mapv (f_of_Z Bops) m))) in *.
  assert (HA : approx n n (bpow radix2 (-24)) (transform Bops false n n L (get Bops (mapv (f_of_Z Bops) m))) (transR false n n L (pixR m))) by (apply analysis_float; assumption).
  destruct (HA (k / band n L)%nat (k mod band n L)%nat ltac:(lia) ltac:(lia)) as (_ & HC). rewrite coefficient_eq in HC by assumption.
  set (x := transform Bops false n n L (get Bops (mapv (f_of_Z Bops) m)) (k / band n L)%nat (k mod band n L)%nat) in *. clearbody x.
  assert (P : 1 <= 2 ^ L) by (apply pow_R1_Rle; lra).
  assert (Hx : 0 <= toR x <= 255 * 2 ^ L + / 1000).
  { split; [exact VC0|]. pose proof (coefficient_range m L (k / band n L) (k mod band n L) H8) as Cr. apply Rabs_le_inv in HC. assert (bpow radix2 (-24) <= / 1000) by (simpl; lra). lra. }
  assert (Hd0 : 0 < toR d) by lra.
  assert (Hq : 0 <= toR x / toR d <= 49999 / 100000).
  { split; [apply Rmult_le_pos; [lra|]; left; now apply Rinv_0_lt_compat|]. apply (Rmult_le_reg_r (toR d)); [exact Hd0|]. unfold Rdiv. rewrite Rmult_assoc, Rinv_l, Rmult_1_r by lra. lra. }
  destruct (b_div_ok x d FC ltac:(lra)) as (F1 & V1); [apply (small_le _ 1); [lia|]; rewrite Rabs_pos_eq by lra; simpl; lra|].
  assert (Hq1 : Rabs (toR (f_div Bops x d)) < / 2).
  { rewrite V1. pose proof (rnd_err (toR x / toR d)) as Er. rewrite (Rabs_pos_eq (toR x / toR d)) in Er by lra. apply Rabs_le_inv in Er. pose proof eta_le_u. assert (U : u53 <= / 1000000) by (unfold u53; simpl; lra). pose proof u53_pos.
    assert (bpow radix2 (-60) <= / 1000000) by (simpl; lra). apply Rabs_def1; nra. }
  destruct (b_round_ok _ F1) as (F2 & V2).
  assert (Z0 : toR (f_round Bops (f_div Bops x d)) = 0). { rewrite V2. replace (Znearest (Z.leb 0) (toR (f_div Bops x d))) with 0%Z; [reflexivity|]. symmetry. apply Znearest_imp. now rewrite Rminus_0_r. }
  destruct (b_mul_ok d _ Fd F2) as (F3 & V3); [rewrite Z0, Rmult_0_r; apply (small_IZR 0); lia|]. rewrite Z0, Rmult_0_r, rnd_0 in V3.
  destruct (b_sub_ok x _ FC F3) as (F4 & V4).
  { rewrite V3, Rminus_0_r. apply (small_le _ 100); [lia|]. rewrite Rabs_pos_eq by lra. apply Rle_trans with (255 * 2 ^ 10 + 1); [|simpl; lra]. assert (2 ^ L <= 2 ^ 10) by (apply Rle_pow; [lra|exact HL]). lra. }
  unfold bit_of. destruct (b_of_Z_ok 0) as (Z1 & Z2); [lia|]. change (f_of_Z Bops 0) with (b_of_Z 0). rewrite (b_ge_ok _ _ F4 Z1), V4, V3, Z2, Rminus_0_r. apply Rle_bool_true. rewrite <- rnd_0. apply rnd_le. lra.
Qed.

(** *** Zero, infinite, not a number *)
Lemma useless_bit (d x : b64) : not_ordinary d -> bit_of Bops d x = false.
Proof. intros H. unfold bit_of. generalize (f_of_Z Bops 0). intros z. destruct d as [[|]|[|]| |s m e Hb]; try contradiction; destruct x as [[|]|[|]| |[|] m' e' Hb']; destruct z as [[|]|[|]| |[|]]; reflexivity. Qed.
Theorem C119_f64_useless_depths_read_zeros : forall K image n levels (depth : b64), picture image n levels -> (9 <= band_capacity n levels)%nat -> not_ordinary depth ->
  reads_only Bops K image n levels depth 0.
Proof.
  intros K m n L d (Hc & H8) H9 Hd. unfold reads_only. unfold band_capacity in *. change (n / 2 ^ L)%nat with (band n L) in *.
  destruct (extract_run Bops K m n L d Hc H9) as (C & Hdom & C0 & C1 & GC & EX).
  pose proof (carrier_band m n L Hc) as (Hsn & Hrep & Hdiv & _).
  pose proof (read_ok Bops d (band n L) C Hrep Hdom) as Erd. set (rc := map _ _) in Erd.
  destruct (read_bits Bops d (band n L) C _ Hrep Hdom Erd) as (Ll & Hbits).
  rewrite EX, Erd. cbn [bind]. f_equal. f_equal.
  apply (constant_bits false); [exact (read_bytes Bops d (band n L) C _ Hrep Hdom Erd)|exact Ll|]. intros k Hk. rewrite <- nth_bits, Hbits by (rewrite Ll; exact Hk).
  assert (Hs : (0 < band n L)%nat) by (destruct (band n L); [cbn in H9; lia|lia]).
  assert (Hk2 : (k < band n L * band n L)%nat) by (pose proof (Nat.mul_div_le (band n L * band n L) 8 ltac:(lia)); lia).
  rewrite cell_bit_get by assumption. now apply useless_bit.
Qed.
(** So nothing that depends on the picture is ever read. *)
Theorem C119_f64_useless_depths_read_the_same_from_all_pictures : forall K image image' n levels (depth : b64), picture image n levels -> picture image' n levels -> (levels <= 10)%nat ->
  (9 <= band_capacity n levels)%nat -> not_ordinary depth \/ (fin depth /\ 511 * 2 ^ levels <= toR depth) -> extract Bops K image depth levels = extract Bops K image' depth levels.
Proof.
  intros K m m' n L d Hp Hp' HL H9 [Hd|(Fd & Hd)].
  - etransitivity; [exact (C119_f64_useless_depths_read_zeros K m n L d Hp H9 Hd)|symmetry; exact (C119_f64_useless_depths_read_zeros K m' n L d Hp' H9 Hd)].
  - etransitivity; [exact (C119_f64_large_depths_read_ones K m n L d Hp HL H9 Fd Hd)|symmetry; exact (C119_f64_large_depths_read_ones K m' n L d Hp' HL H9 Fd Hd)].
Qed.

(** *** Embedding with depth zero or with no number as depth makes every used block black. *)
Notation nan := (@B754_nan 53 1024).
Lemma mark_nan (d x : b64) bit : zero_or_nan d -> mark Bops d bit x = nan.
Proof.
  intros H. unfold mark. generalize (if bit then f_dyadic Bops 1 (-2) else f_dyadic Bops (-1) (-2)). intros q.
  destruct d as [[|]|[|]| |s m e Hb]; try contradiction; destruct x as [[|]|[|]| |[|] m' e' Hb']; destruct q as [[|]|[|]| |[|]]; reflexivity.
Qed.
Lemma plus2_nan (y : b64) : plus2 Bops nan y = nan.
Proof. unfold plus2. cbn [f_add f_mul f_sqrt1_2 Bops]. generalize (Bmult mode_NE b_sqrt1_2 y). intros z. destruct b_sqrt1_2; reflexivity. Qed.
Lemma minus2_nan (y : b64) : minus2 Bops nan y = nan.
Proof. unfold minus2. cbn [f_sub f_mul f_sqrt1_2 Bops]. generalize (Bmult mode_NE b_sqrt1_2 y). intros z. destruct b_sqrt1_2; reflexivity. Qed.

(** The blocks [U] are not numbers in the part of size n / 2^t. *)
Definition lost (n L t : nat) (U : nat -> nat -> Prop) (N : nat -> nat -> b64) : Prop :=
  forall i j, (i < n / 2 ^ t)%nat -> (j < n / 2 ^ t)%nat -> U (i / 2 ^ (L - t))%nat (j / 2 ^ (L - t))%nat -> N i j = nan.
Lemma lost_step n L t U N : (n mod 2 ^ L = 0)%nat -> (t < L)%nat -> lost n L (S t) U N -> lost n L t U (iteration Bops true n n N t).
Proof.
  intros Hm Ht H i j Hi Hj HU. destruct (half_even n L t Hm Ht) as (E & D). unfold iteration. set (w := (n / 2 ^ t)%nat) in *. set (h := (n / 2 ^ S t)%nat) in *.
  assert (Hh : Nat.div2 w = h) by (rewrite D; apply Nat.div2_double).
  assert (Q : forall x, (x / 2 ^ (L - t) = Nat.div2 x / 2 ^ (L - S t))%nat).
  { intros x. replace (L - t)%nat with (S (L - S t)) by lia. rewrite Nat.pow_succ_r', Nat.div2_div, Nat.div_div by (try lia; pose proof (pow2_pos (L - S t)); lia). reflexivity. }
  rewrite !Q in HU. pose proof (div2_lt i w Hi E) as Li. pose proof (div2_lt j w Hj E) as Lj. rewrite Hh in Li, Lj.
  assert (R1 : rows_pass Bops true w w N (Nat.div2 i) j = nan).
  { unfold rows_pass. rewrite (proj2 (Nat.ltb_lt (Nat.div2 i) w)), (proj2 (Nat.ltb_lt j w)) by lia. cbn [andb]. unfold step.
    rewrite (H (Nat.div2 i) (Nat.div2 j) Li Lj HU). destruct (Nat.even j); [apply plus2_nan|apply minus2_nan]. }
  unfold cols_pass. rewrite (proj2 (Nat.ltb_lt i w)), (proj2 (Nat.ltb_lt j w)) by lia. cbn [andb]. unfold step. rewrite R1. destruct (Nat.even i); [apply plus2_nan|apply minus2_nan].
Qed.
Lemma lost_all n L U : (n mod 2 ^ L = 0)%nat -> forall t N, (t <= L)%nat -> lost n L t U N -> lost n L 0 U (fold_left (iteration Bops true n n) (rev (seq 0 t)) N).
Proof.
  intros Hm. induction t as [|t IH]; intros N Ht H; [exact H|]. rewrite seq_S, rev_app_distr. cbn [rev app fold_left plus]. apply IH; [lia|]. apply lost_step; [exact Hm|lia|exact H].
Qed.

Theorem C119_f64_depth_zero_blackens : forall K image n levels (depth : b64) payload marked, picture image n levels -> zero_or_nan depth ->
  embed Bops K image payload depth levels = Ok marked ->
  exists frame stored, data_serialize payload = Ok frame /\ encode K frame (band_capacity n levels) = Ok stored
    /\ forall i j, (i < n)%nat -> (j < n)%nat -> (n / 2 ^ levels * (i / 2 ^ levels) + j / 2 ^ levels < 8 * length stored)%nat -> cell marked i j = Some 0%Z.
Proof.
  intros K m n L d pl out (Hc & H8) Hd E. destruct (embed_inv Bops K m n L d pl out Hc E) as (H9 & ser & enc & E1 & E2 & E3).
  exists ser, enc. split; [exact E1|]. split; [exact E2|]. intros i j Hi Hj Hb. pose proof Hc as (_ & _ & _ & Hmod & _).
  destruct (embed_run Bops K m n L d pl ser enc Hc H9 E1 E2) as (R & _). destruct (R E3) as (r & Er & Wr & R0 & R1 & GR). clear R.
  assert (Eo : out = mapv (fun x => f_to_u8 Bops (f_round Bops x)) r) by congruence. rewrite Eo, cell_mapv. clear Eo Er.
  pose proof (GR i j Hi Hj) as G. unfold get in G at 1. destruct (cell_bounds r i j Wr) as (v & Ev); [lia|lia|]. rewrite Ev in G |- *. cbn [option_map]. f_equal.
  assert (Nv : v = nan); [|rewrite Nv; reflexivity]. rewrite G. clear G Ev GR. unfold transform at 1. set (N := marked_coefficient _ _ _ _ _).
  set (U := fun a b => (a < band n L)%nat /\ (b < band n L)%nat /\ (band n L * a + b < 8 * length enc)%nat).
  assert (HL : lost n L L U N).
  { intros a b Ha Hb' HU. rewrite Nat.sub_diag in HU. simpl (2 ^ 0)%nat in HU. rewrite !Nat.div_1_r in HU. destruct HU as (U1 & U2 & U3).
    unfold N, marked_coefficient. rewrite (proj2 (Nat.ltb_lt a _) U1), (proj2 (Nat.ltb_lt b _) U2), (proj2 (Nat.ltb_lt _ _) U3). cbn [andb]. now apply mark_nan. }
  apply (lost_all n L U Hmod L N (le_n L) HL); simpl (2 ^ 0)%nat; rewrite ?Nat.div_1_r; [exact Hi|exact Hj|]. rewrite Nat.sub_0_r. pose proof (pow2_pos L) as P.
  assert (Dv : forall x, (x < n)%nat -> (x / 2 ^ L < band n L)%nat) by (intros x Hx; unfold band; apply Nat.div_lt_upper_bound; [lia|]; pose proof (Nat.div_mod n (2 ^ L) ltac:(lia)); lia).
  split; [now apply Dv|]. split; [now apply Dv|exact Hb].
Qed.

(** *** Whole pictures: watermarking with depth zero (or with no number) returns Ok, and the first blocks are black. *)
Section Useless.
Open Scope Z_scope.
Context (K : ldpc) (Hsh : ldpc_shape K) (Hdec : ldpc_decodes K) (E : ed25519) (HE : signature_format E) (Hk : key_pair E PRIVATE_KEY PUBLIC_KEY).
Context (M : libm b64) (HM : accurate M) (gamma : b64 -> b64) (checks : bool) (pad : list bool) (Hpad : length pad = 8%nat).
Let features_of := zernike_f64 M gamma checks.
Let one : b64 := f_of_Z Bops 1.

Lemma black_channel (depth : b64) channel n marked : zero_or_nan depth -> gray_picture channel n 3 -> side_ok n -> usable n 3 ->
  (stored_size n 3 (payload_size 11) <= band_capacity n 3)%nat ->
  watermark_channel Bops K E equalize_histogram features_of checks pad channel depth one 11 3 = Ok marked ->
  forall k v, (block_of n k < carrying_blocks n)%nat -> nth_error (gray_raw marked) k = Some v -> v = 0.
Proof.
  intros Hd0 Hg Hs Hu Hcap H k v Hblk Ev. pose proof (usable_side n 3 Hu) as Hn. pose proof Hg as (Wd & Hh & Hl & _ & Hmod & HL & Hr).
  destruct (gray_array channel n 3 Hg) as (im & Eim & Hp & Hcell).
  apply watermark_inv in H as (im' & fs & q & bits & sig & pl & out & H1 & H2 & H3 & H4 & H5 & H6 & ->).
  assert (im' = im) by congruence. subst im'. cbn [gray_raw] in Ev.
  destruct (measured_1000 M HM gamma checks channel n 3 11 fs Hg Hn Hs ltac:(lia) H2) as (Lf & _).
  destruct (payload_length E HE Hk checks pad Hpad fs q bits sig pl Lf H3 H4 H5) as (Bp & Lp & _).
  pose proof Hp as ((Wf & D0 & D1 & P) & H8). destruct (C35_embed_keeps_the_shape K im pl depth 3 out Wf H6) as (O8 & O0 & O1).
  assert (Hpo : picture out n 3) by (split; [split; [apply O8|]; split; [congruence|]; split; [congruence|exact P]|exact O8]).
  destruct (array_gray out n 3 Hpo) as (Gm & Fm). destruct (gray_array _ n 3 Gm) as (om & Eom & _ & Ocell). cbn [gwidth gheight gray_raw] in Eom.
  assert (om = out) by congruence. subst om.
  destruct Gm as (_ & _ & Lm & _). cbn [gray_raw] in Lm.
  assert (Hkn : (k < n * n)%nat) by (rewrite <- Lm; apply nth_error_Some; congruence).
  pose proof (Nat.div_mod k n ltac:(lia)) as Dm. pose proof (Nat.mod_upper_bound k n ltac:(lia)) as Mb.
  assert (Hd : (k / n < n)%nat) by (apply Nat.div_lt_upper_bound; lia).
  pose proof (Ocell (k / n)%nat (k mod n)%nat Hd Mb) as B. unfold gray_pixel in B. cbn [gray_raw] in B. rewrite <- Dm, Ev in B.
  destruct (C119_f64_depth_zero_blackens K im n 3 depth pl out Hp Hd0 H6) as (ser & enc & E1 & E2 & Hblack).
  pose proof (payload_size_range 11 ltac:(lia)) as Hsz. destruct Hu as (Hcod & Hmc).
  destruct (extract_payload Bops K im n 3 depth pl (proj1 Hp) Hsh Hdec Hcod Hmc Bp ltac:(rewrite Lp; lia) ltac:(rewrite Lp; exact Hcap)) as (ser' & enc' & F1 & F2 & _ & _ & _ & Len & _).
  assert (ser' = ser) by congruence. subst ser'. assert (enc' = enc) by (change (band_capacity n 3) with (band n 3 * band n 3 / 8)%nat in E2; congruence). subst enc'. rewrite Lp in Len.
  specialize (Hblack (k / n)%nat (k mod n)%nat Hd Mb). rewrite B in Hblack.
  assert (X : Some v = Some 0); [|congruence]. apply Hblack. change (2 ^ 3)%nat with 8%nat. rewrite Len. exact Hblk.
Qed.

Theorem C119_f64_watermarking_with_depth_zero_blackens : forall image n (depth : b64), zero_or_nan depth ->
  well_formed image -> dimensions image = (n, n) -> (n mod 8 = 0)%nat -> side_ok n -> usable n 3 -> (stored_size n 3 (payload_size 11) <= band_capacity n 3)%nat ->
  exists result, watermark_image Bops K E equalize_histogram features_of checks pad image depth one 11 = Ok result /\ dimensions result = dimensions image
    /\ forall k p q, nth_error (get_pixels image) k = Some p -> nth_error (get_pixels result) k = Some q -> (block_of n k < carrying_blocks n)%nat -> q = (0, 0, 0, ch4 p).
Proof.
  intros image n depth Hd Hw Ed Hm8 Hs Hu Hcap.
  assert (Hr : Z.of_nat (n * n) < 2 ^ 53) by (unfold side_ok in Hs; rewrite Nat2Z.inj_mul; nia).
  assert (Gp : forall sel, sel = ch1 \/ sel = ch2 \/ sel = ch3 -> gray_picture (component sel image) n 3) by (intros sel Hsel; now apply component_picture).
  assert (Ch : forall sel, sel = ch1 \/ sel = ch2 \/ sel = ch3 -> exists marked, watermark_channel Bops K E equalize_histogram features_of checks pad (component sel image) depth one 11 3 = Ok marked).
  { intros sel Hsel. apply (faint_channel K Hsh Hdec E HE Hk M HM gamma checks pad Hpad depth _ n (Gp sel Hsel) Hs Hu Hcap). }
  destruct (C42_watermark_returns_iff_the_channels_do b64 Bops K E equalize_histogram features_of checks pad image depth one 11) as (_ & (_ & Ret)).
  destruct Ret as (result & H); [split; [apply Ch; auto|intros _; split; apply Ch; auto]|]. exists result. split; [exact H|].
  destruct (C42_watermark_preserves_size_layout_and_alpha K E equalize_histogram features_of checks pad image depth one 11 result Hw H) as (D & X2 & X3 & X4 & X5 & Ha & H1 & H2 & H3).
  split; [exact D|]. intros k p q Ep Eq Hblk.
  assert (S : forall sel, sel = ch1 \/ sel = ch2 \/ sel = ch3 -> watermark_channel Bops K E equalize_histogram features_of checks pad (component sel image) depth one 11 3 = Ok (component sel result) -> sel q = 0).
  { intros sel Hsel Hc. apply (black_channel depth (component sel image) n (component sel result) Hd (Gp sel Hsel) Hs Hu Hcap Hc k _ Hblk). unfold component. cbn [gray_raw]. rewrite nth_error_map, Eq. reflexivity. }
  pose proof (S ch1 (or_introl eq_refl) H1) as C1. pose proof (S ch2 (or_intror (or_introl eq_refl)) H2) as C2. pose proof (S ch3 (or_intror (or_intror eq_refl)) H3) as C3.
  pose proof (map_nth_error ch4 k _ Eq) as A. rewrite Ha in A. rewrite (map_nth_error ch4 k _ Ep) in A.
  destruct p as (((p1 & p2) & p3) & p4), q as (((q1 & q2) & q3) & q4). cbn [ch1 ch2 ch3 ch4] in *. congruence.
Qed.
End Useless.

(** ** The hypotheses are met: depth zero on the coloured picture of 512 x 512 pixels; a depth of 4088 on a grey picture. *)
Opaque colour512 watermark_image.
Example C119_instance : exists result,
  watermark_image Bops toy_ldpc toy_ed equalize_histogram (zernike_f64 exact_libm (fun x => x) true) true (repeat false 8) colour512 (f_of_Z Bops 0) (f_of_Z Bops 1) 11 = Ok result
  /\ forall k p q, nth_error (get_pixels colour512) k = Some p -> nth_error (get_pixels result) k = Some q -> (block_of 512 k < carrying_blocks 512)%nat -> q = (0, 0, 0, ch4 p)%Z.
Proof.
  destruct C83_512_is_usable as (A & B & C & D). assert (Ed : dimensions colour512 = (512, 512)%nat) by reflexivity.
  destruct (C119_f64_watermarking_with_depth_zero_blackens toy_ldpc toy_shape toy_decodes toy_ed toy_format toy_keys exact_libm exact_libm_accurate (fun x => x) true (repeat false 8) eq_refl colour512 512 (f_of_Z Bops 0)
    Logic.I colour512_wf Ed A B C D) as (result & H1 & _ & H2). exists result. now split.
Qed.
Example C119_instance_large : picture sparse128 128 3 /\ fin (f_of_Z Bops 4088) /\ 511 * 2 ^ 3 <= toR (f_of_Z Bops 4088) /\ (9 <= band_capacity 128 3)%nat
  /\ reads_only Bops toy_ldpc sparse128 128 3 (f_of_Z Bops 4088) 255.
Proof.
  destruct (b_of_Z_ok 4088) as (F & V); [lia|]. change (b_of_Z 4088) with (f_of_Z Bops 4088) in *.
  assert (A : 511 * 2 ^ 3 <= toR (f_of_Z Bops 4088)) by (rewrite V; lra). assert (C : (9 <= band_capacity 128 3)%nat) by (apply Nat.leb_le; reflexivity).
  split; [exact sparse128_picture|]. split; [exact F|]. split; [exact A|]. split; [exact C|]. apply C119_f64_large_depths_read_ones; try assumption; [exact sparse128_picture|lia].
Qed.

Print Assumptions C119_large_depths_read_ones.
Print Assumptions C119_f64_large_depths_read_ones.
Print Assumptions C119_f64_useless_depths_read_zeros.
Print Assumptions C119_f64_useless_depths_read_the_same_from_all_pictures.
Print Assumptions C119_f64_depth_zero_blackens.
Print Assumptions C119_f64_watermarking_with_depth_zero_blackens.
