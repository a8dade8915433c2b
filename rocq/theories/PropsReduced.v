(** Property C124: reduced and enlarged pictures.  The number of levels and the depth with which a picture is read scale with its size: a marked picture reduced to half its sides (the rounded
    means of 2 x 2 pixels) is read with one level less at half the depth, enlarged to twice its sides with one level more at twice the depth
    (lib/sia/rust/embedding/src/lib.rs: embed, extract; lib/sia/rust/embedding/src/haar/mod.rs: dwt_2d). *)
From Coq Require Import Reals Lra.
From Flocq Require Import Core BinarySingleNaN.
From Verif Require Import Outcome Floats FloatFacts Bits ListFacts IndexArithProofs Codecs CodecProofs WatermarkProofs Encoding EncodingProofs PropsEncoding
  Matrix MatrixFacts Haar HaarProofs HaarReal HaarFloat PropsHaar QuantFloat Stego StegoProofs StegoMarks PropsStego Embedding EmbeddingProofs EmbeddingEffect
  PropsEmbedding PropsEmbedding2 PropsEmbedding3 Toy PropsRobust PropsInteger PropsClipping PropsDepth.
Open Scope Z_scope.

(** ** Specification vocabulary *)
(** The carrying blocks of [received] (of side 2^levels') hold, up to the budget, [scale] times what those of [marked] (of side 2^levels) hold, in units of sum / side. *)
Definition blocks_scaled (marked received : array2 Z) (side levels levels' bits : nat) (scale budget : R) : Prop :=
  forall bi bj, (bi < side)%nat -> (bj < side)%nat -> (side * bi + bj < bits)%nat ->
    (Rabs (IZR (block_total received levels' bi bj) / 2 ^ levels' - scale * (IZR (block_total marked levels bi bj) / 2 ^ levels)) <= budget)%R.
(** Every pixel of [small] is the mean of 2^k x 2^k pixels of [big], rounded to a nearest whole number. *)
Definition reduced (k : nat) (big small : array2 Z) : Prop :=
  forall i j v, cell small i j = Some v -> 2 * Z.abs (Z.of_nat (2 ^ k * 2 ^ k) * v - block_total big k i j) <= Z.of_nat (2 ^ k * 2 ^ k).
(** Every pixel of [small] is repeated 2^k x 2^k times. *)
Definition enlarged_by (k : nat) (small big : array2 Z) : Prop :=
  forall i j, pixel big i j = pixel small (i / 2 ^ k) (j / 2 ^ k).

(** ** Proofs *)
(** *** Any two sizes, any ratio of the depths (exact arithmetic). *)
Theorem C124_scaled_pictures_are_read_at_the_scaled_depth : forall K, ldpc_shape K -> ldpc_decodes K ->
  forall image n levels depth payload marked received n' levels' reading budget, (0 < depth)%R -> (0 < reading)%R ->
  picture image n levels -> usable n levels -> bytes payload -> 1 <= Z.of_nat (length payload) <= 65533 ->
  (stored_size n levels (length payload) <= band_capacity n levels)%nat ->
  room image n levels (8 * stored_size n levels (length payload)) (3 * depth / 2 ^ (levels + 2)) ->
  embed Rops K image payload depth levels = Ok marked ->
  picture received n' levels' -> (n' / 2 ^ levels' = n / 2 ^ levels)%nat ->
  blocks_scaled marked received (n / 2 ^ levels) levels levels' (8 * stored_size n levels (length payload)) (reading / depth) budget ->
  (reading / depth * (2 ^ levels / 2) + budget < reading / 4)%R ->
  extract Rops K received reading levels' = Ok payload.
Proof.
  intros K Hsh Hdec m n L d payload out rc n' L' rd budget Hd0 Hrd Hp Hu0 Hb Hl Hfit Hroom Eo (Hrc & _) Eband Hnoise Hbud. pose proof Hp as (Hc & H8).
  assert (Ecap : band_capacity n' L' = band_capacity n L) by (unfold band_capacity; now rewrite Eband).
  assert (Est : stored_size n' L' (length payload) = stored_size n L (length payload)) by (unfold stored_size; now rewrite Ecap).
  assert (Hu' : usable n' L') by (unfold usable; rewrite Ecap; exact Hu0). destruct Hu' as (Hcod & Hmod).
  rewrite <- Est, <- Ecap in Hfit.
  destruct (extract_payload Rops K rc n' L' rd payload Hrc Hsh Hdec Hcod Hmod Hb Hl Hfit) as (ser & enc & E1 & E2 & E3 & E4 & E5 & E6 & HX).
  assert (Eb : band n' L' = band n L) by exact Eband.
  destruct (embed_effect_real K m n L d payload ser enc Hc H8 Hd0 ltac:(rewrite <- Eb; exact E5) E1 ltac:(rewrite <- Eb; exact E2) ltac:(rewrite <- Eb; exact E3)) as (out' & Eo' & Heff).
  assert (out' = out) by congruence. subst out'. apply HX. rewrite <- Est in Hnoise, Hroom. unfold stored_size, band_capacity in Hnoise, Hroom. fold (band n' L') in Hnoise, Hroom. rewrite <- E6 in Hnoise, Hroom.
  intros C Hdom C0 C1 GC i Hi. rewrite Eb in *. set (s := band n L) in *. change (n / 2 ^ L)%nat with s in Hnoise.
  pose proof (carrier_band m n L Hc) as (_ & _ & Hdiv & _). pose proof (carrier_band rc n' L' Hrc) as (_ & _ & Hdiv' & _).
  assert (Hs : (0 < s)%nat) by (destruct s; [cbn in E3; lia|lia]).
  destruct (used_cell n L enc i Hs Hi E3) as (Hu & Hk2). fold s in Hu, Hk2.
  destruct (place_lt s i Hs Hk2) as (P1 & P2).
  match goal with |- ?x = _ => replace x with (cell_bit Rops rd s C i) by (rewrite <- Eb; reflexivity) end. unfold s. rewrite (cell_bit_get Rops rd n L C i Hdom Hk2 Hs). fold s. rewrite GC.
  rewrite (transform_ext Rops false n' n' L' _ (pixR rc) Hdiv') by (intros; apply get_pixR).
  destruct (marked_coefficients m out n L d enc 0 0 _ Hc H8 ltac:(lra) Hd0 Heff) with (i := (i / s)%nat) (j := (i mod s)%nat) as (r & _ & Hr).
  - intros x y v Ev Hu'. rewrite pow_half_3. destruct (cell_some_lt m n L x y v Hc Ev) as (Hx & Hy).
    apply (Hroom x y v Ev). apply used_blocks; try assumption. apply Hc.
  - exact Hu.
  - fold s in Hr. rewrite place_inv in Hr by exact Hs.
    pose proof (Hnoise (i / s)%nat (i mod s)%nat P1 P2 ltac:(rewrite place_inv by exact Hs; exact Hi)) as Hnz.
    rewrite (coefficient_eq out n L) in Hr by assumption. rewrite (coefficient_eq rc n' L') by (try assumption; rewrite Eb; assumption).
    fold (coefficient rc L' (i / s) (i mod s)) (coefficient out L (i / s) (i mod s)) in Hnz.
    set (b := payload_bit enc i) in *. clearbody b.
    rewrite (bit_of_real rd r b); [rewrite Rlt_bool_true by exact Hrd; reflexivity|lra|].
    rewrite (Rabs_pos_eq rd) by lra. set (x := coefficient rc L' _ _) in *. set (y := coefficient out L _ _) in *. clearbody x y.
    assert (Hq : (0 < rd / d)%R) by (apply Rdiv_lt_0_compat; assumption).
    replace (x - rd * (IZR r + quarter b))%R with ((x - rd / d * y) + rd / d * (y - d * (IZR r + quarter b)))%R by (field; lra).
    eapply Rle_lt_trans; [apply Rabs_triang|]. rewrite Rabs_mult, (Rabs_pos_eq (rd / d)) by lra.
    assert (Z1 : (Rabs (y - d * (IZR r + quarter b)) <= 2 ^ L / 2)%R) by lra.
    apply Rmult_le_compat_l with (r := (rd / d)%R) in Z1; [|lra]. lra.
Qed.

(** *** Sums of blocks of blocks. *)
Lemma zsum_split a b f : zsum (a * b) f = zsum a (fun p => zsum b (fun q => f (b * p + q)%nat)).
Proof.
  induction a as [|a IH]; [reflexivity|]. cbn [zsum]. rewrite <- IH. clear IH.
  assert (X : forall c, zsum (a * b + c) f = zsum (a * b) f + zsum c (fun q => f (b * a + q)%nat)).
  { intros c. induction c as [|c IH]; [rewrite Nat.add_0_r; cbn; lia|]. rewrite Nat.add_succ_r. cbn [zsum]. rewrite IH. replace (b * a + c)%nat with (a * b + c)%nat by lia. lia. }
  replace (S a * b)%nat with (a * b + b)%nat by lia. apply X.
Qed.
Lemma zsum_sum n f g : zsum n (fun k => f k + g k) = zsum n f + zsum n g.
Proof. induction n as [|n IH]; cbn; [reflexivity|]. rewrite IH. lia. Qed.
Lemma zsum_swap a b (f : nat -> nat -> Z) : zsum a (fun p => zsum b (fun q => f p q)) = zsum b (fun q => zsum a (fun p => f p q)).
Proof.
  induction a as [|a IH]; cbn [zsum]; [induction b as [|b IHb]; cbn; [reflexivity|]; rewrite <- IHb; reflexivity|]. rewrite IH, <- zsum_sum. reflexivity.
Qed.
Lemma zsum_scale n c f : zsum n (fun k => c * f k) = c * zsum n f.
Proof. induction n as [|n IH]; cbn; [lia|]. rewrite IH. lia. Qed.
Lemma total_regroup im a k bi bj : block_total im (a + k) bi bj = zsum (2 ^ a) (fun p => zsum (2 ^ a) (fun q => block_total im k (2 ^ a * bi + p) (2 ^ a * bj + q))).
Proof.
  unfold block_total. assert (P : (2 ^ (a + k) = 2 ^ a * 2 ^ k)%nat) by apply Nat.pow_add_r. set (A := (2 ^ a)%nat) in *. set (B := (2 ^ k)%nat) in *. rewrite !P. clearbody A B. clear P.
  rewrite zsum_split. apply zsum_ext. intros p _.
  transitivity (zsum B (fun p' => zsum A (fun q => zsum B (fun q' => pixel im (A * B * bi + (B * p + p')) (A * B * bj + (B * q + q')))))).
  { apply zsum_ext. intros p' _. exact (zsum_split A B (fun q => pixel im (A * B * bi + (B * p + p')) (A * B * bj + q))). }
  rewrite zsum_swap. apply zsum_ext. intros q _. apply zsum_ext. intros p' _. apply zsum_ext. intros q' _. f_equal; nia.
Qed.
Lemma bands_agree n a k : (n / 2 ^ k / 2 ^ a = n / 2 ^ (a + k))%nat.
Proof. pose proof (Nat.pow_nonzero 2 k ltac:(lia)). pose proof (Nat.pow_nonzero 2 a ltac:(lia)). rewrite Nat.div_div by assumption. f_equal. rewrite Nat.pow_add_r. lia. Qed.
Lemma IZR_pow2 k : IZR (Z.of_nat (2 ^ k)) = (2 ^ k)%R.
Proof. rewrite <- INR_IZR_INZ, pow_INR. reflexivity. Qed.

Lemma reduced_total marked small n a k bi bj : picture small (n / 2 ^ k) a -> reduced k marked small -> (bi < n / 2 ^ (a + k))%nat -> (bj < n / 2 ^ (a + k))%nat ->
  2 * Z.abs (Z.of_nat (2 ^ k * 2 ^ k) * block_total small a bi bj - block_total marked (a + k) bi bj) <= Z.of_nat (2 ^ a) * (Z.of_nat (2 ^ a) * Z.of_nat (2 ^ k * 2 ^ k)).
Proof.
  intros Hp Hr Hi Hj. rewrite total_regroup. set (N := Z.of_nat (2 ^ k * 2 ^ k)) in *.
  assert (E : N * block_total small a bi bj = zsum (2 ^ a) (fun p => zsum (2 ^ a) (fun q => N * pixel small (2 ^ a * bi + p) (2 ^ a * bj + q)))).
  { unfold block_total. rewrite <- zsum_scale. apply zsum_ext. intros p _. now rewrite <- zsum_scale. }
  set (A := N * block_total small a bi bj) in *. set (B := zsum (2 ^ a) (fun p => zsum (2 ^ a) (fun q => block_total marked k (2 ^ a * bi + p) (2 ^ a * bj + q)))).
  assert (X : Z.abs (2 * A - 2 * B) <= Z.of_nat (2 ^ a) * (Z.of_nat (2 ^ a) * N)); [|lia].
  rewrite E. unfold B. rewrite <- !zsum_scale. apply zsum_diff. intros p Hp'. rewrite <- !zsum_scale. apply zsum_diff. intros q Hq'.
  rewrite <- bands_agree in Hi, Hj. pose proof (proj1 Hp) as Hc. assert (Hm : (n / 2 ^ k mod 2 ^ a = 0)%nat) by apply Hc.
  pose proof (place_lt_n _ a bi p Hm Hi Hp') as I1. pose proof (place_lt_n _ a bj q Hm Hj Hq') as I2.
  destruct (cell_bounds small (2 ^ a * bi + p) (2 ^ a * bj + q)) as (v & Ev); [apply Hc|destruct Hc as (_ & -> & _); exact I1|destruct Hc as (_ & _ & -> & _); exact I2|].
  pose proof (Hr _ _ v Ev) as H. unfold pixel. rewrite Ev. fold N in H. lia.
Qed.

(** *** C124: reduced pictures. *)
Theorem C124_reduced_pictures_are_read_with_fewer_levels : forall K, ldpc_shape K -> ldpc_decodes K ->
  forall image n levels k depth payload marked small, (2 ^ (levels + k + 2) < depth)%R ->
  picture image n (levels + k) -> usable n (levels + k) -> bytes payload -> 1 <= Z.of_nat (length payload) <= 65533 ->
  (stored_size n (levels + k) (length payload) <= band_capacity n (levels + k))%nat ->
  room image n (levels + k) (8 * stored_size n (levels + k) (length payload)) (3 * depth / 2 ^ (levels + k + 2)) ->
  embed Rops K image payload depth (levels + k) = Ok marked ->
  picture small (n / 2 ^ k) levels -> reduced k marked small ->
  extract Rops K small (depth / 2 ^ k)%R levels = Ok payload.
Proof.
  intros K Hsh Hdec m n a k d payload out sm Hd Hp Hu Hb Hl Hfit Hroom Eo Hsm Hred.
  assert (Pa : (0 < 2 ^ a)%R) by (apply pow_lt; lra). assert (Pk : (0 < 2 ^ k)%R) by (apply pow_lt; lra).
  assert (Hd' : (2 ^ a * 2 ^ k * 4 < d)%R) by (rewrite !pow_add in Hd; simpl in Hd; lra). assert (Hab : (0 < 2 ^ a * 2 ^ k)%R) by (apply Rmult_lt_0_compat; assumption).
  apply (C124_scaled_pictures_are_read_at_the_scaled_depth K Hsh Hdec m n (a + k) d payload out sm (n / 2 ^ k)%nat a (d / 2 ^ k)%R (2 ^ a / 2)%R); try assumption.
  - lra.
  - apply Rdiv_lt_0_compat; lra.
  - apply bands_agree.
  - intros bi bj Hi Hj _. pose proof (reduced_total out sm n a k bi bj Hsm Hred Hi Hj) as H. apply IZR_le in H. rewrite mult_IZR, abs_IZR, minus_IZR, !mult_IZR, Nat2Z.inj_mul, !mult_IZR, !IZR_pow2 in H.
    rewrite pow_add. set (x := IZR (block_total sm a bi bj)) in *. set (y := IZR (block_total out (a + k) bi bj)) in *. set (A := (2 ^ a)%R) in *. set (B := (2 ^ k)%R) in *. clearbody x y A B.
    replace (x / A - d / B / d * (y / (A * B)))%R with ((B * B * x - y) * (/ (B * B * A)))%R by (field; lra).
    assert (Pi : (0 < / (B * B * A))%R) by (apply Rinv_0_lt_compat; repeat apply Rmult_lt_0_compat; assumption).
    rewrite Rabs_mult, (Rabs_pos_eq (/ _)) by lra.
    apply Rmult_le_reg_r with (2 * (B * B * A))%R; [repeat apply Rmult_lt_0_compat; lra|].
    replace (Rabs (B * B * x - y) * / (B * B * A) * (2 * (B * B * A)))%R with (2 * Rabs (B * B * x - y))%R by (field; lra). lra.
  - rewrite pow_add. set (A := (2 ^ a)%R) in *. set (B := (2 ^ k)%R) in *. clearbody A B.
    replace (d / B / d * (A * B / 2) + A / 2)%R with A by (field; lra). apply Rmult_lt_reg_r with (4 * B)%R; [lra|]. replace (d / B / 4 * (4 * B))%R with d by (field; lra). lra.
Qed.

(** *** C124: enlarged pictures. *)
Theorem C124_enlarged_pictures_are_read_with_more_levels : forall K, ldpc_shape K -> ldpc_decodes K ->
  forall image n levels k depth payload marked big, (2 ^ (levels + 1) < depth)%R ->
  picture image n levels -> usable n levels -> bytes payload -> 1 <= Z.of_nat (length payload) <= 65533 ->
  (stored_size n levels (length payload) <= band_capacity n levels)%nat ->
  room image n levels (8 * stored_size n levels (length payload)) (3 * depth / 2 ^ (levels + 2)) ->
  embed Rops K image payload depth levels = Ok marked ->
  picture big (n * 2 ^ k) (levels + k) -> enlarged_by k marked big ->
  extract Rops K big (depth * 2 ^ k)%R (levels + k) = Ok payload.
Proof.
  intros K Hsh Hdec m n a k d payload out bg Hd Hp Hu Hb Hl Hfit Hroom Eo Hbg Hen.
  assert (Pa : (0 < 2 ^ a)%R) by (apply pow_lt; lra). assert (Pk : (0 < 2 ^ k)%R) by (apply pow_lt; lra).
  assert (Hd' : (2 ^ a * 2 < d)%R) by (rewrite pow_add in Hd; simpl in Hd; lra).
  pose proof (Nat.pow_nonzero 2 k ltac:(lia)) as N2.
  apply (C124_scaled_pictures_are_read_at_the_scaled_depth K Hsh Hdec m n a d payload out bg (n * 2 ^ k)%nat (a + k)%nat (d * 2 ^ k)%R 0%R); try assumption.
  - lra.
  - apply Rmult_lt_0_compat; lra.
  - rewrite <- bands_agree, Nat.div_mul by exact N2. reflexivity.
  - intros bi bj Hi Hj _.
    assert (T : block_total bg (a + k) bi bj = Z.of_nat (2 ^ k) * Z.of_nat (2 ^ k) * block_total out a bi bj).
    { rewrite total_regroup. unfold block_total at 2. rewrite <- zsum_scale. apply zsum_ext. intros p _. rewrite <- zsum_scale. apply zsum_ext. intros q _.
      unfold block_total. rewrite (zsum_ext _ _ (fun _ => Z.of_nat (2 ^ k) * pixel out (2 ^ a * bi + p) (2 ^ a * bj + q))); [rewrite zsum_const; lia|].
      intros p' Hp'. rewrite (zsum_ext _ _ (fun _ => pixel out (2 ^ a * bi + p) (2 ^ a * bj + q))); [apply zsum_const|]. intros q' Hq'. rewrite Hen.
      f_equal; [symmetry; apply (Nat.div_unique _ _ _ p')|symmetry; apply (Nat.div_unique _ _ _ q')]; lia. }
    rewrite T, pow_add, !mult_IZR, !IZR_pow2. set (y := IZR (block_total out a bi bj)). set (A := (2 ^ a)%R) in *. set (B := (2 ^ k)%R) in *. clearbody y A B.
    match goal with |- (Rabs ?e <= 0)%R => assert (Z0 : e = 0%R); [|rewrite Z0, Rabs_R0; lra] end. field. repeat split; lra.
  - set (A := (2 ^ a)%R) in *. set (B := (2 ^ k)%R) in *. clearbody A B. replace (d * B / d * (A / 2) + 0)%R with (B * (A / 2))%R by (field; lra). nra.
Qed.

(** ** The hypotheses are met: reduced and enlarged pictures exist. *)
Definition tabulate (n : nat) (f : nat -> nat -> Z) : array2 Z := mkArray2 n n (map (fun i => map (f i) (seq 0 n)) (seq 0 n)).
Definition mean (k : nat) (big : array2 Z) (i j : nat) : Z := (2 * block_total big k i j + Z.of_nat (2 ^ k * 2 ^ k)) / (2 * Z.of_nat (2 ^ k * 2 ^ k)).
Lemma tabulate_cell n f i j v : cell (tabulate n f) i j = Some v -> (i < n)%nat /\ (j < n)%nat /\ v = f i j.
Proof.
  unfold cell, tabulate. cbn [rows]. intros H.
  assert (X : forall (A : Type) (h : nat -> A) N k x, nth_error (map h (seq 0 N)) k = Some x -> (k < N)%nat /\ x = h k).
  { intros A h N k x E. assert (Hk : (k < N)%nat) by (rewrite <- (seq_length N 0), <- (map_length h); apply nth_error_Some; congruence). split; [exact Hk|].
    rewrite nth_error_map, (nth_error_nth' (seq 0 N) 0%nat), seq_nth in E by (try rewrite seq_length; exact Hk). cbn in E. congruence. }
  destruct (nth_error _ i) as [r|] eqn:Er; [|discriminate H]. apply X in Er as (Hi & ->). apply X in H as (Hj & ->). auto.
Qed.
Lemma tabulate_value n f i j : (i < n)%nat -> (j < n)%nat -> cell (tabulate n f) i j = Some (f i j).
Proof.
  intros Hi Hj. unfold cell, tabulate. cbn [rows]. rewrite nth_error_map, (nth_error_nth' (seq 0 n) 0%nat), seq_nth by (try rewrite seq_length; exact Hi). cbn [option_map].
  rewrite nth_error_map, (nth_error_nth' (seq 0 n) 0%nat), seq_nth by (try rewrite seq_length; exact Hj). reflexivity.
Qed.
Lemma tabulate_wf n f : wf (tabulate n f).
Proof. split; cbn [rows dim0 dim1 tabulate]; [now rewrite map_length, seq_length|]. apply Forall_forall. intros r Hr. apply in_map_iff in Hr as (i & <- & _). now rewrite map_length, seq_length. Qed.
Lemma square_pos k : 0 < Z.of_nat (2 ^ k * 2 ^ k).
Proof. pose proof (Nat.pow_nonzero 2 k ltac:(lia)). nia. Qed.
Theorem C124_the_rounded_means_are_a_reduced_picture : forall big n levels k, (1 <= levels)%nat -> picture big n (levels + k) ->
  picture (tabulate (n / 2 ^ k) (mean k big)) (n / 2 ^ k) levels /\ reduced k big (tabulate (n / 2 ^ k) (mean k big)).
Proof.
  intros big n a k Ha (Hc & H8). pose proof (square_pos k) as P. split.
  - split.
    + split; [apply tabulate_wf|]. split; [reflexivity|]. split; [reflexivity|]. destruct Hc as (_ & _ & _ & Hm & HL & Hr). split; [|split; [lia|]].
      * pose proof (Nat.pow_nonzero 2 k ltac:(lia)) as N1. pose proof (Nat.pow_nonzero 2 a ltac:(lia)) as N2. rewrite Nat.pow_add_r in Hm. apply Nat.mod_divides in Hm as (c & Hc); [|nia].
        rewrite Hc. replace (2 ^ a * 2 ^ k * c)%nat with (2 ^ a * c * 2 ^ k)%nat by lia. rewrite Nat.div_mul by exact N1. rewrite Nat.mul_comm. now apply Nat.mod_mul.
      * assert (Q : (n / 2 ^ k <= n)%nat) by (apply Nat.div_le_upper_bound; [apply Nat.pow_nonzero; lia|]; pose proof (Nat.pow_nonzero 2 k ltac:(lia)); nia). nia.
    + apply image8_cells; [apply tabulate_wf|]. intros i j v Ev. apply tabulate_cell in Ev as (_ & _ & ->).
      assert (B : 0 <= block_total big k i j <= Z.of_nat (2 ^ k) * (Z.of_nat (2 ^ k) * 255)).
      { unfold block_total. rewrite <- (Z.mul_0_r (Z.of_nat (2 ^ k))) at 1. apply zsum_bounds. intros p _. rewrite <- (Z.mul_0_r (Z.of_nat (2 ^ k))) at 1. apply zsum_bounds. intros q _. now apply pixel_range. }
      unfold mean, byte. rewrite Nat2Z.inj_mul in *. set (N := Z.of_nat (2 ^ k) * Z.of_nat (2 ^ k)) in *. assert (B' : 0 <= block_total big k i j <= 255 * N) by (unfold N; lia).
      split; [apply Z.div_pos; lia|apply Z.div_lt_upper_bound; lia].
  - intros i j v Ev. apply tabulate_cell in Ev as (_ & _ & ->). unfold mean. set (N := Z.of_nat (2 ^ k * 2 ^ k)) in *. set (T := block_total big k i j).
    pose proof (Z.div_mod (2 * T + N) (2 * N) ltac:(lia)). pose proof (Z.mod_pos_bound (2 * T + N) (2 * N) ltac:(lia)). lia.
Qed.

(** A grey picture of 128 x 128 marked at depth 100, reduced to 64 x 64 (two levels, depth 50) and to 32 x 32 (one level, depth 25). *)
Example C124_instance : exists marked, embed Rops toy_ldpc grey128 (repeat 65 12) 100%R 3 = Ok marked /\ picture marked 128 3
  /\ extract Rops toy_ldpc (tabulate 64 (mean 1 marked)) (100 / 2 ^ 1)%R 2 = Ok (repeat 65 12) /\ extract Rops toy_ldpc (tabulate 32 (mean 2 marked)) (100 / 2 ^ 2)%R 1 = Ok (repeat 65 12).
Proof.
  destruct C30_witness as (H1 & H2 & H3 & H4 & H5 & H6 & H7).
  assert (Hb : bytes (repeat 65 12)) by (apply Forall_forall; intros x Hx; apply repeat_spec in Hx; subst x; unfold byte; lia).
  assert (Hl : 1 <= Z.of_nat (length (repeat 65 12)) <= 65533) by (rewrite repeat_length; lia).
  destruct (C30_embed_then_extract_returns_the_payload toy_ldpc H1 H2 grey128 128 3 100%R (repeat 65 12) H3 H4 Hb Hl) as (mk & E & P & _); [rewrite repeat_length; exact H5|exact H6|rewrite repeat_length; exact H7|].
  exists mk. split; [exact E|]. split; [exact P|]. split.
  - destruct (C124_the_rounded_means_are_a_reduced_picture mk 128 2 1 ltac:(lia) P) as (Q & R). change (128 / 2 ^ 1)%nat with 64%nat in *.
    apply (C124_reduced_pictures_are_read_with_fewer_levels toy_ldpc H1 H2 grey128 128 2 1 100%R (repeat 65 12) mk); try assumption; rewrite ?repeat_length; try assumption. simpl. lra.
  - destruct (C124_the_rounded_means_are_a_reduced_picture mk 128 1 2 ltac:(lia) P) as (Q & R). change (128 / 2 ^ 2)%nat with 32%nat in *.
    apply (C124_reduced_pictures_are_read_with_fewer_levels toy_ldpc H1 H2 grey128 128 1 2 100%R (repeat 65 12) mk); try assumption; rewrite ?repeat_length; try assumption. simpl. lra.
Qed.

(** The same picture enlarged to 256 x 256: four levels, depth 200. *)
Lemma enlarged_exists small n levels k : picture small n levels -> (levels + k <= 30)%nat -> Z.of_nat (n * 2 ^ k * (n * 2 ^ k)) < 2 ^ 53 ->
  exists big, picture big (n * 2 ^ k) (levels + k) /\ enlarged_by k small big.
Proof.
  intros (Hc & H8) HL Hr. exists (tabulate (n * 2 ^ k) (fun i j => pixel small (i / 2 ^ k) (j / 2 ^ k))). pose proof (Nat.pow_nonzero 2 k ltac:(lia)) as N1. pose proof (Nat.pow_nonzero 2 levels ltac:(lia)) as N2. split; [split|].
  - split; [apply tabulate_wf|]. split; [reflexivity|]. split; [reflexivity|]. destruct Hc as (_ & _ & _ & Hm & HL' & _). split; [|split; [lia|exact Hr]].
    rewrite Nat.pow_add_r. apply Nat.mod_divides in Hm as (c & Hc); [|exact N2]. rewrite Hc. replace (2 ^ levels * c * 2 ^ k)%nat with (c * (2 ^ levels * 2 ^ k))%nat by lia. apply Nat.mod_mul. nia.
  - apply image8_cells; [apply tabulate_wf|]. intros i j v Ev. apply tabulate_cell in Ev as (_ & _ & ->). pose proof (pixel_range small (i / 2 ^ k) (j / 2 ^ k) H8). unfold byte. lia.
  - intros i j. unfold pixel at 1. destruct (cell (tabulate _ _) i j) as [v|] eqn:Ev; [now apply tabulate_cell in Ev as (_ & _ & ->)|].
    unfold pixel. destruct (cell small (i / 2 ^ k) (j / 2 ^ k)) as [v|] eqn:Es; [|reflexivity]. exfalso.
    destruct (cell_some_lt small n levels _ _ v Hc Es) as (Hi & Hj).
    rewrite tabulate_value in Ev; [discriminate Ev| |]; [pose proof (Nat.mul_succ_div_gt i (2 ^ k) N1)|pose proof (Nat.mul_succ_div_gt j (2 ^ k) N1)]; nia.
Qed.
Example C124_instance_enlarged : exists marked big, embed Rops toy_ldpc grey128 (repeat 65 12) 100%R 3 = Ok marked /\ picture big 256 4 /\ enlarged_by 1 marked big
  /\ extract Rops toy_ldpc big (100 * 2 ^ 1)%R 4 = Ok (repeat 65 12).
Proof.
  destruct C30_witness as (H1 & H2 & H3 & H4 & H5 & H6 & H7).
  assert (Hb : bytes (repeat 65 12)) by (apply Forall_forall; intros x Hx; apply repeat_spec in Hx; subst x; unfold byte; lia).
  assert (Hl : 1 <= Z.of_nat (length (repeat 65 12)) <= 65533) by (rewrite repeat_length; lia).
  destruct (C30_embed_then_extract_returns_the_payload toy_ldpc H1 H2 grey128 128 3 100%R (repeat 65 12) H3 H4 Hb Hl) as (mk & E & P & _); [rewrite repeat_length; exact H5|exact H6|rewrite repeat_length; exact H7|].
  destruct (enlarged_exists mk 128 3 1 P ltac:(lia)) as (big & Pb & Eb); [rewrite Nat2Z.inj_mul; change (128 * 2 ^ 1)%nat with 256%nat; lia|].
  exists mk, big. split; [exact E|]. split; [exact Pb|]. split; [exact Eb|].
  apply (C124_enlarged_pictures_are_read_with_more_levels toy_ldpc H1 H2 grey128 128 3 1 100%R (repeat 65 12) mk); try assumption; rewrite ?repeat_length; try assumption.
Qed.

Print Assumptions C124_scaled_pictures_are_read_at_the_scaled_depth.
Print Assumptions C124_reduced_pictures_are_read_with_fewer_levels.
Print Assumptions C124_enlarged_pictures_are_read_with_more_levels.
Print Assumptions C124_the_rounded_means_are_a_reduced_picture.
