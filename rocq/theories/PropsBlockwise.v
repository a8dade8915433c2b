(** Property C110: only the sums of the 8x8 blocks carry the watermark.  So it survives whatever leaves these sums (nearly) alone: the pixels of each block may be
    rearranged at will, and a thumbnail of an eighth of the size still holds the whole watermark - enlarged again, it is read and gets a verdict
    (lib/sia/rust/embedding/src/lib.rs: extract; lib/sia/rust/watermarking/src/process.rs: watermark_channel, authenticate_channel). *)
From Coq Require Import Reals Lra Permutation.
From Flocq Require Import Core BinarySingleNaN.
From Verif Require Import Outcome Floats FloatFacts Bits ListFacts Quantization QuantProofs QuantReal QuantFloat PropsQuant PropsQuant2 Codecs CodecProofs WatermarkProofs PropsCodec
  Encoding EncodingProofs PropsEncoding Matrix MatrixFacts Haar HaarProofs HaarReal HaarFloat PropsHaar Stego StegoProofs StegoMarks PropsStego Embedding EmbeddingProofs EmbeddingEffect PropsEmbedding PropsEmbedding2 PropsEmbedding3 PropsRobust
  Signature Process ProcessProofs Toy Zernike ZernikeProofs PropsZernike ZernikeBound PropsZernike2 ZernikeGen PropsZernikeF64 LibmSpec LibmExact PropsZernikeAcc
  PropsProcess PropsProcess2 Image PropsImage PropsProcess3 PropsProcess4 PropsProcess5 PropsProcess6 PropsTamper Equalize PropsEqualize PropsShipped PropsShipped2 PropsInteger PropsClipping PropsClipping2 PropsRepair PropsRepair2 PropsVerdict PropsUnused PropsForged PropsBright.
Open Scope Z_scope.

(** ** Specification vocabulary *)
(** The 64 pixels of the block (bi, bj) of an n x n channel, row by row. *)
Definition gray_block (g : gray) (n bi bj : nat) : list Z :=
  flat_map (fun p => map (fun q => nth (n * (8 * bi + p) + (8 * bj + q)) (gray_raw g) 0) (seq 0 8)) (seq 0 8).
Definition block_sum (g : gray) (n bi bj : nat) : Z := fold_right Z.add 0 (gray_block g n bi bj).
(** Among the first [count] blocks (row by row) and outside the listed ones, the sum of every block is, up to [t] and up to a multiple of eight depths, what it was. *)
Definition sums_kept (count : nat) (bad : list nat) (depth t : Z) (n : nat) (marked received : gray) : Prop :=
  forall bi bj, (bi < n / 8)%nat -> (bj < n / 8)%nat -> (n / 8 * bi + bj < count)%nat -> ~ In (n / 8 * bi + bj)%nat bad ->
    exists periods, Z.abs (block_sum received n bi bj - (block_sum marked n bi bj + 8 * depth * periods)) <= t.
(** In these blocks black and white leave enough room to mark the block so that its sum may be off by another [t] (C88). *)
Definition blocks_withstand (count : nat) (bad : list nat) (depth t : Z) (channel : gray) (n : nat) : Prop :=
  forall pixels, from_shape_vec n n (gray_raw channel) = Ok pixels ->
  forall bi bj, (bi < n / 8)%nat -> (bj < n / 8)%nat -> (n / 8 * bi + bj < count)%nat -> ~ In (n / 8 * bi + bj)%nat bad -> withstands depth t pixels bi bj.
(** Every block holds the same 64 pixels in some order. *)
Definition blocks_rearranged (n : nat) (marked received : gray) : Prop :=
  forall bi bj, (bi < n / 8)%nat -> (bj < n / 8)%nat -> Permutation (gray_block received n bi bj) (gray_block marked n bi bj).
(** The thumbnail has one pixel per block, the rounded mean of the block. *)
Definition thumbnail (n : nat) (g : gray) : gray :=
  mkGray (n / 8) (n / 8) (map (fun k => (block_sum g n (k / (n / 8)) (k mod (n / 8)) + 32) / 64) (seq 0 (n / 8 * (n / 8)))).
(** The m x m channel enlarged by eight: every pixel becomes a block. *)
Definition enlarged (m : nat) (g : gray) : gray :=
  mkGray (8 * m) (8 * m) (map (fun k => nth (m * (k / (8 * m) / 8) + k mod (8 * m) / 8) (gray_raw g) 0) (seq 0 (8 * m * (8 * m)))).
(** The channel shows the watermark [w], and authenticating it yields a verdict that the half bins of the features decide. *)
Definition reads_and_judges (K : ldpc) (E : ed25519) (M : libm b64) (gamma : b64 -> b64) (checks : bool) (depth : Z) (features : list b64) (w : Watermark) (received : gray) : Prop :=
  shows_watermark K received (f_of_Z Bops depth) 3 w
  /\ exists noised, measures equalize_histogram (zernike_f64 M gamma checks) received 11 noised
     /\ decided_by_half_bins E features noised (Codecs.signature w)
          (authenticate_channel Bops K E equalize_histogram (zernike_f64 M gamma checks) checks received (f_of_Z Bops depth) (f_of_Z Bops 1) 11 3).

(** ** Sums *)
Lemma lsum_app l l' : fold_right Z.add 0 (l ++ l') = fold_right Z.add 0 l + fold_right Z.add 0 l'.
Proof. induction l as [|x l IH]; cbn; [reflexivity|]. rewrite IH. lia. Qed.
Lemma lsum_map_seq (f : nat -> Z) n : fold_right Z.add 0 (map f (seq 0 n)) = zsum n f.
Proof.
  induction n as [|n IH]; [reflexivity|]. rewrite seq_S, map_app, lsum_app, IH. cbn. lia.
Qed.
Lemma lsum_flat_map (f : nat -> list Z) n : fold_right Z.add 0 (flat_map f (seq 0 n)) = zsum n (fun p => fold_right Z.add 0 (f p)).
Proof.
  induction n as [|n IH]; [reflexivity|]. rewrite seq_S, flat_map_app, lsum_app, IH. cbn [flat_map]. rewrite app_nil_r. cbn [plus]. reflexivity.
Qed.
Lemma lsum_permutation l l' : Permutation l l' -> fold_right Z.add 0 l = fold_right Z.add 0 l'.
Proof. induction 1; cbn; lia. Qed.
Lemma block_sum_dsum g n bi bj : block_sum g n bi bj = PropsClipping.dsum (fun p q => nth (n * (8 * bi + p) + (8 * bj + q)) (gray_raw g) 0).
Proof.
  unfold block_sum, gray_block. rewrite lsum_flat_map. Transparent PropsClipping.dsum. unfold PropsClipping.dsum. apply PropsRobust.zsum_ext.
  intros p _. apply lsum_map_seq.
Qed.
Opaque PropsClipping.dsum.
Lemma block_sum_total g n im bi bj : gray_picture g n 3 -> from_shape_vec n n (gray_raw g) = Ok im -> (bi < n / 8)%nat -> (bj < n / 8)%nat ->
  block_total im 3 bi bj = block_sum g n bi bj.
Proof.
  intros Hg Ei Hi Hj. destruct (gray_array g n 3 Hg) as (im' & Ei' & Him & Hc). pose proof Hg as (W & H & _). assert (im' = im) by congruence. subst im'.
  rewrite block_total_dsum, block_sum_dsum. apply PropsClipping.dsum_ext. intros p q Hp Hq.
  destruct (block_cell im n Him bi bj p q) as (v & Ev & _); [exact Hi|exact Hj|exact Hp|exact Hq|].
  assert (H8 : (8 * (n / 8) <= n)%nat) by (apply Nat.mul_div_le; lia).
  unfold pixel. rewrite Ev. rewrite Hc in Ev by lia. unfold gray_pixel in Ev. symmetry. now apply nth_error_nth.
Qed.

(** ** Channels *)
Section Blockwise.
Context (K : ldpc) (e : nat) (Hsh : ldpc_shape K) (Hcor : corrects K e) (E : ed25519) (HE : signature_format E) (Hk : key_pair E PRIVATE_KEY PUBLIC_KEY).
Context (M : libm b64) (HM : accurate M) (gamma : b64 -> b64) (checks : bool) (pad : list bool) (Hpad : length pad = 8%nat).
Let features_of := zernike_f64 M gamma checks.
Let one : b64 := f_of_Z Bops 1.

Lemma sums_channel depth channel n bad t : 1 <= depth <= 4096 -> gray_picture channel n 3 -> side_ok n -> usable n 3 ->
  (stored_size n 3 (payload_size 11) <= band_capacity n 3)%nat -> at_most_per_group e (blocks_per_codeword n) bad ->
  blocks_withstand (8 * stored_size n 3 (payload_size 11)) bad depth t channel n ->
  exists marked features quantised bits sig,
    watermark_channel Bops K E equalize_histogram features_of checks pad channel (f_of_Z Bops depth) one 11 3 = Ok marked
    /\ measures equalize_histogram features_of channel 11 features
    /\ three_bit_quantization Bops checks features one = Ok (quantised, bits)
    /\ sign E (vec_i64_to_bytes quantised) PRIVATE_KEY PUBLIC_KEY = Ok sig
    /\ gray_picture marked n 3
    /\ forall received, gray_picture received n 3 -> sums_kept (8 * stored_size n 3 (payload_size 11)) bad depth t n marked received ->
         shows_watermark K received (f_of_Z Bops depth) 3 (mkWatermark bits sig WATERMARK_TEXT).
Proof.
  intros HD Hg Hs Hu Hcap Hbad Hwith. pose proof (usable_side n 3 Hu) as Hn.
  destruct (gray_array channel n 3 Hg) as (im & Eim & Him & _). pose proof Hg as (W & H & _).
  destruct (measured_exists M HM gamma checks channel n 3 11 Hg Hn Hs ltac:(lia)) as (fs & Hm).
  destruct (measured_1000 M HM gamma checks channel n 3 11 fs Hg Hn Hs ltac:(lia) Hm) as (Lf & Bf).
  destruct unit_one as (F1 & V1). fold one in F1, V1.
  assert (N1 : no_overflow Bops one checks fs).
  { apply (no_overflow_float one (unit_ordinary one V1)). eapply Forall_impl; [|exact (bounded_29 _ Bf)]. intros x (Fx & Bx). split; [exact Fx|]. rewrite V1. apply Rle_trans with (1 := Bx). simpl. lra. }
  pose proof (quantization_ok Bops one checks fs N1) as Eq. set (q := quantize Bops fs one) in *. set (bits := flat_map (bits3 Bops one) fs) in *.
  destruct (quantization_inv Bops checks fs one q bits Eq) as (_ & _ & Lb).
  destruct (sign_verify E _ _ (vec_i64_to_bytes q) HE Hk) as (sig & Es & Ls & Bs & Ev).
  destruct (payload_of pad bits sig (length fs) Hpad Bs Ls Lb ltac:(lia)) as (pl & Ep & Bp & Lp & Edp). rewrite Lf in Lp.
  pose proof (payload_size_range 11 ltac:(lia)) as Hsz.
  assert (Eim' : from_shape_vec n n (gray_raw channel) = Ok im) by congruence.
  destruct (C89_f64_destroyed_blocks_are_repaired K e Hsh Hcor im n depth pl t bad HD Him Hu Bp) as (out & Eo & Po & _); [rewrite Lp; lia|rewrite Lp; exact Hcap|exact Hbad|intros bi bj Hi Hj Hlt Hin; rewrite Lp in Hlt; exact (Hwith im Eim' bi bj Hi Hj Hlt Hin)|].
  destruct (array_gray out n 3 Po) as (Gout & Fout). pose proof Po as ((Hwf & D0 & D1 & _) & _).
  exists (mkGray n n (into_raw_vec out)), fs, q, bits, sig. split.
  { pose proof (watermark_run Bops K E equalize_histogram features_of checks pad channel im 11 fs one q bits sig pl out (f_of_Z Bops depth) 3 Eim Hm Eq Es Ep Eo Hwf ltac:(congruence) ltac:(congruence)) as R.
    rewrite W, H in R. exact R. }
  split; [exact Hm|]. split; [exact Eq|]. split; [exact Es|]. split; [exact Gout|].
  intros received Grc Hkept. destruct (gray_array received n 3 Grc) as (rc & Erc & Prc & _). pose proof Grc as (W' & H' & _).
  assert (Erc' : from_shape_vec n n (gray_raw received) = Ok rc) by congruence.
  exists rc, pl. split; [exact Erc|]. split; [|exact Edp].
  apply (C105_f64_blocks_of_any_marked_pictures K e Hsh Hcor rc n depth pl t bad HD Prc Hu Bp); [rewrite Lp; lia|rewrite Lp; exact Hcap|exact Hbad|].
  intros bi bj Hi Hj Hlt Hin. rewrite Lp in Hlt. destruct (Hkept bi bj Hi Hj Hlt Hin) as (periods & Hp). exists im, out, periods.
  split; [exact Him|]. split; [exact Eo|]. split; [exact (Hwith im Eim' bi bj Hi Hj Hlt Hin)|].
  rewrite (block_sum_total received n rc bi bj Grc Erc' Hi Hj), (block_sum_total _ n out bi bj Gout Fout Hi Hj). exact Hp.
Qed.

(** *** C110: either front end; the sums of the blocks decide what is read *)
Theorem C110_f64_only_the_sums_of_the_blocks_matter : forall fe image n t bad, In fe [command_line; web_page] ->
  well_formed image -> dimensions image = (n, n) -> (n mod 8 = 0)%nat -> side_ok n -> usable n 3 ->
  (stored_size n 3 (payload_size 11) <= band_capacity n 3)%nat -> at_most_per_group e (blocks_per_codeword n) bad ->
  (forall sel, In sel [ch1; ch2; ch3] -> blocks_withstand (8 * stored_size n 3 (payload_size 11)) bad (depth_of fe) t (component sel image) n) ->
  exists result, watermark_image Bops K E equalize_histogram features_of checks pad image (f_of_Z Bops (depth_of fe)) one 11 = Ok result
    /\ well_formed result /\ dimensions result = (n, n)
    /\ forall sel, In sel [ch1; ch2; ch3] -> exists features w,
         measures equalize_histogram features_of (component sel image) 11 features
         /\ sign E (vec_i64_to_bytes (integer_parts features)) PRIVATE_KEY PUBLIC_KEY = Ok (Codecs.signature w)
         /\ forall received, gray_picture received n 3 -> sums_kept (8 * stored_size n 3 (payload_size 11)) bad (depth_of fe) t n (component sel result) received ->
              reads_and_judges K E M gamma checks (depth_of fe) features w received.
Proof.
  intros fe image n t bad Hfe Hw Ed Hm8 Hs Hu Hcap Hbad Hwith. pose proof (usable_side n 3 Hu) as Hn.
  assert (Hr : Z.of_nat (n * n) < 2 ^ 53) by (unfold side_ok in Hs; rewrite Nat2Z.inj_mul; nia).
  assert (Hd : 1 <= depth_of fe <= 4096) by (destruct Hfe as [ <- |[ <- |[]]]; cbn; lia).
  assert (Gc : forall sel, In sel [ch1; ch2; ch3] -> gray_picture (component sel image) n 3).
  { intros sel Hsel. apply component_picture; auto. cbn in Hsel. intuition auto. }
  assert (Ch : forall sel, In sel [ch1; ch2; ch3] -> exists marked features w,
    watermark_channel Bops K E equalize_histogram features_of checks pad (component sel image) (f_of_Z Bops (depth_of fe)) one 11 3 = Ok marked
    /\ measures equalize_histogram features_of (component sel image) 11 features
    /\ sign E (vec_i64_to_bytes (integer_parts features)) PRIVATE_KEY PUBLIC_KEY = Ok (Codecs.signature w)
    /\ forall received, gray_picture received n 3 -> sums_kept (8 * stored_size n 3 (payload_size 11)) bad (depth_of fe) t n marked received ->
              reads_and_judges K E M gamma checks (depth_of fe) features w received).
  { intros sel Hsel. destruct (sums_channel (depth_of fe) (component sel image) n bad t Hd (Gc sel Hsel) Hs Hu Hcap Hbad (Hwith sel Hsel)) as (mk & fs & q & bits & sig & Em & Hm & Eq & Es & Gm & Sh).
    assert (V : forall received, gray_picture received n 3 -> sums_kept (8 * stored_size n 3 (payload_size 11)) bad (depth_of fe) t n mk received -> q = integer_parts fs /\
            exists noised, measures equalize_histogram features_of received 11 noised
              /\ decided_by_half_bins E fs noised sig
                   (authenticate_channel Bops K E equalize_histogram features_of checks received (f_of_Z Bops (depth_of fe)) one 11 3)).
    { intros received Grc Hpa.
      exact (C99_f64_the_verdict_whenever_the_watermark_is_read K E HE Hk M HM gamma checks (component sel image) received n n 3 3 (f_of_Z Bops (depth_of fe)) 3 11 fs q bits sig WATERMARK_TEXT
        (Gc sel Hsel) Hs Hn Grc Hs Hn ltac:(lia) Hm Eq Es (Sh received Grc Hpa)). }
    assert (Q : q = integer_parts fs).
    { destruct (measured_1000 M HM gamma checks (component sel image) n 3 11 fs (Gc sel Hsel) Hn Hs ltac:(lia) Hm) as (_ & Bf). destruct unit_one as (F1 & V1). fold one in F1, V1.
      assert (N1 : no_overflow Bops one checks fs).
      { apply (no_overflow_float one (unit_ordinary one V1)). eapply Forall_impl; [|exact (bounded_29 _ Bf)]. intros x (Fx & Bx). split; [exact Fx|]. rewrite V1. apply Rle_trans with (1 := Bx). simpl. lra. }
      pose proof (quantization_ok Bops one checks fs N1) as Eq'. assert (q = quantize Bops fs one) by congruence. subst q. unfold quantize, integer_parts.
      apply map_ext_in. intros x Hin. pose proof (bounded_29 _ Bf) as B29. rewrite Forall_forall in B29. destruct (B29 x Hin) as (Fx & Bx). apply (unit_halves one x F1 V1 Fx).
      apply Rle_trans with (1 := Bx). apply bpow_le. lia. }
    exists mk, fs, (mkWatermark bits sig WATERMARK_TEXT). split; [exact Em|]. split; [exact Hm|].
    split; [rewrite <- Q; exact Es|]. intros received Grc Hpa. split; [exact (Sh received Grc Hpa)|]. exact (proj2 (V received Grc Hpa)). }
  destruct (Ch ch1) as (red & f1 & s1 & Er & Ar); [cbn; tauto|]. destruct (Ch ch2) as (green & f2 & s2 & Eg & Ag); [cbn; tauto|].
  destruct (Ch ch3) as (blue & f3 & s3 & Eb & Ab); [cbn; tauto|].
  destruct (C42_watermark_returns_iff_the_channels_do b64 Bops K E equalize_histogram features_of checks pad image (f_of_Z Bops (depth_of fe)) one 11) as (_ & (_ & Ret)).
  destruct Ret as (result & Eres); [split; [eauto|intros _; split; eauto]|]. exists result. split; [exact Eres|].
  destruct (C42_watermark_preserves_size_layout_and_alpha K E equalize_histogram features_of checks pad image (f_of_Z Bops (depth_of fe)) one 11 result Hw Eres) as (X1 & X2 & X3 & X4 & X5 & X6 & H1 & H2 & H3).
  split; [assumption|]. split; [congruence|].
  intros sel Hsel. cbn in Hsel. destruct Hsel as [ <- |[ <- |[ <- |[]]]].
  + assert (red = component ch1 result) by congruence. subst red. exists f1, s1. exact Ar.
  + assert (green = component ch2 result) by congruence. subst green. exists f2, s2. exact Ag.
  + assert (blue = component ch3 result) by congruence. subst blue. exists f3, s3. exact Ab.
Qed.
End Blockwise.

(** ** Thumbnails *)
Lemma nth_map_seq (f : nat -> Z) N k : (k < N)%nat -> nth k (map f (seq 0 N)) 0 = f k.
Proof.
  intros H. apply nth_error_nth. rewrite nth_error_map. rewrite (nth_error_nth' (seq 0 N) 0%nat) by now rewrite seq_length. rewrite seq_nth by exact H. reflexivity.
Qed.
Lemma lsum_bounds l lo hi : Forall (fun v => lo <= v <= hi) l -> Z.of_nat (length l) * lo <= fold_right Z.add 0 l <= Z.of_nat (length l) * hi.
Proof. induction 1 as [|x l Hx Hl IH]; cbn [length fold_right]; lia. Qed.
Lemma block_sum_bounds g n bi bj : bytes (gray_raw g) -> 0 <= block_sum g n bi bj <= 64 * 255.
Proof.
  intros Hb. unfold block_sum.
  assert (L : length (gray_block g n bi bj) = 64%nat) by (unfold gray_block; cbn [seq flat_map map app length]; reflexivity).
  pose proof (lsum_bounds (gray_block g n bi bj) 0 255) as B. rewrite L in B. change (Z.of_nat 64) with 64 in B.
  destruct B as (B1 & B2); [|lia].
  apply Forall_forall. intros v Hv. apply in_flat_map in Hv as (p & _ & Hv). apply in_map_iff in Hv as (q & <- & _).
  destruct (nth_in_or_default (n * (8 * bi + p) + (8 * bj + q)) (gray_raw g) 0) as [Hin| -> ]; [|lia].
  unfold bytes in Hb. rewrite Forall_forall in Hb. specialize (Hb _ Hin). unfold byte in Hb. lia.
Qed.
Section Thumb.
Variables (g : gray) (n : nat).
Hypothesis Hg : gray_picture g n 3.
Let m := (n / 8)%nat.
Lemma thumb_side : n = (8 * m)%nat.
Proof. destruct Hg as (_ & _ & _ & _ & Hm & _). change (2 ^ 3)%nat with 8%nat in Hm. unfold m. pose proof (Nat.div_mod n 8 ltac:(lia)). lia. Qed.
Lemma thumb_pixel bi bj : (bi < m)%nat -> (bj < m)%nat -> nth (m * bi + bj) (gray_raw (thumbnail n g)) 0 = (block_sum g n bi bj + 32) / 64.
Proof.
  intros Hi Hj. unfold thumbnail. cbn [gray_raw]. fold m. rewrite nth_map_seq by nia.
  replace ((m * bi + bj) / m)%nat with bi by (symmetry; rewrite Nat.mul_comm, Nat.div_add_l, Nat.div_small by lia; lia).
  replace ((m * bi + bj) mod m)%nat with bj by (symmetry; rewrite Nat.add_comm, Nat.mul_comm, Nat.mod_add, Nat.mod_small by lia; lia). reflexivity.
Qed.
Lemma enlarged_pixel i j : (i < n)%nat -> (j < n)%nat -> nth (n * i + j) (gray_raw (enlarged m (thumbnail n g))) 0 = (block_sum g n (i / 8) (j / 8) + 32) / 64.
Proof.
  intros Hi Hj. pose proof thumb_side as E. unfold enlarged. cbn [gray_raw]. rewrite <- E. rewrite nth_map_seq by nia.
  replace ((n * i + j) / n)%nat with i by (symmetry; rewrite Nat.mul_comm, Nat.div_add_l, Nat.div_small by lia; lia).
  replace ((n * i + j) mod n)%nat with j by (symmetry; rewrite Nat.add_comm, Nat.mul_comm, Nat.mod_add, Nat.mod_small by lia; lia).
  apply thumb_pixel; apply Nat.div_lt_upper_bound; lia.
Qed.
Lemma enlarged_picture : gray_picture (enlarged m (thumbnail n g)) n 3.
Proof.
  pose proof thumb_side as E. pose proof Hg as (_ & _ & _ & Hb & Hm & Hl & Hr).
  unfold gray_picture. split; [unfold enlarged; cbn [gwidth]; now rewrite <- E|]. split; [unfold enlarged; cbn [gheight]; now rewrite <- E|].
  split; [unfold enlarged; cbn [gray_raw]; rewrite map_length, seq_length; now rewrite <- E|]. split; [|now repeat split; try apply Hl].
  unfold bytes. apply Forall_forall. intros v Hv. unfold enlarged in Hv. cbn [gray_raw] in Hv. rewrite <- E in Hv.
  apply in_map_iff in Hv as (k & <- & Hk). apply in_seq in Hk. assert (Hn0 : (n <> 0)%nat) by (intros ->; lia).
  assert (K1 : (k / n < n)%nat) by (apply Nat.div_lt_upper_bound; lia). assert (K2 : (k mod n < n)%nat) by (apply Nat.mod_upper_bound; lia).
  rewrite thumb_pixel by (apply Nat.div_lt_upper_bound; lia).
  pose proof (block_sum_bounds g n (k / n / 8) (k mod n / 8) Hb) as B. unfold byte. split; [apply Z.div_pos; lia|]. apply Z.div_lt_upper_bound; lia.
Qed.
Lemma enlarged_sum bi bj : (bi < m)%nat -> (bj < m)%nat -> block_sum (enlarged m (thumbnail n g)) n bi bj = 64 * ((block_sum g n bi bj + 32) / 64).
Proof.
  intros Hi Hj. pose proof thumb_side as E. rewrite block_sum_dsum.
  rewrite (PropsClipping.dsum_ext _ (fun _ _ => (block_sum g n bi bj + 32) / 64)); [rewrite PropsClipping.dsum_const; lia|].
  intros p q Hp Hq. rewrite enlarged_pixel by lia.
  replace ((8 * bi + p) / 8)%nat with bi by (symmetry; rewrite Nat.mul_comm, Nat.div_add_l, Nat.div_small by lia; lia).
  replace ((8 * bj + q) / 8)%nat with bj by (symmetry; rewrite Nat.mul_comm, Nat.div_add_l, Nat.div_small by lia; lia). reflexivity.
Qed.
End Thumb.

Lemma margin_withstands fe image n count bad : In fe [command_line; web_page] -> well_formed image -> dimensions image = (n, n) -> (n mod 8 = 0)%nat -> Z.of_nat (n * n) < 2 ^ 53 ->
  colours_within (margin_of fe) image -> forall sel, In sel [ch1; ch2; ch3] -> blocks_withstand count bad (depth_of fe) (2 * depth_of fe - 33) (component sel image) n.
Proof.
  intros Hfe Hw Ed Hm8 Hr Hcol sel Hsel pixels Ep bi bj Hi Hj _ _.
  assert (Gc : gray_picture (component sel image) n 3) by (apply component_picture; auto; cbn in Hsel; intuition auto).
  destruct (gray_array _ n 3 Gc) as (im & Eim & Him & Hcell). pose proof Gc as (W & H & _). assert (im = pixels) by congruence. subst im.
  apply (roomy_block (repeat false 8) eq_refl fe pixels n bi bj _ Hfe Him Hi Hj); [lia|]. intros i j v Ev.
  destruct (cell_some_lt pixels n 3 i j v (proj1 Him) Ev) as (Li & Lj).
  rewrite (Hcell i j Li Lj) in Ev. unfold gray_pixel in Ev. apply nth_error_In in Ev. unfold component in Ev. cbn [gray_raw] in Ev. apply in_map_iff in Ev as (p & <- & Hp).
  unfold colours_within in Hcol. rewrite Forall_forall in Hcol. exact (Hcol p Hp sel Hsel).
Qed.

Section Small.
Context (K : ldpc) (Hsh : ldpc_shape K) (Hdec : ldpc_decodes K) (E : ed25519) (HE : signature_format E) (Hk : key_pair E PRIVATE_KEY PUBLIC_KEY).
Context (M : libm b64) (HM : accurate M) (gamma : b64 -> b64) (checks : bool) (pad : list bool) (Hpad : length pad = 8%nat).
Let features_of := zernike_f64 M gamma checks.
Let one : b64 := f_of_Z Bops 1.

(** *** C110: thumbnails and rearranged blocks *)
Theorem C110_f64_thumbnails_hold_the_watermark : forall fe image n, In fe [command_line; web_page] ->
  well_formed image -> dimensions image = (n, n) -> (n mod 8 = 0)%nat -> side_ok n -> usable n 3 ->
  (stored_size n 3 (payload_size 11) <= band_capacity n 3)%nat -> colours_within (margin_of fe) image ->
  exists result, watermark_image Bops K E equalize_histogram features_of checks pad image (f_of_Z Bops (depth_of fe)) one 11 = Ok result
    /\ forall sel, In sel [ch1; ch2; ch3] -> exists features w,
         measures equalize_histogram features_of (component sel image) 11 features
         /\ sign E (vec_i64_to_bytes (integer_parts features)) PRIVATE_KEY PUBLIC_KEY = Ok (Codecs.signature w)
         /\ reads_and_judges K E M gamma checks (depth_of fe) features w (component sel result)
         /\ reads_and_judges K E M gamma checks (depth_of fe) features w (enlarged (n / 8) (thumbnail n (component sel result)))
         /\ forall received, gray_picture received n 3 -> blocks_rearranged n (component sel result) received ->
              reads_and_judges K E M gamma checks (depth_of fe) features w received.
Proof.
  intros fe image n Hfe Hw Ed Hm8 Hs Hu Hcap Hcol. pose proof (usable_side n 3 Hu) as Hn.
  assert (Hr : Z.of_nat (n * n) < 2 ^ 53) by (unfold side_ok in Hs; rewrite Nat2Z.inj_mul; nia).
  assert (Gc : forall sel x, In sel [ch1; ch2; ch3] -> well_formed x -> dimensions x = (n, n) -> gray_picture (component sel x) n 3).
  { intros sel x Hsel Hwx Edx. apply component_picture; auto. cbn in Hsel. intuition auto. }
  destruct (C110_f64_only_the_sums_of_the_blocks_matter K 0 Hsh (decodes_corrects K Hsh Hdec) E HE Hk M HM gamma checks pad Hpad fe image n (2 * depth_of fe - 33) [] Hfe Hw Ed Hm8 Hs Hu Hcap)
    as (result & Er & Wr & Dr & Hv).
  { intros w; cbn; lia. }
  { intros sel Hsel. now apply (margin_withstands fe image n). }
  exists result. split; [exact Er|]. intros sel Hsel. destruct (Hv sel Hsel) as (fs & w & H1 & H2 & H3). exists fs, w. split; [exact H1|]. split; [exact H2|].
  assert (Gr : gray_picture (component sel result) n 3) by (apply Gc; assumption).
  assert (Ht : 32 <= 2 * depth_of fe - 33) by (destruct Hfe as [ <- |[ <- |[]]]; cbn; lia).
  split; [|split].
  - apply H3; [exact Gr|]. intros bi bj _ _ _ _. exists 0. lia.
  - apply H3; [now apply enlarged_picture|]. intros bi bj Hi Hj _ _. exists 0. rewrite enlarged_sum by assumption. set (S := block_sum _ _ _ _).
    pose proof (Z.div_mod (S + 32) 64 ltac:(lia)). pose proof (Z.mod_pos_bound (S + 32) 64 ltac:(lia)). lia.
  - intros received Grc Hre. apply H3; [exact Grc|]. intros bi bj Hi Hj _ _. exists 0.
    unfold block_sum. rewrite (lsum_permutation _ _ (Hre bi bj Hi Hj)). lia.
Qed.
End Small.

(** ** The hypotheses are met.  A rearrangement: every block mirrored on its own. *)
Definition blocks_mirrored (n : nat) (g : gray) : gray :=
  mkGray n n (map (fun k => nth (n * (k / n) + (8 * (k mod n / 8) + (7 - k mod n mod 8))) (gray_raw g) 0) (seq 0 (n * n))).
Lemma permutation_flat_map {A B} (f h : A -> list B) l : (forall x, In x l -> Permutation (f x) (h x)) -> Permutation (flat_map f l) (flat_map h l).
Proof. induction l as [|x l IH]; intros H; cbn [flat_map]; [constructor|]. apply Permutation_app; [apply H; now left|apply IH; intros y Hy; apply H; now right]. Qed.
Lemma mirrored_pixel n g i j : (i < n)%nat -> (j < n)%nat -> nth (n * i + j) (gray_raw (blocks_mirrored n g)) 0 = nth (n * i + (8 * (j / 8) + (7 - j mod 8))) (gray_raw g) 0.
Proof.
  intros Hi Hj. unfold blocks_mirrored. cbn [gray_raw]. rewrite nth_map_seq by nia.
  replace ((n * i + j) / n)%nat with i by (symmetry; rewrite Nat.mul_comm, Nat.div_add_l, Nat.div_small by lia; lia).
  replace ((n * i + j) mod n)%nat with j by (symmetry; rewrite Nat.add_comm, Nat.mul_comm, Nat.mod_add, Nat.mod_small by lia; lia). reflexivity.
Qed.
Lemma blocks_mirrored_rearranged g n : gray_picture g n 3 -> gray_picture (blocks_mirrored n g) n 3 /\ blocks_rearranged n g (blocks_mirrored n g).
Proof.
  intros Hg. pose proof Hg as (W & H & Hl & Hb & Hm & HL & Hr). change (2 ^ 3)%nat with 8%nat in Hm.
  assert (En : n = (8 * (n / 8))%nat) by (pose proof (Nat.div_mod n 8 ltac:(lia)); lia). split.
  - unfold gray_picture, blocks_mirrored. cbn [gwidth gheight gray_raw]. rewrite map_length, seq_length. repeat split; try assumption; try apply HL.
    apply Forall_forall. intros v Hv. apply in_map_iff in Hv as (k & <- & Hk). apply in_seq in Hk. assert (Hn0 : (n <> 0)%nat) by (intros ->; lia).
    destruct (nth_in_or_default (n * (k / n) + (8 * (k mod n / 8) + (7 - k mod n mod 8))) (gray_raw g) 0) as [Hin| -> ]; [|unfold byte; lia].
    unfold bytes in Hb. rewrite Forall_forall in Hb. now apply Hb.
  - intros bi bj Hi Hj. unfold gray_block. apply permutation_flat_map. intros p Hp. apply in_seq in Hp.
    assert (X : map (fun q => nth (n * (8 * bi + p) + (8 * bj + q)) (gray_raw (blocks_mirrored n g)) 0) (seq 0 8)
              = rev (map (fun q => nth (n * (8 * bi + p) + (8 * bj + q)) (gray_raw g) 0) (seq 0 8))).
    { rewrite (map_ext_in _ (fun q => nth (n * (8 * bi + p) + (8 * bj + (7 - q))) (gray_raw g) 0)); [reflexivity|].
      intros q Hq. apply in_seq in Hq. rewrite mirrored_pixel by lia.
      replace ((8 * bj + q) / 8)%nat with bj by (symmetry; rewrite Nat.mul_comm, Nat.div_add_l, Nat.div_small by lia; lia).
      replace ((8 * bj + q) mod 8)%nat with q by (symmetry; rewrite Nat.add_comm, Nat.mul_comm, Nat.mod_add, Nat.mod_small by lia; lia). reflexivity. }
    rewrite X. symmetry. apply Permutation_rev.
Qed.

Opaque colour512 watermark_image.
Example C110_instance : forall fe, In fe [command_line; web_page] -> exists result,
  watermark_image Bops toy_ldpc toy_ed equalize_histogram (zernike_f64 exact_libm (fun x => x) true) true (repeat false 8) colour512 (f_of_Z Bops (depth_of fe)) (f_of_Z Bops 1) 11 = Ok result
  /\ forall sel, In sel [ch1; ch2; ch3] -> exists features w,
       reads_and_judges toy_ldpc toy_ed exact_libm (fun x => x) true (depth_of fe) features w (enlarged 64 (thumbnail 512 (component sel result)))
       /\ reads_and_judges toy_ldpc toy_ed exact_libm (fun x => x) true (depth_of fe) features w (blocks_mirrored 512 (component sel result)).
Proof.
  intros fe Hfe. destruct C83_512_is_usable as (A & B & C & D).
  assert (Ed : dimensions colour512 = (512, 512)%nat) by reflexivity.
  assert (Hcol : colours_within (margin_of fe) colour512).
  { Transparent colour512. unfold colours_within, colour512. cbn [get_pixels]. apply Forall_forall. intros p Hp. apply repeat_spec in Hp. subst p.
    intros sel Hsel. cbn in Hsel. destruct Hfe as [ <- |[ <- |[]]]; destruct Hsel as [ <- |[ <- |[ <- |[]]]]; cbn [margin_of command_line web_page ch1 ch2 ch3]; lia. }
  Opaque colour512.
  destruct (C110_f64_thumbnails_hold_the_watermark toy_ldpc toy_shape toy_decodes toy_ed toy_format toy_keys exact_libm exact_libm_accurate (fun x => x) true (repeat false 8) eq_refl fe colour512 512 Hfe colour512_wf Ed A B C D Hcol)
    as (result & H1 & Hv).
  destruct (C42_watermark_preserves_size_layout_and_alpha toy_ldpc toy_ed equalize_histogram _ true (repeat false 8) colour512 (f_of_Z Bops (depth_of fe)) (f_of_Z Bops 1) 11 result colour512_wf H1) as (X1 & X2 & X3 & X4 & X5 & X6 & _).
  assert (Wr : well_formed result) by assumption. assert (Dr : dimensions result = (512, 512)%nat) by congruence. clear X1 X2 X3 X4 X5 X6.
  exists result. split; [exact H1|]. intros sel Hsel. destruct (Hv sel Hsel) as (fs & w & _ & _ & _ & Ht & Hre). exists fs, w. split; [exact Ht|].
  assert (Gr : gray_picture (component sel result) 512 3).
  { apply component_picture; [exact Wr|exact Dr|cbn in Hsel; intuition auto|reflexivity|]. rewrite Nat2Z.inj_mul; lia. }
  destruct (blocks_mirrored_rearranged (component sel result) 512 Gr) as (G1 & G2). apply Hre; assumption.
Qed.

Print Assumptions C110_f64_only_the_sums_of_the_blocks_matter.
Print Assumptions C110_f64_thumbnails_hold_the_watermark.
