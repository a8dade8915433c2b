(** Property C100: the part of a picture that carries nothing.  The blocks of 8 x 8 pixels beyond the encoded payload are returned as they were, and whatever is
    put there later does not keep the watermark from being read; in a picture of 512 x 512 pixels that is the lower half. *)
From Coq Require Import Reals Lra.
From Flocq Require Import Core BinarySingleNaN.
From Verif Require Import Outcome Floats FloatFacts Bits ListFacts Quantization QuantProofs QuantReal QuantFloat PropsQuant PropsQuant2 Codecs CodecProofs WatermarkProofs PropsCodec
  Encoding EncodingProofs PropsEncoding Matrix MatrixFacts Haar HaarProofs HaarReal HaarFloat PropsHaar Stego StegoProofs StegoMarks PropsStego Embedding EmbeddingProofs EmbeddingEffect PropsEmbedding PropsEmbedding2 PropsEmbedding3 PropsRobust
  Signature Process ProcessProofs Toy Zernike ZernikeProofs PropsZernike ZernikeBound PropsZernike2 ZernikeGen PropsZernikeF64 LibmSpec LibmExact PropsZernikeAcc
  PropsProcess PropsProcess2 Image PropsImage PropsProcess3 PropsProcess4 PropsProcess5 PropsProcess6 PropsTamper Equalize PropsEqualize PropsShipped PropsShipped2 PropsInteger PropsClipping PropsClipping2 PropsRepair PropsRepair2 PropsVerdict.
Open Scope Z_scope.

(** ** Specification vocabulary *)
(** The blocks are numbered row by row; so many of them, the first ones, carry the watermark of one colour channel. *)
Definition carrying_blocks (n : nat) : nat := (8 * stored_size n 3 (payload_size 11))%nat.
Definition block_of (n k : nat) : nat := (n / 8 * (k / n / 8) + k mod n / 8)%nat.

(** In the carrying blocks, except the listed ones, the pixels differ by at most [t]; everywhere else they may be anything. *)
Definition differs_at_most (t : Z) (bad : list nat) (marked received : gray) (n : nat) : Prop :=
  forall k v w, nth_error (gray_raw marked) k = Some v -> nth_error (gray_raw received) k = Some w ->
    (block_of n k < carrying_blocks n)%nat -> ~ In (block_of n k) bad -> Z.abs (w - v) <= t.

(** The carrying blocks of a channel, except the listed ones, can be marked and keep [t] levels per pixel of their tolerance. *)
Definition carriers_withstand (bad : list nat) (depth t : Z) (channel : gray) (n : nat) : Prop :=
  forall pixels, from_shape_vec n n (gray_raw channel) = Ok pixels ->
  forall bi bj, (bi < n / 8)%nat -> (bj < n / 8)%nat -> (n / 8 * bi + bj < carrying_blocks n)%nat -> ~ In (n / 8 * bi + bj)%nat bad -> withstands depth (64 * t) pixels bi bj.

(** A channel whose upper half is that of [a] and whose lower half is that of [b]. *)
Definition spliced (a b : gray) : gray :=
  let half := (gwidth a * (gheight a / 2))%nat in mkGray (gwidth a) (gheight a) (firstn half (gray_raw a) ++ skipn half (gray_raw b)).

Lemma block_of_pixel n i j : (j < n)%nat -> block_of n (n * i + j) = (n / 8 * (i / 8) + j / 8)%nat.
Proof.
  intros Hj. unfold block_of. rewrite (Nat.mul_comm n i). rewrite Nat.div_add_l by lia. rewrite (Nat.div_small j n Hj).
  rewrite (Nat.add_comm (i * n)), Nat.mod_add by lia. rewrite (Nat.mod_small j n Hj). now rewrite Nat.add_0_r.
Qed.

Section Unused.
Context (K : ldpc) (e : nat) (Hsh : ldpc_shape K) (Hcor : corrects K e) (E : ed25519) (HE : signature_format E) (Hk : key_pair E PRIVATE_KEY PUBLIC_KEY).
Context (M : libm b64) (HM : accurate M) (gamma : b64 -> b64) (checks : bool) (pad : list bool) (Hpad : length pad = 8%nat).
Let features_of := zernike_f64 M gamma checks.
Let one : b64 := f_of_Z Bops 1.

Lemma payload_length fs q bits sig pl : length fs = 11%nat -> three_bit_quantization Bops checks fs one = Ok (q, bits) ->
  sign E (vec_i64_to_bytes q) PRIVATE_KEY PUBLIC_KEY = Ok sig -> watermark_serialize pad (mkWatermark bits sig WATERMARK_TEXT) = Ok pl ->
  bytes pl /\ length pl = payload_size 11 /\ watermark_deserialize pl = Ok (mkWatermark bits sig WATERMARK_TEXT).
Proof.
  intros Lf Eq Es Ep. destruct (quantization_inv Bops checks fs one q bits Eq) as (_ & _ & Lb).
  destruct (sign_verify E _ _ (vec_i64_to_bytes q) HE Hk) as (sig' & Es' & Ls & Bs & _). assert (sig' = sig) by congruence. subst sig'.
  destruct (payload_of pad bits sig (length fs) Hpad Bs Ls Lb ltac:(lia)) as (pl' & Ep' & Bp & Lp & Ed). assert (pl' = pl) by congruence. subst pl'. rewrite Lf in Lp. auto.
Qed.

Lemma unused_channel depth channel n marked : 1 <= depth <= 4096 -> gray_picture channel n 3 -> side_ok n -> usable n 3 ->
  watermark_channel Bops K E equalize_histogram features_of checks pad channel (f_of_Z Bops depth) one 11 3 = Ok marked ->
  forall k, (carrying_blocks n <= block_of n k)%nat -> nth_error (gray_raw marked) k = nth_error (gray_raw channel) k.
Proof.
  intros HD Hg Hs Hu H k Hblk. pose proof (usable_side n 3 Hu) as Hn. pose proof Hg as (Wd & Hh & Hl & _ & Hmod & HL & Hr).
  destruct (gray_array channel n 3 Hg) as (im & Eim & Hp & Hcell).
  apply watermark_inv in H as (im' & fs & q & bits & sig & pl & out & H1 & H2 & H3 & H4 & H5 & H6 & ->).
  assert (im' = im) by congruence. subst im'. cbn [gray_raw].
  destruct (measured_1000 M HM gamma checks channel n 3 11 fs Hg Hn Hs ltac:(lia) H2) as (Lf & _).
  destruct (payload_length fs q bits sig pl Lf H3 H4 H5) as (Bp & Lp & _).
  pose proof Hp as ((Wf & D0 & D1 & P) & H8). destruct (C35_embed_keeps_the_shape K im pl (f_of_Z Bops depth) 3 out Wf H6) as (O8 & O0 & O1).
  assert (Hpo : picture out n 3) by (split; [split; [apply O8|]; split; [congruence|]; split; [congruence|exact P]|exact O8]).
  destruct (array_gray out n 3 Hpo) as (Gm & Fm). destruct (gray_array _ n 3 Gm) as (om & Eom & _ & Ocell). cbn [gwidth gheight gray_raw] in Eom.
  assert (om = out) by congruence. subst om.
  destruct Gm as (_ & _ & Lm & _). cbn [gray_raw] in Lm.
  destruct (Nat.lt_ge_cases k (n * n)) as [Hkn|Hkn].
  2:{ rewrite (proj2 (nth_error_None _ _)) by lia. symmetry. apply nth_error_None. lia. }
  pose proof (Nat.div_mod k n ltac:(lia)) as Dm. pose proof (Nat.mod_upper_bound k n ltac:(lia)) as Mb.
  assert (Hd : (k / n < n)%nat) by (apply Nat.div_lt_upper_bound; lia).
  pose proof (Hcell (k / n)%nat (k mod n)%nat Hd Mb) as A. pose proof (Ocell (k / n)%nat (k mod n)%nat Hd Mb) as B. unfold gray_pixel in A, B. cbn [gray_raw] in B. rewrite <- Dm in A, B.
  rewrite <- A, <- B.
  destruct (b_of_Z_ok depth) as (Fd & Vd); [lia|]. change (b_of_Z depth) with (f_of_Z Bops depth) in *.
  assert (X1 : (1 <= IZR depth)%R) by (apply (IZR_le 1); lia). assert (X2 : (IZR depth <= 4096)%R) by (apply (IZR_le _ 4096); lia).
  apply (C33_f64_unused_blocks_are_unchanged K Hsh im n 3 (f_of_Z Bops depth) pl out (stored_size n 3 (payload_size 11)) Hp ltac:(lia) Bp Fd ltac:(rewrite Vd; lra) H6); [|exact Hd|exact Mb|].
  - split; [now rewrite Lp|]. intros N. destruct Hu as (C & _). contradiction.
  - unfold in_first_blocks. change (2 ^ 3)%nat with 8%nat. intros C. unfold block_of, carrying_blocks in Hblk. lia.
Qed.

(** *** C100: either front end, any picture at all for which watermarking returns: pixels beyond the carrying blocks, with their alpha values, are what they were. *)
Theorem C100_f64_pixels_beyond_the_payload_are_unchanged : forall fe image n result, In fe [command_line; web_page] ->
  well_formed image -> dimensions image = (n, n) -> (n mod 8 = 0)%nat -> side_ok n -> usable n 3 ->
  watermark_image Bops K E equalize_histogram features_of checks pad image (f_of_Z Bops (depth_of fe)) one 11 = Ok result ->
  forall k, (carrying_blocks n <= block_of n k)%nat -> nth_error (get_pixels result) k = nth_error (get_pixels image) k.
Proof.
  intros fe image n result Hfe Hw Ed Hm8 Hs Hu Eres k Hblk.
  assert (Hr : Z.of_nat (n * n) < 2 ^ 53) by (unfold side_ok in Hs; rewrite Nat2Z.inj_mul; nia).
  assert (Hd : 1 <= depth_of fe <= 4096) by (destruct Hfe as [ <- |[ <- |[]]]; cbn; lia).
  destruct (C42_watermark_preserves_size_layout_and_alpha K E equalize_histogram features_of checks pad image (f_of_Z Bops (depth_of fe)) one 11 result Hw Eres) as (X1 & X2 & X3 & X4 & X5 & X6 & H1 & H2 & H3).
  assert (Ch : forall sel, sel = ch1 \/ sel = ch2 \/ sel = ch3 ->
    watermark_channel Bops K E equalize_histogram features_of checks pad (component sel image) (f_of_Z Bops (depth_of fe)) one 11 3 = Ok (component sel result) ->
    nth_error (map sel (get_pixels result)) k = nth_error (map sel (get_pixels image)) k).
  { intros sel Hsel Hc. exact (unused_channel (depth_of fe) (component sel image) n (component sel result) Hd (component_picture sel image n Hw Ed Hsel Hm8 Hr) Hs Hu Hc k Hblk). }
  assert (A : nth_error (map ch4 (get_pixels result)) k = nth_error (map ch4 (get_pixels image)) k) by now rewrite X6.
  pose proof (Ch ch1 ltac:(tauto) H1) as A1. pose proof (Ch ch2 ltac:(tauto) H2) as A2. pose proof (Ch ch3 ltac:(tauto) H3) as A3.
  rewrite !nth_error_map in A, A1, A2, A3.
  destruct (nth_error (get_pixels result) k) as [(((a1 & a2) & a3) & a4)|], (nth_error (get_pixels image) k) as [(((b1 & b2) & b3) & b4)|]; cbn in *; congruence.
Qed.

Lemma unused_read depth channel n bad t : 1 <= depth <= 4096 -> 0 <= t -> gray_picture channel n 3 -> side_ok n -> usable n 3 ->
  (stored_size n 3 (payload_size 11) <= band_capacity n 3)%nat -> at_most_per_group e (blocks_per_codeword n) bad ->
  carriers_withstand bad depth t channel n ->
  exists marked features quantised bits sig,
    watermark_channel Bops K E equalize_histogram features_of checks pad channel (f_of_Z Bops depth) one 11 3 = Ok marked
    /\ measures equalize_histogram features_of channel 11 features
    /\ three_bit_quantization Bops checks features one = Ok (quantised, bits) /\ quantised = integer_parts features
    /\ sign E (vec_i64_to_bytes quantised) PRIVATE_KEY PUBLIC_KEY = Ok sig
    /\ forall received, gray_picture received n 3 -> differs_at_most t bad marked received n ->
         shows_watermark K received (f_of_Z Bops depth) 3 (mkWatermark bits sig WATERMARK_TEXT).
Proof.
  intros HD Ht Hg Hs Hu Hcap Hbad Hwith. pose proof (usable_side n 3 Hu) as Hn.
  destruct (gray_array channel n 3 Hg) as (im & Eim & Him & _). pose proof Hg as (W & H & _).
  destruct (measured_exists M HM gamma checks channel n 3 11 Hg Hn Hs ltac:(lia)) as (fs & Hm).
  destruct (measured_1000 M HM gamma checks channel n 3 11 fs Hg Hn Hs ltac:(lia) Hm) as (Lf & Bf).
  destruct unit_one as (F1 & V1). fold one in F1, V1.
  assert (N1 : no_overflow Bops one checks fs).
  { apply (no_overflow_float one (unit_ordinary one V1)). eapply Forall_impl; [|exact (bounded_29 _ Bf)]. intros x (Fx & Bx). split; [exact Fx|]. rewrite V1. apply Rle_trans with (1 := Bx). simpl. lra. }
  pose proof (quantization_ok Bops one checks fs N1) as Eq. set (q := quantize Bops fs one) in *. set (bits := flat_map (bits3 Bops one) fs) in *.
  assert (Q : q = integer_parts fs).
  { unfold q, quantize, integer_parts.
    apply map_ext_in. intros x Hin. pose proof (bounded_29 _ Bf) as B29. rewrite Forall_forall in B29. destruct (B29 x Hin) as (Fx & Bx). apply (unit_halves one x F1 V1 Fx).
    apply Rle_trans with (1 := Bx). apply bpow_le. lia. }
  destruct (quantization_inv Bops checks fs one q bits Eq) as (_ & _ & Lb).
  destruct (sign_verify E _ _ (vec_i64_to_bytes q) HE Hk) as (sig & Es & Ls & Bs & Ev).
  destruct (payload_of pad bits sig (length fs) Hpad Bs Ls Lb ltac:(lia)) as (pl & Ep & Bp & Lp & Edp). rewrite Lf in Lp.
  pose proof (payload_size_range 11 ltac:(lia)) as Hsz.
  assert (Eim' : from_shape_vec n n (gray_raw channel) = Ok im) by congruence.
  destruct (C89_f64_destroyed_blocks_are_repaired K e Hsh Hcor im n depth pl (64 * t) bad HD Him Hu Bp) as (out & Eo & Po & X);
    [rewrite Lp; lia|rewrite Lp; exact Hcap|exact Hbad|intros bi bj Hi Hj Hb Hin; rewrite Lp in Hb; exact (Hwith im Eim' bi bj Hi Hj Hb Hin)|].
  destruct (array_gray out n 3 Po) as (Gout & Fout). pose proof Po as ((Hwf & D0 & D1 & _) & _).
  exists (mkGray n n (into_raw_vec out)), fs, q, bits, sig. split.
  { pose proof (watermark_run Bops K E equalize_histogram features_of checks pad channel im 11 fs one q bits sig pl out (f_of_Z Bops depth) 3 Eim Hm Eq Es Ep Eo Hwf ltac:(congruence) ltac:(congruence)) as R.
    rewrite W, H in R. exact R. }
  split; [exact Hm|]. split; [exact Eq|]. split; [exact Q|]. split; [exact Es|].
  intros received Grc Hpa. destruct (gray_array received n 3 Grc) as (rc & Erc & Prc & Hrc). pose proof Grc as (W' & H' & _).
  assert (Erc' : from_shape_vec n n (gray_raw received) = Ok rc) by congruence.
  destruct (gray_array _ n 3 Gout) as (o & Eo' & _ & Ho). cbn [gwidth gheight gray_raw] in Eo'. assert (o = out) by congruence. subst o.
  exists rc, pl. split; [exact Erc|]. split; [|exact Edp]. apply X; [exact Prc|]. rewrite Lp. change (8 * stored_size n 3 (payload_size 11))%nat with (carrying_blocks n).
  intros bi bj Hi Hj Hb Hin. rewrite !block_total_dsum.
  assert (H8s : (8 * (n / 8) <= n)%nat) by (apply Nat.mul_div_le; lia).
  assert (B : forall p q, (p < 8)%nat -> (q < 8)%nat -> pixel out (8 * bi + p) (8 * bj + q) - t <= pixel rc (8 * bi + p) (8 * bj + q) <= pixel out (8 * bi + p) (8 * bj + q) + t).
  { intros p r Hp Hr. assert (Hi' : (8 * bi + p < n)%nat) by lia. assert (Hj' : (8 * bj + r < n)%nat) by lia.
    destruct Prc as ((Wr & R0 & R1 & _) & _). 
    destruct (cell_bounds out (8 * bi + p) (8 * bj + r) Hwf ltac:(lia) ltac:(lia)) as (v & Ev1). destruct (cell_bounds rc (8 * bi + p) (8 * bj + r) Wr ltac:(lia) ltac:(lia)) as (w & Ew).
    unfold pixel. rewrite Ev1, Ew.
    assert (Bk : block_of n (n * (8 * bi + p) + (8 * bj + r)) = (n / 8 * bi + bj)%nat) by (rewrite block_of_pixel by exact Hj'; now rewrite !place_div8 by assumption).
    pose proof (Hpa (n * (8 * bi + p) + (8 * bj + r))%nat v w) as D. rewrite Bk in D.
    specialize (D ltac:(rewrite Ho in Ev1 by assumption; exact Ev1) ltac:(rewrite Hrc in Ew by assumption; exact Ew) Hb Hin). lia. }
  pose proof (dsum_le (fun p q => pixel rc (8 * bi + p) (8 * bj + q)) (fun p q => 1 * pixel out (8 * bi + p) (8 * bj + q) + 0 * 0 + t) ltac:(intros; cbv beta; pose proof (B p q0 ltac:(assumption) ltac:(assumption)); lia)) as Q1.
  pose proof (dsum_le (fun p q => 1 * pixel out (8 * bi + p) (8 * bj + q) + 0 * 0 + (- t)) (fun p q => pixel rc (8 * bi + p) (8 * bj + q)) ltac:(intros; cbv beta; pose proof (B p q0 ltac:(assumption) ltac:(assumption)); lia)) as Q2.
  rewrite dsum_lin in Q1. rewrite dsum_lin in Q2. lia.
Qed.

(** *** C100: only the carrying blocks of the picture need be markable, and only they are read: the rest of the marked picture may be replaced by anything.  The half
    bins of the features - which are those of the whole received picture - decide. *)
Theorem C100_f64_the_rest_of_the_picture_is_not_read : forall fe image n t bad, In fe [command_line; web_page] -> 0 <= t ->
  well_formed image -> dimensions image = (n, n) -> (n mod 8 = 0)%nat -> side_ok n -> usable n 3 ->
  (stored_size n 3 (payload_size 11) <= band_capacity n 3)%nat -> at_most_per_group e (blocks_per_codeword n) bad ->
  (forall sel, In sel [ch1; ch2; ch3] -> carriers_withstand bad (depth_of fe) t (component sel image) n) ->
  exists result, watermark_image Bops K E equalize_histogram features_of checks pad image (f_of_Z Bops (depth_of fe)) one 11 = Ok result
    /\ well_formed result /\ dimensions result = (n, n)
    /\ forall sel, In sel [ch1; ch2; ch3] -> exists features sig,
         measures equalize_histogram features_of (component sel image) 11 features
         /\ sign E (vec_i64_to_bytes (integer_parts features)) PRIVATE_KEY PUBLIC_KEY = Ok sig
         /\ forall received, gray_picture received n 3 -> differs_at_most t bad (component sel result) received n ->
            exists noised, measures equalize_histogram features_of received 11 noised
              /\ decided_by_half_bins E features noised sig
                   (authenticate_channel Bops K E equalize_histogram features_of checks received (f_of_Z Bops (depth_of fe)) one 11 3).
Proof.
  intros fe image n t bad Hfe Ht Hw Ed Hm8 Hs Hu Hcap Hbad Hwith. pose proof (usable_side n 3 Hu) as Hn.
  assert (Hr : Z.of_nat (n * n) < 2 ^ 53) by (unfold side_ok in Hs; rewrite Nat2Z.inj_mul; nia).
  assert (Hd : 1 <= depth_of fe <= 4096) by (destruct Hfe as [ <- |[ <- |[]]]; cbn; lia).
  assert (Gc : forall sel, In sel [ch1; ch2; ch3] -> gray_picture (component sel image) n 3).
  { intros sel Hsel. apply component_picture; auto. cbn in Hsel. intuition auto. }
  assert (Ch : forall sel, In sel [ch1; ch2; ch3] -> exists marked features sig,
    watermark_channel Bops K E equalize_histogram features_of checks pad (component sel image) (f_of_Z Bops (depth_of fe)) one 11 3 = Ok marked
    /\ measures equalize_histogram features_of (component sel image) 11 features
    /\ sign E (vec_i64_to_bytes (integer_parts features)) PRIVATE_KEY PUBLIC_KEY = Ok sig
    /\ forall received, gray_picture received n 3 -> differs_at_most t bad marked received n ->
            exists noised, measures equalize_histogram features_of received 11 noised
              /\ decided_by_half_bins E features noised sig
                   (authenticate_channel Bops K E equalize_histogram features_of checks received (f_of_Z Bops (depth_of fe)) one 11 3)).
  { intros sel Hsel. destruct (unused_read (depth_of fe) (component sel image) n bad t Hd Ht (Gc sel Hsel) Hs Hu Hcap Hbad (Hwith sel Hsel)) as (mk & fs & q & bits & sig & Em & Hm & Eq & Q & Es & Sh).
    exists mk, fs, sig. split; [exact Em|]. split; [exact Hm|]. split; [rewrite <- Q; exact Es|]. intros received Grc Hpa.
    exact (proj2 (C99_f64_the_verdict_whenever_the_watermark_is_read K E HE Hk M HM gamma checks (component sel image) received n n 3 3 (f_of_Z Bops (depth_of fe)) 3 11 fs q bits sig WATERMARK_TEXT
        (Gc sel Hsel) Hs Hn Grc Hs Hn ltac:(lia) Hm Eq Es (Sh received Grc Hpa))). }
  destruct (Ch ch1) as (red & f1 & s1 & Er & Ar); [cbn; tauto|]. destruct (Ch ch2) as (green & f2 & s2 & Eg & Ag); [cbn; tauto|].
  destruct (Ch ch3) as (blue & f3 & s3 & Eb & Ab); [cbn; tauto|].
  destruct (C42_watermark_returns_iff_the_channels_do b64 Bops K E equalize_histogram features_of checks pad image (f_of_Z Bops (depth_of fe)) one 11) as (_ & (_ & Ret)).
  destruct Ret as (result & Eres); [split; [eauto|intros _; split; eauto]|]. exists result. split; [exact Eres|].
  destruct (C42_watermark_preserves_size_layout_and_alpha K E equalize_histogram features_of checks pad image (f_of_Z Bops (depth_of fe)) one 11 result Hw Eres) as (X1 & X2 & X3 & X4 & X5 & X6 & H1 & H2 & H3).
  split; [assumption|]. split; [congruence|].
  intros sel Hsel. cbn in Hsel. destruct Hsel as [ <- |[ <- |[ <- |[]]]].
  - assert (red = component ch1 result) by congruence. subst red. exists f1, s1. exact Ar.
  - assert (green = component ch2 result) by congruence. subst green. exists f2, s2. exact Ag.
  - assert (blue = component ch3 result) by congruence. subst blue. exists f3, s3. exact Ab.
Qed.
End Unused.

(** ** 512 x 512: the first 32 rows of blocks carry everything, that is the upper half *)
Theorem C100_carrying_blocks_of_512 : carrying_blocks 512 = (32 * (512 / 8))%nat
  /\ (forall k, (block_of 512 k < carrying_blocks 512)%nat <-> (k < 512 * 256)%nat).
Proof.
  assert (C : carrying_blocks 512 = Z.to_nat 2048) by (vm_compute; reflexivity).
  split; [rewrite C; vm_compute; reflexivity|]. intros k. rewrite C. unfold block_of. change (512 / 8)%nat with 64%nat.
  assert (R : (k mod 512 / 8 < 64)%nat) by (apply Nat.div_lt_upper_bound; [lia|]; apply Nat.mod_upper_bound; lia).
  assert (D : (k / 512 / 8 < 32 <-> k < 512 * 256)%nat).
  { rewrite Nat.div_div by lia. change (512 * 8)%nat with (Z.to_nat 4096). change (512 * 256)%nat with (Z.to_nat 131072). split; intros X.
    - pose proof (Nat.div_mod k (Z.to_nat 4096) ltac:(lia)). pose proof (Nat.mod_upper_bound k (Z.to_nat 4096) ltac:(lia)). nia.
    - apply Nat.div_lt_upper_bound; lia. }
  change (512 * 256)%nat with (Z.to_nat 131072) in *. generalize dependent (k / 512 / 8)%nat. generalize dependent (k mod 512 / 8)%nat. intros; lia.
Qed.

Lemma big : (512 * 256)%nat = Z.to_nat 131072 /\ (512 * 512)%nat = Z.to_nat 262144. Proof. split; [|rewrite <- (Nat2Z.id (512 * 512)); f_equal]; reflexivity. Qed.

Lemma nth_error_firstn' {A} (l : list A) m k : (k < m)%nat -> nth_error (firstn m l) k = nth_error l k.
Proof. revert m k. induction l as [|x l IH]; intros [|m] [|k] H; cbn; try lia; try reflexivity. apply IH. lia. Qed.
Lemma nth_error_skipn' {A} (l : list A) m k : nth_error (skipn m l) k = nth_error l (m + k).
Proof. revert m. induction l as [|x l IH]; intros [|m]; cbn; try reflexivity; [now destruct k|]. apply IH. Qed.

Lemma spliced_picture a b t bad : 0 <= t -> gray_picture a 512 3 -> gray_picture b 512 3 -> gray_picture (spliced a b) 512 3 /\ differs_at_most t bad a (spliced a b) 512.
Proof.
  intros Ht (Wa & Ha & La & Ba & R) (Wb & Hb & Lb & Bb & _). unfold spliced. rewrite Wa, Ha. change (512 / 2)%nat with 256%nat. destruct big as (B1 & B2).
  assert (Lf : length (firstn (512 * 256) (gray_raw a)) = (512 * 256)%nat) by (rewrite firstn_length, La, B1, B2; lia). split.
  - split; [reflexivity|]. split; [reflexivity|]. cbn [gray_raw]. split; [|split; [|exact R]].
    + rewrite app_length, Lf, skipn_length, Lb, B1, B2. lia.
    + apply Forall_app. split; [|].
      { rewrite <- (firstn_skipn (512 * 256) (gray_raw a)) in Ba. apply Forall_app in Ba as (X & _). exact X. }
      { rewrite <- (firstn_skipn (512 * 256) (gray_raw b)) in Bb. apply Forall_app in Bb as (_ & X). exact X. }
  - intros k v w Ev Ew Hblk _. apply (proj1 (proj2 C100_carrying_blocks_of_512 k)) in Hblk. cbn [gray_raw] in Ew.
    rewrite nth_error_app1 in Ew by (rewrite Lf; exact Hblk). rewrite nth_error_firstn' in Ew by exact Hblk. assert (w = v) by congruence. subst w. rewrite Z.sub_diag. exact Ht.
Qed.

Section Halves.
Context (K : ldpc) (e : nat) (Hsh : ldpc_shape K) (Hcor : corrects K e) (E : ed25519) (HE : signature_format E) (Hk : key_pair E PRIVATE_KEY PUBLIC_KEY).
Context (M : libm b64) (HM : accurate M) (gamma : b64 -> b64) (checks : bool) (pad : list bool) (Hpad : length pad = 8%nat).
Let features_of := zernike_f64 M gamma checks.
Let one : b64 := f_of_Z Bops 1.

(** *** C100: of a picture of 512 x 512 pixels the lower half is returned as it was, *)
Theorem C100_f64_the_lower_half_of_512_is_unchanged : forall fe image result, In fe [command_line; web_page] ->
  well_formed image -> dimensions image = (512, 512)%nat ->
  watermark_image Bops K E equalize_histogram features_of checks pad image (f_of_Z Bops (depth_of fe)) one 11 = Ok result ->
  skipn (512 * 256) (get_pixels result) = skipn (512 * 256) (get_pixels image).
Proof.
  intros fe image result Hfe Hw Ed Eres. destruct C83_512_is_usable as (A & B & C & D). apply nth_error_ext. intros k. rewrite !nth_error_skipn'.
  apply (C100_f64_pixels_beyond_the_payload_are_unchanged K Hsh E HE Hk M HM gamma checks pad Hpad fe image 512 result Hfe Hw Ed A B C Eres).
  destruct (Nat.lt_ge_cases (block_of 512 (512 * 256 + k)) (carrying_blocks 512)) as [H|H]; [|exact H].
  apply (proj1 (proj2 C100_carrying_blocks_of_512 _)) in H. destruct big as (B1 & _). rewrite B1 in H. lia.
Qed.

(** and putting the lower half of any other picture in its place leaves the watermark readable: the half bins of the features decide. *)
Theorem C100_f64_the_lower_half_of_512_is_not_read : forall fe image bad, In fe [command_line; web_page] ->
  well_formed image -> dimensions image = (512, 512)%nat -> at_most_per_group e (blocks_per_codeword 512) bad ->
  (forall sel, In sel [ch1; ch2; ch3] -> carriers_withstand bad (depth_of fe) 0 (component sel image) 512) ->
  exists result, watermark_image Bops K E equalize_histogram features_of checks pad image (f_of_Z Bops (depth_of fe)) one 11 = Ok result
    /\ forall sel, In sel [ch1; ch2; ch3] -> exists features sig,
         measures equalize_histogram features_of (component sel image) 11 features
         /\ sign E (vec_i64_to_bytes (integer_parts features)) PRIVATE_KEY PUBLIC_KEY = Ok sig
         /\ forall other, gray_picture other 512 3 -> let received := spliced (component sel result) other in
            exists noised, measures equalize_histogram features_of received 11 noised
              /\ decided_by_half_bins E features noised sig
                   (authenticate_channel Bops K E equalize_histogram features_of checks received (f_of_Z Bops (depth_of fe)) one 11 3).
Proof.
  intros fe image bad Hfe Hw Ed Hbad Hwith. destruct C83_512_is_usable as (A & B & C & D).
  destruct (C100_f64_the_rest_of_the_picture_is_not_read K e Hsh Hcor E HE Hk M HM gamma checks pad Hpad fe image 512 0 bad Hfe ltac:(lia) Hw Ed A B C D Hbad Hwith) as (result & Er & Wr & Dr & H).
  exists result. split; [exact Er|]. intros sel Hsel. destruct (H sel Hsel) as (fs & sig & Hm & Es & X). exists fs, sig. split; [exact Hm|]. split; [exact Es|].
  intros other Go. cbv zeta.
  assert (G : gray_picture (component sel result) 512 3).
  { apply component_picture; [exact Wr|exact Dr|cbn in Hsel; intuition auto|exact A|reflexivity]. }
  destruct (spliced_picture (component sel result) other 0 bad ltac:(lia) G Go) as (G' & P'). exact (X _ G' P').
Qed.
End Halves.

(** ** Concrete case: a picture whose upper half is white and whose lower half is black, so that nothing could be written there *)
Definition half512 : dynimage := ImageRgba8 512 512 (repeat (255, 255, 255, 77) (512 * 256) ++ repeat (0, 0, 0, 9) (512 * 256)).
Lemma half512_wf : well_formed half512.
Proof.
  unfold well_formed, half512. cbn [dimensions get_pixels has_alpha has_color]. split; [rewrite app_length, !repeat_length; destruct big as (-> & ->); lia|]. split; [|split; discriminate].
  apply Forall_app. split; apply Forall_repeat; unfold pixel8, byte; cbn; lia.
Qed.
Lemma half512_size : dimensions half512 = (512, 512)%nat. Proof. reflexivity. Qed.
Lemma half512_pixel sel k v : In sel [ch1; ch2; ch3] -> (k < 512 * 256)%nat -> nth_error (gray_raw (component sel half512)) k = Some v -> v = 255.
Proof.
  intros Hsel Hk Ev. unfold component, half512 in Ev. cbn [gray_raw get_pixels] in Ev. rewrite map_app in Ev.
  rewrite nth_error_app1 in Ev by (rewrite map_length, repeat_length; exact Hk).
  apply nth_error_In, in_map_iff in Ev as (px & <- & Hpx). apply repeat_spec in Hpx. subst px. cbn in Hsel. destruct Hsel as [ <- |[ <- |[ <- |[]]]]; reflexivity.
Qed.
Lemma half512_carriers fe sel : In fe [command_line; web_page] -> In sel [ch1; ch2; ch3] -> carriers_withstand [] (depth_of fe) 0 (component sel half512) 512.
Proof.
  intros Hfe Hsel pixels Ep bi bj Hi Hj Hb _. right. split; [|split; [destruct Hfe as [ <- |[ <- |[]]]; [now left|now right]|lia]].
  intros p q Hp Hq.
  assert (Hg : gray_picture (component sel half512) 512 3).
  { apply component_picture; [exact half512_wf|exact half512_size|cbn in Hsel; intuition auto|reflexivity|reflexivity]. }
  destruct (gray_array _ 512 3 Hg) as (im & Eim & Him & Hc). destruct Hg as (W & H & _). rewrite W, H in Eim. assert (im = pixels) by congruence. subst im.
  destruct (block_cell pixels 512 Him bi bj p q) as (v & Ev & _); [exact Hi|exact Hj|exact Hp|exact Hq|]. unfold pixel. rewrite Ev.
  change (512 / 8)%nat with 64%nat in *. assert (Ha : (8 * bi + p < 512)%nat) by lia. assert (Hb' : (8 * bj + q < 512)%nat) by lia.
  rewrite (Hc _ _ Ha Hb') in Ev. unfold gray_pixel in Ev.
  assert (Bk : block_of 512 (512 * (8 * bi + p) + (8 * bj + q)) = (64 * bi + bj)%nat) by (rewrite block_of_pixel by exact Hb'; now rewrite !place_div8 by assumption).
  apply (half512_pixel sel _ v Hsel) in Ev; [exact Ev|]. apply (proj2 C100_carrying_blocks_of_512). rewrite Bk. exact Hb.
Qed.
Opaque half512 watermark_image.
(** Marked by either front end, its black half comes back black, and any other lower half can be put there. *)
Example C100_instance : forall fe other, In fe [command_line; web_page] -> gray_picture other 512 3 -> exists result,
  watermark_image Bops repairing_ldpc toy_ed equalize_histogram (zernike_f64 exact_libm (fun x => x) true) true (repeat false 8) half512 (f_of_Z Bops (depth_of fe)) (f_of_Z Bops 1) 11 = Ok result
  /\ skipn (512 * 256) (get_pixels result) = repeat (0, 0, 0, 9) (512 * 256)
  /\ forall sel, In sel [ch1; ch2; ch3] -> let received := spliced (component sel result) other in
     exists features noised sig,
       measures equalize_histogram (zernike_f64 exact_libm (fun x => x) true) (component sel half512) 11 features
       /\ measures equalize_histogram (zernike_f64 exact_libm (fun x => x) true) received 11 noised
       /\ decided_by_half_bins toy_ed features noised sig
            (authenticate_channel Bops repairing_ldpc toy_ed equalize_histogram (zernike_f64 exact_libm (fun x => x) true) true received (f_of_Z Bops (depth_of fe)) (f_of_Z Bops 1) 11 3).
Proof.
  intros fe other Hfe Go.
  destruct (C100_f64_the_lower_half_of_512_is_not_read repairing_ldpc 1 repairing_shape repairing_corrects toy_ed toy_format toy_keys exact_libm exact_libm_accurate (fun x => x) true (repeat false 8) eq_refl fe half512 [] Hfe half512_wf half512_size
     (fun w => Nat.le_0_l 1) (fun sel Hsel => half512_carriers fe sel Hfe Hsel)) as (result & H1 & H2).
  exists result. split; [exact H1|]. split.
  - etransitivity; [exact (C100_f64_the_lower_half_of_512_is_unchanged repairing_ldpc repairing_shape toy_ed toy_format toy_keys exact_libm exact_libm_accurate (fun x => x) true (repeat false 8) eq_refl fe half512 result Hfe half512_wf half512_size H1)|].
    Transparent half512. unfold half512. cbn [get_pixels]. rewrite skipn_app, repeat_length, Nat.sub_diag. rewrite skipn_all2 by (rewrite repeat_length; apply le_n). reflexivity.
  - intros sel Hsel. cbv zeta. destruct (H2 sel Hsel) as (fs & sig & Hm & _ & X). destruct (X other Go) as (ns & Hm' & Hv). exists fs, ns, sig. split; [exact Hm|]. split; [exact Hm'|exact Hv].
Qed.

Print Assumptions C100_f64_pixels_beyond_the_payload_are_unchanged.
Print Assumptions C100_f64_the_rest_of_the_picture_is_not_read.
Print Assumptions C100_carrying_blocks_of_512.
Print Assumptions C100_f64_the_lower_half_of_512_is_unchanged.
Print Assumptions C100_f64_the_lower_half_of_512_is_not_read.
