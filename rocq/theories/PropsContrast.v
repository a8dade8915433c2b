(** Property C123: less contrast.  What the extractor reads at one depth it reads from the picture with the contrast scaled at the depth scaled likewise: a marked picture faded
    to half its contrast, every pixel rounded to a whole level, is read at half the depth; pictures from the web page may be faded to a twentieth
    (lib/sia/rust/embedding/src/lib.rs: extract; lib/sia/rust/watermarking/src/process.rs: watermark_channel, authenticate_channel). *)
From Coq Require Import Reals Lra Permutation.
From Flocq Require Import Core BinarySingleNaN.
From Verif Require Import Outcome Floats FloatFacts Bits ListFacts Quantization QuantProofs QuantReal QuantFloat PropsQuant PropsQuant2 Codecs CodecProofs WatermarkProofs PropsCodec
  Encoding EncodingProofs PropsEncoding Matrix MatrixFacts Haar HaarProofs HaarReal HaarFloat PropsHaar Stego StegoProofs StegoMarks PropsStego Embedding EmbeddingProofs EmbeddingEffect PropsEmbedding PropsEmbedding2 PropsEmbedding3 PropsRobust
  Signature Process ProcessProofs Toy Zernike ZernikeProofs PropsZernike ZernikeBound PropsZernike2 ZernikeGen PropsZernikeF64 LibmSpec LibmExact PropsZernikeAcc
  PropsProcess PropsProcess2 Image PropsImage PropsProcess3 PropsProcess4 PropsProcess5 PropsProcess6 PropsTamper Equalize PropsEqualize PropsShipped PropsShipped2 PropsInteger PropsClipping PropsClipping2 PropsRepair PropsRepair2 PropsVerdict PropsUnused PropsForged PropsBright PropsBlockwise.
Open Scope Z_scope.


(** ** Specification vocabulary *)
(** Among the first [count] blocks and outside the listed ones, [den] times the sum of every block is, up to [t] and multiples of 8 * [den] * [reading], [num] times what it was. *)
Definition sums_scaled (count : nat) (bad : list nat) (num den reading t : Z) (n : nat) (marked received : gray) : Prop :=
  forall bi bj, (bi < n / 8)%nat -> (bj < n / 8)%nat -> (n / 8 * bi + bj < count)%nat -> ~ In (n / 8 * bi + bj)%nat bad ->
    exists periods, Z.abs (den * block_sum received n bi bj - (num * block_sum marked n bi bj + 8 * den * reading * periods)) <= t.
(** All pixels multiplied by [num] / [den] and rounded to whole numbers. *)
Definition faded (num den : Z) (g : gray) : gray := mkGray (gwidth g) (gheight g) (map (fun v => (2 * num * v + den) / (2 * den)) (gray_raw g)).

(** ** Proofs *)
Lemma scaled_near num den D0 D s t r periods (b : bool) T' T : 0 < num -> 0 < den -> num * D0 = den * D -> num * (2 * D0 - 1 - s) + t <= den * (2 * D - 1) ->
  Z.abs (T' - (8 * D0 * r + (if b then 2 * D0 else - (2 * D0)))) <= 2 * D0 - 1 - s -> Z.abs (den * T - (num * T' + 8 * den * D * periods)) <= t ->
  Z.abs (T - (8 * D * (r + periods) + (if b then 2 * D else - (2 * D)))) <= 2 * D - 1.
Proof.
  intros Hn Hd E B H1 H2. set (c := if b then 2 else -2).
  replace (if b then 2 * D0 else - (2 * D0)) with (c * D0) in H1 by (unfold c; destruct b; ring). replace (if b then 2 * D else - (2 * D)) with (c * D) by (unfold c; destruct b; ring). clearbody c.
  set (e := T' - (8 * D0 * r + c * D0)) in *. set (f := den * T - (num * T' + 8 * den * D * periods)) in *. set (g := T - (8 * D * (r + periods) + c * D)).
  assert (G : den * g = num * e + f).
  { unfold g, e, f. transitivity (den * T - 8 * den * D * periods - 8 * r * (den * D) - c * (den * D)); [ring|]. rewrite <- E. ring. }
  assert (X : Z.abs (num * e) <= num * (2 * D0 - 1 - s)) by (rewrite Z.abs_mul, (Z.abs_eq num) by lia; apply Z.mul_le_mono_nonneg_l; lia).
  assert (Y : Z.abs (den * g) <= den * (2 * D - 1)) by lia. rewrite Z.abs_mul, (Z.abs_eq den) in Y by lia. clear - Y Hd. apply Z.mul_le_mono_pos_l in Y; assumption.
Qed.
Lemma scaled_extract : forall K e, ldpc_shape K -> corrects K e ->
  forall received image marked n depth reading num den payload s t bad, 1 <= depth <= 4096 -> 1 <= reading <= 4096 -> 0 < num -> 0 < den -> num * depth = den * reading -> num * (2 * depth - 1 - s) + t <= den * (2 * reading - 1) ->
  picture image n 3 -> embed Bops K image payload (f_of_Z Bops depth) 3 = Ok marked -> picture received n 3 -> usable n 3 -> bytes payload -> 1 <= Z.of_nat (length payload) <= 65533 ->
  (stored_size n 3 (length payload) <= band_capacity n 3)%nat -> at_most_per_group e (blocks_per_codeword n) bad ->
  (forall bi bj, (bi < n / 8)%nat -> (bj < n / 8)%nat -> (n / 8 * bi + bj < 8 * stored_size n 3 (length payload))%nat -> ~ In (n / 8 * bi + bj)%nat bad ->
     withstands depth s image bi bj /\ exists periods, Z.abs (den * block_total received 3 bi bj - (num * block_total marked 3 bi bj + 8 * den * reading * periods)) <= t) ->
  extract Bops K received (f_of_Z Bops reading) 3 = Ok payload.
Proof.
  intros K e Hsh Hcor rc m out n D0 D num den payload s t bad HD0 HD Hnum Hden Hnd Hbudget Hp Eo Prc (Hcod & Hmod) Hb Hl Hfit Hbad Hw. pose proof Prc as (Hrc & H8r). pose proof (corrects_decodes K e Hsh Hcor) as Hdec.
  destruct (b_of_Z_ok D) as (Fd & Vd); [lia|]. change (b_of_Z D) with (f_of_Z Bops D) in *.
  assert (D1 : (1 <= IZR D)%R) by (apply (IZR_le 1); lia). assert (D2 : (IZR D <= 4096)%R) by (apply (IZR_le _ 4096); lia).
  assert (Hd' : (bpow radix2 (- (0)) <= toR (f_of_Z Bops D) <= bpow radix2 20)%R) by (rewrite Vd; simpl bpow; lra).
  destruct (extract_payload Bops K rc n 3 (f_of_Z Bops D) payload Hrc Hsh Hdec Hcod Hmod Hb Hl Hfit) as (ser & enc & E1 & E2 & E3 & E4 & E5 & E6 & _).
  destruct (extract_run Bops K rc n 3 (f_of_Z Bops D) Hrc E5) as (C & Hdom & C0 & C1 & GC & EX). pose proof (carrier_band rc n 3 Hrc) as (Hsn & Hrep & Hdiv & _).
  pose proof (read_ok Bops (f_of_Z Bops D) (band n 3) C Hrep Hdom) as Erd. set (got := map _ _) in Erd.
  destruct (read_bits Bops (f_of_Z Bops D) (band n 3) C _ Hrep Hdom Erd) as (Ll & Hbits). pose proof (read_bytes Bops (f_of_Z Bops D) (band n 3) C _ Hrep Hdom Erd) as Bgot.
  clearbody got.
  assert (Hs0 : (0 < band n 3)%nat) by (destruct (band n 3); [cbn in E5; lia|lia]).
  assert (Good : forall k, (k < 8 * length enc)%nat -> ~ In k bad -> payload_bit enc k = payload_bit got k).
  { intros k Hk Hin. rewrite <- (nth_bits got), Hbits by lia.
    destruct (used_cell n 3 enc k Hs0 Hk E3) as (_ & Hk2). destruct (place_lt (band n 3) k Hs0 Hk2) as (P1 & P2).
    assert (PI : (n / 8 * (k / band n 3) + k mod band n 3 = k)%nat) by (change (n / 8)%nat with (band n 3); pose proof (Nat.div_mod k (band n 3) ltac:(lia)); lia).
    rewrite cell_bit_get by assumption. rewrite GC.
    assert (HA : approx n n (bpow radix2 (-24)) (transform Bops false n n 3 (get Bops (mapv (f_of_Z Bops) rc))) (transR false n n 3 (pixR rc))).
    { destruct Hrc as (_ & X0 & X1 & _). pose proof (pixR_bounded rc H8r) as Hbd. pose proof (pix_float rc H8r) as Hpx. rewrite X0, X1 in *. apply analysis_float; try assumption. lia. }
    destruct (HA (k / band n 3)%nat (k mod band n 3)%nat ltac:(lia) ltac:(lia)) as (FC & HC). rewrite coefficient_eq in HC by assumption. rewrite coefficient_sum in HC.
    assert (Hk8 : (n / 8 * (k / band n 3) + k mod band n 3 < 8 * length enc)%nat) by (rewrite PI; exact Hk).
    assert (Hk9 : (n / 8 * (k / band n 3) + k mod band n 3 < 8 * stored_size n 3 (length payload))%nat) by (unfold stored_size, band_capacity; fold (band n 3); rewrite <- E6; exact Hk8).
    assert (Hin' : ~ In (n / 8 * (k / band n 3) + k mod band n 3)%nat bad) by (rewrite PI; exact Hin).
    destruct (Hw _ _ P1 P2 Hk9 Hin') as (Hwi & periods & Hn).
    destruct (marked_sum K m n D0 payload out HD0 Hp Eo) as (ser' & enc' & E1' & E2' & HS).
    assert (ser' = ser) by congruence. subst ser'. unfold band_capacity in E2'. fold (band n 3) in E2'. assert (enc' = enc) by congruence. subst enc'.
    destruct (HS (k / band n 3)%nat (k mod band n 3)%nat s P1 P2 Hk8 Hwi) as (r & Hr). rewrite PI in Hr.
    pose proof (block_sum_range rc (k / band n 3) (k mod band n 3) H8r) as HT.
    revert HC Hr Hn HT. generalize (block_total rc 3 (k / band n 3) (k mod band n 3)) (block_total out 3 (k / band n 3) (k mod band n 3)). intros T T' HC Hr Hn HT.
    assert (Near : Z.abs (T - (8 * D * (r + periods) + (if payload_bit enc k then 2 * D else - (2 * D)))) <= 2 * D - 1).
    { apply (scaled_near num den D0 D s t r periods (payload_bit enc k) T' T Hnum Hden Hnd Hbudget Hr Hn). }
    destruct (bit_read_near D (r + periods) (payload_bit enc k) T ltac:(lia) Near) as (B1 & B2).
    rewrite (bit_of_sum D _ T HD HT B2 FC HC). symmetry. exact B1. }
  set (cap := (band n 3 * band n 3 / 8)%nat) in *.
  assert (Lf : length (firstn (length enc) got) = length enc) by (rewrite firstn_length; lia).
  assert (Bf : bytes (firstn (length enc) got) /\ bytes (skipn (length enc) got)) by (apply Forall_app; rewrite firstn_skipn; exact Bgot). destruct Bf as (Bf & Bt).
  destruct (data_roundtrip payload [] ltac:(lia)) as (ser' & Eser & Lser & Hrt). rewrite app_nil_r in Hrt. assert (ser' = ser) by congruence. subst ser'.
  assert (Bser : bytes ser).
  { rewrite data_serialize_ok in Eser by lia. assert (E : ser = u16_to_le (Z.of_nat (length payload)) ++ payload) by congruence.
    rewrite E. apply Forall_app. split; [apply le_bytes_bytes|exact Hb]. }
  change (band_capacity n 3) with cap in *.
  assert (Hcw : codeword_size cap <> 0%nat).
  { intros E0. destruct (code_cases cap) as [(_ & c & _ & En & _)|(N & _)]; [|contradiction]. pose proof (n_pos c). lia. }
  rewrite EX, Erd. cbn [bind]. rewrite <- (firstn_skipn (length enc) got).
  rewrite (C89_wrong_bits_are_repaired K e Hsh Hcor cap ser enc (firstn (length enc) got) (skipn (length enc) got) bad Hcod Bser Bf Bt); [exact Hrt|lia| |exact E2| |].
  - rewrite skipn_length, Ll, E6. apply Nat.mod_divides in Hmod as (q & Hq); [|exact Hcw].
    set (p := ((length payload + 4 + message_size cap - 1) / message_size cap)%nat) in *.
    rewrite Hq at 1. replace (codeword_size cap * q - p * codeword_size cap)%nat with ((q - p) * codeword_size cap)%nat by nia. apply Nat.mod_mul. exact Hcw.
  - split; [now rewrite Lf|]. intros k Hk Hin. rewrite (Good k Hk Hin). rewrite <- (firstn_skipn (length enc) got) at 1. rewrite payload_bit_app, Lf.
    now rewrite (proj2 (Nat.ltb_lt _ _) Hk).
  - exact Hbad.
Qed.


Section Scaled.
Context (K : ldpc) (e : nat) (Hsh : ldpc_shape K) (Hcor : corrects K e) (E : ed25519) (HE : signature_format E) (Hk : key_pair E PRIVATE_KEY PUBLIC_KEY).
Context (M : libm b64) (HM : accurate M) (gamma : b64 -> b64) (checks : bool) (pad : list bool) (Hpad : length pad = 8%nat).
Let features_of := zernike_f64 M gamma checks.
Let one : b64 := f_of_Z Bops 1.

Lemma scaled_channel depth channel n bad s : 1 <= depth <= 4096 -> gray_picture channel n 3 -> side_ok n -> usable n 3 ->
  (stored_size n 3 (payload_size 11) <= band_capacity n 3)%nat -> at_most_per_group e (blocks_per_codeword n) bad ->
  blocks_withstand (8 * stored_size n 3 (payload_size 11)) bad depth s channel n ->
  exists marked features quantised bits sig,
    watermark_channel Bops K E equalize_histogram features_of checks pad channel (f_of_Z Bops depth) one 11 3 = Ok marked
    /\ measures equalize_histogram features_of channel 11 features
    /\ three_bit_quantization Bops checks features one = Ok (quantised, bits)
    /\ sign E (vec_i64_to_bytes quantised) PRIVATE_KEY PUBLIC_KEY = Ok sig
    /\ gray_picture marked n 3
    /\ forall received reading num den t, gray_picture received n 3 -> 1 <= reading <= 4096 -> 0 < num -> 0 < den -> num * depth = den * reading -> num * (2 * depth - 1 - s) + t <= den * (2 * reading - 1) ->
         sums_scaled (8 * stored_size n 3 (payload_size 11)) bad num den reading t n marked received ->
         shows_watermark K received (f_of_Z Bops reading) 3 (mkWatermark bits sig WATERMARK_TEXT).
Proof.
  intros HD Hg Hs Hu Hcap Hbad Hwith. pose proof (usable_side n 3 Hu) as Hn.
  destruct (gray_array channel n 3 Hg) as (im & Eim & Him & _). pose proof Hg as (W & H & _).
  destruct (measured_exists M HM gamma checks channel n 3 11 Hg Hn Hs ltac:(lia)) as (fs & Hm).
  destruct (measured_1000 M HM gamma checks channel n 3 11 fs Hg Hn Hs ltac:(lia) Hm) as (Lf & Bf).
  destruct unit_one as (F1 & V1). fold one in F1, V1.
  assert (N1 : no_overflow Bops one checks fs).
  { apply (no_overflow_float one (unit_ordinary one V1)). eapply Forall_impl; [|exact (bounded_29 _ Bf)]. intros x (Fx & Bx). split; [exact Fx|]. rewrite V1. apply Rle_trans with (1 := Bx). simpl. lra. }
  pose proof (quantization_ok Bops one checks fs N1) as Eq. set (q := quantize Bops fs one) in *. set (bits := flat_map (bits3 Bops one) fs) in *.
  destruct (quantization_inv Bops checks fs one q bits Eq) as (_ & _ & Lb).
  destruct (sign_verify E _ _ (vec_i64_to_bytes q) HE Hk) as (sig & Es & Ls & Bs & Ev).
  destruct (payload_of pad bits sig (length fs) Hpad Bs Ls Lb ltac:(lia)) as (pl & Ep & Bp & Lp & Edp). rewrite Lf in Lp.
  pose proof (payload_size_range 11 ltac:(lia)) as Hsz.
  assert (Eim' : from_shape_vec n n (gray_raw channel) = Ok im) by congruence.
  destruct (C89_f64_destroyed_blocks_are_repaired K e Hsh Hcor im n depth pl s bad HD Him Hu Bp) as (out & Eo & Po & _); [rewrite Lp; lia|rewrite Lp; exact Hcap|exact Hbad|intros bi bj Hi Hj Hlt Hin; rewrite Lp in Hlt; exact (Hwith im Eim' bi bj Hi Hj Hlt Hin)|].
  destruct (array_gray out n 3 Po) as (Gout & Fout). pose proof Po as ((Hwf & D0 & D1 & _) & _).
  exists (mkGray n n (into_raw_vec out)), fs, q, bits, sig. split.
  { pose proof (watermark_run Bops K E equalize_histogram features_of checks pad channel im 11 fs one q bits sig pl out (f_of_Z Bops depth) 3 Eim Hm Eq Es Ep Eo Hwf ltac:(congruence) ltac:(congruence)) as R.
    rewrite W, H in R. exact R. }
  split; [exact Hm|]. split; [exact Eq|]. split; [exact Es|]. split; [exact Gout|].
  intros received reading num den t Grc Hrd Hnum Hden Hnd Hbudget Hkept. destruct (gray_array received n 3 Grc) as (rc & Erc & Prc & _). pose proof Grc as (W' & H' & _).
  assert (Erc' : from_shape_vec n n (gray_raw received) = Ok rc) by congruence.
  exists rc, pl. split; [exact Erc|]. split; [|exact Edp].
  apply (scaled_extract K e Hsh Hcor rc im out n depth reading num den pl s t bad HD Hrd Hnum Hden Hnd Hbudget Him Eo Prc Hu Bp); [rewrite Lp; lia|rewrite Lp; exact Hcap|exact Hbad|].
  intros bi bj Hi Hj Hlt Hin. rewrite Lp in Hlt. split; [exact (Hwith im Eim' bi bj Hi Hj Hlt Hin)|]. destruct (Hkept bi bj Hi Hj Hlt Hin) as (periods & Hp). exists periods.
  rewrite (block_sum_total received n rc bi bj Grc Erc' Hi Hj), (block_sum_total _ n out bi bj Gout Fout Hi Hj). exact Hp.
Qed.

(** *** C123: either front end, any received picture with (nearly) proportional sums *)
Theorem C123_f64_scaled_sums_are_read_at_the_scaled_depth : forall fe image n s bad, In fe [command_line; web_page] ->
  well_formed image -> dimensions image = (n, n) -> (n mod 8 = 0)%nat -> side_ok n -> usable n 3 ->
  (stored_size n 3 (payload_size 11) <= band_capacity n 3)%nat -> at_most_per_group e (blocks_per_codeword n) bad ->
  (forall sel, In sel [ch1; ch2; ch3] -> blocks_withstand (8 * stored_size n 3 (payload_size 11)) bad (depth_of fe) s (component sel image) n) ->
  exists result, watermark_image Bops K E equalize_histogram features_of checks pad image (f_of_Z Bops (depth_of fe)) one 11 = Ok result
    /\ well_formed result /\ dimensions result = (n, n)
    /\ forall sel, In sel [ch1; ch2; ch3] -> exists features w,
         measures equalize_histogram features_of (component sel image) 11 features
         /\ sign E (vec_i64_to_bytes (integer_parts features)) PRIVATE_KEY PUBLIC_KEY = Ok (Codecs.signature w)
         /\ forall received reading num den t, gray_picture received n 3 -> 1 <= reading <= 4096 -> 0 < num -> 0 < den -> num * depth_of fe = den * reading -> num * (2 * depth_of fe - 1 - s) + t <= den * (2 * reading - 1) ->
              sums_scaled (8 * stored_size n 3 (payload_size 11)) bad num den reading t n (component sel result) received -> reads_and_judges K E M gamma checks reading features w received.
Proof.
  intros fe image n s bad Hfe Hw Ed Hm8 Hs Hu Hcap Hbad Hwith. pose proof (usable_side n 3 Hu) as Hn.
  assert (Hr : Z.of_nat (n * n) < 2 ^ 53) by (unfold side_ok in Hs; rewrite Nat2Z.inj_mul; nia).
  assert (Hd : 1 <= depth_of fe <= 4096) by (destruct Hfe as [ <- |[ <- |[]]]; cbn; lia).
  assert (Gc : forall sel, In sel [ch1; ch2; ch3] -> gray_picture (component sel image) n 3).
  { intros sel Hsel. apply component_picture; auto. cbn in Hsel. intuition auto. }
  assert (Ch : forall sel, In sel [ch1; ch2; ch3] -> exists marked features w,
    watermark_channel Bops K E equalize_histogram features_of checks pad (component sel image) (f_of_Z Bops (depth_of fe)) one 11 3 = Ok marked
    /\ measures equalize_histogram features_of (component sel image) 11 features
    /\ sign E (vec_i64_to_bytes (integer_parts features)) PRIVATE_KEY PUBLIC_KEY = Ok (Codecs.signature w)
    /\ forall received reading num den t, gray_picture received n 3 -> 1 <= reading <= 4096 -> 0 < num -> 0 < den -> num * depth_of fe = den * reading -> num * (2 * depth_of fe - 1 - s) + t <= den * (2 * reading - 1) ->
              sums_scaled (8 * stored_size n 3 (payload_size 11)) bad num den reading t n marked received -> reads_and_judges K E M gamma checks reading features w received).
  { intros sel Hsel. destruct (scaled_channel (depth_of fe) (component sel image) n bad s Hd (Gc sel Hsel) Hs Hu Hcap Hbad (Hwith sel Hsel)) as (mk & fs & q & bits & sig & Em & Hm & Eq & Es & Gm & Sh).
    assert (V : forall received reading, gray_picture received n 3 -> shows_watermark K received (f_of_Z Bops reading) 3 (mkWatermark bits sig WATERMARK_TEXT) ->
            exists noised, measures equalize_histogram features_of received 11 noised
              /\ decided_by_half_bins E fs noised sig
                   (authenticate_channel Bops K E equalize_histogram features_of checks received (f_of_Z Bops reading) one 11 3)).
    { intros received reading Grc Hsh'.
      exact (proj2 (C99_f64_the_verdict_whenever_the_watermark_is_read K E HE Hk M HM gamma checks (component sel image) received n n 3 3 (f_of_Z Bops reading) 3 11 fs q bits sig WATERMARK_TEXT
        (Gc sel Hsel) Hs Hn Grc Hs Hn ltac:(lia) Hm Eq Es Hsh')). }
    assert (Q : q = integer_parts fs).
    { destruct (measured_1000 M HM gamma checks (component sel image) n 3 11 fs (Gc sel Hsel) Hn Hs ltac:(lia) Hm) as (_ & Bf). destruct unit_one as (F1 & V1). fold one in F1, V1.
      assert (N1 : no_overflow Bops one checks fs).
      { apply (no_overflow_float one (unit_ordinary one V1)). eapply Forall_impl; [|exact (bounded_29 _ Bf)]. intros x (Fx & Bx). split; [exact Fx|]. rewrite V1. apply Rle_trans with (1 := Bx). simpl. lra. }
      pose proof (quantization_ok Bops one checks fs N1) as Eq'. assert (q = quantize Bops fs one) by congruence. subst q. unfold quantize, integer_parts.
      apply map_ext_in. intros x Hin. pose proof (bounded_29 _ Bf) as B29. rewrite Forall_forall in B29. destruct (B29 x Hin) as (Fx & Bx). apply (unit_halves one x F1 V1 Fx).
      apply Rle_trans with (1 := Bx). apply bpow_le. lia. }
    exists mk, fs, (mkWatermark bits sig WATERMARK_TEXT). split; [exact Em|]. split; [exact Hm|].
    split; [rewrite <- Q; exact Es|]. intros received reading num den t Grc A1 A2 A3 A4 A5 Hpa. pose proof (Sh received reading num den t Grc A1 A2 A3 A4 A5 Hpa) as S. split; [exact S|]. exact (V received reading Grc S). }
  destruct (Ch ch1) as (red & f1 & s1 & Er & Ar); [cbn; tauto|]. destruct (Ch ch2) as (green & f2 & s2 & Eg & Ag); [cbn; tauto|].
  destruct (Ch ch3) as (blue & f3 & s3 & Eb & Ab); [cbn; tauto|].
  destruct (C42_watermark_returns_iff_the_channels_do b64 Bops K E equalize_histogram features_of checks pad image (f_of_Z Bops (depth_of fe)) one 11) as (_ & (_ & Ret)).
  destruct Ret as (result & Eres); [split; [eauto|intros _; split; eauto]|]. exists result. split; [exact Eres|].
  destruct (C42_watermark_preserves_size_layout_and_alpha K E equalize_histogram features_of checks pad image (f_of_Z Bops (depth_of fe)) one 11 result Hw Eres) as (X1 & X2 & X3 & X4 & X5 & X6 & H1 & H2 & H3).
  split; [assumption|]. split; [congruence|].
  intros sel Hsel. cbn in Hsel. destruct Hsel as [ <- |[ <- |[ <- |[]]]].
  + assert (red = component ch1 result) by congruence. subst red. exists f1, s1. exact Ar.
  + assert (green = component ch2 result) by congruence. subst green. exists f2, s2. exact Ag.
  + assert (blue = component ch3 result) by congruence. subst blue. exists f3, s3. exact Ab.
Qed.
End Scaled.

(** ** Faded pictures *)
Section Faded.
Variables (num den : Z) (g : gray) (n : nat).
Hypothesis Hnd : 0 < num <= den.
Hypothesis Hg : gray_picture g n 3.
Let f (v : Z) : Z := (2 * num * v + den) / (2 * den).
Lemma fade_near v : 2 * num * v - den <= 2 * den * f v <= 2 * num * v + den.
Proof. unfold f. pose proof (Z.div_mod (2 * num * v + den) (2 * den) ltac:(lia)). pose proof (Z.mod_pos_bound (2 * num * v + den) (2 * den) ltac:(lia)). lia. Qed.
Lemma faded_picture : gray_picture (faded num den g) n 3.
Proof.
  destruct Hg as (A1 & A2 & A3 & Hb & A4). unfold gray_picture, faded in *. cbn [gwidth gheight gray_raw] in *. rewrite map_length. repeat (split; [first [exact A1|exact A2|exact A3]|]). split; [|exact A4].
  unfold bytes in *. rewrite Forall_map. eapply Forall_impl; [|exact Hb]. intros v Hv. unfold byte in *. split; [apply Z.div_pos; nia|]. apply Z.div_lt_upper_bound; nia.
Qed.
Lemma faded_sum bi bj : Z.abs (den * block_sum (faded num den g) n bi bj - num * block_sum g n bi bj) <= 32 * den.
Proof.
  rewrite !block_sum_dsum. set (v := fun p q => nth (n * (8 * bi + p) + (8 * bj + q)) (gray_raw g) 0).
  rewrite (PropsClipping.dsum_ext _ (fun p q => f (v p q))).
  2: { intros p q _ _. unfold v, faded. cbn [gray_raw]. change (fun v0 => (2 * num * v0 + den) / (2 * den)) with f. rewrite <- (map_nth f). f_equal. unfold f. symmetry. apply Z.div_small. lia. }
  change (PropsClipping.dsum (fun p q => nth (n * (8 * bi + p) + (8 * bj + q)) (gray_raw g) 0)) with (PropsClipping.dsum v).
  pose proof (PropsClipping.dsum_le (fun p q => 2 * den * f (v p q) + 0 * 0 + 0) (fun p q => 2 * num * v p q + 0 * 0 + den)) as U. rewrite !PropsClipping.dsum_lin in U.
  pose proof (PropsClipping.dsum_le (fun p q => 2 * num * v p q + 0 * 0 + - den) (fun p q => 2 * den * f (v p q) + 0 * 0 + 0)) as L. rewrite !PropsClipping.dsum_lin in L.
  assert (U' := U ltac:(intros p q _ _; pose proof (fade_near (v p q)); lia)). assert (L' := L ltac:(intros p q _ _; pose proof (fade_near (v p q)); lia)). clear U L.
  set (A := PropsClipping.dsum (fun p q => f (v p q))) in *. set (B := PropsClipping.dsum v) in *. change (PropsClipping.dsum (fun p q => v p q)) with B in *. clearbody A B. lia.
Qed.
End Faded.

(** The smallest depth at which a faded picture of the front end is still sure to be read. *)
Definition faintest (fe : front_end) : Z := if depth_of fe =? 100 then 20 else 18.

Section Small.
Context (K : ldpc) (Hsh : ldpc_shape K) (Hdec : ldpc_decodes K) (E : ed25519) (HE : signature_format E) (Hk : key_pair E PRIVATE_KEY PUBLIC_KEY).
Context (M : libm b64) (HM : accurate M) (gamma : b64 -> b64) (checks : bool) (pad : list bool) (Hpad : length pad = 8%nat).
Let features_of := zernike_f64 M gamma checks.
Let one : b64 := f_of_Z Bops 1.

(** *** C123: pictures of the command line may be faded to a fifth of their contrast, pictures of the web page to 18/500; the depth that reads them is faded alike. *)
Theorem C123_f64_faded_pictures_are_read_at_the_faded_depth : forall fe image n, In fe [command_line; web_page] ->
  well_formed image -> dimensions image = (n, n) -> (n mod 8 = 0)%nat -> side_ok n -> usable n 3 ->
  (stored_size n 3 (payload_size 11) <= band_capacity n 3)%nat -> colours_within (margin_of fe) image ->
  exists result, watermark_image Bops K E equalize_histogram features_of checks pad image (f_of_Z Bops (depth_of fe)) one 11 = Ok result
    /\ forall sel, In sel [ch1; ch2; ch3] -> exists features w,
         measures equalize_histogram features_of (component sel image) 11 features
         /\ sign E (vec_i64_to_bytes (integer_parts features)) PRIVATE_KEY PUBLIC_KEY = Ok (Codecs.signature w)
         /\ forall reading, faintest fe <= reading <= depth_of fe ->
              reads_and_judges K E M gamma checks reading features w (faded reading (depth_of fe) (component sel result)).
Proof.
  intros fe image n Hfe Hw Ed Hm8 Hs Hu Hcap Hcol. pose proof (usable_side n 3 Hu) as Hn.
  assert (Hr : Z.of_nat (n * n) < 2 ^ 53) by (unfold side_ok in Hs; rewrite Nat2Z.inj_mul; nia).
  destruct (C123_f64_scaled_sums_are_read_at_the_scaled_depth K 0 Hsh (decodes_corrects K Hsh Hdec) E HE Hk M HM gamma checks pad Hpad fe image n (2 * depth_of fe - 33) [] Hfe Hw Ed Hm8 Hs Hu Hcap)
    as (result & Er & Wr & Dr & Hv).
  { intros w; cbn; lia. }
  { intros sel Hsel. now apply (margin_withstands fe image n). }
  exists result. split; [exact Er|]. intros sel Hsel. destruct (Hv sel Hsel) as (fs & w & H1 & H2 & H3). exists fs, w. split; [exact H1|]. split; [exact H2|]. intros reading Hrd.
  assert (Gr : gray_picture (component sel result) n 3) by (apply component_picture; auto; cbn in Hsel; intuition auto).
  assert (B : 18 <= reading <= depth_of fe /\ depth_of fe <= 4096 /\ 32 * reading + 33 * depth_of fe <= 2 * depth_of fe * reading).
  { destruct Hfe as [ <- |[ <- |[]]]; cbn [faintest depth_of command_line web_page Z.eqb Pos.eqb] in *; vm_compute (faintest _) in Hrd; lia. }
  destruct B as (B1 & B2 & B3). apply (H3 _ reading reading (depth_of fe) (32 * depth_of fe)); try lia.
  - apply faded_picture; [lia|exact Gr].
  - intros bi bj _ _ _ _. exists 0. rewrite Z.mul_0_r, Z.add_0_r. apply faded_sum. lia.
Qed.
End Small.

(** ** The hypotheses are met: half the contrast, for both front ends; and a fifth (command line), 18/500 (web page). *)
Opaque colour512 watermark_image.
Example C123_instance : forall fe reading, In (fe, reading) [(command_line, 50); (command_line, 20); (web_page, 250); (web_page, 18)] -> exists result,
  watermark_image Bops toy_ldpc toy_ed equalize_histogram (zernike_f64 exact_libm (fun x => x) true) true (repeat false 8) colour512 (f_of_Z Bops (depth_of fe)) (f_of_Z Bops 1) 11 = Ok result
  /\ forall sel, In sel [ch1; ch2; ch3] -> exists features w, reads_and_judges toy_ldpc toy_ed exact_libm (fun x => x) true reading features w (faded reading (depth_of fe) (component sel result)).
Proof.
  intros fe reading Hin. destruct C83_512_is_usable as (A & B & C & D).
  assert (Ed : dimensions colour512 = (512, 512)%nat) by reflexivity.
  assert (Hfe : In fe [command_line; web_page] /\ faintest fe <= reading <= depth_of fe).
  { cbn [In] in Hin. destruct Hin as [X|[X|[X|[X|[]]]]]; injection X as <- <-; (split; [cbn; tauto|vm_compute; split; discriminate]). }
  destruct Hfe as (Hfe & Hrd).
  assert (Hcol : colours_within (margin_of fe) colour512).
  { Transparent colour512. unfold colours_within, colour512. cbn [get_pixels]. apply Forall_forall. intros p Hp. apply repeat_spec in Hp. subst p.
    intros sel Hsel. cbn in Hsel. destruct Hfe as [ <- |[ <- |[]]]; destruct Hsel as [ <- |[ <- |[ <- |[]]]]; cbn [margin_of command_line web_page ch1 ch2 ch3]; lia. }
  Opaque colour512.
  destruct (C123_f64_faded_pictures_are_read_at_the_faded_depth toy_ldpc toy_shape toy_decodes toy_ed toy_format toy_keys exact_libm exact_libm_accurate (fun x => x) true (repeat false 8) eq_refl fe colour512 512 Hfe colour512_wf Ed A B C D Hcol)
    as (result & H1 & Hv).
  exists result. split; [exact H1|]. intros sel Hsel. destruct (Hv sel Hsel) as (fs & w & _ & _ & H). exists fs, w. apply H. exact Hrd.
Qed.

Print Assumptions C123_f64_scaled_sums_are_read_at_the_scaled_depth.
Print Assumptions C123_f64_faded_pictures_are_read_at_the_faded_depth.
