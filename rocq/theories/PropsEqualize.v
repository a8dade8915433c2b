(** C76, C77: histogram equalisation as the program calls it (imageproc, Equalize.v): what it computes, which changes of a picture it
    hides from the feature extractor, and which it amplifies. *)
From Coq Require Import Reals Lra.
From Flocq Require Import Core BinarySingleNaN.
From Coquelicot Require Import Complex.
From Verif Require Import Outcome Floats FloatFacts Bits ListFacts Quantization QuantProofs QuantReal QuantFloat PropsQuant Codecs CodecProofs WatermarkProofs PropsCodec
  Encoding EncodingProofs PropsEncoding Matrix MatrixFacts Haar HaarProofs HaarReal PropsHaar Stego StegoProofs StegoMarks PropsStego Embedding EmbeddingProofs EmbeddingEffect PropsEmbedding PropsEmbedding2 PropsRobust
  Signature Process ProcessProofs Toy Zernike ZernikeProofs PropsZernike PropsProcess PropsProcess2 PropsProcess3 PropsProcess4 Image PropsImage RelError PropsZernike2 PropsProcess6 Equalize EqualizeProofs.
Open Scope Z_scope.

(** ** Specification vocabulary *)
(** number of pixels that are not brighter than [v] *)
Definition not_brighter (pixels : list Z) (v : Z) : Z := Z.of_nat (length (filter (fun q => q <=? v) pixels)).
(** Two rasters of the same size in which any two pixels compare alike: one is the other seen through a strictly increasing tone curve. *)
Definition same_order (l l' : list Z) : Prop :=
  length l' = length l
  /\ forall i j, (i < length l)%nat -> (j < length l)%nat -> (nth i l 0 <= nth j l 0 <-> nth i l' 0 <= nth j l' 0).

(** ** Proofs *)
Lemma bytes_range l : bytes l -> Forall (fun v => 0 <= v <= 255) l.
Proof. intros H. eapply Forall_impl; [|exact H]. unfold byte. intros; lia. Qed.
Lemma level_in_range c n : 0 <= level_of c n <= 255.
Proof. unfold level_of, s_to_u8, clamp. destruct (s_min255 _) as [|[|]| |]; lia. Qed.

(** The function passed by the program satisfies the hypothesis on equalisation of the other theorems. *)
Theorem C76_equalisation_keeps_grey : keeps_grey equalize_histogram.
Proof.
  intros l Hl. unfold equalize_histogram. split; [apply map_length|]. unfold bytes. rewrite Forall_map. eapply Forall_impl; [|exact Hl].
  intros v Hv. rewrite equalized_level_rank; [|now apply bytes_range|unfold byte in Hv; lia]. unfold byte. pose proof (level_in_range (rank l v) (Z.of_nat (length l))). lia.
Qed.

Lemma equalize_nth l i : bytes l -> (i < length l)%nat -> nth i (equalize_histogram l) 0 = level_of (rank l (nth i l 0)) (Z.of_nat (length l)).
Proof.
  intros Hl Hi. unfold equalize_histogram. rewrite (nth_indep _ 0 (equalized_level (cumulative_histogram l) 0)) by now rewrite map_length. rewrite map_nth.
  apply equalized_level_rank; [now apply bytes_range|]. pose proof (bytes_range _ Hl) as H. rewrite Forall_forall in H. apply H, nth_In, Hi.
Qed.

(** *** C76: what equalisation computes, in binary32: 255 times the share of the pixels that are not brighter, truncated (pictures of
    at most 2^24 pixels; 2^-14 allows for the roundings) *)
Theorem C76_equalised_value_is_the_share_of_darker_pixels : forall pixels, bytes pixels -> Z.of_nat (length pixels) <= 2 ^ 24 ->
  length (equalize_histogram pixels) = length pixels
  /\ forall i, (i < length pixels)%nat ->
     let share := (IZR (not_brighter pixels (nth i pixels 0%Z)) / IZR (Z.of_nat (length pixels)))%R in
     (255 * share - 1 - / 2 ^ 14 < IZR (nth i (equalize_histogram pixels) 0%Z) <= 255 * share + / 2 ^ 14)%R.
Proof.
  intros l Hl Hn. split; [now apply C76_equalisation_keeps_grey|]. intros i Hi share. rewrite equalize_nth by assumption.
  assert (H1 : 1 <= Z.of_nat (length l) < 2 ^ 32) by lia.
  destruct (level_of_ok (rank l (nth i l 0)) (Z.of_nat (length l)) (rank_range _ _) H1) as (-> & _).
  pose proof (share32_accurate (rank l (nth i l 0)) (Z.of_nat (length l)) (rank_range _ _) ltac:(lia)) as A. apply Rabs_le_inv in A.
  replace (255 * IZR (rank l (nth i l 0%Z)) / IZR (Z.of_nat (length l)))%R with (255 * share)%R in A by (unfold share, not_brighter, rank, Rdiv; ring).
  pose proof (Zfloor_lb (share32 (rank l (nth i l 0)) (Z.of_nat (length l)))). pose proof (Zfloor_ub (share32 (rank l (nth i l 0)) (Z.of_nat (length l)))). lra.
Qed.
(** Brighter pixels stay at least as bright, and the brightest become 255. *)
Theorem C76_equalisation_is_monotone : forall pixels i j, bytes pixels -> Z.of_nat (length pixels) < 2 ^ 32 -> (i < length pixels)%nat -> (j < length pixels)%nat ->
  (nth i pixels 0 <= nth j pixels 0 -> nth i (equalize_histogram pixels) 0 <= nth j (equalize_histogram pixels) 0)
  /\ (Forall (fun v => v <= nth i pixels 0) pixels -> nth i (equalize_histogram pixels) 0 = 255).
Proof.
  intros l i j Hl Hn Hi Hj. rewrite !equalize_nth by assumption. assert (H1 : 1 <= Z.of_nat (length l) < 2 ^ 32) by lia. split.
  - intros H. apply level_of_mono; [|apply rank_range|exact H1]. split; [apply rank_range|now apply rank_mono].
  - intros H. rewrite rank_all by exact H. now apply level_of_top.
Qed.

Lemma rank_same l l' v v' : Forall2 (fun q q' => q <= v <-> q' <= v') l l' -> rank l v = rank l' v'.
Proof.
  intros H. unfold rank. f_equal. induction H as [|q q' l l' Hq _ IH]; [reflexivity|]. cbn [filter].
  destruct (Z.leb_spec q v), (Z.leb_spec q' v'); try tauto; try lia; cbn [length]; congruence.
Qed.
Lemma Forall2_nths {A B} (P : A -> B -> Prop) l l' d d' : length l' = length l -> (forall i, (i < length l)%nat -> P (nth i l d) (nth i l' d')) -> Forall2 P l l'.
Proof.
  revert l'. induction l as [|x l IH]; intros [|y l'] HL H; try discriminate; constructor.
  - exact (H 0%nat ltac:(cbn; lia)).
  - apply IH; [cbn in HL; lia|]. intros i Hi. exact (H (S i) ltac:(cbn; lia)).
Qed.
(** *** C76: only the order of the pixels matters *)
Theorem C76_order_determines_the_equalised_picture : forall pixels altered, bytes pixels -> bytes altered -> same_order pixels altered ->
  equalize_histogram altered = equalize_histogram pixels.
Proof.
  intros l l' Hl Hl' (HL & Ho). apply (nth_ext _ _ 0 0).
  - unfold equalize_histogram. rewrite !map_length. exact HL.
  - intros i Hi. unfold equalize_histogram in Hi at 1. rewrite map_length in Hi. rewrite !equalize_nth by (try assumption; lia). rewrite HL. f_equal. symmetry. apply rank_same.
    apply (Forall2_nths _ _ _ 0 0); [exact HL|]. intros j Hj. apply Ho; lia.
Qed.
Theorem C76_tone_curves_keep_the_order : forall pixels curve, (forall v w, In v pixels -> In w pixels -> v < w -> curve v < curve w) -> same_order pixels (map curve pixels).
Proof.
  intros l g Hg. split; [apply map_length|]. intros i j Hi Hj.
  rewrite (nth_indep (map g l) 0 (g 0)) by (now rewrite map_length). rewrite (nth_indep (map g l) 0 (g 0) (n := j)) by (now rewrite map_length). rewrite !map_nth.
  pose proof (nth_In l 0 Hi) as Ii. pose proof (nth_In l 0 Hj) as Ij.
  destruct (Z.lt_trichotomy (nth i l 0) (nth j l 0)) as [H|[H|H]].
  - pose proof (Hg _ _ Ii Ij H). lia.
  - rewrite H. lia.
  - pose proof (Hg _ _ Ij Ii H). lia.
Qed.

(** *** C76: the features of a channel, and hence what is signed, are those of every picture with the same order; any extractor, any
    arithmetic *)
Theorem C76_tone_curves_keep_the_features : forall {F} (features_of : array2 Z -> nat -> outcome (list F)) channel altered amount features,
  bytes (gray_raw channel) -> bytes (gray_raw altered) -> gwidth altered = gwidth channel -> gheight altered = gheight channel -> same_order (gray_raw channel) (gray_raw altered) ->
  (measures equalize_histogram features_of altered amount features <-> measures equalize_histogram features_of channel amount features).
Proof.
  intros F fo ch al amount fs Hb Hb' W H Ho. unfold measures. rewrite W, H, (C76_order_determines_the_equalised_picture _ _ Hb Hb' Ho). reflexivity.
Qed.

Lemma same_extraction_same_verdict {F} (O : FOps F) K E fo checks ch al depth step amount levels im im' :
  bytes (gray_raw ch) -> bytes (gray_raw al) -> gwidth al = gwidth ch -> gheight al = gheight ch -> same_order (gray_raw ch) (gray_raw al) ->
  from_shape_vec (gwidth ch) (gheight ch) (gray_raw ch) = Ok im -> from_shape_vec (gwidth al) (gheight al) (gray_raw al) = Ok im' ->
  extract O K im' depth levels = extract O K im depth levels ->
  authenticate_channel O K E equalize_histogram fo checks al depth step amount levels = authenticate_channel O K E equalize_histogram fo checks ch depth step amount levels.
Proof.
  intros Hb Hb' W H Ho E1 E2 Ex. unfold authenticate_channel, channel_features. rewrite E1, E2. cbn [bind]. rewrite W, H, (C76_order_determines_the_equalised_picture _ _ Hb Hb' Ho).
  destruct (from_shape_vec (gwidth ch) (gheight ch) (equalize_histogram (gray_raw ch))) as [e| |]; cbn [bind]; try reflexivity.
  destruct (fo e amount) as [fs| |]; cbn [bind]; try reflexivity. rewrite Ex. reflexivity.
Qed.
(** *** C76: a channel and the same channel through a tone curve that leaves the payload readable get the same verdict *)
Theorem C76_same_order_same_payload_same_verdict : forall {F} (O : FOps F) K E features_of checks channel altered n levels depth step amount,
  gray_picture channel n levels -> gray_picture altered n levels -> same_order (gray_raw channel) (gray_raw altered) ->
  (forall im im', from_shape_vec n n (gray_raw channel) = Ok im -> from_shape_vec n n (gray_raw altered) = Ok im' -> extract O K im' depth levels = extract O K im depth levels) ->
  authenticate_channel O K E equalize_histogram features_of checks altered depth step amount levels
  = authenticate_channel O K E equalize_histogram features_of checks channel depth step amount levels.
Proof.
  intros F O K E fo checks ch al n L depth step amount G G' Ho Hx.
  destruct (gray_array ch n L G) as (im & Eim & _). destruct (gray_array al n L G') as (im' & Eim' & _).
  pose proof G as (W & H & _ & Hb & _). pose proof G' as (W' & H' & _ & Hb' & _).
  apply (same_extraction_same_verdict O K E fo checks ch al depth step amount L im im'); try assumption; try congruence.
  apply Hx; congruence.
Qed.

(** Binary64, as compiled: watermark a channel, then move every pixel of the result by at most [t] grey levels without changing the
    order of the pixels (brighten, darken, any strictly increasing tone curve): the verdict does not change.  No assumption on features. *)
Theorem C76_f64_tone_curves_keep_the_verdict : forall K, ldpc_shape K -> ldpc_decodes K ->
  forall E, signature_format E -> key_pair E PRIVATE_KEY PUBLIC_KEY ->
  forall features_of checks pad, length pad = 8%nat ->
  forall channel n levels (depth step : b64) amount features t,
  gray_picture channel n levels -> (levels <= 10)%nat -> usable n levels -> measures equalize_histogram features_of channel amount features ->
  (checks = true -> Forall (fun q => q <> - 2 ^ 63) (quantize Bops features step)) -> (length features <= 85)%nat ->
  (stored_size n levels (payload_size (length features)) <= band_capacity n levels)%nat ->
  0 <= t -> fin depth -> (65 / 64 * 2 ^ (levels + 1) <= toR depth <= 2 ^ 20)%R -> (2 ^ levels * (IZR t + / 2 + / 1024) < (/ 4 - / 512) * toR depth)%R ->
  gray_room channel n levels (8 * stored_size n levels (payload_size (length features))) (3 * toR depth / 2 ^ (levels + 2)) ->
  exists marked, watermark_channel Bops K E equalize_histogram features_of checks pad channel depth step amount levels = Ok marked
    /\ gray_picture marked n levels
    /\ forall received, gray_picture received n levels -> changed_by_at_most marked received t -> same_order (gray_raw marked) (gray_raw received) ->
         authenticate_channel Bops K E equalize_histogram features_of checks received depth step amount levels
         = authenticate_channel Bops K E equalize_histogram features_of checks marked depth step amount levels.
Proof.
  intros K Hsh Hdec E HE Hk fo checks pad Hpad ch n L depth step amount fs t Hg HL10 Hu Hm Hq H85 Hcap Ht Fd Hd2 Hd Hroom. pose proof (proj2 Hd2) as Hd20.
  assert (Ht' : (0 <= IZR t)%R) by (apply IZR_le; exact Ht). assert (HpL : (1 <= 2 ^ L)%R) by (apply pow_R1_Rle; lra).
  assert (Hd1 : (1 <= toR depth <= 2 ^ 20)%R) by (split; [|exact Hd20]; assert (0 <= 2 ^ L * IZR t)%R by nra; rewrite Rmult_plus_distr_l, Rmult_plus_distr_l in Hd; lra).
  destruct (gray_array ch n L Hg) as (im & Eim & Him & Hcell).
  destruct (C02_f64_noiseless step fs checks Hq) as (bits & Eq & Enl). set (q := quantize Bops fs step) in *.
  destruct (quantization_inv Bops checks fs step q bits Eq) as (_ & _ & Lb).
  destruct (sign_verify E _ _ (vec_i64_to_bytes q) HE Hk) as (sig & Es & Ls & Bs & Ev).
  destruct (payload_of pad bits sig (length fs) Hpad Bs Ls Lb H85) as (pl & Ep & Bp & Lp & Edp).
  pose proof (payload_size_range _ H85) as Hsz.
  assert (Hr' : room im n L (8 * stored_size n L (length pl)) (3 * toR depth / 2 ^ (L + 2))) by (rewrite Lp; now apply (gray_room_array ch)).
  assert (Hl : (1 <= Z.of_nat (length pl) <= 65533)) by (rewrite Lp; lia). assert (Hcap' : (stored_size n L (length pl) <= band_capacity n L)%nat) by (rewrite Lp; exact Hcap).
  destruct (C31_f64_embed_then_extract_returns_the_payload K Hsh Hdec im n L depth pl Him HL10 Hu Bp Hl Hcap' Fd Hd2 Hr') as (out & Eo & Pout & _).
  destruct (array_gray out n L Pout) as (Gout & Fout). pose proof Hg as (W & H & _).
  pose proof Pout as ((Hwf & D0 & D1 & _) & _).
  exists (mkGray n n (into_raw_vec out)). split; [|split; [exact Gout|]].
  - pose proof (watermark_run Bops K E equalize_histogram fo checks pad ch im amount fs step q bits sig pl out depth L Eim Hm Eq Es Ep Eo Hwf ltac:(congruence) ltac:(congruence)) as R.
    rewrite W, H in R. exact R.
  - intros received Grc Hch Hord.
    assert (X : forall r rc, gray_picture r n L -> changed_by_at_most (mkGray n n (into_raw_vec out)) r t -> from_shape_vec n n (gray_raw r) = Ok rc -> extract Bops K rc depth L = Ok pl).
    { intros r rc Gr Hcr Erc. destruct (changed_noise _ r n L t out rc Gout Gr Hcr Fout Erc) as (Prc & Hnoise).
      exact (C63_f64_small_pixel_changes_keep_the_payload K Hsh Hdec im n L depth pl out rc t Him HL10 Hu Bp Hl Hcap' Fd Hd1 Hr' Eo Prc Hnoise Hd). }
    apply (C76_same_order_same_payload_same_verdict Bops K E fo checks _ received n L depth step amount Gout Grc Hord).
    intros a b Ea Eb. rewrite (X received b Grc Hch Eb).
    symmetry. apply (X _ a Gout); [|exact Ea]. split; [reflexivity|]. split; [reflexivity|]. clear - Ht. induction (gray_raw _) as [|v l IH]; constructor; [|exact IH]. rewrite Z.sub_diag. cbn. exact Ht.
Qed.

(** *** C77: flat pictures *)
Lemma rank_repeat_lt v w n : w < v -> rank (repeat v n) w = 0.
Proof. intros H. unfold rank. induction n as [|n IH]; [reflexivity|]. cbn [repeat filter]. destruct (Z.leb_spec v w); [lia|exact IH]. Qed.
Lemma rank_repeat_ge v w n : v <= w -> rank (repeat v n) w = Z.of_nat n.
Proof. intros H. rewrite rank_all; [now rewrite repeat_length|]. apply Forall_forall. intros x Hx. apply repeat_spec in Hx. lia. Qed.
Lemma rank_app l l' v : rank (l ++ l') v = rank l v + rank l' v.
Proof. unfold rank. rewrite filter_app, app_length. lia. Qed.
Lemma equalize_map l : bytes l -> equalize_histogram l = map (fun v => level_of (rank l v) (Z.of_nat (length l))) l.
Proof.
  intros Hl. unfold equalize_histogram. apply map_ext_in. intros v Hv. apply equalized_level_rank; [now apply bytes_range|].
  pose proof (bytes_range _ Hl) as H. rewrite Forall_forall in H. now apply H.
Qed.
Lemma map_const_repeat {A B} (f : A -> B) x n : map f (repeat x n) = repeat (f x) n.
Proof. induction n; cbn; congruence. Qed.

Lemma Forall2_repeats {A B} (P : A -> B -> Prop) a b k : P a b -> Forall2 P (repeat a k) (repeat b k).
Proof. intros H. induction k; cbn [repeat]; constructor; assumption. Qed.

Theorem C77_flat_rasters_become_white : forall v n, byte v -> Z.of_nat n < 2 ^ 32 -> equalize_histogram (repeat v n) = repeat 255 n.
Proof.
  intros v n Hv Hn. destruct n as [|n]; [reflexivity|]. rewrite equalize_map by now apply Forall_repeat. rewrite map_const_repeat, rank_repeat_ge, repeat_length by lia. rewrite level_of_top by lia. reflexivity.
Qed.
Lemma level_half m : 1 <= m -> 2 * m <= 2 ^ 24 -> level_of m (2 * m) = 127.
Proof.
  intros H1 H2. destruct (level_of_ok m (2 * m) ltac:(lia) ltac:(lia)) as (-> & _). unfold share32. rewrite !rnd32_IZR by lia.
  assert (P : (0 < IZR m)%R) by (apply IZR_lt; lia). replace (IZR m / IZR (2 * m))%R with (/ 2)%R by (rewrite mult_IZR; field; lra).
  assert (G : forall a, Z.abs a < 2 ^ 24 -> rnd32 (IZR a * / 2) = (IZR a * / 2)%R).
  { intros a Ha. apply rnd32_generic, generic_format_FLT. exists (Float radix2 a (-1)); [unfold F2R; cbn [Fnum Fexp]; simpl bpow; reflexivity|cbn [Fnum]; exact Ha|cbn [Fexp]; lia]. }
  replace (/ 2)%R with (IZR 1 * / 2)%R by lra. rewrite (G 1) by lia. replace (255 * (IZR 1 * / 2))%R with (IZR 255 * / 2)%R by lra. rewrite (G 255) by lia.
  apply Zfloor_imp. simpl. lra.
Qed.
(** Raising half of the pixels by a single grey level moves half of the equalised pixels by 128. *)
Theorem C77_equalisation_amplifies : forall v m, 0 <= v <= 254 -> (1 <= m)%nat -> 2 * Z.of_nat m <= 2 ^ 24 ->
  equalize_histogram (repeat v m ++ repeat (v + 1) m) = repeat 127 m ++ repeat 255 m.
Proof.
  intros v m Hv Hm H24. set (l := repeat v m ++ repeat (v + 1) m).
  assert (Hl : bytes l) by (apply Forall_app; split; apply Forall_repeat; unfold byte; lia).
  assert (HL : Z.of_nat (length l) = 2 * Z.of_nat m) by (unfold l; rewrite app_length, !repeat_length; lia).
  rewrite equalize_map by exact Hl. unfold l at 3. rewrite map_app, !map_const_repeat, HL. unfold l. rewrite !rank_app. rewrite (rank_repeat_ge v v), (rank_repeat_lt (v + 1) v), (rank_repeat_ge v (v + 1)), (rank_repeat_ge (v + 1) (v + 1)) by lia.
  rewrite Z.add_0_r, level_half by lia. replace (Z.of_nat m + Z.of_nat m) with (2 * Z.of_nat m) by ring. rewrite level_of_top by lia. reflexivity.
Qed.

(** Every flat channel has the same features, all zero (exact arithmetic), whatever its grey level. *)
Lemma flat_measures gamma checks n v amount : (2 <= n)%nat -> Z.of_nat (n * n) < 2 ^ 32 -> byte v -> amount_ok amount ->
  measures equalize_histogram (fun image k => calculate_features gamma checks image MomentsZernike k) (mkGray n n (repeat v (n * n))) amount (repeat 0%R amount).
Proof.
  intros Hn Hr Hv Ha. unfold measures. cbn [gwidth gheight gray_raw]. rewrite C77_flat_rasters_become_white by assumption.
  destruct (raster_array n (repeat 255 (n * n)) (repeat_length _ _) Hn) as (A & EA & SA & RA). exists A. split; [exact EA|].
  apply (C45_point_symmetric_images_have_zero_features gamma checks A n amount SA Ha). intros i j Hi Hj.
  assert (C : forall i j, (i < n)%nat -> (j < n)%nat -> cell A i j = Some 255).
  { intros a b H1 H2. destruct SA as ((WA & A0 & A1) & _). pose proof (raw_nth A a b WA ltac:(lia) ltac:(lia)) as HR. rewrite RA in HR.
    unfold pix in HR. destruct (cell A a b) as [p|] eqn:Ec.
    - apply eq_IZR in HR. rewrite <- HR. f_equal. apply nth_error_nth, nth_error_repeat. rewrite A1. nia.
    - exfalso. destruct (cell_bounds A a b WA ltac:(lia) ltac:(lia)) as (p & Ep). congruence. }
  rewrite !C by lia. reflexivity.
Qed.

Theorem C77_flat_channels_have_zero_features : forall gamma checks n v amount, (2 <= n)%nat -> Z.of_nat (n * n) < 2 ^ 32 -> byte v -> amount_ok amount ->
  measures equalize_histogram (fun image k => calculate_features gamma checks image MomentsZernike k) (mkGray n n (repeat v (n * n))) amount (repeat 0%R amount).
Proof. exact flat_measures. Qed.

(** The linear moment of a raster whose lower half is brighter by 128. *)
Lemma sumn_linear h c d : (sumn h (fun i => c * (2 * INR i - d)) = c * (INR h * (INR h - 1) - INR h * d))%R.
Proof. induction h as [|h IH]; cbn [sumn]; [simpl; ring|]. rewrite IH, S_INR. ring. Qed.

(** A change by one grey level of half of the pixels of a flat channel moves its only feature from 0 to more than 14 quantisation
    steps of the front ends (exact arithmetic, every even side up to 4096). *)
Theorem C77_one_grey_level_can_move_a_feature_by_14 : forall gamma checks h v, (1 <= h <= 2048)%nat -> 0 <= v <= 254 ->
  let n := (2 * h)%nat in
  let features_of image k := calculate_features gamma checks image MomentsZernike k in
  let flat := mkGray n n (repeat v (n * n)) in
  let edge := mkGray n n (repeat v (n * h) ++ repeat (v + 1) (n * h)) in
  changed_by_at_most flat edge 1
  /\ measures equalize_histogram features_of flat 1 [0%R]
  /\ exists x, measures equalize_histogram features_of edge 1 [x] /\ (14 < x)%R.
Proof.
  intros g checks h v Hh Hv n fo flat edge. assert (Hn : (2 <= n)%nat) by (unfold n; lia).
  assert (Hnn : Z.of_nat (n * n) <= 2 ^ 24) by (unfold n; rewrite !Nat2Z.inj_mul; nia).
  assert (Enn : (n * n = n * h + n * h)%nat) by (unfold n; lia).
  split; [|split].
  - split; [reflexivity|]. split; [reflexivity|]. unfold flat, edge. cbn [gray_raw]. rewrite Enn, repeat_app. apply Forall2_app.
    + apply Forall2_repeats. lia.
    + apply Forall2_repeats. lia.
  - apply (flat_measures g checks n v 1 Hn); [lia|unfold byte; lia|unfold amount_ok; lia].
  - unfold measures, edge. cbn [gwidth gheight gray_raw]. rewrite C77_equalisation_amplifies by (try lia; rewrite Nat2Z.inj_mul in *; nia).
    destruct (raster_array n (repeat 127 (n * h) ++ repeat 255 (n * h)) ltac:(rewrite app_length, !repeat_length; lia) Hn) as (A & EA & SA & RA).
    destruct (C44_number_and_indices_of_features g checks A 1 ltac:(unfold amount_ok; lia)) as (fs & Ef & Lf & Hf).
    { exact (proj1 (proj1 SA)). } { destruct SA as ((_ & -> & ->) & _). lia. }
    destruct (Hf 0%nat ltac:(lia)) as (z & Ez & En). destruct fs as [|x [|]]; try discriminate Lf. cbn [nth_error] in En. assert (Ex : x = Cmod z) by congruence. subst x.
    exists (Cmod z). split; [exists A; split; [exact EA|exact Ef]|].
    change (2 * 1 - 1)%nat with 1%nat in Ez. change (2 * 0 + 1)%nat with 1%nat in Ez.
    pose proof (C44_moments_are_zernike_moments g A n 1 1 SA ltac:(lia) eq_refl eq_refl ltac:(lia)) as M. cbv zeta in M. rewrite Ez in M.
    assert (Ez' : z = (fst z, snd z)) by now destruct z.
    match type of M with Ok z = Ok (?a, ?b) => assert (Fz : fst z = a) by (replace z with (a, b) by congruence; reflexivity) end. clear M Ez Ez'.
    set (N := INR n) in *. assert (HN : (2 <= N)%R) by (unfold N; change 2%R with (INR 2); now apply le_INR).
    assert (HNh : N = (2 * INR h)%R) by (unfold N, n; rewrite mult_INR; reflexivity).
    assert (Hs2 : (0 < sqrt 2 < 1415 / 1000)%R).
    { split; [apply sqrt_lt_R0; lra|]. apply Rsqr_incrst_0; [|apply sqrt_pos|lra]. unfold Rsqr. rewrite sqrt_sqrt by lra. lra. }
    assert (S : fst z = (2 / (PI * N ^ 2) * (128 * N * INR h ^ 2 / (N - 1) / sqrt 2))%R).
    { rewrite Fz. replace (INR 1 + 1)%R with 2%R by (simpl; lra). f_equal. rewrite sum_over_sumn.
      rewrite (sumn_ext _ _ (fun i => (if Nat.ltb i h then 127 else 255) * N / (N - 1) / sqrt 2 * (2 * INR i - (N - 1)))%R).
      - unfold n. replace (2 * h)%nat with (h + h)%nat by lia. rewrite sumn_plus.
        rewrite (sumn_ext h _ (fun i => 127 * N / (N - 1) / sqrt 2 * (2 * INR i - (N - 1)))%R) by (intros i Hi; cbv beta; now rewrite (proj2 (Nat.ltb_lt i h) Hi)).
        rewrite (sumn_ext h (fun k => _ * (2 * INR (h + k) - _))%R (fun i => 255 * N / (N - 1) / sqrt 2 * (2 * INR i - (N - 1 - 2 * INR h)))%R).
        2:{ intros i Hi. cbv beta. rewrite (proj2 (Nat.ltb_ge (h + i) h)) by lia. rewrite plus_INR. ring. }
        rewrite !sumn_linear. rewrite HNh. field. repeat split; lra.
      - intros i Hi. rewrite sum_over_sumn. rewrite (sumn_ext n _ (fun _ => (if Nat.ltb i h then 127 else 255) * (position n i))%R).
        + rewrite sumn_const. fold N. unfold position. fold N. field. split; lra.
        + intros j Hj. cbv beta.
          assert (Hc : cell A i j = Some (if Nat.ltb i h then 127 else 255)).
          { destruct SA as ((WA & A0 & A1) & _). destruct (cell_bounds A i j WA ltac:(lia) ltac:(lia)) as (p & Ep).
            pose proof (raw_nth A i j WA ltac:(lia) ltac:(lia)) as HR. rewrite RA in HR. unfold pix in HR. rewrite Ep in HR |- *. apply eq_IZR in HR. rewrite <- HR. f_equal. rewrite A1.
            destruct (Nat.ltb_spec i h) as [Hl|Hl].
            - rewrite app_nth1 by (rewrite repeat_length; nia). apply nth_error_nth, nth_error_repeat. nia.
            - rewrite app_nth2 by (rewrite repeat_length; nia). apply nth_error_nth, nth_error_repeat. rewrite repeat_length. nia. }
          rewrite Hc. assert (Er : radial_polynomial 1 1 (sqrt (position n i ^ 2 + position n j ^ 2)) = sqrt (position n i ^ 2 + position n j ^ 2)).
          { unfold radial_polynomial, sum_over. simpl. field. }
          rewrite Er. cbn [complex_power fst]. set (r := sqrt _).
          assert (Hp : position n i <> 0%R).
          { unfold position. fold N. intros Hz. assert (Hz2 : (2 * INR i - (N - 1) = 0)%R).
            { apply (Rmult_eq_reg_r (/ (N - 1) / sqrt 2)); [|apply Rmult_integral_contrapositive; split; apply Rinv_neq_0_compat; lra]. rewrite Rmult_0_l, <- Hz. field. split; lra. }
            rewrite HNh in Hz2. assert (E2 : (2 * Z.of_nat i - (2 * Z.of_nat h - 1) = 0)%Z) by (apply eq_IZR; rewrite !minus_IZR, !mult_IZR, <- !INR_IZR_INZ; simpl (IZR 2); simpl (IZR 0); simpl (IZR 1); exact Hz2). lia. }
          assert (Hr : (0 < r)%R) by (apply sqrt_lt_R0; assert (0 < position n i ^ 2)%R by (rewrite <- Rsqr_pow2; now apply Rsqr_pos_lt); assert (0 <= position n j ^ 2)%R by (rewrite <- Rsqr_pow2; apply Rle_0_sqr); lra).
          replace (r * (1 * (position n i / r) - 0 * (position n j / r)))%R with (position n i) by (field; lra). destruct (Nat.ltb i h); reflexivity. }
    assert (B : (14 < fst z)%R).
    { rewrite S. pose proof PI_bounds as HP.
      replace (2 / (PI * N ^ 2) * (128 * N * INR h ^ 2 / (N - 1) / sqrt 2))%R with (64 / (PI * sqrt 2) * (N / (N - 1)))%R.
      - assert (H1 : (1 <= N / (N - 1))%R) by (apply Rmult_le_reg_r with (N - 1)%R; [lra|]; unfold Rdiv; rewrite Rmult_assoc, Rinv_l by lra; lra).
        assert (Hps : (0 < PI * sqrt 2 < 4446 / 1000)%R) by (split; [apply Rmult_lt_0_compat; lra|nra]).
        assert (H2 : (14 < 64 / (PI * sqrt 2))%R) by (apply Rmult_lt_reg_r with (PI * sqrt 2)%R; [lra|]; unfold Rdiv; rewrite Rmult_assoc, Rinv_l by lra; lra).
        nra.
      - replace (INR h) with (N / 2)%R by lra. field. repeat split; lra. }
    apply Rlt_le_trans with (fst z); [exact B|]. apply Rle_trans with (Rabs (fst z)); [apply Rle_abs|]. eapply Rle_trans; [|apply Rmax_Cmod]. apply Rmax_l.
Qed.

(** *** Non-vacuity: a watermarked grey picture made two levels brighter gets the verdict of the watermarked picture *)
Opaque PropsImage.colour512 watermark_image.
Example C76_f64_instance : exists marked,
  watermark_channel Bops toy_ldpc toy_ed equalize_histogram toy_features_f64 true (repeat false 8) grey512 (f_of_Z Bops 100) (f_of_Z Bops 1) 11 3 = Ok marked
  /\ authenticate_channel Bops toy_ldpc toy_ed equalize_histogram toy_features_f64 true (mkGray 512 512 (map (Z.add 2) (gray_raw marked))) (f_of_Z Bops 100) (f_of_Z Bops 1) 11 3
     = authenticate_channel Bops toy_ldpc toy_ed equalize_histogram toy_features_f64 true marked (f_of_Z Bops 100) (f_of_Z Bops 1) 11 3.
Proof.
  pose proof grey512_picture as (_ & _ & L0 & B0 & _).
  assert (Hm : measures equalize_histogram toy_features_f64 grey512 11 (repeat (b_dyadic 5 (-1)) 11)).
  { destruct (raster_array 512 (equalize_histogram (gray_raw grey512)) ltac:(rewrite (proj1 (C76_equalisation_keeps_grey _ B0)); exact L0) ltac:(lia)) as (im & Eim & _).
    exists im. split; [exact Eim|reflexivity]. }
  destruct (b_of_Z_ok 100) as (F1 & V1); [lia|]. destruct (b_of_Z_ok 1) as (F2 & V2); [lia|].
  change (b_of_Z 100) with (f_of_Z Bops 100) in *. change (b_of_Z 1) with (f_of_Z Bops 1) in *.
  destruct (C76_f64_tone_curves_keep_the_verdict toy_ldpc toy_shape toy_decodes toy_ed toy_format toy_keys toy_features_f64 true (repeat false 8) eq_refl
              grey512 512 3 (f_of_Z Bops 100) (f_of_Z Bops 1) 11 (repeat (b_dyadic 5 (-1)) 11) 2 grey512_picture ltac:(lia) usable_512 Hm) as (mk & E1 & G & A).
  - intros _. unfold quantize. rewrite Forall_map. apply Forall_repeat. vm_compute. discriminate.
  - rewrite repeat_length. lia.
  - rewrite repeat_length. exact fits_512.
  - lia.
  - exact F1.
  - rewrite V1. simpl. lra.
  - rewrite V1. simpl. lra.
  - rewrite repeat_length. apply grey512_room. rewrite V1. simpl. lra.
  - exists mk. split; [exact E1|]. pose proof G as (W & H & Hl & Hb & Hrest).
    assert (HF : Forall (fun v => 0 <= v <= 200) (gray_raw mk)).
    { rewrite Forall_forall. intros v Hv. destruct (In_nth_error _ _ Hv) as (k & Ek).
      assert (Hk : (k < length (gray_raw grey512))%nat) by (rewrite L0, <- Hl; apply nth_error_Some; congruence).
      destruct (nth_error (gray_raw grey512) k) as [u|] eqn:Eu; [|apply nth_error_None in Eu; lia].
      assert (u = 128) by (apply nth_error_In in Eu; unfold grey512 in Eu; cbn [gray_raw] in Eu; now apply repeat_spec in Eu). subst u.
      pose proof (C67_f64_pixels_of_a_watermarked_channel _ _ _ _ _ _ _ _ _ _ _ _ _ grey512_picture ltac:(lia) F1 ltac:(rewrite V1; simpl; lra) E1 k _ _ Eu Ek) as Hp.
      rewrite V1 in Hp. simpl pow in Hp. apply Rabs_le_inv in Hp. unfold bytes in Hb. rewrite Forall_forall in Hb. pose proof (Hb v Hv) as Bv. unfold byte in Bv. split; [lia|]. apply le_IZR. lra. }
    apply A.
    + unfold gray_picture. cbn [gwidth gheight gray_raw]. split; [reflexivity|]. split; [reflexivity|]. split; [rewrite map_length; exact Hl|]. split; [|exact Hrest].
      unfold bytes. rewrite Forall_map. eapply Forall_impl; [|exact HF]. intros v Hv. cbv beta in Hv. unfold byte. clear - Hv. lia.
    + split; [cbn [gwidth]; congruence|]. split; [cbn [gheight]; congruence|]. cbn [gray_raw]. clear. induction (gray_raw mk) as [|v t IH]; constructor; [|exact IH]. lia.
    + cbn [gray_raw]. apply C76_tone_curves_keep_the_order. intros; lia.
Qed.
(** A picture, and the equalised one: 3 of 6 pixels are at most 10, 5 at most 20. *)
Example C76_equalised_example : equalize_histogram [10; 20; 10; 200; 0; 20] = [127; 212; 127; 255; 42; 212].
Proof. vm_compute. reflexivity. Qed.
Example C76_order_example : same_order [10; 20; 10; 200; 0; 20] [31; 32; 31; 33; 30; 32].
Proof.
  exact (C76_tone_curves_keep_the_order [10; 20; 10; 200; 0; 20] (fun v => if v <=? 0 then 30 else if v <=? 10 then 31 else if v <=? 20 then 32 else 33)
    ltac:(intros v w Hv Hw H; repeat (destruct Hv as [<-|Hv]; [repeat (destruct Hw as [<-|Hw]; [first [vm_compute; reflexivity|exfalso; lia]|]); destruct Hw|]); destruct Hv)).
Qed.
Example C77_flat_instance : measures equalize_histogram (fun image k => calculate_features (fun x => x) true image MomentsZernike k) grey512 11 (repeat 0%R 11).
Proof. apply (C77_flat_channels_have_zero_features (fun x => x) true 512 128 11); [lia|rewrite Nat2Z.inj_mul; reflexivity|unfold byte; lia|unfold amount_ok; lia]. Qed.
Print Assumptions C76_f64_tone_curves_keep_the_verdict.
Print Assumptions C76_equalised_value_is_the_share_of_darker_pixels.
Print Assumptions C77_one_grey_level_can_move_a_feature_by_14.
