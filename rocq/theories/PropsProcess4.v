(** Property C67: end-to-end authentication with the Zernike features of the program, without hypotheses about the features
    (lib/sia/rust/watermarking/src/process.rs with lib/sia/rust/zernike/src). *)
From Coq Require Import Reals Lra.
From Flocq Require Import Core BinarySingleNaN.
From Verif Require Import Outcome Floats FloatFacts Bits ListFacts Quantization QuantProofs QuantReal QuantFloat PropsQuant Codecs CodecProofs WatermarkProofs PropsCodec
  Encoding EncodingProofs PropsEncoding Matrix MatrixFacts Haar HaarProofs HaarReal PropsHaar Stego StegoProofs StegoMarks PropsStego Embedding EmbeddingProofs EmbeddingEffect PropsEmbedding PropsEmbedding2 PropsRobust
  Signature Process ProcessProofs Toy Zernike ZernikeProofs PropsZernike ZernikeBound PropsZernike2 PropsProcess PropsProcess2 Image PropsImage PropsProcess3.
Open Scope Z_scope.

(** ** Specification vocabulary *)
(** The histogram equalisation of imageproc maps grey values to grey values, pixel by pixel. *)
Definition keeps_grey (equalize : list Z -> list Z) : Prop := forall l, bytes l -> length (equalize l) = length l /\ bytes (equalize l).
(** Mean of |after - before - c| over the pixels of two rasters. *)
Definition mean_raster_change (before after : list Z) (c : R) : R :=
  (sum_over (length before) (fun p => Rabs (IZR (nth p after 0%Z) - IZR (nth p before 0%Z) - c)) / INR (length before))%R.

(** ** helpers *)
Lemma raster_array n l : length l = (n * n)%nat -> (2 <= n)%nat -> exists image, from_shape_vec n n l = Ok image /\ square_image image n /\ into_raw_vec image = l.
Proof.
  intros Hl Hn. unfold from_shape_vec. rewrite Hl, Nat.eqb_refl. eexists. split; [reflexivity|]. split; [|].
  - split; [|exact Hn]. split; [|split; reflexivity]. split; cbn [rows dim0 dim1]; [apply split_rows_length|now apply split_rows_wf].
  - unfold into_raw_vec. cbn [rows]. now apply split_rows_concat.
Qed.
Lemma mean_raster A B n c : square_image A n -> square_image B n -> (2 <= n)%nat ->
  mean_change A B n c = mean_raster_change (into_raw_vec A) (into_raw_vec B) c.
Proof.
  intros ((WA & A0 & A1) & _) ((WB & B0 & B1) & _) Hn. unfold mean_change, mean_raster_change. rewrite into_raw_vec_length, A0, A1 by exact WA. f_equal.
  rewrite !sum_over_sumn, sumn_mul. apply sumn_ext. intros i Hi. rewrite sum_over_sumn. apply sumn_ext. intros j Hj.
  pose proof (raw_nth A i j WA) as RA. pose proof (raw_nth B i j WB) as RB. rewrite A0, A1 in RA. rewrite B0, B1 in RB.
  rewrite (RA Hi Hj), (RB Hi Hj). reflexivity.
Qed.
Lemma cell_some_bounds {A} (m : array2 A) i j x : wf m -> cell m i j = Some x -> (i < dim0 m)%nat /\ (j < dim1 m)%nat.
Proof.
  intros (Hl & Hr) H. unfold cell in H. destruct (nth_error (rows m) i) as [r|] eqn:Er; [|discriminate].
  rewrite <- Hl. split; [apply nth_error_Some; congruence|]. rewrite Forall_forall in Hr. rewrite <- (Hr r (nth_error_In _ _ Er)). apply nth_error_Some. congruence.
Qed.
Lemma raw_bytes A n : square_image A n -> bytes (into_raw_vec A) -> byte_pixels A.
Proof.
  intros ((WA & A0 & A1) & _) Hb i j p Hp.
  destruct (cell_some_bounds A i j p WA Hp) as (Hi & Hj). pose proof (raw_nth A i j WA Hi Hj) as HR. unfold pix in HR. rewrite Hp in HR. apply eq_IZR in HR.
  rewrite <- HR. unfold bytes in Hb. rewrite Forall_forall in Hb. assert (Hbb : byte (nth (i * dim1 A + j) (into_raw_vec A) 0)); [|unfold byte in Hbb; lia]. apply (Hb (nth (i * dim1 A + j) (into_raw_vec A) 0)). apply nth_In. rewrite into_raw_vec_length by exact WA. nia.
Qed.

Lemma zernike_measures gamma checks equalize ch n L amount : keeps_grey equalize -> gray_picture ch n L -> (2 <= n)%nat -> (1 <= amount <= 85)%nat ->
  exists A features, measures equalize (fun image m => calculate_features gamma checks image MomentsZernike m) ch amount features
    /\ from_shape_vec n n (equalize (gray_raw ch)) = Ok A /\ square_image A n /\ into_raw_vec A = equalize (gray_raw ch)
    /\ calculate_features gamma checks A MomentsZernike amount = Ok features /\ length features = amount
    /\ Forall (fun x => (0 <= x <= 255 * INR amount / PI)%R) features.
Proof.
  intros Heq (W & H & Hl & Hb & Hm & HL & Hr) Hn Ha. destruct (Heq _ Hb) as (El & Eb). rewrite Hl in El.
  destruct (raster_array n _ El Hn) as (A & EA & SA & RA).
  assert (Ao : amount_ok amount) by (unfold amount_ok; lia).
  destruct (C66_features_are_bounded gamma checks A n amount SA ltac:(apply (raw_bytes A n SA); rewrite RA; exact Eb) Ao) as (fs & Ef & Hf).
  destruct (C44_number_and_indices_of_features gamma checks A amount Ao (proj1 (proj1 SA))) as (fs' & Ef' & Lf & _).
  { destruct SA as ((_ & -> & ->) & _). lia. }
  exists A, fs. split; [exists A; rewrite W, H; split; assumption|]. split; [exact EA|]. split; [exact SA|]. split; [exact RA|]. split; [exact Ef|]. split; [congruence|exact Hf].
Qed.

Lemma usable_side n L : usable n L -> (2 <= n)%nat.
Proof.
  intros (Hc & _). unfold coded in Hc. unfold band_capacity in Hc.
  destruct (Nat.lt_ge_cases n 2) as [H|H]; [|exact H]. exfalso.
  assert (Hd : (n / 2 ^ L <= 1)%nat) by (apply Nat.lt_succ_r, Nat.div_lt_upper_bound; [apply Nat.pow_nonzero; lia|]; pose proof (pow2_pos L); lia).
  assert (Hz : (n / 2 ^ L * (n / 2 ^ L) / 8 = 0)%nat) by (apply Nat.div_small; nia).
  rewrite Hz in Hc. revert Hc. cbn. intuition lia.
Qed.

(** *** C67 *)
Theorem C67_zernike_channel_authenticates : forall K, ldpc_shape K -> ldpc_decodes K ->
  forall E, signature_format E -> key_pair E PRIVATE_KEY PUBLIC_KEY ->
  forall equalize gamma checks pad, keeps_grey equalize -> length pad = 8%nat ->
  let features_of image n := calculate_features gamma checks image MomentsZernike n in
  forall channel n levels depth step amount t,
  gray_picture channel n levels -> usable n levels -> (1 <= amount <= 85)%nat -> (/ 2 ^ 40 <= step)%R ->
  (stored_size n levels (payload_size amount) <= band_capacity n levels)%nat ->
  0 <= t -> (2 ^ levels * (IZR t + / 2) < depth / 4)%R ->
  gray_room channel n levels (8 * stored_size n levels (payload_size amount)) (3 * depth / 2 ^ (levels + 2)) ->
  exists marked, watermark_channel Rops K E equalize features_of checks pad channel depth step amount levels = Ok marked
    /\ gray_picture marked n levels
    /\ forall received c, gray_picture received n levels -> changed_by_at_most marked received t ->
         (2 * INR amount / PI * mean_raster_change (equalize (gray_raw channel)) (equalize (gray_raw received)) c <= step)%R ->
         authenticate_channel Rops K E equalize features_of checks received depth step amount levels = Ok true.
Proof.
  intros K Hsh Hdec E HE Hk eq g checks pad Heq Hpad fo ch n L depth step amount t Hg Hu Ha Hst Hcap Ht Hd Hroom.
  pose proof (usable_side n L Hu) as Hn.
  destruct (zernike_measures g checks eq ch n L amount Heq Hg Hn Ha) as (A & fs & Hm & EA & SA & RA & Ef & Lf & Bf).
  assert (H40 : (0 < / 2 ^ 40)%R) by (apply Rinv_0_lt_compat; apply pow_lt; lra).
  assert (Hst0 : (0 < step)%R) by lra.
  destruct (C64_slightly_changed_channel_authenticates K Hsh Hdec E HE Hk eq fo checks pad Hpad ch n L depth step amount fs t Hg Hu Hm Hst0) as (mk & E1 & G & H); rewrite ?Lf; try assumption; [|lia|].
  - eapply Forall_impl; [|exact Bf]. intros x (Hx0 & Hx). cbn beta.
    assert (Hpi : (1 < PI)%R) by (pose proof PI2_1; lra).
    assert (Hamt : (INR amount <= 85)%R) by (replace 85%R with (INR 85) by (rewrite INR_IZR_INZ; reflexivity); apply le_INR; lia).
    assert (Hx2 : (x <= 255 * 85)%R).
    { eapply Rle_trans; [exact Hx|]. apply Rmult_le_reg_r with PI; [lra|]. unfold Rdiv. rewrite Rmult_assoc, Rinv_l by lra. pose proof (pos_INR amount). nra. }
    assert (Hq : (0 <= x / step <= IZR (2 ^ 60))%R).
    { split; [apply Rmult_le_pos; [lra|left; now apply Rinv_0_lt_compat]|].
      apply Rmult_le_reg_r with step; [exact Hst0|]. unfold Rdiv. rewrite Rmult_assoc, Rinv_l, Rmult_1_r by lra.
      apply Rle_trans with (IZR (2 ^ 60) * / 2 ^ 40)%R; [|apply Rmult_le_compat_l; [apply IZR_le; lia|exact Hst]].
      replace (IZR (2 ^ 60) * / 2 ^ 40)%R with (2 ^ 20)%R; [simpl; lra|]. change (2 ^ 60)%Z with (2 ^ 20 * 2 ^ 40)%Z. rewrite mult_IZR.
      replace (IZR (2 ^ 20)) with (2 ^ 20)%R by (rewrite (pow_IZR 2 20); reflexivity). replace (IZR (2 ^ 40)) with (2 ^ 40)%R by (rewrite (pow_IZR 2 40); reflexivity).
      rewrite Rmult_assoc, Rinv_r, Rmult_1_r; [reflexivity|]. apply pow_nonzero. lra. }
    unfold fits_i64. assert (0 <= Zfloor (x / step)) by (apply Zfloor_lub; exact (proj1 Hq)).
    assert (Zfloor (x / step) <= 2 ^ 60) by (apply le_IZR; eapply Rle_trans; [apply Zfloor_lb|exact (proj2 Hq)]). lia.
  - exists mk. split; [exact E1|]. split; [exact G|]. intros rc c Grc Hch Hmean.
    destruct (zernike_measures g checks eq rc n L amount Heq Grc Hn Ha) as (B & fs' & Hm' & EB & SB & RB & Ef' & Lf' & _).
    apply (H rc fs' Grc Hch Hm'). assert (Ao : amount_ok amount) by (unfold amount_ok; lia).
    destruct (C66_features_are_stable g checks A B n amount c SA SB Ao) as (f1 & f2 & X1 & X2 & X).
    assert (f1 = fs) by congruence. assert (f2 = fs') by congruence. subst f1 f2.
    eapply Forall2_impl; [|exact X]. intros x x' Hx. cbn beta in Hx. eapply Rle_trans; [exact Hx|].
    rewrite (mean_raster A B n c SA SB Hn), RA, RB. exact Hmean.
Qed.



Lemma embed_shape_real K m payload depth L out : wf m -> embed Rops K m payload depth L = Ok out -> image8 out /\ dim0 out = dim0 m /\ dim1 out = dim1 m.
Proof.
  intros Hwf E. unfold embed in E.
  apply bind_ok in E as (C & EC & E). apply bind_ok in E as (w & _ & E). apply bind_ok in E as (h & _ & E). apply bind_ok in E as (cap & _ & E).
  apply bind_ok in E as (ser & _ & E). apply bind_ok in E as (enc & _ & E). apply bind_ok in E as (C' & EW & E). apply bind_ok in E as (R & ER & E).
  apply dwt_2d_shape in EC as (W1 & A0 & A1); [|now apply mapv_wf]. apply write_shape in EW as (W2 & B0 & B1); [|exact W1].
  apply dwt_2d_shape in ER as (W3 & C0 & C1); [|exact W2]. cbn [mapv dim0 dim1] in *.
  assert (Eo : out = mapv (fun x => f_to_u8 Rops (f_round Rops x)) R) by congruence. rewrite Eo. cbn [mapv dim0 dim1].
  split; [|split; congruence]. apply image8_cells; [now apply mapv_wf|]. intros i j v Ev. rewrite cell_mapv in Ev.
  destruct (cell R i j) as [x|]; [|discriminate]. cbn [option_map] in Ev.
  assert (Ev' : v = f_to_u8 Rops (f_round Rops x)) by congruence. rewrite Ev'. unfold byte, f_to_u8. cbn [f_cast Rops]. unfold clamp. lia.
Qed.

(** How far watermarking moves the pixels of a channel (exact reals, any extractor). *)
Theorem C67_pixels_of_a_watermarked_channel : forall K E equalize features_of checks pad channel n levels depth step amount marked,
  gray_picture channel n levels -> (0 < depth)%R ->
  watermark_channel Rops K E equalize features_of checks pad channel depth step amount levels = Ok marked ->
  forall k v w, nth_error (gray_raw channel) k = Some v -> nth_error (gray_raw marked) k = Some w ->
    (Rabs (IZR w - IZR v) <= 3 * depth / 2 ^ (levels + 2) + / 2)%R.
Proof.
  intros K E eq fo checks pad ch n L depth step amount mk Hg Hd H k v w Ev Ew. pose proof Hg as (W & HH & Hl & _).
  apply watermark_inv in H as (im & fs & q & bits & sig & pl & out & H1 & _ & _ & _ & _ & H6 & ->). cbn [gray_raw] in Ew.
  destruct (gray_array ch n L Hg) as (im' & Eim & Him & Hcell). assert (im' = im) by congruence. subst im'.
  pose proof Him as ((Wf & D0 & D1 & P) & H8). destruct (embed_shape_real K im pl depth L out Wf H6) as (O8 & O0 & O1).
  assert (Hpo : picture out n L) by (split; [split; [apply O8|]; split; [congruence|]; split; [congruence|exact P]|exact O8]).
  destruct (array_gray out n L Hpo) as (Gm & Fm). destruct (gray_array _ n L Gm) as (om & Eom & _ & Ocell). cbn [gwidth gheight gray_raw] in Eom.
  assert (om = out) by congruence. subst om.
  assert (Hk : (k < n * n)%nat) by (rewrite <- Hl; apply nth_error_Some; congruence).
  assert (Hn : n <> 0%nat) by (intros ->; lia).
  pose proof (Nat.div_mod k n Hn) as Dm. pose proof (Nat.mod_upper_bound k n Hn) as Mb.
  assert (Hdv : (k / n < n)%nat) by (apply Nat.div_lt_upper_bound; lia).
  apply (C32_pixel_change_bound K im n L depth pl out Him Hd H6 (k / n)%nat (k mod n)%nat).
  - rewrite Hcell by assumption. unfold gray_pixel. now rewrite <- Dm.
  - rewrite Ocell by assumption. unfold gray_pixel. cbn [gray_raw]. now rewrite <- Dm.
Qed.

(** ** instances *)
Lemma mean_raster_bound before after c s : before <> [] -> length after = length before ->
  (forall k v w, nth_error before k = Some v -> nth_error after k = Some w -> (Rabs (IZR w - IZR v - c) <= s)%R) ->
  (mean_raster_change before after c <= s)%R.
Proof.
  intros Hne Hl H. unfold mean_raster_change. rewrite sum_over_sumn.
  assert (Hp : (0 < INR (length before))%R) by (apply lt_0_INR; destruct before; [congruence|cbn; lia]).
  apply Rmult_le_reg_r with (INR (length before)); [exact Hp|]. unfold Rdiv. rewrite Rmult_assoc, Rinv_l, Rmult_1_r by lra.
  rewrite (Rmult_comm s), <- sumn_const. apply sumn_le. intros k Hk.
  apply (H k); apply nth_error_nth'; lia.
Qed.
(** With an equalisation that changes nothing (the case of a channel whose histogram is already flat) and a step of 80, watermarking
    the uniform 512x512 channel at depth 100 always authenticates. *)
Example C67_instance : exists marked,
  watermark_channel Rops toy_ldpc toy_ed (fun l => l) (fun image n => calculate_features (fun x => x) true image MomentsZernike n) true (repeat false 8) grey512 100%R 80%R 11 3 = Ok marked
  /\ authenticate_channel Rops toy_ldpc toy_ed (fun l => l) (fun image n => calculate_features (fun x => x) true image MomentsZernike n) true marked 100%R 80%R 11 3 = Ok true.
Proof.
  destruct (C67_zernike_channel_authenticates toy_ldpc toy_shape toy_decodes toy_ed toy_format toy_keys (fun l => l) (fun x => x) true (repeat false 8)
              ltac:(intros l Hl; split; [reflexivity|exact Hl]) eq_refl grey512 512 3 100%R 80%R 11 0 grey512_picture usable_512) as (mk & E1 & G & H).
  - lia.
  - simpl. lra.
  - exact fits_512.
  - lia.
  - simpl. lra.
  - apply grey512_room. simpl. lra.
  - exists mk. split; [exact E1|]. apply (H mk 0%R G).
    + split; [reflexivity|]. split; [reflexivity|]. clear. induction (gray_raw mk) as [|v t IH]; constructor; [|exact IH]. rewrite Z.sub_diag. cbn. lia.
    + assert (Hm : (mean_raster_change (gray_raw grey512) (gray_raw mk) 0 <= 3 * 100 / 2 ^ (3 + 2) + / 2)%R).
      { apply mean_raster_bound.
        - unfold grey512. cbn [gray_raw]. intros X. apply (f_equal (@length Z)) in X. rewrite repeat_length in X. cbn [length] in X. apply Nat.mul_eq_0 in X. destruct X as [X|X]; discriminate X.
        - pose proof grey512_picture as (_ & _ & L1 & _). destruct G as (_ & _ & L2 & _). congruence.
        - intros k v w Ev Ew. rewrite Rminus_0_r. refine (C67_pixels_of_a_watermarked_channel _ _ _ _ _ _ _ _ _ _ _ _ _ grey512_picture _ E1 k v w Ev Ew). lra. }
      assert (Hpi : (3 < PI)%R) by (pose proof PI2_3_2; lra).
      assert (Hf : (2 * INR 11 / PI <= 22 / 3)%R).
      { replace (INR 11) with 11%R by (rewrite INR_IZR_INZ; reflexivity). apply Rmult_le_reg_r with (PI * 3)%R; [lra|]. field_simplify; lra. }
      assert (Hp0 : (0 <= 2 * INR 11 / PI)%R) by (apply Rmult_le_pos; [pose proof (pos_INR 11); lra|left; apply Rinv_0_lt_compat; lra]).
      revert Hm. generalize (mean_raster_change (gray_raw grey512) (gray_raw mk) 0). intros M Hm. simpl in Hm. apply Rle_trans with (2 * INR 11 / PI * (3 * 100 / (2 * (2 * (2 * (2 * (2 * 1))))) + / 2))%R; [apply Rmult_le_compat_l; assumption|].
      apply Rle_trans with (22 / 3 * (3 * 100 / (2 * (2 * (2 * (2 * (2 * 1))))) + / 2))%R; [apply Rmult_le_compat_r; [lra|exact Hf]|]. lra.
Qed.
Print Assumptions C67_zernike_channel_authenticates.
Print Assumptions C67_pixels_of_a_watermarked_channel.
