(** Property C67 in IEEE double precision: end-to-end authentication with the compiled Zernike features, for every mathematical library
    as accurate as LibmSpec.v says, without hypotheses about what the extractor returns
    (lib/sia/rust/watermarking/src/process.rs with lib/sia/rust/zernike/src). *)
From Coq Require Import Reals Lra.
From Flocq Require Import Core BinarySingleNaN.
From Verif Require Import Outcome Floats FloatFacts Bits ListFacts Quantization QuantProofs QuantReal QuantFloat PropsQuant Codecs CodecProofs WatermarkProofs PropsCodec
  Encoding EncodingProofs PropsEncoding Matrix MatrixFacts Haar HaarProofs HaarReal PropsHaar Stego StegoProofs StegoMarks PropsStego Embedding EmbeddingProofs EmbeddingEffect PropsEmbedding PropsEmbedding2 PropsRobust
  Signature Process ProcessProofs Toy Zernike ZernikeProofs PropsZernike ZernikeBound PropsZernike2 ZernikeGen PropsZernikeF64 LibmSpec LibmExact PropsZernikeAcc
  PropsProcess PropsProcess2 Image PropsImage PropsProcess3 PropsProcess4 PropsProcess5.
Open Scope Z_scope.

(** ** helpers *)
Lemma zernike_measures_f64 M (HM : accurate M) gamma checks equalize ch n L amount : keeps_grey equalize -> gray_picture ch n L -> (2 <= n)%nat -> side_ok n -> (1 <= amount <= 11)%nat ->
  exists A computed exact, measures equalize (zernike_f64 M gamma checks) ch amount computed
    /\ measures equalize (fun image m => calculate_features (fun x => x) checks image MomentsZernike m) ch amount exact
    /\ from_shape_vec n n (equalize (gray_raw ch)) = Ok A /\ square_image A n /\ byte_pixels A /\ into_raw_vec A = equalize (gray_raw ch)
    /\ g_calculate_features Bops M gamma checks A MomentsZernike amount = Ok computed
    /\ length computed = amount
    /\ Forall2 (close_to (/ 128)) computed exact
    /\ Forall (fun x : b64 => fin x /\ (0 <= toR x <= 1000)%R) computed.
Proof.
  intros Heq (W & H & Hl & Hb & Hm & HL & Hr) Hn Hs Ha. destruct (Heq _ Hb) as (El & Eb). rewrite Hl in El.
  destruct (raster_array n _ El Hn) as (A & EA & SA & RA).
  assert (BA : byte_pixels A) by (apply (PropsProcess4.raw_bytes A n SA); rewrite RA; exact Eb).
  destruct (C68_f64_features_are_accurate M HM gamma (fun x => x) checks A n amount SA Hs BA Ha) as (c & e & Ec & Ee & Hce).
  destruct (C66_f64_features_are_bounded M HM gamma checks A n amount SA Hs BA Ha) as (c' & Ec' & Hc').
  assert (c' = c) by congruence. subst c'.
  destruct (C44_f64_number_and_indices_of_features M gamma checks A amount ltac:(lia) (proj1 (proj1 SA))) as (fs' & Ef' & Lf & _).
  { destruct SA as ((_ & -> & ->) & _). lia. }
  exists A, c, e. split; [exists A; rewrite W, H; split; assumption|]. split; [exists A; rewrite W, H; split; assumption|].
  split; [exact EA|]. split; [exact SA|]. split; [exact BA|]. split; [exact RA|]. split; [exact Ec|]. split; [congruence|]. split; [exact Hce|].
  eapply Forall_impl; [|exact Hc']. intros x (Fx & Hx0 & Hx). split; [exact Fx|]. split; [exact Hx0|]. eapply Rle_trans; [exact Hx|].
  assert (Hpi : (3 < PI)%R) by (pose proof PI2_3_2; lra).
  assert (Hamt : (0 <= INR amount <= 11)%R) by (split; [apply pos_INR|replace 11%R with (INR 11) by (rewrite INR_IZR_INZ; reflexivity); apply le_INR; lia]).
  assert (HB : (255 * INR amount / PI <= 255 * 11 / 3)%R).
  { unfold Rdiv. apply Rmult_le_compat; [lra|left; apply Rinv_0_lt_compat; lra|lra|apply Rinv_le; lra]. }
  lra.
Qed.

(** *** C67 in binary64 *)
Theorem C67_f64_zernike_channel_authenticates : forall K, ldpc_shape K -> ldpc_decodes K ->
  forall E, signature_format E -> key_pair E PRIVATE_KEY PUBLIC_KEY ->
  forall M, accurate M ->
  forall equalize gamma checks pad, keeps_grey equalize -> length pad = 8%nat ->
  let features_of := zernike_f64 M gamma checks in
  let exact_features image n := calculate_features (fun x => x) checks image MomentsZernike n in
  forall channel n levels (depth step : b64) amount t,
  gray_picture channel n levels -> side_ok n -> (levels <= 10)%nat -> usable n levels -> (1 <= amount <= 11)%nat ->
  fin step -> (/ 2 ^ 19 <= toR step <= 2 ^ 100)%R ->
  (stored_size n levels (payload_size amount) <= band_capacity n levels)%nat ->
  0 <= t -> fin depth -> (65 / 64 * 2 ^ (levels + 1) <= toR depth <= 2 ^ 20)%R -> (2 ^ levels * (IZR t + / 2 + / 1024) < (/ 4 - / 512) * toR depth)%R ->
  gray_room channel n levels (8 * stored_size n levels (payload_size amount)) (3 * toR depth / 2 ^ (levels + 2)) ->
  exists marked, watermark_channel Bops K E equalize features_of checks pad channel depth step amount levels = Ok marked
    /\ gray_picture marked n levels
    /\ forall received c exact, gray_picture received n levels -> changed_by_at_most marked received t ->
         (2 * INR amount / PI * mean_raster_change (equalize (gray_raw channel)) (equalize (gray_raw received)) c + / 64 <= (1 - / 2 ^ 20) * toR step)%R ->
         measures equalize exact_features received amount exact ->
         (forall x (m : Z), In x exact -> 1 <= m -> (/ 128 + / 2 ^ 20 * toR step <= Rabs (x - IZR m * toR step))%R) ->
         authenticate_channel Bops K E equalize features_of checks received depth step amount levels = Ok true.
Proof.
  intros K Hsh Hdec E HE Hk M HM eq g checks pad Heq Hpad fo fe ch n L depth step amount t Hg Hs HL10 Hu Ha Fst Hst Hcap Ht Fd Hd2 Hd Hroom.
  pose proof (usable_side n L Hu) as Hn.
  destruct (zernike_measures_f64 M HM g checks eq ch n L amount Heq Hg Hn Hs Ha) as (A & cs & es & Hm & Hme & EA & SA & BA & RA & Ec & Lc & Hce & Bc).
  assert (H19 : (/ 2 ^ 19 = bpow radix2 (-19))%R) by (simpl; lra). assert (H20 : (/ 2 ^ 20 = bpow radix2 (-20))%R) by (simpl; lra). rewrite H19 in Hst.
  assert (Hst0 : (0 < toR step)%R) by (pose proof (bpow_gt_0 radix2 (-19)); lra).
  assert (Hst2 : (bpow radix2 (-500) <= toR step <= bpow radix2 500)%R).
  { split; [apply Rle_trans with (bpow radix2 (-19)); [apply bpow_le; lia|lra]|].
    apply Rle_trans with (bpow radix2 100); [|apply bpow_le; lia]. rewrite bpow_num by lia. rewrite (pow_IZR 2 100) in Hst. exact (proj2 Hst). }
  assert (Big : (1000 <= bpow radix2 29 * toR step)%R).
  { apply Rle_trans with (bpow radix2 29 * bpow radix2 (-19))%R; [rewrite <- bpow_plus; simpl; lra|]. apply Rmult_le_compat_l; [apply bpow_ge_0|lra]. }
  assert (Bc30 : Forall (fun x => fin x /\ (Rabs (toR x) <= bpow radix2 30 * toR step)%R) cs).
  { eapply Forall_impl; [|exact Bc]. intros x (Fx & Hx0 & Hx). split; [exact Fx|]. rewrite Rabs_pos_eq by exact Hx0.
    change 30 with (29 + 1). rewrite bpow_plus. change (bpow radix2 1) with 2%R. pose proof (bpow_gt_0 radix2 29). nra. }
  destruct (C64_f64_slightly_changed_channel_authenticates K Hsh Hdec E HE Hk eq fo checks pad Hpad ch n L depth step amount cs t Hg HL10 Hu Hm Fst Hst2) as (mk & E1 & G & H); rewrite ?Lc; try assumption; [|lia|].
  - intros Hchk. unfold quantize. rewrite Forall_map. exact (no_overflow_float step Hst2 checks cs Bc30 Hchk).
  - exists mk. split; [exact E1|]. split; [exact G|]. intros rc c ex Grc Hch Hmean Hex Hguard.
    destruct (zernike_measures_f64 M HM g checks eq rc n L amount Heq Grc Hn Hs Ha) as (B & cs' & es' & Hm' & Hme' & EB & SB & BB & RB & Ec' & Lc' & Hce' & Bc').
    assert (ex = es').
    { destruct Hex as (B1 & X1 & X2). destruct Hme' as (B2 & Y1 & Y2). assert (B2 = B1) by congruence. subst B2. unfold fe in X2. congruence. }
    subst es'. destruct (H rc Grc Hch) as (H1 & _). apply (H1 cs' Hm').
    destruct (C66_f64_features_are_stable M HM g checks A B n amount c SA SB Hs BA BB Ha) as (f1 & f2 & X1 & X2 & X).
    assert (f1 = cs) by congruence. assert (f2 = cs') by congruence. subst f1 f2.
    rewrite (mean_raster A B n c SA SB Hn), RA, RB in X.
    assert (Hg' : Forall (fun x' : b64 => (forall m : Z, (m = 0%Z /\ 0 <= toR x') \/ bpow radix2 (-20) * toR step <= Rabs (toR x' - IZR m * toR step))%R) cs').
    { clear - Hce' Hguard H20 Hst0. induction Hce' as [|x y c e (F & F0 & HF) _ IH]; constructor; [|apply IH; intros; apply Hguard; [now right|assumption]].
      intros m. destruct (Z.lt_trichotomy m 0) as [Hm|[Hm|Hm]]; [right|left; split; [exact Hm|exact F0]|right].
      - assert (Hm1 : (IZR m <= -1)%R) by (apply IZR_le; lia). assert (P : (1 * toR step <= - IZR m * toR step)%R) by (apply Rmult_le_compat_r; lra).
        rewrite Rabs_pos_eq by lra. rewrite <- H20. assert ((/ 2 ^ 20 * toR step <= 1 * toR step)%R) by (apply Rmult_le_compat_r; [lra|simpl; lra]). lra.
      - specialize (Hguard y m (or_introl eq_refl) ltac:(lia)). rewrite <- H20.
        revert Hguard HF. generalize (IZR m * toR step)%R. generalize (/ 2 ^ 20 * toR step)%R. intros a b. unfold Rabs. repeat destruct Rcase_abs; lra. }
    clear - X Hmean H20 Hg' Bc Bc' Big. rewrite H20 in Hmean. revert Hg' Bc Bc'. induction X as [|x x' cx cx' Hx _ IH]; intros Hg' Bc Bc'; constructor.
    + inversion Bc as [|? ? (F & F0) ?]; inversion Bc' as [|? ? (F' & F0') ?]; inversion Hg'; subst.
      split; [exact F|]. split; [exact F'|]. split; [rewrite Rabs_pos_eq by (apply F0); lra|]. split; [lra|assumption].
    + apply IH; [now inversion Hg'|now inversion Bc|now inversion Bc'].
Qed.

(** Whole pictures: watermark succeeds on every picture whose colour channels leave room, and each colour channel of any picture whose
    colour values stay within t of the result's is accepted, as long as its features stay in place as above. *)
Theorem C67_f64_every_colour_channel_authenticates : forall K, ldpc_shape K -> ldpc_decodes K ->
  forall E, signature_format E -> key_pair E PRIVATE_KEY PUBLIC_KEY ->
  forall M, accurate M ->
  forall equalize gamma checks pad, keeps_grey equalize -> length pad = 8%nat ->
  let features_of := zernike_f64 M gamma checks in
  let exact_features image n := calculate_features (fun x => x) checks image MomentsZernike n in
  forall image n (depth step : b64) amount t,
  well_formed image -> dimensions image = (n, n) -> usable n 3 -> (n mod 8 = 0)%nat -> side_ok n -> (1 <= amount <= 11)%nat ->
  fin step -> (/ 2 ^ 19 <= toR step <= 2 ^ 100)%R ->
  (stored_size n 3 (payload_size amount) <= band_capacity n 3)%nat ->
  0 <= t -> fin depth -> (65 / 4 <= toR depth <= 2 ^ 20)%R -> (8 * (IZR t + / 2 + / 1024) < (/ 4 - / 512) * toR depth)%R ->
  (forall sel, In sel [ch1; ch2; ch3] -> gray_room (component sel image) n 3 (8 * stored_size n 3 (payload_size amount)) (3 * toR depth / 2 ^ 5)) ->
  exists result, watermark_image Bops K E equalize features_of checks pad image depth step amount = Ok result
    /\ forall received sel c exact, well_formed received -> dimensions received = (n, n) -> In sel [ch1; ch2; ch3] ->
         changed_by_at_most (component sel result) (component sel received) t ->
         (2 * INR amount / PI * mean_raster_change (equalize (gray_raw (component sel image))) (equalize (gray_raw (component sel received))) c + / 64
            <= (1 - / 2 ^ 20) * toR step)%R ->
         measures equalize exact_features (component sel received) amount exact ->
         (forall x (m : Z), In x exact -> 1 <= m -> (/ 128 + / 2 ^ 20 * toR step <= Rabs (x - IZR m * toR step))%R) ->
         authenticate_channel Bops K E equalize features_of checks (component sel received) depth step amount 3 = Ok true.
Proof.
  intros K Hsh Hdec E HE Hk M HM eq g checks pad Heq Hpad fo fe image n depth step amount t Hw Ed Hu Hm8 Hs Ha Fst Hst Hcap Ht Fd Hd2 Hd Hroom.
  assert (Hr : Z.of_nat (n * n) < 2 ^ 53) by (unfold side_ok in Hs; rewrite Nat2Z.inj_mul; nia).
  assert (Sel : forall sel, In sel [ch1; ch2; ch3] -> sel = ch1 \/ sel = ch2 \/ sel = ch3) by (intros sel Hsel; cbn in Hsel; intuition auto).
  assert (Ch : forall sel, In sel [ch1; ch2; ch3] -> exists marked,
     watermark_channel Bops K E eq fo checks pad (component sel image) depth step amount 3 = Ok marked
     /\ forall received c exact, well_formed received -> dimensions received = (n, n) -> changed_by_at_most marked (component sel received) t ->
         (2 * INR amount / PI * mean_raster_change (eq (gray_raw (component sel image))) (eq (gray_raw (component sel received))) c + / 64 <= (1 - / 2 ^ 20) * toR step)%R ->
         measures eq fe (component sel received) amount exact ->
         (forall x (m : Z), In x exact -> 1 <= m -> (/ 128 + / 2 ^ 20 * toR step <= Rabs (x - IZR m * toR step))%R) ->
         authenticate_channel Bops K E eq fo checks (component sel received) depth step amount 3 = Ok true).
  { intros sel Hsel. specialize (Hroom sel Hsel). apply Sel in Hsel.
    pose proof (component_picture sel image n Hw Ed Hsel Hm8 Hr) as Hg.
    destruct (C67_f64_zernike_channel_authenticates K Hsh Hdec E HE Hk M HM eq g checks pad Heq Hpad (component sel image) n 3 depth step amount t Hg Hs ltac:(lia) Hu Ha Fst Hst Hcap Ht Fd)
      as (mk & Em & _ & A).
    - change (3 + 1)%nat with 4%nat. simpl (2 ^ 4)%R. lra.
    - simpl (2 ^ 3)%R. lra.
    - exact Hroom.
    - exists mk. split; [exact Em|]. intros received c exact Wr Er Hch Hmean Hme Hgd.
      exact (A (component sel received) c exact (component_picture sel received n Wr Er Hsel Hm8 Hr) Hch Hmean Hme Hgd). }
  destruct (Ch ch1) as (red & Er & Ar); [cbn; tauto|]. destruct (Ch ch2) as (green & Eg & Ag); [cbn; tauto|]. destruct (Ch ch3) as (blue & Eb & Ab); [cbn; tauto|].
  destruct (C42_watermark_returns_iff_the_channels_do b64 Bops K E eq fo checks pad image depth step amount) as (_ & (_ & Ret)).
  destruct Ret as (result & Eres); [split; [eauto|intros _; split; eauto]|]. exists result. split; [exact Eres|].
  destruct (C42_watermark_preserves_size_layout_and_alpha K E eq fo checks pad image depth step amount result Hw Eres) as (_ & _ & _ & _ & _ & _ & H1 & H2 & H3).
  intros received sel c exact Wr Edr Hsel. cbn in Hsel. destruct Hsel as [ <- |[ <- |[ <- |[]]]].
  - assert (red = component ch1 result) by congruence. subst red. exact (Ar received c exact Wr Edr).
  - assert (green = component ch2 result) by congruence. subst green. exact (Ag received c exact Wr Edr).
  - assert (blue = component ch3 result) by congruence. subst blue. exact (Ab received c exact Wr Edr).
Qed.

(** How far the compiled program moves the pixels of a channel (any extractor). *)
Lemma embed_shape_f64 K m payload depth L out : wf m -> embed Bops K m payload depth L = Ok out -> image8 out /\ dim0 out = dim0 m /\ dim1 out = dim1 m.
Proof.
  intros Hwf E. unfold embed in E.
  apply bind_ok in E as (C & EC & E). apply bind_ok in E as (w & _ & E). apply bind_ok in E as (h & _ & E). apply bind_ok in E as (cap & _ & E).
  apply bind_ok in E as (ser & _ & E). apply bind_ok in E as (enc & _ & E). apply bind_ok in E as (C' & EW & E). apply bind_ok in E as (R & ER & E).
  apply dwt_2d_shape in EC as (W1 & A0 & A1); [|now apply mapv_wf]. apply write_shape in EW as (W2 & B0 & B1); [|exact W1].
  apply dwt_2d_shape in ER as (W3 & C0 & C1); [|exact W2]. cbn [mapv dim0 dim1] in *.
  assert (Eo : out = mapv (fun x => f_to_u8 Bops (f_round Bops x)) R) by congruence. rewrite Eo. cbn [mapv dim0 dim1].
  split; [|split; congruence]. apply image8_cells; [now apply mapv_wf|]. intros i j v Ev. rewrite cell_mapv in Ev.
  destruct (cell R i j) as [x|]; [|discriminate]. cbn [option_map] in Ev.
  assert (Ev' : v = f_to_u8 Bops (f_round Bops x)) by congruence. rewrite Ev'. unfold byte.
  unfold f_to_u8. cbn [f_cast Bops]. unfold b_cast, clamp. destruct (f_round Bops x) as [?|[|]| |]; try lia; destruct (Btrunc _); lia.
Qed.
Theorem C67_f64_pixels_of_a_watermarked_channel : forall K E equalize features_of checks pad channel n levels (depth step : b64) amount marked,
  gray_picture channel n levels -> (levels <= 10)%nat -> fin depth -> (/ 1024 <= toR depth <= 2 ^ 20)%R ->
  watermark_channel Bops K E equalize features_of checks pad channel depth step amount levels = Ok marked ->
  forall k v w, nth_error (gray_raw channel) k = Some v -> nth_error (gray_raw marked) k = Some w ->
    (Rabs (IZR w - IZR v) <= (3 / 4 + / 1024) * toR depth / 2 ^ levels + / 2 + / 1024)%R.
Proof.
  intros K E eq fo checks pad ch n L depth step amount mk Hg HL Fd Hd H k v w Ev Ew. pose proof Hg as (W & HH & Hl & _).
  apply watermark_inv in H as (im & fs & q & bits & sig & pl & out & H1 & _ & _ & _ & _ & H6 & ->). cbn [gray_raw] in Ew.
  destruct (gray_array ch n L Hg) as (im' & Eim & Him & Hcell). assert (im' = im) by congruence. subst im'.
  pose proof Him as ((Wf & D0 & D1 & P) & H8). destruct (embed_shape_f64 K im pl depth L out Wf H6) as (O8 & O0 & O1).
  assert (Hpo : picture out n L) by (split; [split; [apply O8|]; split; [congruence|]; split; [congruence|exact P]|exact O8]).
  destruct (array_gray out n L Hpo) as (Gm & Fm). destruct (gray_array _ n L Gm) as (om & Eom & _ & Ocell). cbn [gwidth gheight gray_raw] in Eom.
  assert (om = out) by congruence. subst om.
  assert (Hk : (k < n * n)%nat) by (rewrite <- Hl; apply nth_error_Some; congruence).
  assert (Hn : n <> 0%nat) by (intros ->; lia).
  pose proof (Nat.div_mod k n Hn) as Dm. pose proof (Nat.mod_upper_bound k n Hn) as Mb.
  assert (Hdv : (k / n < n)%nat) by (apply Nat.div_lt_upper_bound; lia).
  apply (C32_f64_pixel_change_bound K im n L depth pl out Him HL Fd Hd H6 (k / n)%nat (k mod n)%nat).
  - rewrite Hcell by assumption. unfold gray_pixel. now rewrite <- Dm.
  - rewrite Ocell by assumption. unfold gray_pixel. cbn [gray_raw]. now rewrite <- Dm.
Qed.

(** ** Concrete case: the uniform 512x512 channel at the command line's depth 100 and a step of 80, in doubles, with a library that
    rounds correctly, authenticates. *)
Lemma grey512_point_symmetric A : from_shape_vec 512 512 (gray_raw grey512) = Ok A ->
  forall i j, (i < 512)%nat -> (j < 512)%nat -> cell A (512 - 1 - i) (512 - 1 - j) = cell A i j.
Proof.
  intros EA i j Hi Hj. destruct (gray_array grey512 512 3 grey512_picture) as (im & Eim & Him & Hcell).
  assert (E : im = A) by (pose proof grey512_picture as (W & H & _); rewrite W, H in Eim; congruence). subst im.
  rewrite !Hcell by lia. unfold gray_pixel, grey512. cbn [gray_raw].
  assert (Hr : forall k, (Z.of_nat k < 512 * 512)%Z -> nth_error (repeat 128 (512 * 512)) k = Some 128).
  { intros k Hk. apply nth_error_repeat. rewrite <- Nat2Z.inj_lt || idtac. apply Nat2Z.inj_lt. rewrite Nat2Z.inj_mul. exact Hk. }
  rewrite !Hr; [reflexivity| |]; nia.
Qed.
Example C67_f64_instance : exists marked,
  watermark_channel Bops toy_ldpc toy_ed (fun l => l) (zernike_f64 exact_libm (fun x => x) true) true (repeat false 8) grey512 (f_of_Z Bops 100) (f_of_Z Bops 80) 11 3 = Ok marked
  /\ authenticate_channel Bops toy_ldpc toy_ed (fun l => l) (zernike_f64 exact_libm (fun x => x) true) true marked (f_of_Z Bops 100) (f_of_Z Bops 80) 11 3 = Ok true.
Proof.
  destruct (b_of_Z_ok 100) as (F1 & V1); [lia|]. destruct (b_of_Z_ok 80) as (F2 & V2); [lia|].
  change (b_of_Z 100) with (f_of_Z Bops 100) in *. change (b_of_Z 80) with (f_of_Z Bops 80) in *.
  assert (Heq : keeps_grey (fun l => l)) by (intros l Hl; split; [reflexivity|exact Hl]).
  assert (S512 : side_ok 512) by (unfold side_ok; lia).
  destruct (C67_f64_zernike_channel_authenticates toy_ldpc toy_shape toy_decodes toy_ed toy_format toy_keys exact_libm exact_libm_accurate (fun l => l) (fun x => x) true (repeat false 8)
              Heq eq_refl grey512 512 3 (f_of_Z Bops 100) (f_of_Z Bops 80) 11 0 grey512_picture S512 ltac:(lia) usable_512) as (mk & E1 & G & H).
  - lia.
  - exact F2.
  - rewrite V2. simpl. lra.
  - exact fits_512.
  - lia.
  - exact F1.
  - rewrite V1. simpl. lra.
  - rewrite V1. simpl. lra.
  - apply grey512_room. rewrite V1. simpl. lra.
  - exists mk. split; [exact E1|].
    assert (Hm : (mean_raster_change (gray_raw grey512) (gray_raw mk) 0 <= 99 / 10)%R).
    { apply mean_raster_bound.
      - unfold grey512. cbn [gray_raw]. intros X. apply (f_equal (@length Z)) in X. rewrite repeat_length in X. cbn [length] in X. apply Nat.mul_eq_0 in X. destruct X as [X|X]; discriminate X.
      - pose proof grey512_picture as (_ & _ & L1 & _). destruct G as (_ & _ & L2 & _). congruence.
      - intros k v w Ev Ew. rewrite Rminus_0_r.
        pose proof (C67_f64_pixels_of_a_watermarked_channel _ _ _ _ _ _ _ _ _ _ _ _ _ grey512_picture ltac:(lia) F1 ltac:(rewrite V1; simpl; lra) E1 k v w Ev Ew) as Hp.
        eapply Rle_trans; [exact Hp|]. rewrite V1. simpl. lra. }
    assert (Hpi : (3 < PI)%R) by (pose proof PI2_3_2; lra).
    assert (Hf : (2 * INR 11 / PI <= 22 / 3)%R).
    { replace (INR 11) with 11%R by (rewrite INR_IZR_INZ; reflexivity). apply Rmult_le_reg_r with (PI * 3)%R; [lra|]. field_simplify; lra. }
    assert (Hp0 : (0 <= 2 * INR 11 / PI)%R) by (apply Rmult_le_pos; [pose proof (pos_INR 11); lra|left; apply Rinv_0_lt_compat; lra]).
    assert (Hprod : (2 * INR 11 / PI * mean_raster_change (gray_raw grey512) (gray_raw mk) 0 <= 22 / 3 * (99 / 10))%R).
    { apply Rle_trans with (2 * INR 11 / PI * (99 / 10))%R; [now apply Rmult_le_compat_l|]. apply Rmult_le_compat_r; lra. }
    destruct (zernike_measures (fun x => x) true (fun l => l) grey512 512 3 11 Heq grey512_picture ltac:(lia) ltac:(lia)) as (A & fs & _ & EA & SA & RA & Ef & _).
    destruct (zernike_measures (fun x => x) true (fun l => l) mk 512 3 11 Heq G ltac:(lia) ltac:(lia)) as (B & fs' & Hm' & EB & SB & RB & Ef' & _).
    assert (Ao : amount_ok 11) by (unfold amount_ok; lia).
    pose proof (C45_point_symmetric_images_have_zero_features (fun x => x) true A 512 11 SA Ao (grey512_point_symmetric A EA)) as E0.
    destruct (C66_features_are_stable (fun x => x) true A B 512 11 0 SA SB Ao) as (f1 & f2 & X1 & X2 & X).
    assert (f1 = repeat 0%R 11) by congruence. assert (f2 = fs') by congruence. subst f1 f2.
    rewrite (mean_raster A B 512 0 SA SB ltac:(lia)), RA, RB in X.
    apply (H mk 0%R fs' G).
    + split; [reflexivity|]. split; [reflexivity|]. clear. induction (gray_raw mk) as [|v t IH]; constructor; [|exact IH]. rewrite Z.sub_diag. cbn. lia.
    + rewrite V2. simpl (2 ^ 20)%R. lra.
    + exact Hm'.
    + intros x m Hx Hm1. rewrite V2. simpl (2 ^ 20)%R. assert (R1 : (1 <= IZR m)%R) by (apply IZR_le; exact Hm1).
      assert (Hx' : (Rabs x <= 22 / 3 * (99 / 10))%R).
      { clear - X Hx Hprod. revert X Hx. generalize (repeat 0%R 11) (Forall_repeat (fun z => z = 0%R) 0%R 11 eq_refl). intros l Hl X.
        induction X as [|y z l l' Hy _ IH]; intros Hx; [contradiction|]. inversion Hl; subst. destruct Hx as [ -> |Hx]; [|now apply IH].
        rewrite Rminus_0_r in Hy. lra. }
      revert Hx'. unfold Rabs. repeat destruct Rcase_abs; lra.
Qed.

Print Assumptions C67_f64_zernike_channel_authenticates.
Print Assumptions C67_f64_pixels_of_a_watermarked_channel.
Print Assumptions C67_f64_every_colour_channel_authenticates.
