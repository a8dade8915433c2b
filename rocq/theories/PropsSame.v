(** Property C108: a picture and its turned, mirrored and transposed versions get the same watermark
    (lib/sia/rust/watermarking/src/process.rs: watermark_channel; imageproc equalize_histogram; image-features). *)
From Coq Require Import Reals Lra Permutation.
From Flocq Require Import Core BinarySingleNaN.
From Verif Require Import Outcome Floats FloatFacts Bits ListFacts IndexArithProofs Quantization QuantProofs QuantReal QuantFloat PropsQuant PropsQuant2 Codecs CodecProofs WatermarkProofs PropsCodec
  Encoding EncodingProofs PropsEncoding Matrix MatrixFacts Haar HaarProofs HaarReal PropsHaar Stego StegoProofs StegoMarks PropsStego Embedding EmbeddingProofs EmbeddingEffect PropsEmbedding PropsEmbedding2 PropsEmbedding3 PropsRobust
  Signature Process ProcessProofs Toy Zernike ZernikeProofs PropsZernike ZernikeBound PropsZernike2 ZernikeGen PropsZernikeF64 LibmSpec LibmExact PropsZernikeAcc
  PropsProcess PropsProcess2 Image PropsImage PropsProcess3 PropsProcess4 PropsProcess5 PropsProcess6 PropsTamper Equalize EqualizeProofs PropsEqualize PropsShipped PropsShipped2 PropsTransplant
  PropsInteger PropsClipping PropsDepth PropsTurn PropsVerdict PropsUnused PropsForged.
Open Scope Z_scope.

(** ** Specification vocabulary *)
(** Raster [l'] (row by row, side n) is raster [l] after the moves. *)
Definition moved_raster (gs : list move) (n : nat) (l l' : list Z) : Prop :=
  forall i j, (i < n)%nat -> (j < n)%nat -> let '(x, y) := from gs n (i, j) in nth_error l' (n * i + j) = nth_error l (n * x + y).
(** The channel with [payload] hidden in it: embedding alone, no features and no key. *)
Definition with_payload {F} (O : FOps F) (K : ldpc) (channel : gray) (depth : F) (levels : nat) (payload : list Z) : outcome gray :=
  pixels <- from_shape_vec (gwidth channel) (gheight channel) (gray_raw channel) ;;
  out <- embed O K pixels payload depth levels ;; Ok (mkGray (gwidth channel) (gheight channel) (into_raw_vec out)).
(** The computed features keep more than 1/64 away from all borders of half bins (the positive multiples of 1/2). *)
Definition clear_features (features : list b64) : Prop := Forall (fun x : b64 => forall m : Z, 1 <= m -> (/ 64 < Rabs (toR x - IZR m / 2))%R) features.

(** ** Moves permute the pixels *)
Lemma from1_inj g n i j x y : (i < n)%nat -> (j < n)%nat -> (x < n)%nat -> (y < n)%nat -> from1 g n (i, j) = from1 g n (x, y) -> (i, j) = (x, y).
Proof. intros Hi Hj Hx Hy H. destruct g; cbn [from1] in H; apply pair_equal_spec in H as (H1 & H2); f_equal; lia. Qed.
Lemma from_inj gs n i j x y : (i < n)%nat -> (j < n)%nat -> (x < n)%nat -> (y < n)%nat -> from gs n (i, j) = from gs n (x, y) -> (i, j) = (x, y).
Proof.
  intros Hi Hj Hx Hy. induction gs as [|g gs IH]; [exact (fun H => H)|]. unfold from. cbn [fold_right]. fold (from gs n (i, j)). fold (from gs n (x, y)).
  intros H. apply IH. destruct (from_lt gs n i j Hi Hj) as (A & B). destruct (from_lt gs n x y Hx Hy) as (A' & B').
  destruct (from gs n (i, j)) as (a, b). destruct (from gs n (x, y)) as (c, d). cbn [fst snd] in *. now apply (from1_inj g n).
Qed.
Definition place_of (gs : list move) (n k : nat) : nat :=
  if (k <? n * n)%nat then (let '(x, y) := from gs n (k / n, k mod n)%nat in n * x + y)%nat else k.
Lemma place_lt gs n k : (k < n * n)%nat -> (place_of gs n k < n * n)%nat.
Proof.
  intros Hk. unfold place_of. destruct (Nat.ltb_spec k (n * n)); [|lia]. assert (Hn : n <> 0%nat) by (intros ->; lia).
  assert (I1 : (k / n < n)%nat) by (apply Nat.div_lt_upper_bound; lia). assert (I2 : (k mod n < n)%nat) by (apply Nat.mod_upper_bound; lia).
  destruct (from_lt gs n _ _ I1 I2) as (A & B). destruct (from gs n _) as (x, y). cbn [fst snd] in *. nia.
Qed.
Lemma place_inj gs n k k' : place_of gs n k = place_of gs n k' -> k = k'.
Proof.
  intros H. destruct (Nat.lt_ge_cases k (n * n)) as [Hk|Hk], (Nat.lt_ge_cases k' (n * n)) as [Hk'|Hk'].
  - unfold place_of in H. destruct (Nat.ltb_spec k (n * n)); [|lia]. destruct (Nat.ltb_spec k' (n * n)); [|lia]. assert (Hn : n <> 0%nat) by (intros ->; lia).
    assert (I1 : (k / n < n)%nat) by (apply Nat.div_lt_upper_bound; lia). assert (I2 : (k mod n < n)%nat) by (apply Nat.mod_upper_bound; lia).
    assert (J1 : (k' / n < n)%nat) by (apply Nat.div_lt_upper_bound; lia). assert (J2 : (k' mod n < n)%nat) by (apply Nat.mod_upper_bound; lia).
    destruct (from_lt gs n _ _ I1 I2) as (A & B). destruct (from_lt gs n _ _ J1 J2) as (A' & B').
    pose proof (from_inj gs n _ _ _ _ I1 I2 J1 J2) as Inj.
    destruct (from gs n (k / n, k mod n)%nat) as (x, y). destruct (from gs n (k' / n, k' mod n)%nat) as (x', y'). cbn [fst snd] in *.
    assert (Hx : x = x') by (transitivity ((n * x + y) / n)%nat; [apply (Nat.div_unique _ n x y); lia|symmetry; apply (Nat.div_unique _ n x' y'); lia]).
    subst x'. assert (y' = y) by lia. subst y'. specialize (Inj eq_refl). apply pair_equal_spec in Inj as (Q1 & Q2).
    rewrite (Nat.div_mod k n), (Nat.div_mod k' n) by lia. now rewrite Q1, Q2.
  - pose proof (place_lt gs n k Hk). unfold place_of in H at 2. destruct (Nat.ltb_spec k' (n * n)); lia.
  - pose proof (place_lt gs n k' Hk'). unfold place_of in H at 1. destruct (Nat.ltb_spec k (n * n)); lia.
  - unfold place_of in H. destruct (Nat.ltb_spec k (n * n)); [lia|]. destruct (Nat.ltb_spec k' (n * n)); [lia|]. exact H.
Qed.
Lemma moved_place gs n l l' : length l = (n * n)%nat -> length l' = (n * n)%nat -> moved_raster gs n l l' -> forall k, nth_error l' k = nth_error l (place_of gs n k).
Proof.
  intros L L' H k. unfold place_of. destruct (Nat.ltb_spec k (n * n)) as [Hk|Hk].
  - assert (Hn : n <> 0%nat) by (intros ->; lia).
    assert (I1 : (k / n < n)%nat) by (apply Nat.div_lt_upper_bound; lia). assert (I2 : (k mod n < n)%nat) by (apply Nat.mod_upper_bound; lia).
    specialize (H _ _ I1 I2). destruct (from gs n _) as (x, y). now rewrite <- (Nat.div_mod k n) in H by lia.
  - transitivity (@None Z); [|symmetry]; apply nth_error_None; lia.
Qed.
Lemma moved_permutation gs n l l' : length l = (n * n)%nat -> length l' = (n * n)%nat -> moved_raster gs n l l' -> Permutation l l'.
Proof.
  intros L L' H. apply Permutation_nth_error. split; [congruence|]. exists (place_of gs n). split; [intros a b; apply place_inj|].
  exact (moved_place gs n l l' L L' H).
Qed.
Lemma rank_permutation l l' v : Permutation l l' -> rank l v = rank l' v.
Proof.
  intros H. unfold rank. f_equal. induction H as [|x l l' H IH|x y l|l l' l'' H1 IH1 H2 IH2]; [reflexivity| | |congruence].
  - cbn [filter]. destruct (x <=? v); cbn [length]; congruence.
  - cbn [filter]. destruct (x <=? v), (y <=? v); reflexivity.
Qed.
(** Equalisation looks at the pixels' frequencies only: moved rasters are equalised to moved rasters. *)
Lemma equalize_permutation l l' : bytes l -> Permutation l l' -> forall v, In v l -> equalized_level (cumulative_histogram l') v = equalized_level (cumulative_histogram l) v.
Proof.
  intros Hb Hp v Hin. assert (B : forall m, bytes m -> Forall (fun v => 0 <= v <= 255) m) by (intros m; apply Forall_impl; unfold byte; intros; lia).
  assert (Hb' : bytes l') by (unfold bytes in *; eapply Permutation_Forall; eassumption).
  assert (Hv : 0 <= v <= 255) by (specialize (B l Hb); rewrite Forall_forall in B; auto).
  rewrite !equalized_level_rank by auto. rewrite (rank_permutation l l' v Hp), (Permutation_length Hp). reflexivity.
Qed.
Lemma equalize_moved gs n l l' : bytes l -> length l = (n * n)%nat -> length l' = (n * n)%nat -> moved_raster gs n l l' ->
  moved_raster gs n (equalize_histogram l) (equalize_histogram l').
Proof.
  intros Hb L L' H i j Hi Hj. pose proof (moved_permutation gs n l l' L L' H) as Hp. specialize (H i j Hi Hj). destruct (from gs n (i, j)) as (x, y).
  unfold equalize_histogram. rewrite !nth_error_map, H. destruct (nth_error l (n * x + y)) as [v|] eqn:Ev; [|reflexivity]. cbn [option_map].
  f_equal. apply equalize_permutation; [exact Hb|exact Hp|]. eapply nth_error_In; exact Ev.
Qed.

(** ** Features of moved pictures *)
Definition move_array (g : move) (n : nat) (A : array2 Z) : array2 Z :=
  mkArray2 n n (map (fun i => map (fun j => let '(x, y) := from1 g n (i, j) in match cell A x y with Some v => v | None => 0 end) (seq 0 n)) (seq 0 n)).
Lemma nth_error_seq n k : (k < n)%nat -> nth_error (seq 0 n) k = Some k.
Proof. intros H. rewrite (nth_error_nth' _ 0%nat) by (rewrite seq_length; exact H). now rewrite seq_nth by exact H. Qed.
Lemma move_array_square g n A : (2 <= n)%nat -> square_image (move_array g n A) n.
Proof.
  intros Hn. split; [|exact Hn]. split; [|split; reflexivity]. split; cbn [rows dim0 dim1 move_array]; [now rewrite map_length, seq_length|].
  apply Forall_map, Forall_forall. intros i _. now rewrite map_length, seq_length.
Qed.
Lemma move_array_cell g n A i j : square_image A n -> (i < n)%nat -> (j < n)%nat -> cell (move_array g n A) i j = let '(x, y) := from1 g n (i, j) in cell A x y.
Proof.
  intros ((Hwf & D0 & D1) & Hn) Hi Hj. unfold cell at 1, move_array. cbn [rows]. rewrite nth_error_map, nth_error_seq by exact Hi. cbn [option_map]. rewrite nth_error_map, nth_error_seq by exact Hj. cbn [option_map].
  pose proof (from_lt [g] n i j Hi Hj) as (Hx & Hy). unfold from in Hx, Hy. cbn [fold_right] in Hx, Hy. destruct (from1 g n (i, j)) as (x, y). cbn [fst snd] in Hx, Hy.
  destruct (cell_bounds A x y Hwf) as (v & Ev); [lia|lia|]. now rewrite Ev.
Qed.
Lemma features_of_moved gamma checks gs n amount : amount_ok amount -> forall A B, square_image A n -> square_image B n -> moved gs n A B ->
  calculate_features gamma checks B MomentsZernike amount = calculate_features gamma checks A MomentsZernike amount.
Proof.
  intros Ha. induction gs as [|g gs IH]; intros A B HA HB H.
  - replace B with A; [reflexivity|]. destruct HA as ((WA & A0 & A1) & _), HB as ((WB & B0 & B1) & _).
    apply array2_ext; try congruence. intros i j. destruct (Nat.lt_ge_cases i n) as [Hi|Hi], (Nat.lt_ge_cases j n) as [Hj|Hj];
      try (rewrite !cell_none by (try assumption; lia); reflexivity). symmetry. exact (H i j Hi Hj).
  - pose proof HA as (_ & Hn). transitivity (calculate_features gamma checks (move_array g n A) MomentsZernike amount).
    + apply IH; [now apply move_array_square|exact HB|]. intros i j Hi Hj. specialize (H i j Hi Hj). unfold from in H. cbn [fold_right] in H. fold (from gs n (i, j)) in H.
      destruct (from_lt gs n i j Hi Hj) as (X & Y). destruct (from gs n (i, j)) as (x, y). cbn [fst snd] in X, Y. rewrite move_array_cell by assumption. destruct (from1 g n (x, y)). exact H.
    + pose proof (move_array_square g n A Hn) as HM. destruct g.
      * apply (C46_rotation_by_90_degrees gamma checks A _ n amount HA HM Ha). intros i j Hi Hj. now rewrite move_array_cell.
      * apply (C46_mirroring gamma checks A _ n amount HA HM Ha). intros i j Hi Hj. now rewrite move_array_cell.
      * apply (C46_transposition gamma checks A _ n amount HA HM Ha). intros i j Hi Hj. now rewrite move_array_cell.
Qed.

(** ** What is hidden depends on the features only *)
Definition payload_for {F} (O : FOps F) (E : ed25519) (checks : bool) (pad : list bool) (features : list F) (step : F) : outcome (list Z) :=
  '(quantised, bits) <- three_bit_quantization O checks features step ;;
  sig <- sign E (vec_i64_to_bytes quantised) PRIVATE_KEY PUBLIC_KEY ;;
  watermark_serialize pad (mkWatermark bits sig WATERMARK_TEXT).
Lemma embed_dims {F} (O : FOps F) K image payload depth levels marked : wf image -> embed O K image payload depth levels = Ok marked ->
  wf marked /\ dim0 marked = dim0 image /\ dim1 marked = dim1 image.
Proof.
  intros Hwf E. unfold embed in E.
  apply bind_ok in E as (C & EC & E). apply bind_ok in E as (w & _ & E). apply bind_ok in E as (h & _ & E). apply bind_ok in E as (cap & _ & E).
  apply bind_ok in E as (ser & _ & E). apply bind_ok in E as (enc & _ & E). apply bind_ok in E as (C' & EW & E). apply bind_ok in E as (R & ER & E).
  apply dwt_2d_shape in EC as (W1 & A0 & A1); [|now apply mapv_wf]. apply write_shape in EW as (W2 & B0 & B1); [|exact W1].
  apply dwt_2d_shape in ER as (W3 & C0 & C1); [|exact W2]. cbn [mapv dim0 dim1] in *.
  match type of E with Ok ?m = _ => assert (Eo : marked = m) by congruence end. rewrite Eo. split; [now apply mapv_wf|]. cbn [mapv dim0 dim1]. split; congruence.
Qed.
Lemma watermark_factors {F} (O : FOps F) K E equalize features_of checks pad channel n levels depth step amount features :
  gray_picture channel n levels -> measures equalize features_of channel amount features ->
  watermark_channel O K E equalize features_of checks pad channel depth step amount levels
  = (payload <- payload_for O E checks pad features step ;; with_payload O K channel depth levels payload).
Proof.
  intros Hg Hm. destruct (gray_array channel n levels Hg) as (im & Eim & ((Hwf & D0 & D1 & _) & _) & _). unfold watermark_channel, payload_for, with_payload.
  rewrite (channel_features_ok equalize features_of channel amount im features Eim Hm). cbn [bind].
  destruct (three_bit_quantization O checks features step) as [(q, b)| |]; cbn [bind]; [|reflexivity..].
  destruct (sign E _ _ _) as [sig| |]; cbn [bind]; [|reflexivity..]. destruct (watermark_serialize pad _) as [pl| |]; cbn [bind]; [|reflexivity..].
  rewrite Eim. cbn [bind]. destruct (embed O K im pl depth levels) as [out| |] eqn:Eo; cbn [bind]; [|reflexivity..].
  destruct (embed_dims O K im pl depth levels out Hwf Eo) as (Wo & O0 & O1). destruct Hg as (W & H & _). rewrite W, H, into_raw_vec_length, O0, O1, D0, D1 by exact Wo.
  now rewrite Nat.leb_refl.
Qed.
Lemma moved_arrays gs n l l' A B : moved_raster gs n l l' -> from_shape_vec n n l = Ok A -> from_shape_vec n n l' = Ok B -> moved gs n A B.
Proof.
  intros H EA EB i j Hi Hj. specialize (H i j Hi Hj). destruct (from_lt gs n i j Hi Hj) as (X & Y). destruct (from gs n (i, j)) as (x, y). cbn [fst snd] in X, Y.
  unfold from_shape_vec in EA, EB. destruct (Nat.eqb _ _); [|discriminate]. destruct (Nat.eqb (length l') _); [|discriminate].
  assert (A = mkArray2 n n (split_rows n n l)) by congruence. assert (B = mkArray2 n n (split_rows n n l')) by congruence. subst A B.
  rewrite !cell_split by assumption. exact H.
Qed.

(** *** C108, exact arithmetic: the same payload is hidden in a channel and in the moved channel *)
Theorem C108_moved_originals_get_the_same_watermark : forall K E gamma checks pad,
  let features_of image k := calculate_features gamma checks image MomentsZernike k in
  forall gs channel changed n levels (depth step : R) amount,
  gray_picture channel n levels -> gray_picture changed n levels -> (2 <= n)%nat -> amount_ok amount ->
  moved_raster gs n (gray_raw channel) (gray_raw changed) ->
  exists hidden,
    watermark_channel Rops K E equalize_histogram features_of checks pad channel depth step amount levels = bind hidden (with_payload Rops K channel depth levels)
    /\ watermark_channel Rops K E equalize_histogram features_of checks pad changed depth step amount levels = bind hidden (with_payload Rops K changed depth levels).
Proof.
  intros K E gamma checks pad features_of gs ch ch' n L depth step amount Hg Hg' Hn Ha Hmv.
  pose proof Hg as (W & H & Hl & Hb & _). pose proof Hg' as (W' & H' & Hl' & Hb' & _).
  destruct (C76_equalisation_keeps_grey _ Hb) as (Le & _). destruct (C76_equalisation_keeps_grey _ Hb') as (Le' & _).
  destruct (raster_array n (equalize_histogram (gray_raw ch))) as (A & EA & SA & _); [congruence|exact Hn|].
  destruct (raster_array n (equalize_histogram (gray_raw ch'))) as (B & EB & SB & _); [congruence|exact Hn|].
  pose proof (moved_arrays gs n _ _ A B (equalize_moved gs n _ _ Hb Hl Hl' Hmv) EA EB) as Hm.
  assert (Ef : exists fs, features_of A amount = Ok fs).
  { unfold features_of. destruct SA as ((WA & A0 & A1) & _). destruct (C44_number_and_indices_of_features gamma checks A amount Ha WA) as (fs & Efs & _); [lia|]. exists fs. exact Efs. }
  destruct Ef as (fs & Efs).
  assert (M1 : measures equalize_histogram features_of ch amount fs) by (exists A; rewrite W, H; split; assumption).
  assert (M2 : measures equalize_histogram features_of ch' amount fs).
  { exists B. rewrite W', H'. split; [exact EB|]. rewrite <- Efs. exact (features_of_moved gamma checks gs n amount Ha A B SA SB Hm). }
  exists (payload_for Rops E checks pad fs step). split; [exact (watermark_factors Rops K E _ _ checks pad ch n L depth step amount fs Hg M1)|exact (watermark_factors Rops K E _ _ checks pad ch' n L depth step amount fs Hg' M2)].
Qed.

(** ** Binary64 *)
Lemma same_half_bin (x y : R) : (0 <= x)%R -> (0 <= y)%R -> (Rabs (x - y) <= / 64)%R -> (forall m : Z, 1 <= m -> (/ 64 < Rabs (x - IZR m / 2))%R) -> Zfloor (2 * y) = Zfloor (2 * x).
Proof.
  intros Hx Hy Hd Hc. apply Zfloor_imp. pose proof (Zfloor_lb (2 * x)) as A. pose proof (Zfloor_ub (2 * x)) as B. set (z := Zfloor (2 * x)) in *.
  assert (Z0 : 0 <= z) by (unfold z; apply Zfloor_lub; simpl; lra). rewrite plus_IZR. apply Rabs_le_inv in Hd.
  pose proof (Hc (z + 1) ltac:(lia)) as H1. rewrite plus_IZR in H1.
  assert (U : (x + / 64 < (IZR z + 1) / 2)%R) by (revert H1; unfold Rabs; destruct Rcase_abs; lra).
  split; [|lra]. destruct (Z.eq_dec z 0) as [E0|N0]; [rewrite E0; simpl; lra|].
  pose proof (Hc z ltac:(lia)) as H2. revert H2. unfold Rabs. destruct Rcase_abs; lra.
Qed.
Lemma same_bits (one : b64) checks fs gs' : fin one -> toR one = 1%R -> Forall (fun x : b64 => fin x /\ (0 <= toR x <= 1000)%R) fs -> Forall (fun x : b64 => fin x /\ (0 <= toR x <= 1000)%R) gs' ->
  Forall2 (fun x y : b64 => Zfloor (2 * toR y) = Zfloor (2 * toR x)) fs gs' -> three_bit_quantization Bops checks gs' one = three_bit_quantization Bops checks fs one.
Proof.
  intros F1 V1 Bf Bg H.
  assert (N : forall xs : list b64, Forall (fun x : b64 => fin x /\ (0 <= toR x <= 1000)%R) xs -> no_overflow Bops one checks xs).
  { intros xs Bx. apply (no_overflow_float one (unit_ordinary one V1)). eapply Forall_impl; [|exact Bx]. intros x (Fx & H0 & H1). split; [exact Fx|]. rewrite V1, Rabs_pos_eq by exact H0. simpl. lra. }
  rewrite !quantization_ok by auto.
  assert (G : Forall2 (fun x y => quantize1 Bops one y = quantize1 Bops one x /\ bits3 Bops one y = bits3 Bops one x) fs gs').
  { clear N. induction H as [|x y fs gs' Hxy H IH]; constructor; [|inversion Bf; inversion Bg; subst; auto].
    inversion Bf as [|? ? (Fx & X0 & X1) _]; inversion Bg as [|? ? (Fy & Y0 & Y1) _]; subst.
    destruct (unit_halves one x F1 V1 Fx) as (_ & _ & Hx); [rewrite Rabs_pos_eq by exact X0; simpl; lra|].
    destruct (unit_halves one y F1 V1 Fy) as (_ & _ & Hy); [rewrite Rabs_pos_eq by exact Y0; simpl; lra|].
    assert (Q : quantize1 Bops one y = quantize1 Bops one x) by (destruct (upper_half Bops one x), (upper_half Bops one y); cbn [Z.b2z] in *; lia).
    split; [exact Q|]. unfold bits3. rewrite Q. do 2 f_equal. destruct (upper_half Bops one x), (upper_half Bops one y); cbn [Z.b2z] in *; try reflexivity; lia. }
  f_equal. f_equal; unfold quantize; clear - G; induction G as [|x y fs gs' (A & B) _ IH]; cbn [map flat_map]; congruence.
Qed.

Section Shipped.
Context (K : ldpc) (Hsh : ldpc_shape K) (Hdec : ldpc_decodes K) (E : ed25519) (HE : signature_format E) (Hk : key_pair E PRIVATE_KEY PUBLIC_KEY).
Context (M : libm b64) (HM : accurate M) (gamma : b64 -> b64) (checks : bool) (pad : list bool) (Hpad : length pad = 8%nat).
Let features_of := zernike_f64 M gamma checks.
Let one : b64 := f_of_Z Bops 1.

Lemma moved_payload gs channel changed n levels (depth : b64) amount features :
  gray_picture channel n levels -> gray_picture changed n levels -> (2 <= n)%nat -> side_ok n -> (1 <= amount <= 11)%nat ->
  moved_raster gs n (gray_raw channel) (gray_raw changed) ->
  measures equalize_histogram features_of channel amount features ->
  exists features', measures equalize_histogram features_of changed amount features'
    /\ Forall2 (fun x x' : b64 => (Rabs (toR x - toR x') <= / 64)%R) features features'
    /\ (clear_features features ->
          watermark_channel Bops K E equalize_histogram features_of checks pad channel depth one amount levels
          = bind (payload_for Bops E checks pad features one) (with_payload Bops K channel depth levels)
          /\ watermark_channel Bops K E equalize_histogram features_of checks pad changed depth one amount levels
          = bind (payload_for Bops E checks pad features one) (with_payload Bops K changed depth levels)).
Proof.
  rename gs into gs, channel into ch, changed into ch', levels into L, features into fs. intros Hg Hg' Hn Hs Ha Hmv Hm.
  pose proof Hg as (W & H & Hl & Hb & _). pose proof Hg' as (W' & H' & Hl' & Hb' & _).
  destruct (zernike_measures_f64 M HM gamma checks equalize_histogram ch n L amount C76_equalisation_keeps_grey Hg Hn Hs Ha) as (A & c & e & M1 & X1 & EA & SA & _ & _ & _ & _ & C1 & B1).
  destruct (zernike_measures_f64 M HM gamma checks equalize_histogram ch' n L amount C76_equalisation_keeps_grey Hg' Hn Hs Ha) as (B & c' & e' & M2 & X2 & EB & SB & _ & _ & _ & _ & C2 & B2).
  assert (Ec : c = fs). { destruct M1 as (A1 & P1 & P2). destruct Hm as (A2 & P3 & P4). assert (A2 = A1) by congruence. subst A2. unfold features_of in P4. congruence. } subst c.
  pose proof (moved_arrays gs n _ _ A B (equalize_moved gs n _ _ Hb Hl Hl' Hmv) EA EB) as Hmv'.
  pose proof (features_of_moved (fun x => x) checks gs n amount (amount11 amount Ha) A B SA SB Hmv') as Ef.
  assert (Ee : e' = e).
  { destruct X1 as (A1 & P1 & P2). destruct X2 as (B1' & Q1 & Q2). rewrite W, H in P1. rewrite W', H' in Q1. assert (A1 = A) by congruence. assert (B1' = B) by congruence. subst A1 B1'. congruence. }
  subst e'. pose proof (close_same fs c' e C1 C2) as D. exists c'. split; [exact M2|]. split; [exact D|]. intros Hc.
  assert (HB : Forall2 (fun x y : b64 => Zfloor (2 * toR y) = Zfloor (2 * toR x)) fs c').
  { clear - D Hc B1 B2. unfold clear_features in Hc. induction D as [|x y fs c' Hxy D IH]; constructor; [|inversion Hc; inversion B1; inversion B2; subst; auto].
    inversion Hc as [|? ? Hx _]; inversion B1 as [|? ? (_ & X0 & _) _]; inversion B2 as [|? ? (_ & Y0 & _) _]; subst. now apply same_half_bin. }
  destruct (b_of_Z_ok 1) as (F1 & V1); [lia|].
  pose proof (same_bits one checks fs c' F1 V1 B1 B2 HB) as Eq.
  split; [exact (watermark_factors Bops K E _ _ checks pad ch n L depth one amount fs Hg M1)|].
  etransitivity; [exact (watermark_factors Bops K E _ _ checks pad ch' n L depth one amount c' Hg' M2)|].
  assert (Ep : payload_for Bops E checks pad c' one = payload_for Bops E checks pad fs one) by (unfold payload_for; rewrite Eq; reflexivity). now rewrite Ep.
Qed.

(** *** C108, double precision: features of moved channels differ by at most 1/64, and off the borders of half bins the same payload is hidden *)
Theorem C108_f64_moved_originals_get_the_same_watermark : forall gs channel changed n levels (depth : b64) amount features,
  gray_picture channel n levels -> gray_picture changed n levels -> (2 <= n)%nat -> side_ok n -> (1 <= amount <= 11)%nat ->
  moved_raster gs n (gray_raw channel) (gray_raw changed) ->
  measures equalize_histogram features_of channel amount features ->
  exists features', measures equalize_histogram features_of changed amount features'
    /\ Forall2 (fun x x' : b64 => (Rabs (toR x - toR x') <= / 64)%R) features features'
    /\ (clear_features features -> exists hidden,
          watermark_channel Bops K E equalize_histogram features_of checks pad channel depth one amount levels = bind hidden (with_payload Bops K channel depth levels)
          /\ watermark_channel Bops K E equalize_histogram features_of checks pad changed depth one amount levels = bind hidden (with_payload Bops K changed depth levels)).
Proof.
  intros gs ch ch' n L depth amount fs Hg Hg' Hn Hs Ha Hmv Hm.
  destruct (moved_payload gs ch ch' n L depth amount fs Hg Hg' Hn Hs Ha Hmv Hm) as (fs' & P1 & P2 & P3).
  exists fs'. split; [exact P1|]. split; [exact P2|]. intros Hc. eexists. exact (P3 Hc).
Qed.

(** *** C108: the marked version of a moved original can be made without the key from the marked original *)
Theorem C108_f64_moved_originals_are_marked_without_the_key : forall fe gs channel changed n features, In fe [command_line; web_page] ->
  gray_picture channel n 3 -> gray_picture changed n 3 -> side_ok n -> usable n 3 -> (stored_size n 3 (payload_size 11) <= band_capacity n 3)%nat ->
  Forall (fun v => margin_of fe <= v <= 255 - margin_of fe) (gray_raw channel) ->
  moved_raster gs n (gray_raw channel) (gray_raw changed) ->
  measures equalize_histogram features_of channel 11 features -> clear_features features ->
  let depth := f_of_Z Bops (depth_of fe) in
  exists marked marked' pixels pixels' payload,
    watermark_channel Bops K E equalize_histogram features_of checks pad channel depth one 11 3 = Ok marked
    /\ watermark_channel Bops K E equalize_histogram features_of checks pad changed depth one 11 3 = Ok marked'
    /\ from_shape_vec n n (gray_raw marked) = Ok pixels /\ extract Bops K pixels depth 3 = Ok payload
    /\ from_shape_vec n n (gray_raw marked') = Ok pixels' /\ extract Bops K pixels' depth 3 = Ok payload
    /\ with_payload Bops K changed depth 3 payload = Ok marked'.
Proof.
  intros fe gs ch ch' n fs Hfe Hg Hg' Hs Hu Hcap Hrange Hmv Hm Hc depth. pose proof (usable_side n 3 Hu) as Hn.
  pose proof Hg as (W & H & Hl & Hb & _). pose proof Hg' as (W' & H' & Hl' & Hb' & _).
  destruct (moved_payload gs ch ch' n 3 depth 11 fs Hg Hg' Hn Hs ltac:(lia) Hmv Hm) as (fs' & Hm' & _ & Hid). destruct (Hid Hc) as (E1 & E2). clear Hid.
  assert (Hrange' : Forall (fun v => margin_of fe <= v <= 255 - margin_of fe) (gray_raw ch')) by (eapply Permutation_Forall; [exact (moved_permutation gs n _ _ Hl Hl' Hmv)|exact Hrange]).
  destruct (shipped_channel K Hsh Hdec E HE Hk M HM gamma checks pad Hpad fe ch n Hfe Hg Hs Hu Hcap Hrange) as (_ & f1 & q1 & b1 & s1 & _ & _ & Hm1 & Lf1 & Eq1 & Es1 & _).
  assert (Ef : f1 = fs) by (exact (measured_once M gamma checks ch fs f1 Hm Hm1)). subst f1.
  destruct (sign_verify E _ _ (vec_i64_to_bytes q1) HE Hk) as (sg & Es' & Ls & Bs & _). assert (sg = s1) by congruence. subst sg.
  assert (Eq1' : three_bit_quantization Bops checks fs one = Ok (q1, b1)) by exact Eq1.
  destruct (quantization_inv Bops checks fs one q1 b1 Eq1') as (_ & _ & Lb).
  destruct (payload_of pad b1 s1 11 Hpad Bs Ls ltac:(lia) ltac:(lia)) as (pl & Epl & Bp & Lp & _).
  assert (Ep : payload_for Bops E checks pad fs one = Ok pl) by (unfold payload_for; rewrite Eq1'; cbn [bind]; rewrite Es1; cbn [bind]; exact Epl).
  rewrite Ep in E1, E2. cbn [bind] in E1, E2.
  destruct (front_end_depth pad Hpad fe Hfe) as (Fd & Hd2 & _ & _ & Hmar). fold depth in Fd, Hd2, Hmar.
  assert (Go : forall c, gray_picture c n 3 -> Forall (fun v => margin_of fe <= v <= 255 - margin_of fe) (gray_raw c) ->
    exists mk px, with_payload Bops K c depth 3 pl = Ok mk /\ from_shape_vec n n (gray_raw mk) = Ok px /\ extract Bops K px depth 3 = Ok pl).
  { clear - Hsh Hdec Hs Hu Hcap Bp Lp Fd Hd2 Hmar. intros c Hg Hrange. destruct (gray_array c n 3 Hg) as (im & Eim & Him & Hcell). 
    assert (Hroom : gray_room c n 3 (8 * stored_size n 3 (payload_size 11)) (3 * toR depth / 2 ^ (3 + 2))).
    { intros i j v _ _ Ev' _. unfold gray_pixel in Ev'. apply nth_error_In in Ev'. rewrite Forall_forall in Hrange. specialize (Hrange v Ev').
      assert (IZR (margin_of fe) <= IZR v)%R by (apply IZR_le; lia). assert (IZR v <= IZR (255 - margin_of fe))%R by (apply IZR_le; lia). rewrite minus_IZR in *. lra. }
    assert (Hr' : room im n 3 (8 * stored_size n 3 (length pl)) (3 * toR depth / 2 ^ (3 + 2))) by (rewrite Lp; now apply (gray_room_array c)).
    pose proof (payload_size_range 11 ltac:(lia)) as Hsz.
    assert (Hl : (1 <= Z.of_nat (length pl) <= 65533)) by (rewrite Lp; lia). assert (Hcap' : (stored_size n 3 (length pl) <= band_capacity n 3)%nat) by (rewrite Lp; exact Hcap).
    destruct (C31_f64_embed_then_extract_returns_the_payload K Hsh Hdec im n 3 depth pl Him ltac:(lia) Hu Bp Hl Hcap' Fd Hd2 Hr') as (out & Eo & Pout & Ex).
    destruct (array_gray out n 3 Pout) as (_ & Fout). exists (mkGray (gwidth c) (gheight c) (into_raw_vec out)), out. split; [|split; [exact Fout|exact Ex]].
    unfold with_payload. rewrite Eim. cbn [bind]. rewrite Eo. reflexivity. }
  destruct (Go ch Hg Hrange) as (mk & px & A1 & A2 & A3). destruct (Go ch' Hg' Hrange') as (mk' & px' & B1 & B2 & B3).
  exists mk, mk', px, px', pl. split; [exact (eq_trans E1 A1)|]. split; [exact (eq_trans E2 B1)|]. split; [exact A2|]. split; [exact A3|]. split; [exact B2|]. split; [exact B3|exact B1].
Qed.
End Shipped.

(** ** Concrete case: two grey levels in the four quarters of the picture; mirroring exchanges the quarters *)
Definition quarters (n : nat) (a b : Z) : gray := mkGray n n (map (fun k => if Bool.eqb (k / n <? n / 2)%nat (k mod n <? n / 2)%nat then a else b) (seq 0 (n * n))).
Lemma quarters_at n a b i j : (i < n)%nat -> (j < n)%nat ->
  nth_error (gray_raw (quarters n a b)) (n * i + j) = Some (if Bool.eqb (i <? n / 2)%nat (j <? n / 2)%nat then a else b).
Proof.
  intros Hi Hj. cbn [quarters gray_raw]. rewrite nth_error_map, nth_error_seq by nia. cbn [option_map].
  rewrite <- (Nat.div_unique (n * i + j) n i j Hj eq_refl), <- (Nat.mod_unique (n * i + j) n i j Hj eq_refl). reflexivity.
Qed.
Lemma quarters_mirrored h a b : moved_raster [Mirror] (2 * h) (gray_raw (quarters (2 * h) a b)) (gray_raw (quarters (2 * h) b a)).
Proof.
  intros i j Hi Hj. cbn [from fold_right from1]. rewrite !quarters_at by lia. replace (2 * h / 2)%nat with h by (symmetry; rewrite Nat.mul_comm; apply Nat.div_mul; lia).
  destruct (Nat.ltb_spec i h), (Nat.ltb_spec j h), (Nat.ltb_spec (2 * h - 1 - j) h); cbn [Bool.eqb]; try reflexivity; lia.
Qed.
Lemma quarters_picture n a b : byte a -> byte b -> (n mod 8 = 0)%nat -> side_ok n -> gray_picture (quarters n a b) n 3.
Proof.
  intros Ha Hb Hm Hs. repeat split; try (cbn; lia); [cbn [quarters gray_raw]; now rewrite map_length, seq_length| |exact Hm|unfold side_ok in Hs; rewrite Nat2Z.inj_mul; nia].
  cbn [quarters gray_raw]. unfold bytes. apply Forall_map, Forall_forall. intros k _. destruct (Bool.eqb _ _); assumption.
Qed.
Lemma quarters_upside_down h a b : rev (gray_raw (quarters (2 * h) a b)) = gray_raw (quarters (2 * h) a b).
Proof.
  set (n := (2 * h)%nat). assert (L : length (gray_raw (quarters n a b)) = (n * n)%nat) by (cbn [quarters gray_raw]; now rewrite map_length, seq_length).
  apply nth_error_ext. intros k. destruct (Nat.lt_ge_cases k (n * n)) as [Hk|Hk].
  2: { transitivity (@None Z); [|symmetry]; apply nth_error_None; [rewrite rev_length|]; lia. }
  assert (Hn : n <> 0%nat) by (intros Z0; rewrite Z0 in Hk; lia).
  pose proof (Nat.div_mod k n Hn) as D. assert (I1 : (k / n < n)%nat) by (apply Nat.div_lt_upper_bound; lia). assert (I2 : (k mod n < n)%nat) by (apply Nat.mod_upper_bound; lia).
  rewrite nth_error_rev, L by lia. set (i := (k / n)%nat) in *. set (j := (k mod n)%nat) in *. rewrite D.
  replace (n * n - 1 - (n * i + j))%nat with (n * (n - 1 - i) + (n - 1 - j))%nat by nia.
  rewrite !quarters_at by lia. replace (n / 2)%nat with h by (unfold n; symmetry; rewrite Nat.mul_comm; apply Nat.div_mul; lia).
  destruct (Nat.ltb_spec i h), (Nat.ltb_spec j h), (Nat.ltb_spec (n - 1 - i) h), (Nat.ltb_spec (n - 1 - j) h); cbn [Bool.eqb]; try reflexivity; unfold n in *; lia.
Qed.
Opaque quarters.
Example C108_instance : let ch := quarters 512 100 150 in let ch' := quarters 512 150 100 in
  forall fe, In fe [command_line; web_page] -> let depth := f_of_Z Bops (depth_of fe) in
  moved_raster [Mirror] 512 (gray_raw ch) (gray_raw ch')
  /\ exists features marked marked' pixels payload,
  measures equalize_histogram (zernike_f64 exact_libm (fun x => x) true) ch 11 features /\ clear_features features
  /\ watermark_channel Bops toy_ldpc toy_ed equalize_histogram (zernike_f64 exact_libm (fun x => x) true) true (repeat false 8) ch depth (f_of_Z Bops 1) 11 3 = Ok marked
  /\ watermark_channel Bops toy_ldpc toy_ed equalize_histogram (zernike_f64 exact_libm (fun x => x) true) true (repeat false 8) ch' depth (f_of_Z Bops 1) 11 3 = Ok marked'
  /\ from_shape_vec 512 512 (gray_raw marked) = Ok pixels /\ extract Bops toy_ldpc pixels depth 3 = Ok payload
  /\ with_payload Bops toy_ldpc ch' depth 3 payload = Ok marked'.
Proof.
  intros ch ch' fe Hfe depth. destruct C83_512_is_usable as (H8 & Hs & Hu & Hcap).
  assert (Hmv : moved_raster [Mirror] 512 (gray_raw ch) (gray_raw ch')) by exact (quarters_mirrored 256 100 150). split; [exact Hmv|].
  assert (G : gray_picture ch 512 3) by (apply quarters_picture; try assumption; unfold byte; lia).
  assert (G' : gray_picture ch' 512 3) by (apply quarters_picture; try assumption; unfold byte; lia).
  assert (Hn : (2 <= 512)%nat) by exact (usable_side 512 3 Hu).
  destruct (measured_exists exact_libm exact_libm_accurate (fun x => x) true ch 512 3 11 G Hn Hs ltac:(lia)) as (fs & Hm).
  pose proof (C101_f64_upside_down_pictures_have_small_features exact_libm exact_libm_accurate (fun x => x) true ch 512 11 fs G Hn Hs ltac:(lia) (quarters_upside_down 256 100 150) Hm) as Sm.
  assert (Hc : clear_features fs).
  { unfold clear_features. eapply Forall_impl; [|exact Sm]. intros x (X0 & X1) m Hm1. assert (1 <= IZR m)%R by (apply IZR_le; lia). unfold Rabs. destruct Rcase_abs; lra. }
  assert (R : Forall (fun v => margin_of fe <= v <= 255 - margin_of fe) (gray_raw ch)).
  { Transparent quarters. cbn [ch quarters gray_raw]. Opaque quarters. apply Forall_map, Forall_forall. intros k _. destruct Hfe as [ <- |[ <- |[]]]; cbn [margin_of command_line web_page]; destruct (Bool.eqb _ _); lia. }
  destruct (C108_f64_moved_originals_are_marked_without_the_key toy_ldpc toy_shape toy_decodes toy_ed toy_format toy_keys exact_libm exact_libm_accurate (fun x => x) true (repeat false 8) eq_refl
    fe [Mirror] ch ch' 512 fs Hfe G G' Hs Hu Hcap R Hmv Hm Hc) as (mk & mk' & px & px' & pl & P1 & P2 & P3 & P4 & _ & _ & P7).
  exists fs, mk, mk', px, pl. split; [exact Hm|]. split; [exact Hc|]. split; [exact P1|]. split; [exact P2|]. split; [exact P3|]. split; [exact P4|exact P7].
Qed.
