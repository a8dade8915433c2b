(** Property C114: the watermark and JPEG.  The command line names the file format by the extension of the input (lib/sia/rust/cli/src/main.rs:57-63), so a marked
    photograph is usually written as a JPEG file.  JPEG codes blocks of 8x8 pixels - the blocks of the library - by their cosine transform; the mean of the block is one
    coefficient (DC) of its own.  Whatever happens to the other 63 coefficients, the watermark only needs the DC coefficient: up to a quantisation step of 33 for the
    command line, 233 for the web page, it is read back and judged.
    (lib/sia/rust/embedding/src/lib.rs: embed, extract; lib/sia/rust/watermarking/src/process.rs: watermark_channel, authenticate_channel). *)
From Coq Require Import Reals Lra Permutation.
From Flocq Require Import Core BinarySingleNaN.
From Verif Require Import Outcome Floats FloatFacts Bits ListFacts Quantization QuantProofs QuantReal QuantFloat PropsQuant PropsQuant2 Codecs CodecProofs WatermarkProofs PropsCodec
  Encoding EncodingProofs PropsEncoding Matrix MatrixFacts Haar HaarProofs HaarReal HaarFloat PropsHaar Stego StegoProofs StegoMarks PropsStego Embedding EmbeddingProofs EmbeddingEffect PropsEmbedding PropsEmbedding2 PropsEmbedding3 PropsRobust
  Signature Process ProcessProofs Toy Zernike ZernikeProofs PropsZernike ZernikeBound PropsZernike2 ZernikeGen PropsZernikeF64 LibmSpec LibmExact PropsZernikeAcc
  PropsProcess PropsProcess2 Image PropsImage PropsProcess3 PropsProcess4 PropsProcess5 PropsProcess6 PropsTamper Equalize PropsEqualize PropsShipped PropsShipped2 PropsInteger PropsClipping PropsClipping2 PropsRepair PropsRepair2 PropsVerdict PropsUnused PropsForged PropsBright PropsBlockwise.
Open Scope R_scope.

(** ** Specification vocabulary: one component of a baseline JPEG file (ITU-T T.81, A.3.3), not code of /repo *)
Definition Rsum (n : nat) (f : nat -> R) : R := fold_right Rplus 0 (map f (seq 0 n)).
Definition weight (u : nat) : R := match u with O => / sqrt 2 | _ => 1 end.
Definition wave (p u : nat) : R := cos ((2 * INR p + 1) * INR u * PI / 16).
(** The forward transform of the 64 values [x] of a block (shifted by 128), and the inverse transform of the 64 coefficients [F]. *)
Definition dct (x : nat -> nat -> R) (u v : nat) : R := / 4 * weight u * weight v * Rsum 8 (fun p => Rsum 8 (fun q => (x p q - 128) * wave p u * wave q v)).
Definition idct (F : nat -> nat -> R) (p q : nat) : R := 128 + / 4 * Rsum 8 (fun u => Rsum 8 (fun v => weight u * weight v * F u v * wave p u * wave q v)).
(** The pixel in row p, column q of the block (bi, bj). *)
Definition block_pixel (g : gray) (n bi bj p q : nat) : Z := nth (n * (8 * bi + p) + (8 * bj + q)) (gray_raw g) 0%Z.
(** The 64 values [received] are those of [sent] after they were coded with a DC step of [step] and decoded: the decoder found 64 coefficients, of which DC is, up to half a
    step (and up to what coding errs by on average per pixel, [coder]), that of the block sent, and of which the other 63 are whatever they are; and each value is, up to
    [decoder], the inverse transform. *)
Definition block_coded (step coder decoder : R) (sent received : nat -> nat -> R) : Prop :=
  exists F, Rabs (F 0%nat 0%nat - dct sent 0 0) <= step / 2 + 8 * coder
    /\ forall p q, (p < 8)%nat -> (q < 8)%nat -> Rabs (received p q - idct F p q) <= decoder.
(** All blocks of a channel were. *)
Definition jpeg_coded (step coder decoder : R) (n : nat) (sent received : gray) : Prop :=
  forall bi bj, (bi < n / 8)%nat -> (bj < n / 8)%nat ->
    block_coded step coder decoder (fun p q => IZR (block_pixel sent n bi bj p q)) (fun p q => IZR (block_pixel received n bi bj p q)).
(** Colours (JFIF 1.02): a brightness and two differences are coded instead of red, green and blue - the first with a DC step of [sy], the other two with [sc]; afterwards
    each of red, green and blue is computed from the decoded values up to [rounding]. *)
Definition luma (r g b : R) : R := 299 / 1000 * r + 587 / 1000 * g + 114 / 1000 * b.
Definition chroma_blue (r g b : R) : R := 128 + (b - luma r g b) / (1772 / 1000).
Definition chroma_red (r g b : R) : R := 128 + (r - luma r g b) / (1402 / 1000).
Definition red_of (y cb cr : R) : R := y + 1402 / 1000 * (cr - 128).
Definition blue_of (y cb cr : R) : R := y + 1772 / 1000 * (cb - 128).
Definition green_of (y cb cr : R) : R := (y - 299 / 1000 * red_of y cb cr - 114 / 1000 * blue_of y cb cr) / (587 / 1000).
Definition jpeg_coded_in_colour (sy sc coder decoder rounding : R) (n : nat) (sent received : dynimage) : Prop :=
  forall bi bj, (bi < n / 8)%nat -> (bj < n / 8)%nat ->
    let of_sent (f : R -> R -> R -> R) p q := f (IZR (block_pixel (component ch1 sent) n bi bj p q)) (IZR (block_pixel (component ch2 sent) n bi bj p q)) (IZR (block_pixel (component ch3 sent) n bi bj p q)) in
    exists y cb cr, block_coded sy coder decoder (of_sent luma) y /\ block_coded sc coder decoder (of_sent chroma_blue) cb /\ block_coded sc coder decoder (of_sent chroma_red) cr
      /\ forall p q, (p < 8)%nat -> (q < 8)%nat ->
           Rabs (IZR (block_pixel (component ch1 received) n bi bj p q) - red_of (y p q) (cb p q) (cr p q)) <= rounding
           /\ Rabs (IZR (block_pixel (component ch2 received) n bi bj p q) - green_of (y p q) (cb p q) (cr p q)) <= rounding
           /\ Rabs (IZR (block_pixel (component ch3 received) n bi bj p q) - blue_of (y p q) (cb p q) (cr p q)) <= rounding.
(** The DC steps of the usual luminance and chrominance tables at a given quality (1..100). *)
Definition scaled (entry quality : Z) : Z :=
  let scale := if (quality <? 50)%Z then (5000 / quality)%Z else (200 - 2 * quality)%Z in clamp 1 255 ((entry * scale + 50) / 100).
Definition dc_step (quality : Z) : Z := scaled 16 quality.
Definition dc_step_of_colours (quality : Z) : Z := scaled 17 quality.

(** ** Sums *)
Lemma Rsum_S n f : Rsum (S n) f = Rsum n f + f n.
Proof.
  unfold Rsum. rewrite seq_S, map_app. cbn [plus map].
  assert (A : forall l x, fold_right Rplus 0 (l ++ [x]) = fold_right Rplus 0 l + x) by (induction l as [|y l IH]; intros x; cbn; [ring|rewrite IH; ring]). apply A.
Qed.
Lemma Rsum_ext n f g : (forall k, (k < n)%nat -> f k = g k) -> Rsum n f = Rsum n g.
Proof. induction n; intros H; [reflexivity|]. rewrite !Rsum_S, IHn, H by auto. reflexivity. Qed.
Lemma Rsum_scal n a f : Rsum n (fun k => a * f k) = a * Rsum n f.
Proof. induction n; [unfold Rsum; cbn; ring|]. rewrite !Rsum_S, IHn. ring. Qed.
Lemma Rsum_plus n f g : Rsum n (fun k => f k + g k) = Rsum n f + Rsum n g.
Proof. induction n; [unfold Rsum; cbn; ring|]. rewrite !Rsum_S, IHn. ring. Qed.
Lemma Rsum_zero n f : (forall k, (k < n)%nat -> f k = 0) -> Rsum n f = 0.
Proof. induction n; intros H; [reflexivity|]. rewrite Rsum_S, IHn, H by auto. ring. Qed.
Lemma Rsum_const n a : Rsum n (fun _ => a) = INR n * a.
Proof. induction n; [unfold Rsum; cbn; ring|]. rewrite Rsum_S, IHn, S_INR. ring. Qed.
Lemma Rsum_swap n m f : Rsum n (fun i => Rsum m (fun j => f i j)) = Rsum m (fun j => Rsum n (fun i => f i j)).
Proof. induction n; [symmetry; apply Rsum_zero; reflexivity|]. rewrite Rsum_S, IHn, <- Rsum_plus. apply Rsum_ext. intros k _. now rewrite Rsum_S. Qed.
Lemma Rsum_le n f g : (forall k, (k < n)%nat -> f k <= g k) -> Rsum n f <= Rsum n g.
Proof. induction n; intros H; [apply Rle_refl|]. rewrite !Rsum_S. apply Rplus_le_compat; auto. Qed.
Lemma Rsum_IZR n f : Rsum n (fun k => IZR (f k)) = IZR (zsum n f).
Proof. induction n; [reflexivity|]. rewrite Rsum_S, IHn. cbn [zsum]. now rewrite plus_IZR. Qed.
Lemma Rsum_first n f : (forall k, (0 < k < n)%nat -> f k = 0) -> (0 < n)%nat -> Rsum n f = f 0%nat.
Proof.
  intros H Hn. destruct n; [lia|]. clear Hn. induction n; [unfold Rsum; cbn; ring|]. rewrite Rsum_S, IHn by (intros; apply H; lia). rewrite (H (S n)) by lia. ring.
Qed.

(** The waves other than the constant one add up to nothing. *)
Lemma wave_sum u : (0 < u < 8)%nat -> Rsum 8 (fun p => wave p u) = 0.
Proof.
  intros Hu. set (a := INR u * PI / 16). pose proof PI_RGT_0 as HP.
  assert (A1 : 0 < INR u) by (apply (lt_INR 0); lia). assert (A2 : INR u <= 7) by (replace 7 with (INR 7) by (simpl; ring); apply le_INR; lia).
  assert (Ha : 0 < a < PI) by (unfold a; split; nra).
  pose proof (sin_gt_0 a (proj1 Ha) (proj2 Ha)) as Hs.
  assert (T : forall n, 2 * sin a * Rsum n (fun p => wave p u) = sin (INR (2 * n) * a)).
  { induction n as [|n IH]; [change (INR (2 * 0)) with 0; rewrite Rmult_0_l, sin_0; unfold Rsum; cbn; ring|].
    rewrite Rsum_S, Rmult_plus_distr_l, IH. unfold wave. replace ((2 * INR n + 1) * INR u * PI / 16) with ((2 * INR n + 1) * a) by (unfold a; field).
    replace (INR (2 * n) * a) with ((2 * INR n + 1) * a - a) by (rewrite mult_INR; simpl (INR 2); ring).
    replace (INR (2 * S n) * a) with ((2 * INR n + 1) * a + a) by (rewrite mult_INR, (S_INR n); simpl (INR 2); ring).
    rewrite sin_minus, sin_plus. ring. }
  specialize (T 8%nat). assert (Z : sin (INR (2 * 8) * a) = 0).
  { apply sin_eq_0_1. exists (Z.of_nat u). rewrite <- INR_IZR_INZ. unfold a. change (2 * 8)%nat with 16%nat. simpl (INR 16). field. }
  rewrite Z in T. apply (Rmult_eq_reg_l (2 * sin a)); [rewrite T; ring|nra].
Qed.
Lemma wave_constant p : wave p 0 = 1.
Proof. unfold wave. simpl (INR 0). replace ((2 * INR p + 1) * 0 * PI / 16) with 0 by field. apply cos_0. Qed.
Lemma weight_square : weight 0 * weight 0 = / 2.
Proof. unfold weight. rewrite <- Rinv_mult, sqrt_def by lra. reflexivity. Qed.

(** DC is the mean; and an inverse transform has the mean that DC says. *)
Lemma dct_dc x : dct x 0 0 = (Rsum 8 (fun p => Rsum 8 (fun q => x p q)) - 64 * 128) / 8.
Proof.
  unfold dct. rewrite (Rsum_ext 8 _ (fun p => Rsum 8 (fun q => x p q) + 8 * (-128))).
  - rewrite Rsum_plus, Rsum_const, Rmult_assoc, Rmult_assoc, <- (Rmult_assoc (weight 0)), weight_square. simpl (INR 8). field.
  - intros p _. rewrite (Rsum_ext 8 _ (fun q => x p q + (-128))) by (intros q _; rewrite !wave_constant; ring). rewrite Rsum_plus, Rsum_const. simpl (INR 8). change (Rsum 8 (fun q : nat => x p q)) with (Rsum 8 (x p)). ring.
Qed.
Lemma idct_sum F : Rsum 8 (fun p => Rsum 8 (fun q => idct F p q)) = 64 * 128 + 8 * F 0%nat 0%nat.
Proof.
  unfold idct.
  assert (Q : forall p, Rsum 8 (fun q => 128 + / 4 * Rsum 8 (fun u => Rsum 8 (fun v => weight u * weight v * F u v * wave p u * wave q v)))
                        = 8 * 128 + 2 * Rsum 8 (fun u => weight u * weight 0 * F u 0%nat * wave p u)).
  { intros p. rewrite Rsum_plus, Rsum_const, Rsum_scal, Rsum_swap. simpl (INR 8).
    assert (U : forall u, Rsum 8 (fun q => Rsum 8 (fun v => weight u * weight v * F u v * wave p u * wave q v)) = 8 * (weight u * weight 0 * F u 0%nat * wave p u)).
    { intros u. rewrite Rsum_swap. rewrite Rsum_first; [|intros v Hv|lia].
      - rewrite Rsum_scal. rewrite (Rsum_ext 8 _ (fun _ => 1)) by (intros q _; apply wave_constant). rewrite Rsum_const. simpl (INR 8). ring.
      - rewrite Rsum_scal, wave_sum by exact Hv. ring. }
    rewrite (Rsum_ext 8 _ (fun u => 8 * (weight u * weight 0 * F u 0%nat * wave p u))) by (intros u _; apply U). rewrite Rsum_scal. field. }
  rewrite (Rsum_ext 8 _ _ (fun p _ => Q p)). rewrite Rsum_plus, Rsum_const, Rsum_scal, Rsum_swap. simpl (INR 8).
  rewrite Rsum_first; [|intros u Hu|lia].
  - rewrite Rsum_scal. rewrite (Rsum_ext 8 _ (fun _ => 1)) by (intros q _; apply wave_constant). rewrite Rsum_const, weight_square. simpl (INR 8). field.
  - rewrite Rsum_scal, wave_sum by exact Hu. ring.
Qed.

Lemma block_sum_Rsum g n bi bj : IZR (block_sum g n bi bj) = Rsum 8 (fun p => Rsum 8 (fun q => IZR (block_pixel g n bi bj p q))).
Proof.
  rewrite block_sum_dsum. Transparent PropsClipping.dsum. unfold PropsClipping.dsum. Opaque PropsClipping.dsum. rewrite <- Rsum_IZR. apply Rsum_ext. intros p _. now rewrite <- Rsum_IZR.
Qed.
(** The sum of the 64 values of a block. *)
Definition Rdsum (f : nat -> nat -> R) : R := Rsum 8 (fun p => Rsum 8 (fun q => f p q)).
Lemma Rdsum_le f g : (forall p q, (p < 8)%nat -> (q < 8)%nat -> f p q <= g p q) -> Rdsum f <= Rdsum g.
Proof. intros H. apply Rsum_le. intros p Hp. apply Rsum_le. intros q Hq. now apply H. Qed.
Lemma Rdsum_ext f g : (forall p q, (p < 8)%nat -> (q < 8)%nat -> f p q = g p q) -> Rdsum f = Rdsum g.
Proof. intros H. apply Rsum_ext. intros p Hp. apply Rsum_ext. intros q Hq. now apply H. Qed.
Lemma Rdsum_lin a f b g c h d : Rdsum (fun p q => a * f p q + b * g p q + c * h p q + d) = a * Rdsum f + b * Rdsum g + c * Rdsum h + 64 * d.
Proof.
  unfold Rdsum. rewrite (Rsum_ext 8 _ (fun p => a * Rsum 8 (fun q => f p q) + b * Rsum 8 (fun q => g p q) + c * Rsum 8 (fun q => h p q) + 8 * d)).
  - rewrite !Rsum_plus, !Rsum_scal, Rsum_const. simpl (INR 8). ring.
  - intros p _. rewrite !Rsum_plus, !Rsum_scal, Rsum_const. simpl (INR 8).
    change (Rsum 8 (fun q => f p q)) with (Rsum 8 (f p)). change (Rsum 8 (fun q => g p q)) with (Rsum 8 (g p)). change (Rsum 8 (fun q => h p q)) with (Rsum 8 (h p)). ring.
Qed.
Lemma Rdsum_plus_const f d : Rdsum (fun p q => f p q + d) = Rdsum f + 64 * d.
Proof. rewrite (Rdsum_ext _ (fun p q => 1 * f p q + 0 * f p q + 0 * f p q + d)) by (intros; ring). rewrite Rdsum_lin. ring. Qed.
Lemma Rdsum_near f g d : (forall p q, (p < 8)%nat -> (q < 8)%nat -> Rabs (f p q - g p q) <= d) -> Rabs (Rdsum f - Rdsum g) <= 64 * d.
Proof.
  intros H. assert (U : Rdsum f <= Rdsum g + 64 * d) by (rewrite <- Rdsum_plus_const; apply Rdsum_le; intros p q Hp Hq; specialize (H p q Hp Hq); apply Rabs_le_inv in H; lra).
  assert (L : Rdsum g + 64 * - d <= Rdsum f) by (rewrite <- Rdsum_plus_const; apply Rdsum_le; intros p q Hp Hq; specialize (H p q Hp Hq); apply Rabs_le_inv in H; lra).
  apply Rabs_le. lra.
Qed.
Lemma block_moves step coder decoder s r : block_coded step coder decoder s r -> Rabs (Rdsum r - Rdsum s) <= 4 * step + 64 * coder + 64 * decoder.
Proof.
  intros (F & H1 & H2). rewrite dct_dc in H1. apply Rdsum_near in H2. change (Rdsum (fun p q => idct F p q)) with (Rsum 8 (fun p => Rsum 8 (fun q => idct F p q))) in H2.
  change (Rdsum (idct F)) with (Rsum 8 (fun p => Rsum 8 (fun q => idct F p q))) in H2. rewrite idct_sum in H2. fold (Rdsum s) in H1.
  apply Rabs_le_inv in H1. apply Rabs_le_inv in H2. apply Rabs_le. lra.
Qed.
Lemma block_sum_Rdsum g n bi bj : IZR (block_sum g n bi bj) = Rdsum (fun p q => IZR (block_pixel g n bi bj p q)).
Proof. apply block_sum_Rsum. Qed.
(** *** C114: what JPEG does to the sum of a block, and to the three sums of a block of a colour picture. *)
Theorem C114_jpeg_moves_the_sum_of_a_block_by : forall step coder decoder n sent received, jpeg_coded step coder decoder n sent received ->
  forall bi bj, (bi < n / 8)%nat -> (bj < n / 8)%nat -> Rabs (IZR (block_sum received n bi bj - block_sum sent n bi bj)) <= 4 * step + 64 * coder + 64 * decoder.
Proof. intros step coder decoder n s r H bi bj Hi Hj. rewrite minus_IZR, !block_sum_Rdsum. apply block_moves. now apply H. Qed.

Lemma colours_there_and_back r g b : red_of (luma r g b) (chroma_blue r g b) (chroma_red r g b) = r /\ green_of (luma r g b) (chroma_blue r g b) (chroma_red r g b) = g
  /\ blue_of (luma r g b) (chroma_blue r g b) (chroma_red r g b) = b.
Proof. unfold green_of, red_of, blue_of, chroma_blue, chroma_red, luma. repeat split; field. Qed.
Lemma back_sum y cb cr : Rdsum (fun p q => red_of (y p q) (cb p q) (cr p q)) = red_of (Rdsum y / 64) (Rdsum cb / 64) (Rdsum cr / 64) * 64
  /\ Rdsum (fun p q => green_of (y p q) (cb p q) (cr p q)) = green_of (Rdsum y / 64) (Rdsum cb / 64) (Rdsum cr / 64) * 64
  /\ Rdsum (fun p q => blue_of (y p q) (cb p q) (cr p q)) = blue_of (Rdsum y / 64) (Rdsum cb / 64) (Rdsum cr / 64) * 64.
Proof.
  split; [|split].
  - rewrite (Rdsum_ext _ (fun p q => 1 * y p q + 0 * cb p q + 1402 / 1000 * cr p q + - (1402 / 1000 * 128))) by (intros; unfold red_of; ring). rewrite Rdsum_lin. unfold red_of. field.
  - rewrite (Rdsum_ext _ (fun p q => 1 * y p q + - (114 * 1772 / 587000) * cb p q + - (299 * 1402 / 587000) * cr p q + (114 * 1772 + 299 * 1402) / 587000 * 128)) by (intros; unfold green_of, red_of, blue_of; field).
    rewrite Rdsum_lin. unfold green_of, red_of, blue_of. field.
  - rewrite (Rdsum_ext _ (fun p q => 1 * y p q + 1772 / 1000 * cb p q + 0 * cr p q + - (1772 / 1000 * 128))) by (intros; unfold blue_of; ring). rewrite Rdsum_lin. unfold blue_of. field.
Qed.
Theorem C114_jpeg_moves_the_sums_of_a_block_in_colour_by : forall sy sc coder decoder rounding n sent received, jpeg_coded_in_colour sy sc coder decoder rounding n sent received ->
  forall sel bi bj, In sel [ch1; ch2; ch3] -> (bi < n / 8)%nat -> (bj < n / 8)%nat ->
  Rabs (IZR (block_sum (component sel received) n bi bj - block_sum (component sel sent) n bi bj))
    <= (4 * sy + 64 * coder + 64 * decoder) + 1772 / 1000 * (4 * sc + 64 * coder + 64 * decoder) + 64 * rounding.
Proof.
  intros sy sc coder decoder rounding n s r H sel bi bj Hsel Hi Hj. destruct (H bi bj Hi Hj) as (y & cb & cr & Hy & Hb & Hr & Hp). rewrite minus_IZR, !block_sum_Rdsum.
  apply block_moves in Hy, Hb, Hr. destruct (back_sum y cb cr) as (B1 & B2 & B3).
  set (Ys := Rdsum (fun p q => luma _ _ _)) in Hy. set (Bs := Rdsum (fun p q => chroma_blue _ _ _)) in Hb. set (Rs := Rdsum (fun p q => chroma_red _ _ _)) in Hr.
  destruct (back_sum (fun p q => luma (IZR (block_pixel (component ch1 s) n bi bj p q)) (IZR (block_pixel (component ch2 s) n bi bj p q)) (IZR (block_pixel (component ch3 s) n bi bj p q)))
                     (fun p q => chroma_blue (IZR (block_pixel (component ch1 s) n bi bj p q)) (IZR (block_pixel (component ch2 s) n bi bj p q)) (IZR (block_pixel (component ch3 s) n bi bj p q)))
                     (fun p q => chroma_red (IZR (block_pixel (component ch1 s) n bi bj p q)) (IZR (block_pixel (component ch2 s) n bi bj p q)) (IZR (block_pixel (component ch3 s) n bi bj p q)))) as (A1 & A2 & A3).
  fold Ys Bs Rs in A1, A2, A3.
  assert (N1 := Rdsum_near _ _ rounding (fun p q Hp' Hq' => proj1 (Hp p q Hp' Hq'))).
  assert (N2 := Rdsum_near _ _ rounding (fun p q Hp' Hq' => proj1 (proj2 (Hp p q Hp' Hq')))).
  assert (N3 := Rdsum_near _ _ rounding (fun p q Hp' Hq' => proj2 (proj2 (Hp p q Hp' Hq')))).
  assert (D : 0 <= 4 * sc + 64 * coder + 64 * decoder) by (eapply Rle_trans; [apply Rabs_pos|exact Hb]).
  rewrite (Rdsum_ext _ (fun p q => IZR (block_pixel (component ch1 s) n bi bj p q))) in A1 by (intros; apply colours_there_and_back).
  rewrite (Rdsum_ext _ (fun p q => IZR (block_pixel (component ch2 s) n bi bj p q))) in A2 by (intros; apply colours_there_and_back).
  rewrite (Rdsum_ext _ (fun p q => IZR (block_pixel (component ch3 s) n bi bj p q))) in A3 by (intros; apply colours_there_and_back).
  rewrite B1 in N1. rewrite B2 in N2. rewrite B3 in N3.
  apply Rabs_le_inv in Hy. apply Rabs_le_inv in Hb. apply Rabs_le_inv in Hr. apply Rabs_le_inv in N1. apply Rabs_le_inv in N2. apply Rabs_le_inv in N3.
  unfold green_of, red_of, blue_of in *. apply Rabs_le.
  destruct Hsel as [ <- |[ <- |[ <- |[]]]]; [rewrite A1|rewrite A2|rewrite A3]; lra.
Qed.

(** The lowest quality at which the steps of DC are harmless in colour. *)
Definition lowest_quality_in_colour (fe : front_end) : Z := if Z.eqb (depth_of fe) 100 then 64 else 10.
Lemma lowest_quality_in_colour_is_enough fe quality : In fe [command_line; web_page] -> (lowest_quality_in_colour fe <= quality <= 100)%Z ->
  (1000 * (4 * dc_step quality + 32) + 1772 * (4 * dc_step_of_colours quality) <= 1000 * (2 * depth_of fe - 33))%Z.
Proof.
  intros Hfe Hq.
  assert (A : forall lo bound, forallb (fun k => (1000 * (4 * dc_step (lo + Z.of_nat k) + 32) + 1772 * (4 * dc_step_of_colours (lo + Z.of_nat k)) <=? bound))%Z (seq 0 (Z.to_nat (100 - lo) + 1)) = true ->
                (lo <= quality)%Z -> (1000 * (4 * dc_step quality + 32) + 1772 * (4 * dc_step_of_colours quality) <= bound)%Z).
  { intros lo bound Hf Hlo. rewrite forallb_forall in Hf. specialize (Hf (Z.to_nat (quality - lo))). rewrite Z2Nat.id, Zplus_minus in Hf by lia.
    specialize (Hf ltac:(apply in_seq; lia)). now apply Z.leb_le in Hf. }
  destruct Hfe as [ <- |[ <- |[]]]; [apply (A 64%Z)|apply (A 10%Z)]; try (vm_compute; reflexivity); exact (proj1 Hq).
Qed.
(** The lowest quality at which the step of DC is harmless. *)
Definition lowest_quality (fe : front_end) : Z := if Z.eqb (depth_of fe) 100 then 24 else 4.
Lemma lowest_quality_is_enough fe quality : In fe [command_line; web_page] -> (lowest_quality fe <= quality <= 100)%Z -> (0 < dc_step quality /\ 4 * dc_step quality + 32 <= 2 * depth_of fe - 33)%Z.
Proof.
  intros Hfe Hq.
  assert (A : forall lo bound, forallb (fun k => (0 <? dc_step (lo + Z.of_nat k)) && (4 * dc_step (lo + Z.of_nat k) + 32 <=? bound))%Z (seq 0 (Z.to_nat (100 - lo) + 1)) = true ->
                (lo <= quality)%Z -> (0 < dc_step quality /\ 4 * dc_step quality + 32 <= bound)%Z).
  { intros lo bound Hf Hlo. rewrite forallb_forall in Hf. specialize (Hf (Z.to_nat (quality - lo))). rewrite Z2Nat.id, Zplus_minus in Hf by lia.
    specialize (Hf ltac:(apply in_seq; lia)). apply andb_prop in Hf as (H1 & H2). apply Z.ltb_lt in H1. apply Z.leb_le in H2. auto. }
  destruct Hfe as [ <- |[ <- |[]]]; [apply (A 24%Z)|apply (A 4%Z)]; try (vm_compute; reflexivity); exact (proj1 Hq).
Qed.

Section Jpeg.
Context (K : ldpc) (Hsh : ldpc_shape K) (Hdec : ldpc_decodes K) (E : ed25519) (HE : signature_format E) (Hk : key_pair E PRIVATE_KEY PUBLIC_KEY).
Context (M : libm b64) (HM : accurate M) (gamma : b64 -> b64) (checks : bool) (pad : list bool) (Hpad : length pad = 8%nat).
Let features_of := zernike_f64 M gamma checks.
Let one : b64 := f_of_Z Bops 1.

(** *** C114: a marked picture whose components were stored as JPEG is read and judged, whatever became of the 63 other coefficients *)
Theorem C114_f64_jpeg : forall fe image n, In fe [command_line; web_page] ->
  well_formed image -> dimensions image = (n, n) -> (n mod 8 = 0)%nat -> side_ok n -> usable n 3 ->
  (stored_size n 3 (payload_size 11) <= band_capacity n 3)%nat -> colours_within (margin_of fe) image ->
  exists result, watermark_image Bops K E equalize_histogram features_of checks pad image (f_of_Z Bops (depth_of fe)) one 11 = Ok result
    /\ forall sel, In sel [ch1; ch2; ch3] -> exists features w,
         measures equalize_histogram features_of (component sel image) 11 features
         /\ sign E (vec_i64_to_bytes (integer_parts features)) PRIVATE_KEY PUBLIC_KEY = Ok (Codecs.signature w)
         /\ (forall step coder decoder received, 4 * step + 64 * coder + 64 * decoder <= IZR (2 * depth_of fe - 33) -> gray_picture received n 3 ->
               jpeg_coded step coder decoder n (component sel result) received -> reads_and_judges K E M gamma checks (depth_of fe) features w received)
         /\ forall quality received, (lowest_quality fe <= quality <= 100)%Z -> gray_picture received n 3 ->
               jpeg_coded (IZR (dc_step quality)) 0 (/ 2) n (component sel result) received -> reads_and_judges K E M gamma checks (depth_of fe) features w received.
Proof.
  intros fe image n Hfe Hw Ed Hm8 Hs Hu Hcap Hcol. pose proof (usable_side n 3 Hu) as Hn.
  assert (Hr : (Z.of_nat (n * n) < 2 ^ 53)%Z) by (unfold side_ok in Hs; rewrite Nat2Z.inj_mul; nia).
  destruct (C110_f64_only_the_sums_of_the_blocks_matter K 0 Hsh (decodes_corrects K Hsh Hdec) E HE Hk M HM gamma checks pad Hpad fe image n (2 * depth_of fe - 33) [] Hfe Hw Ed Hm8 Hs Hu Hcap)
    as (result & Er & Wr & Dr & Hv).
  { intros w; cbn; lia. }
  { intros sel Hsel. now apply (margin_withstands fe image n). }
  exists result. split; [exact Er|]. intros sel Hsel. destruct (Hv sel Hsel) as (fs & w & H1 & H2 & H3). exists fs, w. split; [exact H1|]. split; [exact H2|].
  assert (G : forall step coder decoder received, 4 * step + 64 * coder + 64 * decoder <= IZR (2 * depth_of fe - 33) -> gray_picture received n 3 ->
               jpeg_coded step coder decoder n (component sel result) received -> reads_and_judges K E M gamma checks (depth_of fe) fs w received).
  { intros step coder decoder received Hb Grc Hj. apply H3; [exact Grc|]. intros bi bj Hi Hj' _ _. exists 0%Z.
    pose proof (C114_jpeg_moves_the_sum_of_a_block_by step coder decoder n _ _ Hj bi bj Hi Hj') as B. rewrite Z.mul_0_r, Z.add_0_r. apply le_IZR. rewrite abs_IZR.
    eapply Rle_trans; [exact B|exact Hb]. }
  split; [exact G|]. intros quality received Hq Grc Hj. apply (G _ _ _ received) in Hj; [exact Hj| |exact Grc].
  destruct (lowest_quality_is_enough fe quality Hfe Hq) as (_ & B). apply IZR_le in B. rewrite plus_IZR, mult_IZR in B. lra.
Qed.

(** *** C114 in colour *)
Theorem C114_f64_colour_jpeg : forall fe image n, In fe [command_line; web_page] ->
  well_formed image -> dimensions image = (n, n) -> (n mod 8 = 0)%nat -> side_ok n -> usable n 3 ->
  (stored_size n 3 (payload_size 11) <= band_capacity n 3)%nat -> colours_within (margin_of fe) image ->
  exists result, watermark_image Bops K E equalize_histogram features_of checks pad image (f_of_Z Bops (depth_of fe)) one 11 = Ok result
    /\ forall sel, In sel [ch1; ch2; ch3] -> exists features w,
         measures equalize_histogram features_of (component sel image) 11 features
         /\ sign E (vec_i64_to_bytes (integer_parts features)) PRIVATE_KEY PUBLIC_KEY = Ok (Codecs.signature w)
         /\ (forall sy sc coder decoder rounding received,
               (4 * sy + 64 * coder + 64 * decoder) + 1772 / 1000 * (4 * sc + 64 * coder + 64 * decoder) + 64 * rounding <= IZR (2 * depth_of fe - 33) ->
               well_formed received -> dimensions received = (n, n) -> jpeg_coded_in_colour sy sc coder decoder rounding n result received ->
               reads_and_judges K E M gamma checks (depth_of fe) features w (component sel received))
         /\ forall quality received, (lowest_quality_in_colour fe <= quality <= 100)%Z -> well_formed received -> dimensions received = (n, n) ->
               jpeg_coded_in_colour (IZR (dc_step quality)) (IZR (dc_step_of_colours quality)) 0 0 (/ 2) n result received ->
               reads_and_judges K E M gamma checks (depth_of fe) features w (component sel received).
Proof.
  intros fe image n Hfe Hw Ed Hm8 Hs Hu Hcap Hcol. pose proof (usable_side n 3 Hu) as Hn.
  assert (Hr : (Z.of_nat (n * n) < 2 ^ 53)%Z) by (unfold side_ok in Hs; rewrite Nat2Z.inj_mul; nia).
  destruct (C110_f64_only_the_sums_of_the_blocks_matter K 0 Hsh (decodes_corrects K Hsh Hdec) E HE Hk M HM gamma checks pad Hpad fe image n (2 * depth_of fe - 33) [] Hfe Hw Ed Hm8 Hs Hu Hcap)
    as (result & Er & Wr & Dr & Hv).
  { intros w; cbn; lia. }
  { intros sel Hsel. now apply (margin_withstands fe image n). }
  exists result. split; [exact Er|]. intros sel Hsel. destruct (Hv sel Hsel) as (fs & w & H1 & H2 & H3). exists fs, w. split; [exact H1|]. split; [exact H2|].
  assert (G : forall sy sc coder decoder rounding received,
               (4 * sy + 64 * coder + 64 * decoder) + 1772 / 1000 * (4 * sc + 64 * coder + 64 * decoder) + 64 * rounding <= IZR (2 * depth_of fe - 33) ->
               well_formed received -> dimensions received = (n, n) -> jpeg_coded_in_colour sy sc coder decoder rounding n result received ->
               reads_and_judges K E M gamma checks (depth_of fe) fs w (component sel received)).
  { intros sy sc coder decoder rounding received Hb Wc Dc Hj.
    assert (Gc : gray_picture (component sel received) n 3) by (apply component_picture; auto; cbn in Hsel; intuition auto).
    apply H3; [exact Gc|]. intros bi bj Hi Hj' _ _. exists 0%Z.
    pose proof (C114_jpeg_moves_the_sums_of_a_block_in_colour_by sy sc coder decoder rounding n _ _ Hj sel bi bj Hsel Hi Hj') as B. rewrite Z.mul_0_r, Z.add_0_r. apply le_IZR. rewrite abs_IZR.
    eapply Rle_trans; [exact B|exact Hb]. }
  split; [exact G|]. intros quality received Hq Wc Dc Hj. apply (G _ _ _ _ _ received) in Hj; [exact Hj| |exact Wc|exact Dc].
  pose proof (lowest_quality_in_colour_is_enough fe quality Hfe Hq) as B. apply IZR_le in B. rewrite plus_IZR, !mult_IZR, plus_IZR, mult_IZR in B. lra.
Qed.
End Jpeg.

(** ** The hypotheses are met.  At quality 75 the step is 8; where all other coefficients are quantised to nothing, the decoder finds the mean of each block, i.e. the
    enlarged thumbnail. *)
Example C114_quality_75 : dc_step 75 = 8%Z /\ forall fe, In fe [command_line; web_page] -> (lowest_quality fe <= 75 <= 100)%Z /\ 4 * 8 + 64 * 1 + 64 * 1 <= IZR (2 * depth_of fe - 33).
Proof.
  split; [reflexivity|]. intros fe Hfe. assert (A : (lowest_quality fe <= 75)%Z /\ (160 <= 2 * depth_of fe - 33)%Z) by (destruct Hfe as [ <- |[ <- |[]]]; vm_compute; split; discriminate).
  destruct A as (A & B). apply IZR_le in B. split; [lia|lra].
Qed.
Lemma thumbnail_is_a_jpeg g n : gray_picture g n 3 -> jpeg_coded 8 0 0 n g (enlarged (n / 8) (thumbnail n g)).
Proof.
  intros Hg bi bj Hi Hj. set (S := block_sum g n bi bj). set (m := ((S + 32) / 64)%Z). exists (fun u v => match u, v with O, O => 8 * (IZR m - 128) | _, _ => 0 end). split.
  - rewrite dct_dc, <- block_sum_Rsum. fold S. pose proof (Z.div_mod (S + 32) 64 ltac:(lia)) as D. pose proof (Z.mod_pos_bound (S + 32) 64 ltac:(lia)) as B. fold m in D.
    assert (L : (64 * m - 32 <= S <= 64 * m + 32)%Z) by lia. destruct L as (L1 & L2). apply IZR_le in L1, L2. rewrite minus_IZR, mult_IZR in L1. rewrite plus_IZR, mult_IZR in L2. apply Rabs_le. lra.
  - intros p q Hp Hq. unfold idct.
    rewrite Rsum_first; [|intros u Hu; apply Rsum_zero; intros v _; destruct u; [lia|ring]|lia].
    rewrite Rsum_first; [|intros v Hv; destruct v; [lia|ring]|lia]. rewrite weight_square, !wave_constant. unfold block_pixel.
    pose proof (thumb_side g n Hg) as E. rewrite (enlarged_pixel g n Hg) by lia.
    replace ((8 * bi + p) / 8)%nat with bi by (symmetry; rewrite Nat.mul_comm, Nat.div_add_l, Nat.div_small by lia; lia).
    replace ((8 * bj + q) / 8)%nat with bj by (symmetry; rewrite Nat.mul_comm, Nat.div_add_l, Nat.div_small by lia; lia). fold S. fold m.
    replace (IZR m - (128 + / 4 * (/ 2 * (8 * (IZR m - 128)) * 1 * 1))) with 0 by field. rewrite Rabs_R0. lra.
Qed.

(** A colour picture whose blocks have lost everything but their mean colour. *)
Definition three_channels (n : nat) (r g b : gray) : dynimage := ImageRgb8 n n (combine (combine (gray_raw r) (gray_raw g)) (gray_raw b)).
Lemma map_combine {A B} (l : list A) (l' : list B) : length l = length l' -> map fst (combine l l') = l /\ map snd (combine l l') = l'.
Proof. revert l'. induction l as [|x l IH]; intros [|y l'] H; try discriminate; [split; reflexivity|]. injection H as H. destruct (IH _ H) as (H1 & H2). cbn. now rewrite H1, H2. Qed.
Lemma three_channels_ok n r g b : gray_picture r n 3 -> gray_picture g n 3 -> gray_picture b n 3 ->
  well_formed (three_channels n r g b) /\ dimensions (three_channels n r g b) = (n, n)
  /\ gray_raw (component ch1 (three_channels n r g b)) = gray_raw r /\ gray_raw (component ch2 (three_channels n r g b)) = gray_raw g /\ gray_raw (component ch3 (three_channels n r g b)) = gray_raw b.
Proof.
  intros (_ & _ & L1 & B1 & _) (_ & _ & L2 & B2 & _) (_ & _ & L3 & B3 & _). unfold well_formed, component, three_channels. cbn [dimensions get_pixels has_alpha has_color fst snd gray_raw].
  set (a := gray_raw r) in *. set (c := gray_raw g) in *. set (d := gray_raw b) in *. clearbody a c d. 
  assert (X : length (combine a c) = length d) by (rewrite combine_length; lia). destruct (map_combine a c) as (M1 & M2); [lia|]. destruct (map_combine (combine a c) d X) as (M3 & M4).
  split; [split; [|split; [|split]]|split; [reflexivity|split; [|split]]].
  - rewrite map_length, combine_length. lia.
  - apply Forall_forall. intros p Hp. apply in_map_iff in Hp as (((x & y) & z) & <- & Hin). pose proof (in_combine_l _ _ _ _ Hin) as H1. pose proof (in_combine_r _ _ _ _ Hin) as H2.
    pose proof (in_combine_l _ _ _ _ H1) as H3. pose proof (in_combine_r _ _ _ _ H1) as H4. unfold bytes in *. rewrite Forall_forall in B1, B2, B3.
    unfold pixel8. cbn [ch1 ch2 ch3 ch4]. split; [now apply B1|]. split; [now apply B2|]. split; [now apply B3|unfold byte; lia].
  - intros _. apply Forall_forall. intros p Hp. apply in_map_iff in Hp as (((x & y) & z) & <- & _). reflexivity.
  - discriminate.
  - rewrite map_map. rewrite <- M1 at 2. rewrite <- M3 at 2. rewrite map_map. apply map_ext. intros ((x & y) & z). reflexivity.
  - rewrite map_map. rewrite <- M2 at 2. rewrite <- M3 at 2. rewrite map_map. apply map_ext. intros ((x & y) & z). reflexivity.
  - rewrite map_map. rewrite <- M4 at 2. apply map_ext. intros ((x & y) & z). reflexivity.
Qed.
Lemma mean_block x step : 0 <= step -> block_coded step 0 0 x (fun _ _ => Rdsum x / 64).
Proof.
  intros Hs. exists (fun u v => match u, v with O, O => dct x 0 0 | _, _ => 0 end). split.
  - unfold Rminus. rewrite Rplus_opp_r, Rabs_R0. lra.
  - intros p q _ _. unfold idct. rewrite Rsum_first; [|intros u Hu; apply Rsum_zero; intros v _; destruct u; [lia|ring]|lia].
    rewrite Rsum_first; [|intros v Hv; destruct v; [lia|ring]|lia]. rewrite weight_square, !wave_constant, dct_dc. fold (Rdsum x).
    replace (Rdsum x / 64 - (128 + / 4 * (/ 2 * ((Rdsum x - 64 * 128) / 8) * 1 * 1))) with 0 by field. rewrite Rabs_R0. lra.
Qed.
Lemma mean_colours image n sy sc : well_formed image -> dimensions image = (n, n) -> (n mod 8 = 0)%nat -> (Z.of_nat (n * n) < 2 ^ 53)%Z -> 0 <= sy -> 0 <= sc ->
  let flat sel := enlarged (n / 8) (thumbnail n (component sel image)) in
  well_formed (three_channels n (flat ch1) (flat ch2) (flat ch3)) /\ dimensions (three_channels n (flat ch1) (flat ch2) (flat ch3)) = (n, n)
  /\ jpeg_coded_in_colour sy sc 0 0 (/ 2) n image (three_channels n (flat ch1) (flat ch2) (flat ch3)).
Proof.
  intros Hw Ed Hm Hr Hsy Hsc flat.
  assert (G : forall sel, sel = ch1 \/ sel = ch2 \/ sel = ch3 -> gray_picture (component sel image) n 3) by (intros sel Hsel; now apply component_picture).
  assert (T : forall sel, sel = ch1 \/ sel = ch2 \/ sel = ch3 -> gray_picture (flat sel) n 3) by (intros sel Hsel; apply enlarged_picture; now apply G).
  destruct (three_channels_ok n (flat ch1) (flat ch2) (flat ch3)) as (A1 & A2 & A3 & A4 & A5); [apply T; auto|apply T; auto|apply T; auto|].
  split; [exact A1|]. split; [exact A2|]. intros bi bj Hi Hj of_sent.
  exists (fun _ _ => Rdsum (of_sent luma) / 64), (fun _ _ => Rdsum (of_sent chroma_blue) / 64), (fun _ _ => Rdsum (of_sent chroma_red) / 64).
  split; [now apply mean_block|]. split; [now apply mean_block|]. split; [now apply mean_block|].
  destruct (back_sum (of_sent luma) (of_sent chroma_blue) (of_sent chroma_red)) as (B1 & B2 & B3).
  rewrite (Rdsum_ext _ (fun p q => IZR (block_pixel (component ch1 image) n bi bj p q))) in B1 by (intros; apply colours_there_and_back).
  rewrite (Rdsum_ext _ (fun p q => IZR (block_pixel (component ch2 image) n bi bj p q))) in B2 by (intros; apply colours_there_and_back).
  rewrite (Rdsum_ext _ (fun p q => IZR (block_pixel (component ch3 image) n bi bj p q))) in B3 by (intros; apply colours_there_and_back).
  rewrite <- block_sum_Rdsum in B1, B2, B3.
  assert (P : forall sel x p q, (sel = ch1 \/ sel = ch2 \/ sel = ch3) -> gray_raw (component sel (three_channels n (flat ch1) (flat ch2) (flat ch3))) = gray_raw (flat sel) ->
              IZR (block_sum (component sel image) n bi bj) = x * 64 -> (p < 8)%nat -> (q < 8)%nat ->
              Rabs (IZR (block_pixel (component sel (three_channels n (flat ch1) (flat ch2) (flat ch3))) n bi bj p q) - x) <= / 2).
  { intros sel x p q Hsel Hraw Hx Hp Hq. unfold block_pixel. rewrite Hraw. pose proof (G sel Hsel) as Hg. pose proof (thumb_side _ n Hg) as E. unfold flat. rewrite (enlarged_pixel _ n Hg) by lia.
    replace ((8 * bi + p) / 8)%nat with bi by (symmetry; rewrite Nat.mul_comm, Nat.div_add_l, Nat.div_small by lia; lia).
    replace ((8 * bj + q) / 8)%nat with bj by (symmetry; rewrite Nat.mul_comm, Nat.div_add_l, Nat.div_small by lia; lia).
    clear - Hx. revert Hx. generalize (block_sum (component sel image) n bi bj). intros S Hx. pose proof (Z.div_mod (S + 32) 64 ltac:(lia)) as D. pose proof (Z.mod_pos_bound (S + 32) 64 ltac:(lia)) as B. set (m := ((S + 32) / 64)%Z) in *.
    assert (L : (64 * m - 32 <= S <= 64 * m + 32)%Z) by lia. destruct L as (L1 & L2). apply IZR_le in L1, L2. rewrite minus_IZR, mult_IZR in L1. rewrite plus_IZR, mult_IZR in L2. apply Rabs_le. lra. }
  intros p q Hp Hq. split; [|split]; apply P; auto.
Qed.

Opaque colour512 watermark_image.
Example C114_instance : forall fe, In fe [command_line; web_page] -> exists result,
  watermark_image Bops toy_ldpc toy_ed equalize_histogram (zernike_f64 exact_libm (fun x => x) true) true (repeat false 8) colour512 (f_of_Z Bops (depth_of fe)) (f_of_Z Bops 1) 11 = Ok result
  /\ forall sel, In sel [ch1; ch2; ch3] -> exists features w received, jpeg_coded (IZR (dc_step 75)) 0 0 512 (component sel result) received
       /\ reads_and_judges toy_ldpc toy_ed exact_libm (fun x => x) true (depth_of fe) features w received.
Proof.
  intros fe Hfe. destruct C83_512_is_usable as (A & B & C & D).
  assert (Ed : dimensions colour512 = (512, 512)%nat) by reflexivity.
  assert (Hcol : colours_within (margin_of fe) colour512).
  { Transparent colour512. unfold colours_within, colour512. cbn [get_pixels]. apply Forall_forall. intros p Hp. apply repeat_spec in Hp. subst p.
    intros sel Hsel. cbn in Hsel. destruct Hfe as [ <- |[ <- |[]]]; destruct Hsel as [ <- |[ <- |[ <- |[]]]]; cbn [margin_of command_line web_page ch1 ch2 ch3]; lia. }
  Opaque colour512.
  destruct (C114_f64_jpeg toy_ldpc toy_shape toy_decodes toy_ed toy_format toy_keys exact_libm exact_libm_accurate (fun x => x) true (repeat false 8) eq_refl fe colour512 512 Hfe colour512_wf Ed A B C D Hcol)
    as (result & H1 & Hv).
  destruct (C42_watermark_preserves_size_layout_and_alpha toy_ldpc toy_ed equalize_histogram _ true (repeat false 8) colour512 (f_of_Z Bops (depth_of fe)) (f_of_Z Bops 1) 11 result colour512_wf H1) as (X1 & X2 & X3 & X4 & X5 & X6 & _).
  assert (Wr : well_formed result) by assumption. assert (Dr : dimensions result = (512, 512)%nat) by congruence. clear X1 X2 X3 X4 X5 X6.
  exists result. split; [exact H1|]. intros sel Hsel. destruct (Hv sel Hsel) as (fs & w & _ & _ & Hj & _). exists fs, w, (enlarged 64 (thumbnail 512 (component sel result))).
  assert (Gr : gray_picture (component sel result) 512 3).
  { apply component_picture; [exact Wr|exact Dr|cbn in Hsel; intuition auto|reflexivity|]. rewrite Nat2Z.inj_mul; lia. }
  pose proof (thumbnail_is_a_jpeg _ 512 Gr) as J. pose proof (enlarged_picture _ 512 Gr) as G.
  change (dc_step 75) with 8%Z. change (512 / 8)%nat with 64%nat in *. split; [exact J|].
  apply (Hj 8 0 0 _); [|exact G|exact J]. destruct C114_quality_75 as (_ & Q). destruct (Q fe Hfe) as (_ & Q'). lra.
Qed.

Example C114_instance_in_colour : forall fe, In fe [command_line; web_page] -> exists result received,
  watermark_image Bops toy_ldpc toy_ed equalize_histogram (zernike_f64 exact_libm (fun x => x) true) true (repeat false 8) colour512 (f_of_Z Bops (depth_of fe)) (f_of_Z Bops 1) 11 = Ok result
  /\ jpeg_coded_in_colour (IZR (dc_step 75)) (IZR (dc_step_of_colours 75)) 0 0 (/ 2) 512 result received
  /\ forall sel, In sel [ch1; ch2; ch3] -> exists features w, reads_and_judges toy_ldpc toy_ed exact_libm (fun x => x) true (depth_of fe) features w (component sel received).
Proof.
  intros fe Hfe. destruct C83_512_is_usable as (A & B & C & D).
  assert (Ed : dimensions colour512 = (512, 512)%nat) by reflexivity.
  assert (Hcol : colours_within (margin_of fe) colour512).
  { Transparent colour512. unfold colours_within, colour512. cbn [get_pixels]. apply Forall_forall. intros p Hp. apply repeat_spec in Hp. subst p.
    intros sel Hsel. cbn in Hsel. destruct Hfe as [ <- |[ <- |[]]]; destruct Hsel as [ <- |[ <- |[ <- |[]]]]; cbn [margin_of command_line web_page ch1 ch2 ch3]; lia. }
  Opaque colour512.
  destruct (C114_f64_colour_jpeg toy_ldpc toy_shape toy_decodes toy_ed toy_format toy_keys exact_libm exact_libm_accurate (fun x => x) true (repeat false 8) eq_refl fe colour512 512 Hfe colour512_wf Ed A B C D Hcol)
    as (result & H1 & Hv).
  destruct (C42_watermark_preserves_size_layout_and_alpha toy_ldpc toy_ed equalize_histogram _ true (repeat false 8) colour512 (f_of_Z Bops (depth_of fe)) (f_of_Z Bops 1) 11 result colour512_wf H1) as (X1 & X2 & X3 & X4 & X5 & X6 & _).
  assert (Wr : well_formed result) by assumption. assert (Dr : dimensions result = (512, 512)%nat) by congruence. clear X1 X2 X3 X4 X5 X6.
  destruct (mean_colours result 512 (IZR (dc_step 75)) (IZR (dc_step_of_colours 75)) Wr Dr A) as (W & Dd & J).
  { rewrite Nat2Z.inj_mul; lia. }
  { apply (IZR_le 0). vm_compute. discriminate. }
  { apply (IZR_le 0). vm_compute. discriminate. }
  eexists result, _. split; [exact H1|]. split; [exact J|]. intros sel Hsel. destruct (Hv sel Hsel) as (fs & w & _ & _ & _ & Hq). exists fs, w.
  apply (Hq 75%Z _); [destruct Hfe as [ <- |[ <- |[]]]; vm_compute; split; discriminate|exact W|exact Dd|exact J].
Qed.

Print Assumptions C114_f64_jpeg.
Print Assumptions C114_f64_colour_jpeg.
