(** Properties C42, C43, C59 and the whole-image part of C40: lib/sia/rust/watermarking/src/lib.rs. *)
From Coq Require Import Reals Lra.
From Flocq Require Import Core BinarySingleNaN.
From Verif Require Import Outcome Floats FloatFacts Bits ListFacts Quantization PropsQuant Codecs CodecProofs WatermarkProofs
  Encoding EncodingProofs PropsEncoding Matrix MatrixFacts PropsHaar Embedding EmbeddingProofs EmbeddingEffect PropsEmbedding PropsEmbedding2
  Signature Process ProcessProofs PropsProcess PropsProcess2 Toy Zernike ZernikeProofs PropsZernike Image.
Open Scope Z_scope.

(** ** Specification vocabulary *)
Definition pixel8 (p : rgba) : Prop := byte (ch1 p) /\ byte (ch2 p) /\ byte (ch3 p) /\ byte (ch4 p).

(** A well-formed image: as many pixels as width times height, 8-bit values, opaque if it has no alpha channel, equal
    components if it has no colour. *)
Definition well_formed (image : dynimage) : Prop :=
  let '(width, height) := dimensions image in
  length (get_pixels image) = (width * height)%nat /\ Forall pixel8 (get_pixels image)
  /\ (has_alpha image = false -> Forall (fun p => ch4 p = 255) (get_pixels image))
  /\ (has_color image = false -> Forall (fun p => ch2 p = ch1 p /\ ch3 p = ch1 p) (get_pixels image)).

(** One of the 8-bit layouts. *)
Definition eight_bit (image : dynimage) : Prop := match image with ImageOther _ _ _ _ _ => False | _ => True end.

(** A channel transformer that keeps the shape and returns 8-bit values. *)
Definition keeps_shape (wm : gray -> outcome gray) : Prop :=
  forall c m, wm c = Ok m -> gwidth m = gwidth c /\ gheight m = gheight c /\ length (gray_raw m) = (gwidth c * gheight c)%nat /\ bytes (gray_raw m).

(** Colour component [sel] of an image as a gray channel. *)
Definition component (sel : rgba -> Z) (image : dynimage) : gray :=
  mkGray (fst (dimensions image)) (snd (dimensions image)) (map sel (get_pixels image)).

(** ** helpers *)
Lemma rgb_to_luma_gray v : rgb_to_luma v v v = v.
Proof. unfold rgb_to_luma. replace (2126 * v + 7152 * v + 722 * v) with (v * 10000) by ring. apply Z.div_mul. lia. Qed.

Lemma channel_of_true sel px : channel_of true sel px = map sel px. Proof. reflexivity. Qed.

Lemma map_nth_ext {A B} (f : A -> B) l l' : length l = length l' -> (forall k a b, nth_error l k = Some a -> nth_error l' k = Some b -> f a = b) -> map f l = l'.
Proof.
  revert l'; induction l as [|a t IH]; intros [|b t'] Hl H; cbn [length] in Hl; try discriminate; [reflexivity|]. cbn [map]. f_equal.
  - exact (H 0%nat a b eq_refl eq_refl).
  - apply IH; [lia|]. intros k x y Hx Hy. exact (H (S k) x y Hx Hy).
Qed.

(** zip4 component-wise *)
Lemma zip4_spec color alpha rs gs bs as_ n : length rs = n -> length gs = n -> length bs = n -> length as_ = n ->
  length (zip4 color alpha rs gs bs as_) = n
  /\ map ch1 (zip4 color alpha rs gs bs as_) = rs
  /\ map ch2 (zip4 color alpha rs gs bs as_) = (if color then gs else rs)
  /\ map ch3 (zip4 color alpha rs gs bs as_) = (if color then bs else rs)
  /\ map ch4 (zip4 color alpha rs gs bs as_) = (if alpha then as_ else rs).
Proof.
  revert rs gs bs as_; induction n as [|n IH]; intros [|r rs] [|g gs] [|b bs] [|a as_] H1 H2 H3 H4; cbn [length] in *; try discriminate.
  - cbn. destruct color, alpha; repeat split; reflexivity.
  - destruct (IH rs gs bs as_) as (L & E1 & E2 & E3 & E4); try lia. unfold zip4 in *. cbn [combine map length].
    rewrite E1, E2, E3, E4, L. unfold out_pixel. destruct color, alpha; cbn; repeat split; reflexivity.
Qed.

Lemma map_grayscale px : Forall (fun p => ch2 p = ch1 p /\ ch3 p = ch1 p) px -> grayscale px = map ch1 px.
Proof.
  intros H. unfold grayscale. apply map_ext_Forall. eapply Forall_impl; [|exact H]. intros (((r, g), b), a) (E1 & E2). cbn in *. subst. apply rgb_to_luma_gray.
Qed.
Lemma map_grayscale_alpha px : Forall (fun p => ch2 p = ch1 p /\ ch3 p = ch1 p) px -> grayscale_alpha px = map (fun p => (ch1 p, ch4 p)) px.
Proof.
  intros H. unfold grayscale_alpha. apply map_ext_Forall. eapply Forall_impl; [|exact H]. intros (((r, g), b), a) (E1 & E2). cbn in *. subst. now rewrite rgb_to_luma_gray.
Qed.

Lemma Forall_of_maps {A B} (f g : A -> B) l : map f l = map g l -> Forall (fun a => f a = g a) l.
Proof. induction l as [|a t IH]; intros E; constructor; cbn [map] in E; [congruence|apply IH; congruence]. Qed.

Lemma Forall_map_iff {A B} (P : B -> Prop) (f : A -> B) l : Forall P (map f l) <-> Forall (fun a => P (f a)) l.
Proof. apply Forall_map. Qed.

(** The structure of the result, from which everything else follows. *)
Lemma watermark_structure wm image result : keeps_shape wm -> well_formed image -> watermark wm image = Ok result ->
  dimensions result = dimensions image /\ has_color result = has_color image /\ has_alpha result = has_alpha image /\ eight_bit result
  /\ well_formed result /\ map ch4 (get_pixels result) = map ch4 (get_pixels image)
  /\ (exists red, wm (component ch1 image) = Ok red /\ map ch1 (get_pixels result) = gray_raw red)
  /\ (has_color image = true ->
       (exists green, wm (component ch2 image) = Ok green /\ map ch2 (get_pixels result) = gray_raw green)
       /\ (exists blue, wm (component ch3 image) = Ok blue /\ map ch3 (get_pixels result) = gray_raw blue)).
Proof.
  intros Hk Hw E. unfold watermark in E. unfold component. unfold well_formed in Hw.
  destruct (dimensions image) as (w, h) eqn:Ed. destruct Hw as (Hl & H8 & Ha & Hc). cbn [fst snd].
  set (px := get_pixels image) in *. rewrite channel_of_true in E.
  apply bind_ok in E as (red & Er & E). destruct (Hk _ _ Er) as (R1 & R2 & R3 & R4). cbn [gwidth gheight] in R1, R2, R3.
  assert (B4 : Forall byte (map ch4 px)) by (apply Forall_map; eapply Forall_impl; [|exact H8]; intros p Hp; apply Hp).
  assert (EL : exists green blue, (has_color image = true -> wm (mkGray w h (map ch2 px)) = Ok green /\ wm (mkGray w h (map ch3 px)) = Ok blue)
     /\ length (gray_raw green) = (w * h)%nat /\ length (gray_raw blue) = (w * h)%nat /\ bytes (gray_raw green) /\ bytes (gray_raw blue)
     /\ Ok (if negb (has_color image) && has_alpha image then ImageLumaA8 w h (grayscale_alpha (zip4 (has_color image) (has_alpha image) (gray_raw red) (gray_raw green) (gray_raw blue) (channel_of (has_alpha image) ch4 px)))
      else if has_color image && has_alpha image then ImageRgba8 w h (zip4 (has_color image) (has_alpha image) (gray_raw red) (gray_raw green) (gray_raw blue) (channel_of (has_alpha image) ch4 px))
      else if negb (has_color image) then ImageLuma8 w h (grayscale (zip4 (has_color image) (has_alpha image) (gray_raw red) (gray_raw green) (gray_raw blue) (channel_of (has_alpha image) ch4 px)))
      else ImageRgb8 w h (to_rgb (zip4 (has_color image) (has_alpha image) (gray_raw red) (gray_raw green) (gray_raw blue) (channel_of (has_alpha image) ch4 px)))) = Ok result).
  { destruct (has_color image) eqn:Eh.
    - rewrite !channel_of_true in E. apply bind_ok in E as (green & Eg & E). apply bind_ok in E as (blue & Eb & E).
      destruct (Hk _ _ Eg) as (_ & _ & G3 & G4). destruct (Hk _ _ Eb) as (_ & _ & B3 & B5). cbn [gwidth gheight] in G3, B3.
      exists green, blue. split; [intros _; split; assumption|]. split; [exact G3|]. split; [exact B3|]. split; [exact G4|]. split; [exact B5|]. exact E.
    - cbn [bind] in E. eexists. eexists. split; [discriminate|].
      assert (Z0 : forall sel, bytes (channel_of false sel px)).
      { intros sel. unfold channel_of, bytes. apply Forall_map, Forall_forall. intros p _. unfold byte. lia. }
      assert (L0 : forall sel, length (channel_of false sel px) = (w * h)%nat) by (intros sel; unfold channel_of; rewrite map_length; exact Hl).
      split; [|split; [|split; [|split; [|exact E]]]]; cbn [gray_raw]; first [apply L0|apply Z0]. }
  clear E. destruct EL as (green & blue & Egb & G3 & B3 & G4 & B5 & E).
  assert (La : length (channel_of (has_alpha image) ch4 px) = (w * h)%nat) by (unfold channel_of; rewrite map_length; exact Hl).
  destruct (zip4_spec (has_color image) (has_alpha image) (gray_raw red) (gray_raw green) (gray_raw blue) _ (w * h) R3 G3 B3 La) as (Z0 & Z1 & Z2 & Z3 & Z4).
  set (z := zip4 _ _ _ _ _ _) in *.
  assert (Hmono : has_color image = false -> Forall (fun p => ch2 p = ch1 p /\ ch3 p = ch1 p) z).
  { intros Hh. rewrite Hh in Z2, Z3. assert (A1 : map ch2 z = map ch1 z) by congruence. assert (A2 : map ch3 z = map ch1 z) by congruence.
    apply Forall_and; now apply Forall_of_maps. }
  assert (Z8 : Forall pixel8 z).
  { assert (D1 : Forall (fun p => byte (ch1 p)) z) by (apply (proj1 (Forall_map_iff byte ch1 z)); rewrite Z1; exact R4).
    assert (D2 : Forall (fun p => byte (ch2 p)) z) by (apply (proj1 (Forall_map_iff byte ch2 z)); rewrite Z2; destruct (has_color image); assumption).
    assert (D3 : Forall (fun p => byte (ch3 p)) z) by (apply (proj1 (Forall_map_iff byte ch3 z)); rewrite Z3; destruct (has_color image); assumption).
    assert (D4 : Forall (fun p => byte (ch4 p)) z).
    { apply (proj1 (Forall_map_iff byte ch4 z)). rewrite Z4. destruct (has_alpha image); [exact B4|exact R4]. }
    apply Forall_and; [exact D1|]. apply Forall_and; [exact D2|]. apply Forall_and; assumption. }
  assert (Hop : has_alpha image = false -> map ch4 px = repeat 255 (w * h)).
  { intros Hh. rewrite <- Hl. clear - Ha Hh. specialize (Ha Hh). induction Ha as [|p t Hp Ht IH]; [reflexivity|]. cbn [map length repeat]. congruence. }
  assert (Const : forall {A} (l : list A), map (fun _ => 255) l = repeat 255 (length l)).
  { intros A l. induction l as [|a t IH]; [reflexivity|]. cbn. now rewrite IH. }
  destruct (has_color image) eqn:Hcol, (has_alpha image) eqn:Halp; cbn [negb andb] in E.
  - (* rgba *)
    assert (Er' : result = ImageRgba8 w h z) by congruence. rewrite Er'. cbn [dimensions has_color has_alpha eight_bit get_pixels well_formed].
    split; [reflexivity|]. split; [reflexivity|]. split; [reflexivity|]. split; [exact Logic.I|]. split.
    + split; [exact Z0|]. split; [exact Z8|]. split; discriminate.
    + split; [exact Z4|]. split; [exists red; split; assumption|]. intros _. destruct (Egb eq_refl) as (Eg & Eb). split; [exists green|exists blue]; split; assumption.
  - (* rgb *)
    assert (Er' : result = ImageRgb8 w h (to_rgb z)) by congruence. rewrite Er'. cbn [dimensions has_color has_alpha eight_bit get_pixels well_formed].
    set (o := map (fun p : Z * Z * Z => let '(r, g, b) := p in (r, g, b, 255)) (to_rgb z)).
    assert (O1 : map ch1 o = map ch1 z) by (unfold o, to_rgb; rewrite !map_map; apply map_ext; intros (((r, g), b), a); reflexivity).
    assert (O2 : map ch2 o = map ch2 z) by (unfold o, to_rgb; rewrite !map_map; apply map_ext; intros (((r, g), b), a); reflexivity).
    assert (O3 : map ch3 o = map ch3 z) by (unfold o, to_rgb; rewrite !map_map; apply map_ext; intros (((r, g), b), a); reflexivity).
    assert (O4 : map ch4 o = repeat 255 (w * h)).
    { rewrite <- Z0, <- Const. unfold o, to_rgb. rewrite !map_map. apply map_ext. intros (((r, g), b), a). reflexivity. }
    assert (Lo : length o = (w * h)%nat) by (unfold o, to_rgb; rewrite !map_length; exact Z0).
    split; [reflexivity|]. split; [reflexivity|]. split; [reflexivity|]. split; [exact Logic.I|]. split.
    + split; [exact Lo|]. split.
      * unfold o, to_rgb. rewrite map_map. apply Forall_map. eapply Forall_impl; [|exact Z8]. intros (((r, g), b), a) (P1 & P2 & P3 & _). unfold pixel8. cbn in *. unfold byte in *. repeat split; try assumption; lia.
      * split; [|discriminate]. intros _. unfold o. apply Forall_map, Forall_forall. intros ((r, g), b) _. reflexivity.
    + split; [rewrite O4; symmetry; now apply Hop|]. split; [exists red; split; [assumption|congruence]|].
      intros _. destruct (Egb eq_refl) as (Eg & Eb). split; [exists green|exists blue]; (split; [assumption|congruence]).
  - (* luma + alpha *)
    rewrite map_grayscale_alpha in E by now apply Hmono.
    assert (Er' : result = ImageLumaA8 w h (map (fun p => (ch1 p, ch4 p)) z)) by congruence. rewrite Er'. cbn [dimensions has_color has_alpha eight_bit get_pixels well_formed].
    set (o := map (fun p : Z * Z => let '(v, a) := p in (v, v, v, a)) (map (fun p => (ch1 p, ch4 p)) z)).
    assert (O1 : map ch1 o = map ch1 z) by (unfold o; rewrite !map_map; apply map_ext; intros (((r, g), b), a); reflexivity).
    assert (O4 : map ch4 o = map ch4 z) by (unfold o; rewrite !map_map; apply map_ext; intros (((r, g), b), a); reflexivity).
    split; [reflexivity|]. split; [reflexivity|]. split; [reflexivity|]. split; [exact Logic.I|]. split.
    + split; [unfold o; rewrite !map_length; exact Z0|]. split.
      * unfold o. rewrite map_map. apply Forall_map. eapply Forall_impl; [|exact Z8]. intros (((r, g), b), a) (P1 & P2 & P3 & P4). unfold pixel8. cbn in *. repeat split; assumption || apply P1 || apply P4.
      * split; [discriminate|]. intros _. unfold o. apply Forall_map, Forall_forall. intros (v, a) _. split; reflexivity.
    + split; [rewrite O4; exact Z4|]. split; [exists red; split; [assumption|congruence]|discriminate].
  - (* luma *)
    rewrite map_grayscale in E by now apply Hmono.
    assert (Er' : result = ImageLuma8 w h (map ch1 z)) by congruence. rewrite Er'. cbn [dimensions has_color has_alpha eight_bit get_pixels well_formed].
    set (o := map (fun v : Z => (v, v, v, 255)) (map ch1 z)).
    assert (O1 : map ch1 o = map ch1 z) by (unfold o; rewrite !map_map; apply map_ext; intros (((r, g), b), a); reflexivity).
    assert (O4 : map ch4 o = repeat 255 (w * h)).
    { rewrite <- Z0, <- Const. unfold o. rewrite !map_map. apply map_ext. intros (((r, g), b), a). reflexivity. }
    split; [reflexivity|]. split; [reflexivity|]. split; [reflexivity|]. split; [exact Logic.I|]. split.
    + split; [unfold o; rewrite !map_length; exact Z0|]. split.
      * unfold o. rewrite map_map. apply Forall_map. eapply Forall_impl; [|exact Z8]. intros (((r, g), b), a) (P1 & P2 & P3 & P4). unfold pixel8. cbn in *. unfold byte in *. repeat split; try apply P1; lia.
      * split; intros _; unfold o; apply Forall_map, Forall_forall; intros v _; [reflexivity|split; reflexivity].
    + split; [rewrite O4; symmetry; now apply Hop|]. split; [exists red; split; [assumption|congruence]|discriminate].
Qed.

(** The channel function of the library keeps the shape and returns 8-bit values, in double precision and in exact arithmetic. *)
Lemma channel_raw_shape {F} (O : FOps F) K E eq fo checks pad ch depth step amount L m :
  watermark_channel O K E eq fo checks pad ch depth step amount L = Ok m ->
  exists im pl out, wf im /\ dim0 im = gwidth ch /\ dim1 im = gheight ch /\ embed O K im pl depth L = Ok out /\ m = mkGray (gwidth ch) (gheight ch) (into_raw_vec out).
Proof.
  intros H. apply watermark_inv in H as (im & fs & q & bits & sig & pl & out & H1 & _ & _ & _ & _ & H6 & H7).
  destruct (from_shape_vec_ok _ _ _ _ H1) as (_ & W & D0 & D1 & _). exists im, pl, out. repeat split; try assumption; apply W.
Qed.

Lemma image8_raw im : image8 im -> bytes (into_raw_vec im) /\ length (into_raw_vec im) = (dim0 im * dim1 im)%nat.
Proof.
  intros H. split; [|now apply into_raw_vec_length, H].
  destruct H as (_ & H). unfold into_raw_vec, bytes. rewrite Forall_concat. exact H.
Qed.

Lemma channel_keeps_shape K E eq fo checks pad depth step amount L :
  keeps_shape (fun ch => watermark_channel Bops K E eq fo checks pad ch depth step amount L).
Proof.
  intros ch m H. cbn beta in H. apply channel_raw_shape in H as (im & pl & out & W & D0 & D1 & H & ->). cbn [gwidth gheight gray_raw].
  destruct (C35_embed_keeps_the_shape K im pl depth L out W H) as (H8 & O0 & O1). destruct (image8_raw out H8) as (B & Ln).
  repeat split; try assumption. congruence.
Qed.

(** ** C42 *)

(** For the library's [watermark] in double precision: size, layout and alpha are the input's, every colour component is the watermarked
    component and depends on that component only. *)
Theorem C42_watermark_preserves_size_layout_and_alpha : forall K E equalize features_of checks pad image (depth step : b64) amount result,
  well_formed image -> watermark_image Bops K E equalize features_of checks pad image depth step amount = Ok result ->
  let mark channel := watermark_channel Bops K E equalize features_of checks pad channel depth step amount 3 in
  dimensions result = dimensions image
  /\ has_color result = has_color image /\ has_alpha result = has_alpha image /\ eight_bit result /\ well_formed result
  /\ map ch4 (get_pixels result) = map ch4 (get_pixels image)
  /\ mark (component ch1 image) = Ok (component ch1 result)
  /\ mark (component ch2 image) = Ok (component ch2 result)
  /\ mark (component ch3 image) = Ok (component ch3 result).
Proof.
  intros K E eq fo checks pad image depth step amount result Hw H mark.
  pose proof (channel_keeps_shape K E eq fo checks pad depth step amount 3) as Hk. unfold watermark_image in H.
  destruct (watermark_structure _ image result Hk Hw H) as (R1 & R2 & R3 & R4 & R5 & R6 & (red & Er & Mr) & Rc).
  do 6 (split; [assumption|]).
  assert (Cmp : forall sel sel' m, mark (component sel image) = Ok m -> map sel' (get_pixels result) = gray_raw m -> mark (component sel image) = Ok (component sel' result)).
  { intros sel sel' m Em Eraw. rewrite Em. f_equal. destruct (Hk _ _ Em) as (W & Hh & _). unfold component in *. cbn [gwidth gheight] in W, Hh. rewrite R1, Eraw, <- W, <- Hh. now destruct m. }
  assert (Mono : has_color image = false -> (component ch2 image = component ch1 image /\ component ch3 image = component ch1 image)
     /\ map ch2 (get_pixels result) = map ch1 (get_pixels result) /\ map ch3 (get_pixels result) = map ch1 (get_pixels result)).
  { assert (Eq : forall im, well_formed im -> has_color im = false -> map ch2 (get_pixels im) = map ch1 (get_pixels im) /\ map ch3 (get_pixels im) = map ch1 (get_pixels im)).
    { intros im Him Hh. unfold well_formed in Him. destruct (dimensions im) as (w, h). destruct Him as (_ & _ & _ & Hc). specialize (Hc Hh).
      split; apply map_ext_Forall; (eapply Forall_impl; [|exact Hc]); intros p (A & B); assumption. }
    intros Hh. destruct (Eq image Hw Hh) as (A & B). split; [unfold component; rewrite A, B; split; reflexivity|]. apply Eq; congruence. }
  split; [exact (Cmp ch1 ch1 red Er Mr)|].
  destruct (has_color image).
  - destruct (Rc eq_refl) as ((g & Eg & Mg) & (b & Eb & Mb)). split; [exact (Cmp ch2 ch2 g Eg Mg)|exact (Cmp ch3 ch3 b Eb Mb)].
  - destruct (Mono eq_refl) as ((A & B) & C & D). rewrite A, B. split; [apply (Cmp ch1 ch2 red Er)|apply (Cmp ch1 ch3 red Er)]; congruence.
Qed.

(** When it returns: exactly when the channels that are processed can be watermarked (one channel for a gray image, three for a colour
    image); otherwise it panics like the first channel that cannot. *)
Theorem C42_watermark_returns_iff_the_channels_do : forall (F : Type) (O : FOps F) K E equalize features_of checks pad image (depth step : F) amount,
  let mark channel := watermark_channel O K E equalize features_of checks pad channel depth step amount 3 in
  let run := watermark_image O K E equalize features_of checks pad image depth step amount in
  (forall reason, mark (component ch1 image) = Panic reason -> run = Panic reason)
  /\ ((exists result, run = Ok result) <->
      (exists red, mark (component ch1 image) = Ok red)
      /\ (has_color image = true -> (exists green, mark (component ch2 image) = Ok green) /\ (exists blue, mark (component ch3 image) = Ok blue))).
Proof.
  intros F O K E eq fo checks pad image depth step amount mark run. unfold run, watermark_image, watermark, component in *. fold mark.
  change (watermark_channel O K E eq fo checks pad) with (watermark_channel O K E eq fo checks pad).
  destruct (dimensions image) as (w, h). cbn [fst snd]. rewrite channel_of_true. unfold mark.
  split.
  - intros r H. unfold DWT_LEVELS. rewrite H. reflexivity.
  - unfold DWT_LEVELS. destruct (has_color image).
    + rewrite !channel_of_true. split.
      * intros (r & H). apply bind_ok in H as (red & Er & H). apply bind_ok in H as (green & Eg & H). apply bind_ok in H as (blue & Eb & H). eauto 6.
      * intros ((red & Er) & Hc). destruct (Hc eq_refl) as ((green & Eg) & (blue & Eb)). rewrite Er. cbn [bind]. rewrite Eg. cbn [bind]. rewrite Eb. cbn [bind]. eauto.
    + split.
      * intros (r & H). apply bind_ok in H as (red & Er & H). split; [eauto|discriminate].
      * intros ((red & Er) & _). rewrite Er. cbn [bind]. eauto.
Qed.

(** ** C43: for a gray image the pixels of the result are exactly the watermarked luma channel. *)
Theorem C43_gray_result_is_the_watermarked_channel : forall K E equalize features_of checks pad (depth step : b64) amount,
  let run image := watermark_image Bops K E equalize features_of checks pad image depth step amount in
  let mark channel := watermark_channel Bops K E equalize features_of checks pad channel depth step amount 3 in
  (forall w h luma, length luma = (w * h)%nat -> bytes luma ->
     run (ImageLuma8 w h luma) = (marked <- mark (mkGray w h luma) ;; Ok (ImageLuma8 w h (gray_raw marked))))
  /\ (forall w h luma alpha, length luma = (w * h)%nat -> length alpha = (w * h)%nat -> bytes luma -> bytes alpha ->
     run (ImageLumaA8 w h (combine luma alpha)) = (marked <- mark (mkGray w h luma) ;; Ok (ImageLumaA8 w h (combine (gray_raw marked) alpha)))).
Proof.
  intros K E eq fo checks pad depth step amount run mark.
  pose proof (channel_keeps_shape K E eq fo checks pad depth step amount 3) as Hk. split.
  - intros w h luma Hl Hb. unfold run, watermark_image, watermark. cbn [has_color has_alpha dimensions get_pixels negb andb].
    rewrite channel_of_true, map_map. cbn [ch1]. rewrite map_id. unfold mark, DWT_LEVELS.
    destruct (watermark_channel _ _ _ _ _ _ _ (mkGray w h luma) _ _ _ _) as [m| |] eqn:Em; cbn [bind]; [|reflexivity|reflexivity].
    do 2 f_equal. destruct (Hk _ _ Em) as (_ & _ & Lm & _). cbn [gwidth gheight] in Lm. cbn [gray_raw].
    assert (L0 : forall (sel : rgba -> Z), length (channel_of false sel (map (fun v : Z => (v, v, v, 255)) luma)) = (w * h)%nat) by (intros sel; unfold channel_of; rewrite !map_length; exact Hl).
    destruct (zip4_spec false false (gray_raw m) _ _ _ (w * h) Lm (L0 ch2) (L0 ch3) (L0 ch4)) as (Z0 & Z1 & Z2 & Z3 & Z4).
    rewrite map_grayscale; [exact Z1|]. apply Forall_and; apply Forall_of_maps; congruence.
  - intros w h luma al Hl Ha Hb Hba. unfold run, watermark_image, watermark. cbn [has_color has_alpha dimensions get_pixels negb andb].
    rewrite !channel_of_true.
    assert (M1 : map ch1 (map (fun p : Z * Z => let '(v, a) := p in (v, v, v, a)) (combine luma al)) = luma).
    { clear - Hl Ha. revert luma al Hl Ha. induction (w * h)%nat as [|k IH]; intros [|x t] [|y u] H1 H2; try discriminate; [reflexivity|]. cbn [combine map]. cbn [ch1]. f_equal. apply IH; cbn [length] in *; lia. }
    assert (M4 : map ch4 (map (fun p : Z * Z => let '(v, a) := p in (v, v, v, a)) (combine luma al)) = al).
    { clear - Hl Ha. revert luma al Hl Ha. induction (w * h)%nat as [|k IH]; intros [|x t] [|y u] H1 H2; try discriminate; [reflexivity|]. cbn [combine map]. cbn [ch4]. f_equal. apply IH; cbn [length] in *; lia. }
    rewrite M1, M4. unfold mark, DWT_LEVELS.
    destruct (watermark_channel _ _ _ _ _ _ _ (mkGray w h luma) _ _ _ _) as [m| |] eqn:Em; cbn [bind]; [|reflexivity|reflexivity].
    do 2 f_equal. destruct (Hk _ _ Em) as (_ & _ & Lm & _). cbn [gwidth gheight] in Lm. cbn [gray_raw].
    assert (L0 : forall (sel : rgba -> Z), length (channel_of false sel (map (fun p : Z * Z => let '(v, a) := p in (v, v, v, a)) (combine luma al))) = (w * h)%nat)
      by (intros sel; unfold channel_of; rewrite !map_length, combine_length; lia).
    destruct (zip4_spec false true (gray_raw m) _ _ al (w * h) Lm (L0 ch2) (L0 ch3) Ha) as (Z0 & Z1 & Z2 & Z3 & Z4).
    rewrite map_grayscale_alpha by (apply Forall_and; apply Forall_of_maps; congruence).
    set (z := zip4 _ _ _ _ _ _) in *. rewrite <- Z1, <- Z4. clear. induction z as [|p t IH]; [reflexivity|]. cbn [map combine]. now rewrite IH.
Qed.

(** The luma conversion the library goes through is lossless on gray pixels, whatever the value (the point of C43). *)
Theorem C43_luma_of_a_gray_pixel : forall v a, grayscale [(v, v, v, a)] = [v] /\ grayscale_alpha [(v, v, v, a)] = [(v, a)].
Proof. intros v a. cbn [grayscale grayscale_alpha map]. now rewrite rgb_to_luma_gray. Qed.

(** ** C40 for whole images *)
Theorem C40_watermark_panics_on_inadmissible_amounts : forall K E equalize gamma checks pad image (depth step : R) amount,
  (0 < fst (dimensions image))%nat -> (Z.of_nat amount <= 2 ^ 63) -> amount = 0%nat \/ (85 < amount)%nat ->
  is_panic (watermark_image Rops K E equalize (fun image n => calculate_features gamma checks image MomentsZernike n) checks pad image depth step amount) = true.
Proof.
  intros K E eq g checks pad image depth step amount Hw Ha Hb.
  pose proof (C40_zernike_feature_amounts K E eq g checks pad (component ch1 image) depth step amount 3 Hw Ha Hb) as H.
  destruct (C42_watermark_returns_iff_the_channels_do R Rops K E eq (fun image n => calculate_features g checks image MomentsZernike n) checks pad image depth step amount) as (P & _).
  destruct (watermark_channel Rops K E eq _ checks pad (component ch1 image) depth step amount 3) as [x|r|] eqn:Er; try discriminate.
  rewrite (P r eq_refl). reflexivity.
Qed.

(** ** C59: visible effect on a picture *)
Lemma channel_change K E eq fo checks pad ch n depth step amount m bound : gray_picture ch n 3 ->
  watermark_channel Bops K E eq fo checks pad ch depth step amount 3 = Ok m ->
  (forall image payload marked, picture image n 3 -> embed Bops K image payload depth 3 = Ok marked ->
     forall i j v w, cell image i j = Some v -> cell marked i j = Some w -> Z.abs (w - v) <= bound) ->
  forall k v w, nth_error (gray_raw ch) k = Some v -> nth_error (gray_raw m) k = Some w -> Z.abs (w - v) <= bound.
Proof.
  intros Hg H Hb k v w Ev Ew. pose proof Hg as (Wd & Hh & Hl & _ & Hmod & HL & Hr).
  destruct (gray_array ch n 3 Hg) as (im & Eim & Hp & Hcell).
  apply watermark_inv in H as (im' & fs & q & bits & sig & pl & out & H1 & _ & _ & _ & _ & H6 & ->).
  assert (im' = im) by congruence. subst im'. cbn [gray_raw] in Ew.
  destruct Hp as ((Wf & D0 & D1 & P) & H8). destruct (C35_embed_keeps_the_shape K im pl depth 3 out Wf H6) as (O8 & O0 & O1).
  assert (Hpo : picture out n 3) by (split; [split; [apply O8|]; split; [congruence|]; split; [congruence|exact P]|exact O8]).
  destruct (array_gray out n 3 Hpo) as (Gm & Fm). destruct (gray_array _ n 3 Gm) as (om & Eom & _ & Ocell). cbn [gwidth gheight gray_raw] in Eom.
  assert (om = out) by congruence. subst om.
  assert (Hk : (k < n * n)%nat) by (rewrite <- Hl; apply nth_error_Some; congruence).
  assert (Hn : n <> 0%nat) by (intros ->; lia).
  pose proof (Nat.div_mod k n Hn) as Dm. pose proof (Nat.mod_upper_bound k n Hn) as Mb.
  assert (Hd : (k / n < n)%nat) by (apply Nat.div_lt_upper_bound; lia).
  apply (Hb im pl out (conj (conj Wf (conj D0 (conj D1 P))) H8) H6 (k / n)%nat (k mod n)%nat).
  - rewrite Hcell by assumption. unfold gray_pixel. now rewrite <- Dm.
  - rewrite Ocell by assumption. unfold gray_pixel. cbn [gray_raw]. now rewrite <- Dm.
Qed.

Lemma component_picture sel image n : well_formed image -> dimensions image = (n, n) -> sel = ch1 \/ sel = ch2 \/ sel = ch3 ->
  (n mod 8 = 0)%nat -> Z.of_nat (n * n) < 2 ^ 53 -> gray_picture (component sel image) n 3.
Proof.
  intros Hw Ed Hs Hm Hr. unfold well_formed in Hw. rewrite Ed in Hw. destruct Hw as (Hl & H8 & _). unfold gray_picture, component. rewrite Ed. cbn [gwidth gheight gray_raw fst snd].
  split; [reflexivity|]. split; [reflexivity|]. split; [rewrite map_length; exact Hl|]. split.
  - unfold bytes. apply Forall_map. eapply Forall_impl; [|exact H8]. intros p (A & B & C & _). destruct Hs as [ -> |[ -> | -> ]]; assumption.
  - split; [exact Hm|]. split; [lia|exact Hr].
Qed.

(** No colour value moved by more than [bound], no alpha value moved at all. *)
Definition changes_at_most (bound : Z) (image result : dynimage) : Prop :=
  forall k p q, nth_error (get_pixels image) k = Some p -> nth_error (get_pixels result) k = Some q ->
    Z.abs (ch1 q - ch1 p) <= bound /\ Z.abs (ch2 q - ch2 p) <= bound /\ Z.abs (ch3 q - ch3 p) <= bound /\ ch4 q = ch4 p.

(** The command line uses depth 100.0 (lib/sia/rust/cli/src/main.rs:35), the web page 500.0 (src/Content/Content.tsx:12). *)
Theorem C59_visible_change_is_bounded : forall K E equalize features_of checks pad image n (step : b64) amount result,
  well_formed image -> dimensions image = (n, n) -> (n mod 8 = 0)%nat -> Z.of_nat (n * n) < 2 ^ 53 ->
  (watermark_image Bops K E equalize features_of checks pad image (f_of_Z Bops 100) step amount = Ok result -> changes_at_most 9 image result)
  /\ (watermark_image Bops K E equalize features_of checks pad image (f_of_Z Bops 500) step amount = Ok result -> changes_at_most 47 image result).
Proof.
  intros K E eq fo checks pad image n step amount result Hw Ed Hm Hr.
  assert (Gen : forall depth bound, (forall im payload marked, picture im n 3 -> embed Bops K im payload depth 3 = Ok marked ->
     forall i j v w, cell im i j = Some v -> cell marked i j = Some w -> Z.abs (w - v) <= bound) ->
     watermark_image Bops K E eq fo checks pad image depth step amount = Ok result -> changes_at_most bound image result).
  { intros depth bound Hb H k p q Ep Eq.
    destruct (C42_watermark_preserves_size_layout_and_alpha K E eq fo checks pad image depth step amount result Hw H) as (_ & _ & _ & _ & _ & Ha & H1 & H2 & H3).
    assert (Ch : forall sel, sel = ch1 \/ sel = ch2 \/ sel = ch3 -> watermark_channel Bops K E eq fo checks pad (component sel image) depth step amount 3 = Ok (component sel result) ->
       Z.abs (sel q - sel p) <= bound).
    { intros sel Hs Hc. apply (channel_change K E eq fo checks pad (component sel image) n depth step amount (component sel result) bound (component_picture sel image n Hw Ed Hs Hm Hr) Hc Hb k);
        unfold component; cbn [gray_raw]; rewrite nth_error_map; [rewrite Ep|rewrite Eq]; reflexivity. }
    split; [apply Ch; [tauto|exact H1]|]. split; [apply Ch; [tauto|exact H2]|]. split; [apply Ch; [tauto|exact H3]|].
    pose proof (map_nth_error ch4 k _ Eq) as A. rewrite Ha in A. rewrite (map_nth_error ch4 k _ Ep) in A. congruence. }
  split; apply Gen; intros im payload marked Hp He; destruct (C32_f64_pixel_change_of_the_front_ends K im n payload marked Hp) as (A & B); [exact (A He)|exact (B He)].
Qed.

(** ** C60: every colour channel of a watermarked image authenticates *)

(** Features of the marked channel close enough to those of the original: less than one quantisation step apart and not within
    2^-20 steps of a bin boundary (see C02). *)
Definition features_close (step : b64) (x x' : b64) : Prop :=
  fin x /\ fin x' /\ (Rabs (toR x) <= bpow radix2 29 * toR step)%R
  /\ (Rabs (toR x' - toR x) <= (1 - bpow radix2 (-20)) * toR step)%R
  /\ (forall m : Z, (m = 0%Z /\ 0 <= toR x') \/ bpow radix2 (-20) * toR step <= Rabs (toR x' - IZR m * toR step))%R.

(** One colour component can carry its watermark: at most 85 measured features, none quantised to the smallest i64 in a build with
    overflow checks, room for the payload, and no saturation in the pixels that carry it. *)
Definition channel_ready equalize features_of (checks : bool) (channel : gray) (n : nat) (depth step : b64) (amount : nat) : Prop :=
  exists features, measures equalize features_of channel amount features
    /\ (checks = true -> Forall (fun q => q <> - 2 ^ 63) (quantize Bops features step)) /\ (length features <= 85)%nat
    /\ (stored_size n 3 (payload_size (length features)) <= band_capacity n 3)%nat
    /\ gray_room channel n 3 (8 * stored_size n 3 (payload_size (length features))) (3 * toR depth / 2 ^ 5).

Theorem C60_every_colour_channel_of_a_watermarked_image_authenticates : forall K, ldpc_shape K -> ldpc_decodes K ->
  forall E, signature_format E -> key_pair E PRIVATE_KEY PUBLIC_KEY ->
  forall equalize features_of checks pad, length pad = 8%nat ->
  forall image n (depth step : b64) amount,
  well_formed image -> dimensions image = (n, n) -> usable n 3 -> (n mod 8 = 0)%nat -> Z.of_nat (n * n) < 2 ^ 53 ->
  fin step -> (bpow radix2 (-500) <= toR step <= bpow radix2 500)%R -> fin depth -> (65 / 4 <= toR depth <= 2 ^ 20)%R ->
  (forall sel, In sel [ch1; ch2; ch3] -> channel_ready equalize features_of checks (component sel image) n depth step amount) ->
  exists result, watermark_image Bops K E equalize features_of checks pad image depth step amount = Ok result
    /\ forall sel, In sel [ch1; ch2; ch3] -> forall features noised,
         measures equalize features_of (component sel image) amount features ->
         measures equalize features_of (component sel result) amount noised ->
         features = noised \/ Forall2 (features_close step) features noised ->
         authenticate_channel Bops K E equalize features_of checks (component sel result) depth step amount 3 = Ok true.
Proof.
  intros K Hsh Hdec E HE Hk eq fo checks pad Hpad image n depth step amount Hw Ed Hu Hm Hr Fst Hst Fd Hd Hready.
  assert (Ch : forall sel, In sel [ch1; ch2; ch3] -> exists marked,
     watermark_channel Bops K E eq fo checks pad (component sel image) depth step amount 3 = Ok marked
     /\ forall features noised, measures eq fo (component sel image) amount features -> measures eq fo marked amount noised ->
         features = noised \/ Forall2 (features_close step) features noised -> authenticate_channel Bops K E eq fo checks marked depth step amount 3 = Ok true).
  { intros sel Hs. destruct (Hready sel Hs) as (fs & Hms & Hq & H85 & Hcap & Hroom).
    assert (Hg : gray_picture (component sel image) n 3).
    { apply component_picture; try assumption. cbn in Hs. destruct Hs as [ <- |[ <- |[ <- |[]]]]; tauto. }
    destruct (C36_f64_watermarked_channel_authenticates K Hsh Hdec E HE Hk eq fo checks pad Hpad (component sel image) n 3 depth step amount fs Hg ltac:(lia) Hu Hms Fst Hst Hq H85 Hcap Fd)
      as (mk & Em & _ & A & B).
    - change (3 + 1)%nat with 4%nat. simpl (2 ^ 4)%R. lra.
    - exact Hroom.
    - exists mk. split; [exact Em|]. intros features noised M1 M2 Hcl.
      assert (features = fs). { destruct M1 as (e1 & P1 & Q1), Hms as (e2 & P2 & Q2). congruence. } subst features.
      destruct Hcl as [ <- |Hcl]; [now apply B|]. apply (A noised M2). exact Hcl. }
  destruct (Ch ch1) as (red & Er & Ar); [cbn; tauto|]. destruct (Ch ch2) as (green & Eg & Ag); [cbn; tauto|]. destruct (Ch ch3) as (blue & Eb & Ab); [cbn; tauto|].
  destruct (C42_watermark_returns_iff_the_channels_do b64 Bops K E eq fo checks pad image depth step amount) as (_ & (_ & Ret)).
  destruct Ret as (result & Eres); [split; [eauto|intros _; split; eauto]|]. exists result. split; [exact Eres|].
  destruct (C42_watermark_preserves_size_layout_and_alpha K E eq fo checks pad image depth step amount result Hw Eres) as (_ & _ & _ & _ & _ & _ & H1 & H2 & H3).
  intros sel Hs. cbn in Hs. destruct Hs as [ <- |[ <- |[ <- |[]]]].
  - assert (red = component ch1 result) by congruence. subst red. exact Ar.
  - assert (green = component ch2 result) by congruence. subst green. exact Ag.
  - assert (blue = component ch3 result) by congruence. subst blue. exact Ab.
Qed.

(** ** Witnesses *)
Lemma map_repeat_const {A B} (f : A -> B) x k : map f (repeat x k) = repeat (f x) k.
Proof. induction k as [|k IH]; [reflexivity|]. cbn [repeat map]. now rewrite IH. Qed.
Definition colour512 : dynimage := ImageRgba8 512 512 (repeat (100, 128, 150, 77) (512 * 512)).
Lemma colour512_wf : well_formed colour512.
Proof.
  unfold well_formed, colour512. cbn [dimensions get_pixels has_alpha has_color]. split; [apply repeat_length|]. split; [|split; discriminate].
  apply Forall_repeat. unfold pixel8, byte. cbn. lia.
Qed.
Lemma colour512_component sel : component sel colour512 = mkGray 512 512 (repeat (sel (100, 128, 150, 77)) (512 * 512)).
Proof. unfold component, colour512. cbn [dimensions get_pixels fst snd]. rewrite map_repeat_const. reflexivity. Qed.
Lemma colour512_ready sel depth : In sel [ch1; ch2; ch3] -> (3 * toR depth / 2 ^ 5 <= 100)%R ->
  channel_ready (fun l => l) toy_features_f64 true (component sel colour512) 512 depth (f_of_Z Bops 1) 11.
Proof.
  intros Hs Hd. exists (repeat (b_dyadic 5 (-1)) 11). split; [|split; [|split; [|split]]].
  - rewrite colour512_component. destruct (from_shape_vec_total 512 512 (repeat (sel (100, 128, 150, 77)) (512 * 512)) (repeat_length _ _)) as (m & Em). exists m. split; [exact Em|reflexivity].
  - intros _. unfold quantize. rewrite Forall_map. apply Forall_repeat. vm_compute. discriminate.
  - rewrite repeat_length. lia.
  - rewrite repeat_length. exact fits_512.
  - intros i j v _ _ Ev _. rewrite colour512_component in Ev. unfold gray_pixel in Ev. cbn [gray_raw] in Ev. apply nth_error_In, repeat_spec in Ev. subst v.
    cbn in Hs. destruct Hs as [ <- |[ <- |[ <- |[]]]]; cbn [ch1 ch2 ch3]; lra.
Qed.

(** A 512 x 512 RGBA image is watermarked with the command line's parameters, keeps its alpha channel, moves no colour by more than 9,
    and all three channels authenticate. *)
Example C42_C59_C60_instance : exists result,
  watermark_image Bops toy_ldpc toy_ed (fun l => l) toy_features_f64 true (repeat false 8) colour512 (f_of_Z Bops 100) (f_of_Z Bops 1) 11 = Ok result
  /\ changes_at_most 9 colour512 result /\ map ch4 (get_pixels result) = repeat 77 (512 * 512)
  /\ authenticate_channel Bops toy_ldpc toy_ed (fun l => l) toy_features_f64 true (component ch2 result) (f_of_Z Bops 100) (f_of_Z Bops 1) 11 3 = Ok true.
Proof.
  destruct (b_of_Z_ok 100) as (F1 & V1); [lia|]. destruct (b_of_Z_ok 1) as (F2 & V2); [lia|].
  change (b_of_Z 100) with (f_of_Z Bops 100) in *. change (b_of_Z 1) with (f_of_Z Bops 1) in *.
  assert (Hn : Z.of_nat (512 * 512) < 2 ^ 53) by (rewrite Nat2Z.inj_mul; lia).
  destruct (C60_every_colour_channel_of_a_watermarked_image_authenticates toy_ldpc toy_shape toy_decodes toy_ed toy_format toy_keys (fun l => l) toy_features_f64 true (repeat false 8) eq_refl
              colour512 512 (f_of_Z Bops 100) (f_of_Z Bops 1) 11 colour512_wf eq_refl usable_512 eq_refl Hn F2) as (result & Eres & Auth).
  - rewrite V2. split; [apply Rle_trans with (bpow radix2 0); [apply bpow_le; lia|simpl; lra]|apply Rle_trans with (bpow radix2 0); [simpl; lra|apply bpow_le; lia]].
  - exact F1.
  - rewrite V1. simpl. lra.
  - intros sel Hs. apply colour512_ready; [exact Hs|]. rewrite V1. simpl. lra.
  - exists result. split; [exact Eres|].
    destruct (C42_watermark_preserves_size_layout_and_alpha _ _ _ _ _ _ _ _ _ _ _ colour512_wf Eres) as (_ & _ & _ & _ & _ & Ha & H1 & H2 & H3).
    destruct (C59_visible_change_is_bounded toy_ldpc toy_ed (fun l => l) toy_features_f64 true (repeat false 8) colour512 512 (f_of_Z Bops 1) 11 result colour512_wf eq_refl eq_refl Hn) as (C & _).
    split; [exact (C Eres)|]. split.
    + rewrite Ha. pose proof (colour512_component ch4) as A. apply (f_equal gray_raw) in A. exact A.
    + destruct (colour512_ready ch2 (f_of_Z Bops 100)) as (fs & Mf & _); [cbn; tauto|rewrite V1; simpl; lra|].
      apply (Auth ch2 ltac:(cbn; tauto) fs fs Mf); [|now left].
      destruct Mf as (e & _ & P2). apply channel_raw_shape in H2 as (im & pl & out & W & D0 & D1 & H & Eq).
      destruct (C35_embed_keeps_the_shape _ _ _ _ _ _ W H) as (H8 & O0 & O1). destruct (image8_raw out H8) as (_ & Lo).
      rewrite Eq. destruct (from_shape_vec_total (gwidth (component ch2 colour512)) (gheight (component ch2 colour512)) (into_raw_vec out)) as (om & Eom); [congruence|].
      exists om. cbn [gwidth gheight gray_raw]. split; [exact Eom|]. unfold toy_features_f64 in *. exact P2.
Qed.

Example C40_image_instance :
  is_panic (watermark_image Rops toy_ldpc toy_ed (fun l => l) (fun image n => calculate_features (fun x => x) true image MomentsZernike n) true (repeat false 8) colour512 100%R 1%R 86) = true.
Proof. apply C40_watermark_panics_on_inadmissible_amounts; [cbn [colour512 dimensions fst]; lia|reflexivity || lia|right; lia]. Qed.

Print Assumptions C42_watermark_preserves_size_layout_and_alpha.
Print Assumptions C42_watermark_returns_iff_the_channels_do.
Print Assumptions C43_gray_result_is_the_watermarked_channel.
Print Assumptions C43_luma_of_a_gray_pixel.
Print Assumptions C40_watermark_panics_on_inadmissible_amounts.
Print Assumptions C59_visible_change_is_bounded.
Print Assumptions C60_every_colour_channel_of_a_watermarked_image_authenticates.
