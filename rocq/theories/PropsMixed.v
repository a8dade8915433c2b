(** Property C102: the colour channels of a picture are watermarked and judged each for itself; nothing ties them together
    (lib/sia/rust/watermarking/src/lib.rs: watermark; src/process.rs: authenticate_channel). *)
From Coq Require Import Reals Lra.
From Flocq Require Import Core BinarySingleNaN.
From Verif Require Import Outcome Floats FloatFacts Bits ListFacts Quantization QuantProofs QuantReal QuantFloat PropsQuant PropsQuant2 Codecs CodecProofs WatermarkProofs PropsCodec
  Encoding EncodingProofs PropsEncoding Matrix MatrixFacts Haar HaarProofs HaarReal PropsHaar Stego StegoProofs StegoMarks PropsStego Embedding EmbeddingProofs EmbeddingEffect PropsEmbedding PropsEmbedding2 PropsRobust
  Signature Process ProcessProofs Toy Zernike ZernikeProofs PropsZernike ZernikeBound PropsZernike2 ZernikeGen PropsZernikeF64 LibmSpec LibmExact PropsZernikeAcc
  PropsProcess PropsProcess2 Image PropsImage PropsProcess3 PropsProcess4 PropsProcess5 PropsProcess6 PropsTamper Equalize PropsEqualize PropsShipped.
Open Scope Z_scope.

(** ** Specification vocabulary *)
(** The pixels with these reds, greens, blues and alphas. *)
Definition assemble (reds greens blues alphas : list Z) : list rgba :=
  map (fun q => let '(r, (g, (b, a))) := q in (r, g, b, a)) (combine reds (combine greens (combine blues alphas))).
Definition assemble3 (reds greens blues : list Z) : list (Z * Z * Z) :=
  map (fun q => let '(r, (g, b)) := q in (r, g, b)) (combine reds (combine greens blues)).
(** One colour of a picture. *)
Definition colour (sel : rgba -> Z) (image : dynimage) : list Z := map sel (get_pixels image).

Lemma assemble_parts r g b a n : length r = n -> length g = n -> length b = n -> length a = n ->
  map ch1 (assemble r g b a) = r /\ map ch2 (assemble r g b a) = g /\ map ch3 (assemble r g b a) = b /\ map ch4 (assemble r g b a) = a /\ length (assemble r g b a) = n.
Proof.
  revert r g b a. induction n as [|n IH]; intros [|r rs] [|g gs] [|b bs] [|a as_] H1 H2 H3 H4; try discriminate; [repeat split|].
  destruct (IH rs gs bs as_) as (A & B & C & D & L); [cbn in *; lia..|]. unfold assemble in *. cbn [combine map length ch1 ch2 ch3 ch4]. rewrite A, B, C, D, L. repeat split.
Qed.
Lemma assemble3_parts r g b n : length r = n -> length g = n -> length b = n ->
  let px := map (fun p => let '(r, g, b) := p in (r, g, b, 255)) (assemble3 r g b) in map ch1 px = r /\ map ch2 px = g /\ map ch3 px = b /\ length px = n.
Proof.
  revert r g b. induction n as [|n IH]; intros [|r rs] [|g gs] [|b bs] H1 H2 H3; try discriminate; [repeat split|].
  destruct (IH rs gs bs) as (A & B & C & L); [cbn in *; lia..|]. cbn zeta in *. unfold assemble3 in *. cbn [combine map length ch1 ch2 ch3]. rewrite A, B, C, L. repeat split.
Qed.
Lemma assemble_zip r g b a : zip4 true true r g b a = assemble r g b a.
Proof. unfold zip4, assemble. apply map_ext. intros (r', (g', (b', a'))). reflexivity. Qed.
Lemma assemble3_zip r g b a n : length r = n -> length g = n -> length b = n -> length a = n -> to_rgb (zip4 true false r g b a) = assemble3 r g b.
Proof.
  revert r g b a. induction n as [|n IH]; intros [|r rs] [|g gs] [|b bs] [|a as_] H1 H2 H3 H4; try discriminate; [reflexivity|].
  unfold to_rgb, zip4, assemble3 in *. cbn [combine map out_pixel]. f_equal. apply (IH rs gs bs as_); cbn in *; lia.
Qed.

Section Mixed.
Context (K : ldpc) (E : ed25519) (equalize : list Z -> list Z) (features_of : array2 Z -> nat -> outcome (list b64)) (checks : bool) (pad : list bool)
  (depth step : b64) (amount : nat).
Let mark_picture image := watermark_image Bops K E equalize features_of checks pad image depth step amount.
Let verdict channel levels := authenticate_channel Bops K E equalize features_of checks channel depth step amount levels.

Lemma one_colour image result sel : well_formed image -> mark_picture image = Ok result -> In sel [ch1; ch2; ch3] ->
  dimensions result = dimensions image /\ length (colour sel result) = length (colour sel image)
  /\ watermark_channel Bops K E equalize features_of checks pad (mkGray (fst (dimensions image)) (snd (dimensions image)) (colour sel image)) depth step amount 3
     = Ok (mkGray (fst (dimensions image)) (snd (dimensions image)) (colour sel result)).
Proof.
  intros Hw H Hsel. destruct (C42_watermark_preserves_size_layout_and_alpha K E equalize features_of checks pad image depth step amount result Hw H) as (D & _ & _ & _ & Wr & _ & H1 & H2 & H3).
  split; [exact D|]. split.
  - unfold colour. rewrite !map_length. unfold well_formed in Hw, Wr. rewrite D in Wr. destruct (dimensions image). destruct Hw as (L1 & _). destruct Wr as (L2 & _). congruence.
  - unfold component in H1, H2, H3. rewrite D in H1, H2, H3. cbn in Hsel. destruct Hsel as [ <- |[ <- |[ <- |[]]]]; assumption.
Qed.

(** *** C102: take the red, green and blue of a new picture from any colours of three pictures of equal size, and any alphas. Putting the colours of the three
    watermarked pictures together gives exactly what watermarking the new picture gives; and each of its channels gets the verdict of the channel it was taken from. *)
Theorem C102_mixing_marked_colours_is_marking_the_mixture : forall i1 i2 i3 r1 r2 r3 s1 s2 s3 w h alphas,
  well_formed i1 -> well_formed i2 -> well_formed i3 -> dimensions i1 = (w, h) -> dimensions i2 = (w, h) -> dimensions i3 = (w, h) ->
  mark_picture i1 = Ok r1 -> mark_picture i2 = Ok r2 -> mark_picture i3 = Ok r3 ->
  In s1 [ch1; ch2; ch3] -> In s2 [ch1; ch2; ch3] -> In s3 [ch1; ch2; ch3] -> length alphas = (w * h)%nat ->
  let mixed := ImageRgba8 w h (assemble (colour s1 r1) (colour s2 r2) (colour s3 r3) alphas) in
  mark_picture (ImageRgba8 w h (assemble (colour s1 i1) (colour s2 i2) (colour s3 i3) alphas)) = Ok mixed
  /\ mark_picture (ImageRgb8 w h (assemble3 (colour s1 i1) (colour s2 i2) (colour s3 i3))) = Ok (ImageRgb8 w h (assemble3 (colour s1 r1) (colour s2 r2) (colour s3 r3)))
  /\ (forall levels, verdict (component ch1 mixed) levels = verdict (component s1 r1) levels /\ verdict (component ch2 mixed) levels = verdict (component s2 r2) levels
        /\ verdict (component ch3 mixed) levels = verdict (component s3 r3) levels)
  /\ map ch4 (get_pixels mixed) = alphas.
Proof.
  intros i1 i2 i3 r1 r2 r3 s1 s2 s3 w h al W1 W2 W3 D1 D2 D3 M1 M2 M3 S1 S2 S3 La mixed.
  destruct (one_colour i1 r1 s1 W1 M1 S1) as (R1 & L1 & C1). destruct (one_colour i2 r2 s2 W2 M2 S2) as (R2 & L2 & C2). destruct (one_colour i3 r3 s3 W3 M3 S3) as (R3 & L3 & C3).
  assert (N1 : length (colour s1 i1) = (w * h)%nat) by (unfold well_formed in W1; rewrite D1 in W1; unfold colour; rewrite map_length; apply W1).
  assert (N2 : length (colour s2 i2) = (w * h)%nat) by (unfold well_formed in W2; rewrite D2 in W2; unfold colour; rewrite map_length; apply W2).
  assert (N3 : length (colour s3 i3) = (w * h)%nat) by (unfold well_formed in W3; rewrite D3 in W3; unfold colour; rewrite map_length; apply W3).
  rewrite D1 in C1. rewrite D2 in C2. rewrite D3 in C3. cbn [fst snd] in C1, C2, C3.
  destruct (assemble_parts _ _ _ _ _ N1 N2 N3 La) as (P1 & P2 & P3 & P4 & P5).
  rewrite N1 in L1. rewrite N2 in L2. rewrite N3 in L3. destruct (assemble_parts _ _ _ _ _ L1 L2 L3 La) as (Q1 & Q2 & Q3 & Q4 & Q5).
  destruct (assemble3_parts _ _ _ _ N1 N2 N3) as (T1 & T2 & T3 & T5).
  split; [|split; [|split]].
  - unfold mark_picture, watermark_image, watermark. cbn [has_color has_alpha dimensions get_pixels]. unfold channel_of. change DWT_LEVELS with 3%nat.
    rewrite (map_ext (fun p => if true then ch1 p else 0) ch1), (map_ext (fun p => if true then ch2 p else 0) ch2), (map_ext (fun p => if true then ch3 p else 0) ch3), (map_ext (fun p => if true then ch4 p else 0) ch4) by reflexivity.
    rewrite P1, P2, P3, P4, C1. cbn [bind]. rewrite C2. cbn [bind]. rewrite C3. cbn [bind negb andb gray_raw]. now rewrite assemble_zip.
  - unfold mark_picture, watermark_image, watermark. cbn [has_color has_alpha dimensions get_pixels]. unfold channel_of. change DWT_LEVELS with 3%nat.
    rewrite (map_ext (fun p => if true then ch1 p else 0) ch1), (map_ext (fun p => if true then ch2 p else 0) ch2), (map_ext (fun p => if true then ch3 p else 0) ch3) by reflexivity.
    rewrite T1, T2, T3, C1. cbn [bind]. rewrite C2. cbn [bind]. rewrite C3. cbn [bind negb andb gray_raw]. rewrite (assemble3_zip _ _ _ _ _ L1 L2 L3); [reflexivity|].
    rewrite map_length. exact T5.
  - intros levels. unfold component, mixed. cbn [dimensions get_pixels fst snd]. rewrite Q1, Q2, Q3, R1, R2, R3, D1, D2, D3. cbn [fst snd]. repeat split.
  - unfold mixed. cbn [get_pixels]. exact Q4.
Qed.

(** In particular any exchange of the colours of one picture, such as red for blue, goes unnoticed. *)
Theorem C102_exchanged_colours : forall image result s1 s2 s3 w h, well_formed image -> dimensions image = (w, h) -> mark_picture image = Ok result ->
  In s1 [ch1; ch2; ch3] -> In s2 [ch1; ch2; ch3] -> In s3 [ch1; ch2; ch3] ->
  let exchanged i := ImageRgba8 w h (map (fun p => (s1 p, s2 p, s3 p, ch4 p)) (get_pixels i)) in
  mark_picture (exchanged image) = Ok (exchanged result)
  /\ forall levels, verdict (component ch1 (exchanged result)) levels = verdict (component s1 result) levels
       /\ verdict (component ch2 (exchanged result)) levels = verdict (component s2 result) levels /\ verdict (component ch3 (exchanged result)) levels = verdict (component s3 result) levels.
Proof.
  intros image result s1 s2 s3 w h W D M S1 S2 S3 exchanged.
  assert (A : forall i, assemble (colour s1 i) (colour s2 i) (colour s3 i) (map ch4 (get_pixels i)) = map (fun p => (s1 p, s2 p, s3 p, ch4 p)) (get_pixels i)).
  { intros i. unfold colour. induction (get_pixels i) as [|p px IH]; [reflexivity|]. unfold assemble in *. cbn [map combine]. now rewrite IH. }
  assert (La : length (map ch4 (get_pixels image)) = (w * h)%nat) by (unfold well_formed in W; rewrite D in W; rewrite map_length; apply W).
  destruct (C102_mixing_marked_colours_is_marking_the_mixture image image image result result result s1 s2 s3 w h (map ch4 (get_pixels image)) W W W D D D M M M S1 S2 S3 La) as (H1 & _ & H2 & _).
  rewrite A in H1.
  destruct (C42_watermark_preserves_size_layout_and_alpha K E equalize features_of checks pad image depth step amount result W M) as (_ & _ & _ & _ & _ & Al & _).
  rewrite <- Al in H1, H2. rewrite A in H1, H2. split; [exact H1|exact H2].
Qed.

(** One colour of a marked picture, saved as a grey picture, is what marking that colour as a grey picture gives. *)
Theorem C102_one_colour_as_a_grey_picture : forall image result sel w h, well_formed image -> dimensions image = (w, h) -> mark_picture image = Ok result -> In sel [ch1; ch2; ch3] ->
  mark_picture (ImageLuma8 w h (colour sel image)) = Ok (ImageLuma8 w h (colour sel result))
  /\ forall levels, verdict (component ch1 (ImageLuma8 w h (colour sel result))) levels = verdict (component sel result) levels.
Proof.
  intros image result sel w h W D M S. destruct (one_colour image result sel W M S) as (R & L & C). rewrite D in C. cbn [fst snd] in C.
  pose proof W as W'. unfold well_formed in W'. rewrite D in W'. destruct W' as (Lp & B8 & _).
  assert (Lc : length (colour sel image) = (w * h)%nat) by (unfold colour; rewrite map_length; exact Lp).
  assert (Bc : bytes (colour sel image)).
  { unfold colour, bytes. apply Forall_map. eapply Forall_impl; [|exact B8]. intros p (X1 & X2 & X3 & _). cbn in S. destruct S as [ <- |[ <- |[ <- |[]]]]; assumption. }
  split.
  - destruct (C43_gray_result_is_the_watermarked_channel K E equalize features_of checks pad depth step amount) as (G & _). etransitivity; [exact (G w h _ Lc Bc)|]. rewrite C. reflexivity.
  - intros levels. unfold component. cbn [dimensions get_pixels fst snd]. rewrite R, D. cbn [fst snd]. unfold verdict, colour. f_equal. f_equal. rewrite map_map. cbn [ch1]. now rewrite map_id.
Qed.
End Mixed.

(** ** Concrete case: an even picture of red 100, green 128 and blue 150, marked by either front end, red and blue exchanged afterwards *)
Lemma map_same {A B} (f : A -> B) x n : map f (repeat x n) = repeat (f x) n. Proof. induction n as [|n IH]; [reflexivity|]. cbn [repeat map]. now rewrite IH. Qed.
Opaque colour512 watermark_image.
Example C102_instance : forall fe, In fe [command_line; web_page] -> exists result,
  let mark i := watermark_image Bops toy_ldpc toy_ed equalize_histogram (zernike_f64 exact_libm (fun x => x) true) true (repeat false 8) i (f_of_Z Bops (depth_of fe)) (f_of_Z Bops 1) 11 in
  let exchanged i := ImageRgba8 512 512 (map (fun p => (ch3 p, ch2 p, ch1 p, ch4 p)) (get_pixels i)) in
  mark colour512 = Ok result /\ mark (exchanged colour512) = Ok (exchanged result)
  /\ get_pixels (exchanged colour512) = repeat (150, 128, 100, 77) (512 * 512).
Proof.
  intros fe Hfe. destruct C83_512_is_usable as (A & B & C & D).
  assert (Ed : dimensions colour512 = (512, 512)%nat) by reflexivity.
  assert (Hcol : colours_within (margin_of fe) colour512).
  { Transparent colour512. unfold colours_within, colour512. cbn [get_pixels]. apply Forall_forall. intros p Hp. apply repeat_spec in Hp. subst p.
    intros sel Hsel. cbn in Hsel. destruct Hfe as [ <- |[ <- |[]]]; destruct Hsel as [ <- |[ <- |[ <- |[]]]]; cbn [margin_of command_line web_page ch1 ch2 ch3]; lia. }
  Opaque colour512.
  destruct (C83_f64_the_scheme_as_shipped toy_ldpc toy_shape toy_decodes toy_ed toy_format toy_keys exact_libm exact_libm_accurate (fun x => x) true (repeat false 8) eq_refl fe colour512 512 Hfe colour512_wf Ed A B C D Hcol)
    as (result & H1 & _).
  exists result. cbv zeta. split; [exact H1|]. split.
  - exact (proj1 (C102_exchanged_colours toy_ldpc toy_ed equalize_histogram (zernike_f64 exact_libm (fun x => x) true) true (repeat false 8) (f_of_Z Bops (depth_of fe)) (f_of_Z Bops 1) 11 colour512 result ch3 ch2 ch1 512 512 colour512_wf Ed H1
      ltac:(cbn; tauto) ltac:(cbn; tauto) ltac:(cbn; tauto))).
  - Transparent colour512. unfold colour512. cbn [get_pixels]. now rewrite map_same.
Qed.

Print Assumptions C102_mixing_marked_colours_is_marking_the_mixture.
Print Assumptions C102_exchanged_colours.
Print Assumptions C102_one_colour_as_a_grey_picture.
