(** Property C90, whole pictures: what the web page watermarks (depth 500) can be read and checked at the command line's depth 100. *)
From Coq Require Import Reals Lra.
From Flocq Require Import Core BinarySingleNaN.
From Verif Require Import Outcome Floats FloatFacts Bits ListFacts Quantization QuantProofs QuantReal QuantFloat PropsQuant PropsQuant2 Codecs CodecProofs WatermarkProofs PropsCodec
  Encoding EncodingProofs PropsEncoding Matrix MatrixFacts Haar HaarProofs HaarReal PropsHaar Stego StegoProofs StegoMarks PropsStego Embedding EmbeddingProofs EmbeddingEffect PropsEmbedding PropsEmbedding2 PropsRobust
  Signature Process ProcessProofs Toy Zernike ZernikeProofs PropsZernike ZernikeBound PropsZernike2 ZernikeGen PropsZernikeF64 LibmSpec LibmExact PropsZernikeAcc
  PropsProcess PropsProcess2 Image PropsImage PropsProcess3 PropsProcess4 PropsProcess5 PropsProcess6 PropsTamper Equalize PropsEqualize PropsShipped PropsInteger PropsClipping PropsDepth.
Open Scope Z_scope.

Lemma dsum_zero f : (forall p q, (p < 8)%nat -> (q < 8)%nat -> f p q = 0) -> dsum f = 0.
Proof. intros H. rewrite (dsum_ext f (fun _ _ => 0) H), dsum_const. reflexivity. Qed.
Lemma kept_apart_readable channel n pixels margin depth reading t : strongest depth <= margin -> t <= 2 * reading - 33 ->
  gray_picture channel n 3 -> from_shape_vec n n (gray_raw channel) = Ok pixels ->
  Forall (fun v => margin <= v <= 255 - margin) (gray_raw channel) ->
  forall bi bj, (bi < n / 8)%nat -> (bj < n / 8)%nat -> readable_block depth reading t pixels bi bj.
Proof.
  intros Hm Ht Hg Ep Hf bi bj Hi Hj. destruct (gray_array channel n 3 Hg) as (im & Eim & Him & Hc). pose proof Hg as (W & H & _). rewrite W, H in Eim.
  assert (im = pixels) by congruence. subst im.
  assert (P : forall p q, (p < 8)%nat -> (q < 8)%nat -> margin <= pixel pixels (8 * bi + p) (8 * bj + q) <= 255 - margin).
  { intros p q Hp Hq. destruct (block_cell pixels n Him bi bj p q Hi Hj Hp Hq) as (v & Ev & _). unfold pixel. rewrite Ev.
    destruct (cell_some_lt pixels n 3 _ _ v (proj1 Him) Ev) as (A & B). rewrite (Hc _ _ A B) in Ev. unfold gray_pixel in Ev. apply nth_error_In in Ev.
    rewrite Forall_forall in Hf. exact (Hf v Ev). }
  unfold readable_block, excess, lack. rewrite !over_block_dsum, !dsum_zero; [lia| |].
  - intros p q Hp Hq. specialize (P p q Hp Hq). lia.
  - intros p q Hp Hq. specialize (P p q Hp Hq). lia.
Qed.

Section Cross.
Context (K : ldpc) (Hsh : ldpc_shape K) (Hdec : ldpc_decodes K) (E : ed25519) (HE : signature_format E) (Hk : key_pair E PRIVATE_KEY PUBLIC_KEY).
Context (M : libm b64) (HM : accurate M) (gamma : b64 -> b64) (checks : bool) (pad : list bool) (Hpad : length pad = 8%nat).
Let features_of := zernike_f64 M gamma checks.
Let one : b64 := f_of_Z Bops 1.

(** *** C90: a picture watermarked by the web page (hypotheses as in C83) is readable at the command line's depth as well, with the command line's tolerance:
    the same bits, signature and text come out, and authenticate_channel at depth 100 gives the verdict on the restored features. *)
Theorem C90_f64_web_pictures_are_read_at_the_command_line_depth : forall image n,
  well_formed image -> dimensions image = (n, n) -> (n mod 8 = 0)%nat -> side_ok n -> usable n 3 ->
  (stored_size n 3 (payload_size 11) <= band_capacity n 3)%nat -> colours_within (margin_of web_page) image ->
  exists result, watermark_image Bops K E equalize_histogram features_of checks pad image (f_of_Z Bops 500) one 11 = Ok result
    /\ forall sel, In sel [ch1; ch2; ch3] -> exists features quantised bits sig,
         measures equalize_histogram features_of (component sel image) 11 features /\ length features = 11%nat
         /\ three_bit_quantization Bops checks features one = Ok (quantised, bits)
         /\ sign E (vec_i64_to_bytes quantised) PRIVATE_KEY PUBLIC_KEY = Ok sig
         /\ readable K E M gamma checks web_page (component sel result) n quantised bits sig
         /\ readable K E M gamma checks command_line (component sel result) n quantised bits sig.
Proof.
  intros image n Hw Ed Hm8 Hs Hu Hcap Hcol.
  assert (Hr : Z.of_nat (n * n) < 2 ^ 53) by (unfold side_ok in Hs; rewrite Nat2Z.inj_mul; nia).
  assert (Sel : forall sel, In sel [ch1; ch2; ch3] -> sel = ch1 \/ sel = ch2 \/ sel = ch3) by (intros sel Hsel; cbn in Hsel; intuition auto).
  destruct (C83_f64_the_scheme_as_shipped K Hsh Hdec E HE Hk M HM gamma checks pad Hpad web_page image n ltac:(cbn; tauto) Hw Ed Hm8 Hs Hu Hcap Hcol) as (result & ER & _ & _ & _ & RW).
  change (depth_of web_page) with 500 in ER. exists result. split; [exact ER|].
  assert (RC : exists result', watermark_image Bops K E equalize_histogram features_of checks pad image (f_of_Z Bops 500) one 11 = Ok result'
    /\ well_formed result' /\ dimensions result' = (n, n) /\ changes_at_most 47 image result'
    /\ forall sel, In sel [ch1; ch2; ch3] -> exists features quantised bits sig,
         measures equalize_histogram features_of (component sel image) 11 features /\ length features = 11%nat
         /\ three_bit_quantization Bops checks features one = Ok (quantised, bits)
         /\ sign E (vec_i64_to_bytes quantised) PRIVATE_KEY PUBLIC_KEY = Ok sig
         /\ readable K E M gamma checks command_line (component sel result') n quantised bits sig).
  { apply (written_image K E M gamma checks pad Hpad 500 47 command_line); try assumption; [right; split; reflexivity|].
    intros sel Hsel. assert (Hg : gray_picture (component sel image) n 3) by (apply component_picture; auto).
    destruct (gray_array _ n 3 Hg) as (im & Eim & Him & _).
    apply (written_channel K E HE Hk M HM gamma checks pad Hpad 500 command_line _ n im Hg Hs Hu Eim). cbn [depth_of survives command_line].
    intros pl Bp Lp. pose proof (payload_size_range 11 ltac:(lia)) as Hsz. pose proof Hg as (W & H & _). rewrite W, H in Eim.
    destruct (C90_f64_reading_at_a_fraction_of_the_depth K Hsh Hdec im n 5 100 pl (64 * 2) ltac:(lia) ltac:(lia) ltac:(lia) eq_refl Him Hu Bp) as (out & Eo & Po & X); [rewrite Lp; lia|rewrite Lp; exact Hcap| |].
    - intros bi bj Hi Hj _. apply (kept_apart_readable (component sel image) n im 47); try assumption; [vm_compute; discriminate|lia|].
      unfold component. cbn [gray_raw]. rewrite Forall_map. eapply Forall_impl; [|exact Hcol]. intros p Hp. exact (Hp sel Hsel).
    - exists out. split; [exact Eo|]. split; [exact Po|]. intros rc Prc Hn. apply X; [exact Prc|]. now apply noise_sums. }
  destruct RC as (result' & ER' & _ & _ & _ & RC). assert (RR : Ok result' = Ok result) by (rewrite <- ER'; exact ER). assert (result' = result) by congruence. subst result'.
  intros sel Hsel. destruct (RW sel Hsel) as (f & q & b & s & A1 & A2 & A3 & A4 & A5). destruct (RC sel Hsel) as (f' & q' & b' & s' & B1 & B2 & B3 & B4 & B5).
  assert (f' = f).
  { clear - A1 B1. destruct A1 as (im & X1 & X2). destruct B1 as (im' & Y1 & Y2). assert (im' = im) by congruence. subst im'. assert (FF : Ok f' = Ok f) by (rewrite <- Y2; exact X2). congruence. }
  subst f'. assert (QB : Ok (q', b') = Ok (q, b)) by (rewrite <- B3; exact A3). assert (q' = q) by congruence. assert (b' = b) by congruence. subst q' b'. assert (SS : Ok s' = Ok s) by (rewrite <- B4; exact A4). assert (s' = s) by congruence. subst s'.
  exists f, q, b, s. repeat (split; [assumption|]). exact B5.
Qed.
End Cross.

Lemma Forall2_same {A} (P : A -> A -> Prop) l : (forall a, P a a) -> Forall2 P l l.
Proof. intros H. induction l; auto. Qed.
Example C90_picture_instance : exists result,
  watermark_image Bops toy_ldpc toy_ed equalize_histogram (zernike_f64 exact_libm (fun x => x) true) true (repeat false 8) colour512 (f_of_Z Bops 500) (f_of_Z Bops 1) 11 = Ok result
  /\ exists verdict, authenticate_channel Bops toy_ldpc toy_ed equalize_histogram (zernike_f64 exact_libm (fun x => x) true) true (component ch1 result) (f_of_Z Bops 100) (f_of_Z Bops 1) 11 3 = Ok verdict.
Proof.
  destruct C83_512_is_usable as (A & B & C & D).
  assert (Hcol : colours_within (margin_of web_page) colour512).
  { unfold colours_within, colour512. cbn [get_pixels]. apply Forall_forall. intros p Hp. apply repeat_spec in Hp. subst p.
    intros sel Hsel. cbn in Hsel. destruct Hsel as [ <- |[ <- |[ <- |[]]]]; cbn [margin_of command_line web_page ch1 ch2 ch3]; lia. }
  destruct (C90_f64_web_pictures_are_read_at_the_command_line_depth toy_ldpc toy_shape toy_decodes toy_ed toy_format toy_keys exact_libm exact_libm_accurate (fun x => x) true (repeat false 8) eq_refl colour512 512 colour512_wf eq_refl A B C D Hcol)
    as (result & H1 & H2). exists result. split; [exact H1|].
  destruct (H2 ch1) as (f & q & b & s & _ & _ & _ & _ & _ & R); [cbn; tauto|].
  destruct (C42_watermark_preserves_size_layout_and_alpha toy_ldpc toy_ed equalize_histogram (zernike_f64 exact_libm (fun x => x) true) true (repeat false 8) colour512 (f_of_Z Bops 500) (f_of_Z Bops 1) 11 result colour512_wf H1) as (X1 & _ & _ & _ & X2 & _).
  destruct (R (component ch1 result)) as (px & pl & ns & rs & v & _ & _ & _ & _ & _ & _ & _ & V & _).
  - apply component_picture; auto. unfold side_ok in B. rewrite Nat2Z.inj_mul. nia.
  - split; [reflexivity|]. split; [reflexivity|]. apply Forall2_same. intros v. cbn [survives command_line]. lia.
  - exists v. exact V.
Qed.

Print Assumptions C90_f64_web_pictures_are_read_at_the_command_line_depth.
