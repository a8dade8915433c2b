(** Property C83: the scheme as it is shipped, in double precision - imageproc's equalisation, the compiled Zernike features, step 1.0, 11
    features, three levels, and the depths of the command line (100.0, lib/sia/rust/cli/src/main.rs:42) and of the web page (500.0,
    src/Content/Content.tsx:12) - with no hypothesis about features or equalisation left. *)
From Coq Require Import Reals Lra.
From Flocq Require Import Core BinarySingleNaN.
From Verif Require Import Outcome Floats FloatFacts Bits ListFacts Quantization QuantProofs QuantReal QuantFloat PropsQuant PropsQuant2 Codecs CodecProofs WatermarkProofs PropsCodec
  Encoding EncodingProofs PropsEncoding Matrix MatrixFacts Haar HaarProofs HaarReal PropsHaar Stego StegoProofs StegoMarks PropsStego Embedding EmbeddingProofs EmbeddingEffect PropsEmbedding PropsEmbedding2 PropsRobust
  Signature Process ProcessProofs Toy Zernike ZernikeProofs PropsZernike ZernikeBound PropsZernike2 ZernikeGen PropsZernikeF64 LibmSpec LibmExact PropsZernikeAcc
  PropsProcess PropsProcess2 Image PropsImage PropsProcess3 PropsProcess4 PropsProcess5 PropsProcess6 PropsTamper Equalize PropsEqualize.
Open Scope Z_scope.

(** ** Specification vocabulary *)
(** A front end: its depth, the distance the pixels must keep from black and white, how far it moves a colour value at most, and the
    further change of any pixel the hidden data survive. *)
Record front_end := mkFrontEnd { depth_of : Z; margin_of : Z; moves_at_most : Z; survives : Z }.
Definition command_line := mkFrontEnd 100 10 9 2.
Definition web_page := mkFrontEnd 500 47 47 15.
(** Every colour value (alpha does not matter) keeps away from black and white. *)
Definition colours_within (margin : Z) (image : dynimage) : Prop :=
  Forall (fun p => forall sel, In sel [ch1; ch2; ch3] -> margin <= sel p <= 255 - margin) (get_pixels image).

Section Shipped.
Context (K : ldpc) (Hsh : ldpc_shape K) (Hdec : ldpc_decodes K) (E : ed25519) (HE : signature_format E) (Hk : key_pair E PRIVATE_KEY PUBLIC_KEY).
Context (M : libm b64) (HM : accurate M) (gamma : b64 -> b64) (checks : bool) (pad : list bool) (Hpad : length pad = 8%nat).
Let features_of := zernike_f64 M gamma checks.
Let one : b64 := f_of_Z Bops 1.

(** What stays readable in [marked], a channel that hides [bits] and [sig], the signature on [quantised]. *)
Definition readable (fe : front_end) (marked : gray) (n : nat) (quantised : list Z) (bits : list bool) (sig : list Z) : Prop :=
  forall received, gray_picture received n 3 -> changed_by_at_most marked received (survives fe) ->
    exists pixels payload noised restored verdict,
      from_shape_vec n n (gray_raw received) = Ok pixels
      /\ extract Bops K pixels (f_of_Z Bops (depth_of fe)) 3 = Ok payload
      /\ watermark_deserialize payload = Ok (mkWatermark bits sig WATERMARK_TEXT)
      /\ measures equalize_histogram features_of received 11 noised /\ length noised = 11%nat
      /\ three_bit_dequantization Bops checks noised bits one = Ok restored /\ length restored = 11%nat
      /\ authenticate_channel Bops K E equalize_histogram features_of checks received (f_of_Z Bops (depth_of fe)) one 11 3 = Ok verdict
      /\ verify E (vec_i64_to_bytes restored) sig PUBLIC_KEY = Ok verdict
      /\ (restored = quantised -> verdict = true).

Lemma one_ok : fin one /\ toR one = 1%R.
Proof. destruct (b_of_Z_ok 1) as (F1 & V1); [lia|]. split; [exact F1|exact V1]. Qed.
Lemma front_end_depth fe : In fe [command_line; web_page] ->
  fin (f_of_Z Bops (depth_of fe)) /\ (65 / 64 * 2 ^ (3 + 1) <= toR (f_of_Z Bops (depth_of fe)) <= 2 ^ 20)%R
  /\ (2 ^ 3 * (IZR (survives fe) + / 2 + / 1024) < (/ 4 - / 512) * toR (f_of_Z Bops (depth_of fe)))%R /\ 0 <= survives fe
  /\ (3 * toR (f_of_Z Bops (depth_of fe)) / 2 ^ (3 + 2) <= IZR (margin_of fe))%R.
Proof.
  intros [ <- |[ <- |[]]]; cbn [depth_of survives margin_of command_line web_page].
  - destruct (b_of_Z_ok 100) as (F1 & V1); [lia|]. change (b_of_Z 100) with (f_of_Z Bops 100) in *. rewrite V1. split; [exact F1|]. split; [simpl; lra|]. split; [simpl; lra|]. split; [lia|simpl; lra].
  - destruct (b_of_Z_ok 500) as (F1 & V1); [lia|]. change (b_of_Z 500) with (f_of_Z Bops 500) in *. rewrite V1. split; [exact F1|]. split; [simpl; lra|]. split; [simpl; lra|]. split; [lia|simpl; lra].
Qed.

(** A channel into which any payload of the right size can be hidden at depth [written] so that it survives changes of up to [survives fe] levels
    (the depths of writing and of reading need not be the same). *)
Lemma written_channel written fe channel n im : gray_picture channel n 3 -> side_ok n -> usable n 3 ->
  from_shape_vec (gwidth channel) (gheight channel) (gray_raw channel) = Ok im ->
  (forall pl, bytes pl -> length pl = payload_size 11 -> exists out, embed Bops K im pl (f_of_Z Bops written) 3 = Ok out /\ picture out n 3
     /\ forall rc, picture rc n 3 -> pixel_noise out rc (survives fe) -> extract Bops K rc (f_of_Z Bops (depth_of fe)) 3 = Ok pl) ->
  exists marked features quantised bits sig,
    watermark_channel Bops K E equalize_histogram features_of checks pad channel (f_of_Z Bops written) one 11 3 = Ok marked
    /\ gray_picture marked n 3
    /\ measures equalize_histogram features_of channel 11 features /\ length features = 11%nat
    /\ three_bit_quantization Bops checks features one = Ok (quantised, bits)
    /\ sign E (vec_i64_to_bytes quantised) PRIVATE_KEY PUBLIC_KEY = Ok sig
    /\ readable fe marked n quantised bits sig.
Proof.
  intros Hg Hs Hu Eim Hemb. set (depth := f_of_Z Bops (depth_of fe)) in *.
  destruct one_ok as (F1 & V1). pose proof (usable_side n 3 Hu) as Hn.
  assert (Hst : (bpow radix2 (-500) <= toR one <= bpow radix2 500)%R).
  { rewrite V1. split; [apply Rle_trans with (bpow radix2 0); [apply bpow_le; lia|simpl; lra]|apply Rle_trans with (bpow radix2 0); [simpl; lra|apply bpow_le; lia]]. }
  assert (Ord : forall xs : list b64, Forall (fun x : b64 => fin x /\ (0 <= toR x <= 1000)%R) xs -> Forall (ordinary_feature one) xs).
  { intros xs. apply Forall_impl. intros x (Fx & H0 & H1). split; [exact Fx|]. rewrite V1, Rabs_pos_eq by exact H0. simpl. lra. }
  destruct (zernike_measures_f64 M HM gamma checks equalize_histogram channel n 3 11 C76_equalisation_keeps_grey Hg Hn Hs ltac:(lia)) as (A & fs & es & Hm & _ & _ & _ & _ & _ & _ & Lf & _ & Bf).
  apply Ord in Bf.
  assert (N1 : no_overflow Bops one checks fs) by now apply quantization_defined.
  pose proof (quantization_ok Bops one checks fs N1) as Eq. set (q := quantize Bops fs one) in *. set (bits := flat_map (bits3 Bops one) fs) in *.
  destruct (quantization_inv Bops checks fs one q bits Eq) as (_ & _ & Lb).
  destruct (sign_verify E _ _ (vec_i64_to_bytes q) HE Hk) as (sig & Es & Ls & Bs & Ev).
  assert (H85 : (length fs <= 85)%nat) by lia.
  destruct (payload_of pad bits sig (length fs) Hpad Bs Ls Lb H85) as (pl & Ep & Bp & Lp & Edp). rewrite Lf in Lp.
  destruct (Hemb pl Bp Lp) as (out & Eo & Pout & Hext).
  destruct (array_gray out n 3 Pout) as (Gout & Fout). pose proof Hg as (W & H & _). pose proof Pout as ((Hwf & D0 & D1 & _) & _).
  exists (mkGray n n (into_raw_vec out)), fs, q, bits, sig. split.
  { pose proof (watermark_run Bops K E equalize_histogram features_of checks pad channel im 11 fs one q bits sig pl out (f_of_Z Bops written) 3 Eim Hm Eq Es Ep Eo Hwf ltac:(congruence) ltac:(congruence)) as R.
    rewrite W, H in R. exact R. }
  split; [exact Gout|]. split; [exact Hm|]. split; [exact Lf|]. split; [exact Eq|]. split; [exact Es|].
  intros received Grc Hch. destruct (gray_array received n 3 Grc) as (rc & Erc & _). pose proof Grc as (W' & H' & _).
  assert (Erc' : from_shape_vec n n (gray_raw received) = Ok rc) by congruence.
  destruct (changed_noise _ received n 3 (survives fe) out rc Gout Grc Hch Fout Erc') as (Prc & Hnoise).
  pose proof (Hext rc Prc Hnoise) as Ex.
  destruct (zernike_measures_f64 M HM gamma checks equalize_histogram received n 3 11 C76_equalisation_keeps_grey Grc Hn Hs ltac:(lia)) as (B & ns & es' & Hm' & _ & _ & _ & _ & _ & _ & Ln & _ & Bn).
  apply Ord in Bn. assert (N2 : no_overflow Bops one checks ns) by now apply quantization_defined.
  destruct (dequantize_lists Bops one checks fs ns ltac:(congruence) N1 N2) as (_ & D2). fold bits in D2.
  match type of D2 with _ = Ok ?r => set (restored := r) in * end.
  pose proof (authenticate_run Bops K E equalize_histogram features_of checks received rc 11 ns one (mkWatermark bits sig WATERMARK_TEXT) pl depth 3 Erc Hm' Ex Edp) as AR.
  cbn [perturbation_vector Codecs.signature] in AR. rewrite D2 in AR. cbn [bind] in AR.
  assert (HV : exists v, verify E (vec_i64_to_bytes restored) sig PUBLIC_KEY = Ok v).
  { pose proof HE as [P1 _ _]. destruct Hk as (sb & pb & kp & vk & H1 & H2 & H3 & H4 & H5). unfold sign, verify, decode_hex_unwrap in *.
    rewrite H1, H2 in Es. cbn [bind] in Es. rewrite H3 in Es. cbn [unwrap_err bind] in Es. rewrite H2. cbn [bind]. rewrite H4. cbn [unwrap_err bind].
    assert (Esig : sig = signature_to_bytes E (ed_sign E kp (vec_i64_to_bytes q))) by congruence. rewrite Esig, P1. cbn [unwrap_err bind]. eexists. reflexivity. }
  destruct HV as (v & HV).
  exists rc, pl, ns, restored, v. split; [exact Erc'|]. split; [exact Ex|]. split; [exact Edp|]. split; [exact Hm'|]. split; [exact Ln|]. split; [exact D2|].
  split; [unfold restored; rewrite map_length, combine_length; lia|]. split; [etransitivity; [exact AR|exact HV]|]. split; [exact HV|]. intros Hrq. rewrite Hrq in HV. congruence.
Qed.

(** A channel into which any payload of the right size can be hidden so that it survives changes of up to [survives fe] levels. *)
Lemma shipped_channel_gen fe channel n im : gray_picture channel n 3 -> side_ok n -> usable n 3 ->
  from_shape_vec (gwidth channel) (gheight channel) (gray_raw channel) = Ok im ->
  (forall pl, bytes pl -> length pl = payload_size 11 -> exists out, embed Bops K im pl (f_of_Z Bops (depth_of fe)) 3 = Ok out /\ picture out n 3
     /\ forall rc, picture rc n 3 -> pixel_noise out rc (survives fe) -> extract Bops K rc (f_of_Z Bops (depth_of fe)) 3 = Ok pl) ->
  exists marked features quantised bits sig,
    watermark_channel Bops K E equalize_histogram features_of checks pad channel (f_of_Z Bops (depth_of fe)) one 11 3 = Ok marked
    /\ gray_picture marked n 3
    /\ measures equalize_histogram features_of channel 11 features /\ length features = 11%nat
    /\ three_bit_quantization Bops checks features one = Ok (quantised, bits)
    /\ sign E (vec_i64_to_bytes quantised) PRIVATE_KEY PUBLIC_KEY = Ok sig
    /\ readable fe marked n quantised bits sig.
Proof. exact (written_channel (depth_of fe) fe channel n im). Qed.

Lemma shipped_channel fe channel n : In fe [command_line; web_page] -> gray_picture channel n 3 -> side_ok n -> usable n 3 ->
  (stored_size n 3 (payload_size 11) <= band_capacity n 3)%nat ->
  Forall (fun v => margin_of fe <= v <= 255 - margin_of fe) (gray_raw channel) ->
  exists marked features quantised bits sig,
    watermark_channel Bops K E equalize_histogram features_of checks pad channel (f_of_Z Bops (depth_of fe)) one 11 3 = Ok marked
    /\ gray_picture marked n 3
    /\ measures equalize_histogram features_of channel 11 features /\ length features = 11%nat
    /\ three_bit_quantization Bops checks features one = Ok (quantised, bits)
    /\ sign E (vec_i64_to_bytes quantised) PRIVATE_KEY PUBLIC_KEY = Ok sig
    /\ readable fe marked n quantised bits sig.
Proof.
  intros Hfe Hg Hs Hu Hcap Hrange. destruct (front_end_depth fe Hfe) as (Fd & Hd2 & Hd & Ht & Hmar).
  destruct (gray_array channel n 3 Hg) as (im & Eim & Him & Hcell). apply (shipped_channel_gen fe channel n im Hg Hs Hu Eim). set (depth := f_of_Z Bops (depth_of fe)) in *. intros pl Bp Lp.
  assert (Hroom : gray_room channel n 3 (8 * stored_size n 3 (payload_size 11)) (3 * toR depth / 2 ^ (3 + 2))).
  { intros i j v _ _ Ev' _. unfold gray_pixel in Ev'. apply nth_error_In in Ev'. rewrite Forall_forall in Hrange. specialize (Hrange v Ev').
    assert (IZR (margin_of fe) <= IZR v)%R by (apply IZR_le; lia). assert (IZR v <= IZR (255 - margin_of fe))%R by (apply IZR_le; lia). rewrite minus_IZR in *. lra. }
  assert (Hr' : room im n 3 (8 * stored_size n 3 (length pl)) (3 * toR depth / 2 ^ (3 + 2))) by (rewrite Lp; now apply (gray_room_array channel)).
  pose proof (payload_size_range 11 ltac:(lia)) as Hsz.
  assert (Hl : (1 <= Z.of_nat (length pl) <= 65533)) by (rewrite Lp; lia). assert (Hcap' : (stored_size n 3 (length pl) <= band_capacity n 3)%nat) by (rewrite Lp; exact Hcap).
  destruct (C31_f64_embed_then_extract_returns_the_payload K Hsh Hdec im n 3 depth pl Him ltac:(lia) Hu Bp Hl Hcap' Fd Hd2 Hr') as (out & Eo & Pout & _).
  exists out. split; [exact Eo|]. split; [exact Pout|]. intros rc Prc Hnoise. assert (Hd1 : (1 <= toR depth <= 2 ^ 20)%R) by (split; [|exact (proj2 Hd2)]; simpl in Hd2; lra).
  exact (C63_f64_small_pixel_changes_keep_the_payload K Hsh Hdec im n 3 depth pl out rc (survives fe) Him ltac:(lia) Hu Bp Hl Hcap' Fd Hd1 Hr' Eo Prc Hnoise Hd).
Qed.

Lemma written_image written moves fe image n : (written = 100 /\ moves = 9) \/ (written = 500 /\ moves = 47) ->
  well_formed image -> dimensions image = (n, n) -> (n mod 8 = 0)%nat -> side_ok n ->
  (forall sel, In sel [ch1; ch2; ch3] -> exists marked features quantised bits sig,
    watermark_channel Bops K E equalize_histogram features_of checks pad (component sel image) (f_of_Z Bops written) one 11 3 = Ok marked
    /\ gray_picture marked n 3
    /\ measures equalize_histogram features_of (component sel image) 11 features /\ length features = 11%nat
    /\ three_bit_quantization Bops checks features one = Ok (quantised, bits)
    /\ sign E (vec_i64_to_bytes quantised) PRIVATE_KEY PUBLIC_KEY = Ok sig
    /\ readable fe marked n quantised bits sig) ->
  exists result, watermark_image Bops K E equalize_histogram features_of checks pad image (f_of_Z Bops written) one 11 = Ok result
    /\ well_formed result /\ dimensions result = (n, n) /\ changes_at_most moves image result
    /\ forall sel, In sel [ch1; ch2; ch3] -> exists features quantised bits sig,
         measures equalize_histogram features_of (component sel image) 11 features /\ length features = 11%nat
         /\ three_bit_quantization Bops checks features one = Ok (quantised, bits)
         /\ sign E (vec_i64_to_bytes quantised) PRIVATE_KEY PUBLIC_KEY = Ok sig
         /\ readable fe (component sel result) n quantised bits sig.
Proof.
  intros Hfe Hw Ed Hm8 Hs Ch.
  assert (Hr : Z.of_nat (n * n) < 2 ^ 53) by (unfold side_ok in Hs; rewrite Nat2Z.inj_mul; nia).
  destruct (Ch ch1) as (red & f1 & q1 & b1 & s1 & Er & _ & Ar); [cbn; tauto|]. destruct (Ch ch2) as (green & f2 & q2 & b2 & s2 & Eg & _ & Ag); [cbn; tauto|].
  destruct (Ch ch3) as (blue & f3 & q3 & b3 & s3 & Eb & _ & Ab); [cbn; tauto|].
  destruct (C42_watermark_returns_iff_the_channels_do b64 Bops K E equalize_histogram features_of checks pad image (f_of_Z Bops written) one 11) as (_ & (_ & Ret)).
  destruct Ret as (result & Eres); [split; [eauto|intros _; split; eauto]|]. exists result. split; [exact Eres|].
  destruct (C42_watermark_preserves_size_layout_and_alpha K E equalize_histogram features_of checks pad image (f_of_Z Bops written) one 11 result Hw Eres) as (X1 & X2 & X3 & X4 & X5 & X6 & H1 & H2 & H3).
  split; [assumption|]. split; [congruence|]. split.
  - destruct (C59_visible_change_is_bounded K E equalize_histogram features_of checks pad image n one 11 result Hw Ed Hm8 Hr) as (A & B).
    destruct Hfe as [(D1 & M1)|(D1 & M1)]; rewrite D1 in Eres; rewrite M1; [exact (A Eres)|exact (B Eres)].
  - intros sel Hsel. cbn in Hsel. destruct Hsel as [ <- |[ <- |[ <- |[]]]].
    + assert (red = component ch1 result) by congruence. subst red. exists f1, q1, b1, s1. exact Ar.
    + assert (green = component ch2 result) by congruence. subst green. exists f2, q2, b2, s2. exact Ag.
    + assert (blue = component ch3 result) by congruence. subst blue. exists f3, q3, b3, s3. exact Ab.
Qed.

Lemma shipped_image fe image n : (depth_of fe = 100 /\ moves_at_most fe = 9) \/ (depth_of fe = 500 /\ moves_at_most fe = 47) ->
  well_formed image -> dimensions image = (n, n) -> (n mod 8 = 0)%nat -> side_ok n ->
  (forall sel, In sel [ch1; ch2; ch3] -> exists marked features quantised bits sig,
    watermark_channel Bops K E equalize_histogram features_of checks pad (component sel image) (f_of_Z Bops (depth_of fe)) one 11 3 = Ok marked
    /\ gray_picture marked n 3
    /\ measures equalize_histogram features_of (component sel image) 11 features /\ length features = 11%nat
    /\ three_bit_quantization Bops checks features one = Ok (quantised, bits)
    /\ sign E (vec_i64_to_bytes quantised) PRIVATE_KEY PUBLIC_KEY = Ok sig
    /\ readable fe marked n quantised bits sig) ->
  exists result, watermark_image Bops K E equalize_histogram features_of checks pad image (f_of_Z Bops (depth_of fe)) one 11 = Ok result
    /\ well_formed result /\ dimensions result = (n, n) /\ changes_at_most (moves_at_most fe) image result
    /\ forall sel, In sel [ch1; ch2; ch3] -> exists features quantised bits sig,
         measures equalize_histogram features_of (component sel image) 11 features /\ length features = 11%nat
         /\ three_bit_quantization Bops checks features one = Ok (quantised, bits)
         /\ sign E (vec_i64_to_bytes quantised) PRIVATE_KEY PUBLIC_KEY = Ok sig
         /\ readable fe (component sel result) n quantised bits sig.
Proof. exact (written_image (depth_of fe) (moves_at_most fe) fe image n). Qed.

(** *** C83: with either front end every picture of a usable size whose colours keep away from black and white is watermarked; no colour
    moves by more than the stated bound and alpha stays; and for each colour channel, whatever is done to it afterwards within the
    stated tolerance, the hidden watermark - the bits of the original's features, their signature and the text - is read back exactly,
    authenticate_channel gives a verdict (it does not panic), and the verdict is the signature check on the restored features: true if
    they are the signed ones. *)
Theorem C83_f64_the_scheme_as_shipped : forall fe image n, In fe [command_line; web_page] ->
  well_formed image -> dimensions image = (n, n) -> (n mod 8 = 0)%nat -> side_ok n -> usable n 3 ->
  (stored_size n 3 (payload_size 11) <= band_capacity n 3)%nat -> colours_within (margin_of fe) image ->
  exists result, watermark_image Bops K E equalize_histogram features_of checks pad image (f_of_Z Bops (depth_of fe)) one 11 = Ok result
    /\ well_formed result /\ dimensions result = (n, n) /\ changes_at_most (moves_at_most fe) image result
    /\ forall sel, In sel [ch1; ch2; ch3] -> exists features quantised bits sig,
         measures equalize_histogram features_of (component sel image) 11 features /\ length features = 11%nat
         /\ three_bit_quantization Bops checks features one = Ok (quantised, bits)
         /\ sign E (vec_i64_to_bytes quantised) PRIVATE_KEY PUBLIC_KEY = Ok sig
         /\ readable fe (component sel result) n quantised bits sig.
Proof.
  intros fe image n Hfe Hw Ed Hm8 Hs Hu Hcap Hcol.
  assert (Hr : Z.of_nat (n * n) < 2 ^ 53) by (unfold side_ok in Hs; rewrite Nat2Z.inj_mul; nia).
  assert (Sel : forall sel, In sel [ch1; ch2; ch3] -> sel = ch1 \/ sel = ch2 \/ sel = ch3) by (intros sel Hsel; cbn in Hsel; intuition auto).
  apply shipped_image; try assumption; [destruct Hfe as [ <- |[ <- |[]]]; [left|right]; split; reflexivity|].
  intros sel Hsel. apply shipped_channel; try assumption; [apply component_picture; auto|].
  unfold component. cbn [gray_raw]. rewrite Forall_map. eapply Forall_impl; [|exact Hcol]. intros p Hp. exact (Hp sel Hsel).
Qed.
End Shipped.

(** The size 512 x 512 meets the requirements on the size. *)
Theorem C83_512_is_usable : (512 mod 8 = 0)%nat /\ side_ok 512 /\ usable 512 3 /\ (stored_size 512 3 (payload_size 11) <= band_capacity 512 3)%nat.
Proof. split; [reflexivity|]. split; [unfold side_ok; lia|]. split; [exact usable_512|exact fits_512]. Qed.

(** ** Concrete case: an even RGBA picture, an exact mathematical library, a toy code and signature scheme, both front ends. *)
Example C83_instance : forall fe, In fe [command_line; web_page] -> exists result,
  watermark_image Bops toy_ldpc toy_ed equalize_histogram (zernike_f64 exact_libm (fun x => x) true) true (repeat false 8) colour512 (f_of_Z Bops (depth_of fe)) (f_of_Z Bops 1) 11 = Ok result
  /\ changes_at_most (moves_at_most fe) colour512 result.
Proof.
  intros fe Hfe. destruct C83_512_is_usable as (A & B & C & D).
  destruct (C83_f64_the_scheme_as_shipped toy_ldpc toy_shape toy_decodes toy_ed toy_format toy_keys exact_libm exact_libm_accurate (fun x => x) true (repeat false 8) eq_refl fe colour512 512 Hfe colour512_wf eq_refl A B C D)
    as (result & H1 & _ & _ & H2 & _); [|exists result; split; assumption].
  unfold colours_within, colour512. cbn [get_pixels]. apply Forall_forall. intros p Hp. apply repeat_spec in Hp. subst p.
  intros sel Hsel. cbn in Hsel. destruct Hfe as [ <- |[ <- |[]]]; destruct Hsel as [ <- |[ <- |[ <- |[]]]]; cbn [margin_of command_line web_page ch1 ch2 ch3]; lia.
Qed.

Print Assumptions C83_f64_the_scheme_as_shipped.
Print Assumptions C83_512_is_usable.
