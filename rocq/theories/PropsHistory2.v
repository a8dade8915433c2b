(** Property C87: watermarking a picture again and again with the shipped scheme (lib/sia/rust/watermarking/src/lib.rs: watermark; configuration as
    in C83).  Every run signs the features of the picture it gets; the pixels never drift further from the original than after the first run. *)
From Coq Require Import Reals Lra.
From Flocq Require Import Core BinarySingleNaN.
From Verif Require Import Outcome Floats FloatFacts Bits ListFacts Quantization QuantProofs QuantReal QuantFloat PropsQuant PropsQuant2 Codecs CodecProofs WatermarkProofs PropsCodec
  Encoding EncodingProofs PropsEncoding Matrix MatrixFacts Haar HaarProofs HaarReal PropsHaar Stego StegoProofs StegoMarks PropsStego Embedding EmbeddingProofs EmbeddingEffect PropsEmbedding PropsEmbedding2 PropsRobust
  Signature Process ProcessProofs Toy Zernike ZernikeProofs PropsZernike ZernikeBound PropsZernike2 ZernikeGen PropsZernikeF64 LibmSpec LibmExact PropsZernikeAcc
  PropsProcess PropsProcess2 Image PropsImage PropsProcess3 PropsProcess4 PropsProcess5 PropsProcess6 PropsTamper Equalize PropsEqualize PropsShipped PropsHistory PropsInteger.
Open Scope Z_scope.

(** ** Specification vocabulary *)
(** No 8x8 block of the channel has a sum on which the rounding has to break a tie (C86). *)
Definition no_ties (depth : Z) (channel : gray) (n : nat) : Prop :=
  forall pixels, from_shape_vec n n (gray_raw channel) = Ok pixels -> forall i j, (i < n)%nat -> (j < n)%nat -> ~ tie depth (block_sum pixels i j).

Section Shipped.
Context (K : ldpc) (Hsh : ldpc_shape K) (Hdec : ldpc_decodes K) (E : ed25519) (HE : signature_format E) (Hk : key_pair E PRIVATE_KEY PUBLIC_KEY).
Context (M : libm b64) (HM : accurate M) (gamma : b64 -> b64) (checks : bool) (pad : list bool) (Hpad : length pad = 8%nat).
Let features_of := zernike_f64 M gamma checks.
Let one : b64 := f_of_Z Bops 1.

(** The picture watermarked [times] times in a row. *)
Fixpoint watermark_times (fe : front_end) (times : nat) (image : dynimage) : outcome dynimage :=
  match times with
  | O => Ok image
  | S k => previous <- watermark_times fe k image ;;
           watermark_image Bops K E equalize_histogram features_of checks pad previous (f_of_Z Bops (depth_of fe)) one 11
  end.

(** ** Proofs *)
Lemma readable_from fe n m0 q bits sig pl out : In fe [command_line; web_page] -> picture m0 n 3 -> side_ok n -> usable n 3 ->
  (stored_size n 3 (payload_size 11) <= band_capacity n 3)%nat -> room m0 n 3 (8 * stored_size n 3 (payload_size 11)) (3 * toR (f_of_Z Bops (depth_of fe)) / 2 ^ (3 + 2)) ->
  length bits = 33%nat -> sign E (vec_i64_to_bytes q) PRIVATE_KEY PUBLIC_KEY = Ok sig ->
  (exists fs : list b64, no_overflow Bops one checks fs /\ length fs = 11%nat /\ bits = flat_map (bits3 Bops one) fs) ->
  verify E (vec_i64_to_bytes q) sig PUBLIC_KEY = Ok true ->
  bytes pl -> length pl = payload_size 11 -> watermark_deserialize pl = Ok (mkWatermark bits sig WATERMARK_TEXT) ->
  embed Bops K m0 pl (f_of_Z Bops (depth_of fe)) 3 = Ok out -> picture out n 3 ->
  readable K E M gamma checks fe (mkGray n n (into_raw_vec out)) n q bits sig.
Proof.
  intros Hfe Him Hs Hu Hcap Hroom Lb Es (fs & N1 & Lf & Ebits) Ev Bp Lp Edp Eo Pout received Grc Hch.
  destruct (front_end_depth pad Hpad fe Hfe) as (Fd & Hd2 & Hd & Ht & Hmar). set (depth := f_of_Z Bops (depth_of fe)) in *.
  destruct (one_ok pad Hpad) as (F1 & V1). pose proof (usable_side n 3 Hu) as Hn.
  assert (Ord : forall xs : list b64, Forall (fun x : b64 => fin x /\ (0 <= toR x <= 1000)%R) xs -> Forall (ordinary_feature one) xs).
  { intros xs. apply Forall_impl. intros x (Fx & H0 & H1). split; [exact Fx|]. assert (V1' : toR one = 1%R) by exact V1. rewrite V1', Rabs_pos_eq by exact H0. simpl. lra. }
  destruct (array_gray out n 3 Pout) as (Gout & Fout). pose proof Pout as ((Hwf & D0 & D1 & _) & _).
  assert (Hr' : room m0 n 3 (8 * stored_size n 3 (length pl)) (3 * toR depth / 2 ^ (3 + 2))) by (rewrite Lp; exact Hroom).
  pose proof (payload_size_range 11 ltac:(lia)) as Hsz.
  assert (Hl : (1 <= Z.of_nat (length pl) <= 65533)) by (rewrite Lp; lia). assert (Hcap' : (stored_size n 3 (length pl) <= band_capacity n 3)%nat) by (rewrite Lp; exact Hcap).
  destruct (gray_array received n 3 Grc) as (rc & Erc & _). pose proof Grc as (W' & H' & _).
  assert (Erc' : from_shape_vec n n (gray_raw received) = Ok rc) by congruence.
  destruct (changed_noise _ received n 3 (survives fe) out rc Gout Grc Hch Fout Erc') as (Prc & Hnoise).
  assert (Hd1 : (1 <= toR depth <= 2 ^ 20)%R) by (split; [|exact (proj2 Hd2)]; simpl in Hd2; lra).
  pose proof (C63_f64_small_pixel_changes_keep_the_payload K Hsh Hdec m0 n 3 depth pl out rc (survives fe) Him ltac:(lia) Hu Bp Hl Hcap' Fd Hd1 Hr' Eo Prc Hnoise Hd) as Ex.
  destruct (zernike_measures_f64 M HM gamma checks equalize_histogram received n 3 11 C76_equalisation_keeps_grey Grc Hn Hs ltac:(lia)) as (B & ns & es' & Hm' & _ & _ & _ & _ & _ & _ & Ln & _ & Bn).
  apply Ord in Bn.
  assert (Hst : (bpow radix2 (-500) <= toR one <= bpow radix2 500)%R).
  { assert (V1' : toR one = 1%R) by exact V1. rewrite V1'. split; [apply Rle_trans with (bpow radix2 0); [apply bpow_le; lia|simpl; lra]|apply Rle_trans with (bpow radix2 0); [simpl; lra|apply bpow_le; lia]]. }
  assert (N2 : no_overflow Bops one checks ns) by now apply quantization_defined.
  destruct (dequantize_lists Bops one checks fs ns ltac:(congruence) N1 N2) as (_ & D2). rewrite <- Ebits in D2.
  match type of D2 with _ = Ok ?r => set (restored := r) in * end.
  pose proof (authenticate_run Bops K E equalize_histogram features_of checks received rc 11 ns one (mkWatermark bits sig WATERMARK_TEXT) pl depth 3 Erc Hm' Ex Edp) as AR.
  cbn [perturbation_vector Codecs.signature] in AR. rewrite D2 in AR. cbn [bind] in AR.
  assert (HV : exists v, verify E (vec_i64_to_bytes restored) sig PUBLIC_KEY = Ok v).
  { pose proof HE as [P1 _ _]. destruct Hk as (sb & pb & kp & vk & H1 & H2 & H3 & H4 & H5). unfold sign, verify, decode_hex_unwrap in *.
    rewrite H1, H2 in Es. cbn [bind] in Es. rewrite H3 in Es. cbn [unwrap_err bind] in Es. rewrite H2. cbn [bind]. rewrite H4. cbn [unwrap_err bind].
    assert (Esig : sig = signature_to_bytes E (ed_sign E kp (vec_i64_to_bytes q))) by congruence. rewrite Esig, P1. cbn [unwrap_err bind]. eexists. reflexivity. }
  destruct HV as (v & HV).
  exists rc, pl, ns, restored, v. split; [exact Erc'|]. split; [exact Ex|]. split; [exact Edp|]. split; [exact Hm'|]. split; [exact Ln|]. split; [exact D2|].
  split; [unfold restored; rewrite map_length, combine_length; lia|]. split; [etransitivity; [exact AR|exact HV]|]. split; [exact HV|]. intros Hrq. rewrite Hrq in HV. congruence.
Qed.

(** Where a channel can be after any number of runs. *)
Definition reached (fe : front_end) (n : nat) (m0 : array2 Z) (ch : gray) : Prop :=
  gray_picture ch n 3 /\ exists m mv, from_shape_vec n n (gray_raw ch) = Ok m /\ picture m n 3
    /\ rel m0 m n 3 (toR (f_of_Z Bops (depth_of fe))) mv /\ clean n 3 (repeat 0 (payload_size 11)) mv.

Lemma channel_again fe n ch0 m0 ch : In fe [command_line; web_page] -> gray_picture ch0 n 3 -> from_shape_vec n n (gray_raw ch0) = Ok m0 -> side_ok n -> usable n 3 ->
  (stored_size n 3 (payload_size 11) <= band_capacity n 3)%nat ->
  Forall (fun v => margin_of fe <= v <= 255 - margin_of fe) (gray_raw ch0) -> no_ties (depth_of fe) ch0 n -> reached fe n m0 ch ->
  exists marked features quantised bits sig,
    watermark_channel Bops K E equalize_histogram features_of checks pad ch (f_of_Z Bops (depth_of fe)) one 11 3 = Ok marked
    /\ reached fe n m0 marked
    /\ (forall k v w, nth_error (gray_raw ch0) k = Some v -> nth_error (gray_raw marked) k = Some w -> Z.abs (w - v) <= moves_at_most fe)
    /\ measures equalize_histogram features_of ch 11 features /\ length features = 11%nat
    /\ three_bit_quantization Bops checks features one = Ok (quantised, bits)
    /\ sign E (vec_i64_to_bytes quantised) PRIVATE_KEY PUBLIC_KEY = Ok sig
    /\ readable K E M gamma checks fe marked n quantised bits sig.
Proof.
  intros Hfe Hg0 E0 Hs Hu Hcap Hrange Hnt (Hg & m & mv & Em & Pm & Rm & Cm).
  destruct (front_end_depth pad Hpad fe Hfe) as (Fd & Hd2 & Hd & Ht & Hmar).
  assert (HdD : 0 < depth_of fe <= 4096 /\ toR (f_of_Z Bops (depth_of fe)) = IZR (depth_of fe)).
  { destruct Hfe as [ <- |[ <- |[]]]; cbn [depth_of command_line web_page]; (split; [lia|]); apply b_of_Z_ok; lia. }
  destruct HdD as (HD & VD). set (depth := f_of_Z Bops (depth_of fe)) in *.
  destruct (one_ok pad Hpad) as (F1 & V1). pose proof (usable_side n 3 Hu) as Hn. assert (V1' : toR one = 1%R) by exact V1.
  assert (Hst : (bpow radix2 (-500) <= toR one <= bpow radix2 500)%R).
  { rewrite V1'. split; [apply Rle_trans with (bpow radix2 0); [apply bpow_le; lia|simpl; lra]|apply Rle_trans with (bpow radix2 0); [simpl; lra|apply bpow_le; lia]]. }
  destruct (zernike_measures_f64 M HM gamma checks equalize_histogram ch n 3 11 C76_equalisation_keeps_grey Hg Hn Hs ltac:(lia)) as (A & fs & es & Hm & _ & _ & _ & _ & _ & _ & Lf & _ & Bf).
  assert (Of : Forall (ordinary_feature one) fs).
  { eapply Forall_impl; [|exact Bf]. intros x (Fx & H0 & H1). split; [exact Fx|]. rewrite V1', Rabs_pos_eq by exact H0. simpl. lra. }
  assert (N1 : no_overflow Bops one checks fs) by now apply quantization_defined.
  pose proof (quantization_ok Bops one checks fs N1) as Eq. set (q := quantize Bops fs one) in *. set (bits := flat_map (bits3 Bops one) fs) in *.
  destruct (quantization_inv Bops checks fs one q bits Eq) as (_ & _ & Lb).
  destruct (sign_verify E _ _ (vec_i64_to_bytes q) HE Hk) as (sig & Es & Ls & Bs & Ev).
  assert (H85 : (length fs <= 85)%nat) by lia.
  destruct (payload_of pad bits sig (length fs) Hpad Bs Ls Lb H85) as (pl & Ep & Bp & Lp & Edp). rewrite Lf in Lp.
  destruct (gray_array ch0 n 3 Hg0) as (im & Eim & Him & Hcell). pose proof Hg0 as (W0 & H0 & _). assert (im = m0) by congruence. subst im.
  assert (Hroom : room m0 n 3 (8 * stored_size n 3 (payload_size 11)) (3 * toR depth / 2 ^ (3 + 2))).
  { apply (gray_room_array ch0); try assumption. intros i j v _ _ Ev' _. unfold gray_pixel in Ev'. apply nth_error_In in Ev'. rewrite Forall_forall in Hrange. specialize (Hrange v Ev').
    assert (IZR (margin_of fe) <= IZR v)%R by (apply IZR_le; lia). assert (IZR v <= IZR (255 - margin_of fe))%R by (apply IZR_le; lia). rewrite minus_IZR in *. lra. }
  pose proof (payload_size_range 11 ltac:(lia)) as Hsz.
  set (dummy := repeat 0 (payload_size 11)). assert (Ld : length dummy = payload_size 11) by apply repeat_length.
  assert (Hd3 : (65 / 64 * 2 ^ (3 + 1) <= toR depth <= 4096)%R) by (split; [apply Hd2|rewrite VD; apply (IZR_le _ 4096); lia]).
  destruct (run_same Bops K Hsh Hdec depth (toR depth) n 3 m0 dummy (off_ties K m0 n 3 (toR depth)) Him Hu) with (m := m) (mv := mv) (p := pl) as (out & mv' & Eo & Eo0 & Pout & Ro & Co); try assumption.
  { simpl in Hd2 |- *. lra. }
  { apply float_step; [apply Him|lia|exact Fd|exact Hd3]. }
  { split; [exact Bp|]. rewrite Lp. lia. }
  { intros frame stored _ _ i j Hi Hj. rewrite VD. apply not_tie_clear; [exact HD|apply Him|]. now apply (Hnt m0 E0). }
  destruct (array_gray out n 3 Pout) as (Gout & Fout). pose proof Hg as (W & H & _). pose proof Pout as ((Hwf & D0 & D1 & _) & _).
  assert (Em' : from_shape_vec (gwidth ch) (gheight ch) (gray_raw ch) = Ok m) by congruence.
  exists (mkGray n n (into_raw_vec out)), fs, q, bits, sig. split.
  { pose proof (watermark_run Bops K E equalize_histogram features_of checks pad ch m 11 fs one q bits sig pl out depth 3 Em' Hm Eq Es Ep Eo Hwf ltac:(congruence) ltac:(congruence)) as R.
    rewrite W, H in R. exact R. }
  split; [split; [exact Gout|exists out, mv'; split; [exact Fout|]; split; [exact Pout|]; split; [exact Ro|exact Co]]|]. split.
  { intros k v w Ev0 Ew. destruct (gray_array (mkGray n n (into_raw_vec out)) n 3 Gout) as (o & Eo' & _ & Hc2). cbn [gwidth gheight gray_raw] in Eo', Hc2, Ew. assert (o = out) by congruence. subst o.
    assert (Hlt : (k < n * n)%nat) by (destruct Hg0 as (_ & _ & <- & _); apply nth_error_Some; congruence).
    destruct (place_lt n k ltac:(lia) Hlt) as (P1 & P2). assert (Ek : (n * (k / n) + k mod n)%nat = k) by (symmetry; apply Nat.div_mod; lia).
    pose proof (Hcell (k / n)%nat (k mod n)%nat P1 P2) as C1. pose proof (Hc2 (k / n)%nat (k mod n)%nat P1 P2) as C2. unfold gray_pixel in C1, C2. cbn [gray_raw] in C2.
    rewrite Ek in C1, C2. rewrite Ev0 in C1. rewrite Ew in C2. unfold depth in Eo0.
    destruct (C32_f64_pixel_change_of_the_front_ends K m0 n pl out Him) as (B1 & B2).
    destruct Hfe as [ <- |[ <- |[]]]; cbn [depth_of moves_at_most command_line web_page] in *; [exact (B1 Eo0 _ _ v w C1 C2)|exact (B2 Eo0 _ _ v w C1 C2)]. }
  split; [exact Hm|]. split; [exact Lf|]. split; [exact Eq|]. split; [exact Es|].
  apply (readable_from fe n m0 q bits sig pl out); try assumption; [rewrite Lb, Lf; reflexivity|]. exists fs. split; [exact N1|]. split; [exact Lf|reflexivity].
Qed.

(** *** C87: however often a picture is watermarked with one of the front ends, every run succeeds, no colour is further from the original than
    after one run, alpha stays, and each channel then carries exactly the watermark of the last run - of the features of the picture that run was
    given - with the same tolerance as after a first run. *)
Theorem C87_f64_watermarking_again_and_again : forall fe image n, In fe [command_line; web_page] ->
  well_formed image -> dimensions image = (n, n) -> (n mod 8 = 0)%nat -> side_ok n -> usable n 3 ->
  (stored_size n 3 (payload_size 11) <= band_capacity n 3)%nat -> colours_within (margin_of fe) image ->
  (forall sel, In sel [ch1; ch2; ch3] -> no_ties (depth_of fe) (component sel image) n) ->
  forall times, exists previous result,
    watermark_times fe times image = Ok previous /\ watermark_times fe (S times) image = Ok result
    /\ well_formed result /\ dimensions result = (n, n) /\ changes_at_most (moves_at_most fe) image result
    /\ forall sel, In sel [ch1; ch2; ch3] -> exists features quantised bits sig,
         measures equalize_histogram features_of (component sel previous) 11 features /\ length features = 11%nat
         /\ three_bit_quantization Bops checks features one = Ok (quantised, bits)
         /\ sign E (vec_i64_to_bytes quantised) PRIVATE_KEY PUBLIC_KEY = Ok sig
         /\ readable K E M gamma checks fe (component sel result) n quantised bits sig.
Proof.
  intros fe image n Hfe Hw Ed Hm8 Hs Hu Hcap Hcol Hnt.
  assert (Hr : Z.of_nat (n * n) < 2 ^ 53) by (unfold side_ok in Hs; rewrite Nat2Z.inj_mul; nia).
  assert (Sel : forall sel, In sel [ch1; ch2; ch3] -> sel = ch1 \/ sel = ch2 \/ sel = ch3) by (intros sel Hsel; cbn in Hsel; intuition auto).
  assert (Gp : forall sel, In sel [ch1; ch2; ch3] -> gray_picture (component sel image) n 3) by (intros; apply component_picture; auto).
  assert (Start : forall sel, In sel [ch1; ch2; ch3] -> exists m0, from_shape_vec n n (gray_raw (component sel image)) = Ok m0 /\ reached fe n m0 (component sel image)).
  { intros sel Hsel. pose proof (Gp sel Hsel) as G. destruct (gray_array _ n 3 G) as (m0 & E0 & P0 & _). pose proof G as (W & H & _).
    assert (E0' : from_shape_vec n n (gray_raw (component sel image)) = Ok m0) by congruence.
    exists m0. split; [exact E0'|]. split; [exact G|]. exists m0, (fun _ _ => 0). split; [exact E0'|]. split; [exact P0|]. split; [apply rel_refl|]. intros bi bj _. reflexivity. }
  assert (Ran : forall sel, In sel [ch1; ch2; ch3] -> Forall (fun v => margin_of fe <= v <= 255 - margin_of fe) (gray_raw (component sel image))).
  { intros sel Hsel. unfold component. cbn [gray_raw]. rewrite Forall_map. eapply Forall_impl; [|exact Hcol]. intros p Hp. exact (Hp sel Hsel). }
  set (Inv := fun im : dynimage => well_formed im /\ dimensions im = (n, n) /\ map ch4 (get_pixels im) = map ch4 (get_pixels image)
     /\ forall sel m0, In sel [ch1; ch2; ch3] -> from_shape_vec n n (gray_raw (component sel image)) = Ok m0 -> reached fe n m0 (component sel im)).
  assert (Step : forall im, Inv im -> exists result, watermark_image Bops K E equalize_histogram features_of checks pad im (f_of_Z Bops (depth_of fe)) one 11 = Ok result
     /\ Inv result /\ changes_at_most (moves_at_most fe) image result
     /\ forall sel, In sel [ch1; ch2; ch3] -> exists features quantised bits sig,
         measures equalize_histogram features_of (component sel im) 11 features /\ length features = 11%nat
         /\ three_bit_quantization Bops checks features one = Ok (quantised, bits)
         /\ sign E (vec_i64_to_bytes quantised) PRIVATE_KEY PUBLIC_KEY = Ok sig
         /\ readable K E M gamma checks fe (component sel result) n quantised bits sig).
  { intros im (Wi & Di & Ai & Ri).
    assert (Ch : forall sel, In sel [ch1; ch2; ch3] -> exists m0 marked features quantised bits sig, from_shape_vec n n (gray_raw (component sel image)) = Ok m0 /\
      watermark_channel Bops K E equalize_histogram features_of checks pad (component sel im) (f_of_Z Bops (depth_of fe)) one 11 3 = Ok marked
      /\ reached fe n m0 marked
      /\ (forall k v w, nth_error (gray_raw (component sel image)) k = Some v -> nth_error (gray_raw marked) k = Some w -> Z.abs (w - v) <= moves_at_most fe)
      /\ measures equalize_histogram features_of (component sel im) 11 features /\ length features = 11%nat
      /\ three_bit_quantization Bops checks features one = Ok (quantised, bits)
      /\ sign E (vec_i64_to_bytes quantised) PRIVATE_KEY PUBLIC_KEY = Ok sig
      /\ readable K E M gamma checks fe marked n quantised bits sig).
    { intros sel Hsel. destruct (Start sel Hsel) as (m0 & E0 & _).
      destruct (channel_again fe n (component sel image) m0 (component sel im) Hfe (Gp sel Hsel) E0 Hs Hu Hcap (Ran sel Hsel) (Hnt sel Hsel) (Ri sel m0 Hsel E0)) as (mk & fs & q & bits & sig & X).
      exists m0, mk, fs, q, bits, sig. split; [exact E0|exact X]. }
    destruct (Ch ch1) as (mr & red & f1 & q1 & b1 & s1 & Er0 & Er & Cr & Br & Ar); [cbn; tauto|]. destruct (Ch ch2) as (mg & green & f2 & q2 & b2 & s2 & Eg0 & Eg & Cg & Bg & Ag); [cbn; tauto|].
    destruct (Ch ch3) as (mb & blue & f3 & q3 & b3 & s3 & Eb0 & Eb & Cb & Bb & Ab); [cbn; tauto|].
    destruct (C42_watermark_returns_iff_the_channels_do b64 Bops K E equalize_histogram features_of checks pad im (f_of_Z Bops (depth_of fe)) one 11) as (_ & (_ & Ret)).
    destruct Ret as (result & Eres); [split; [eauto|intros _; split; eauto]|]. exists result. split; [exact Eres|].
    destruct (C42_watermark_preserves_size_layout_and_alpha K E equalize_histogram features_of checks pad im (f_of_Z Bops (depth_of fe)) one 11 result Wi Eres) as (X1 & X2 & X3 & X4 & X5 & X6 & H1 & H2 & H3).
    assert (red = component ch1 result) by congruence. subst red. assert (green = component ch2 result) by congruence. subst green. assert (blue = component ch3 result) by congruence. subst blue.
    split; [|split].
    - split; [exact X5|]. split; [congruence|]. split; [congruence|]. intros sel m0 Hsel E0. cbn in Hsel. destruct Hsel as [ <- |[ <- |[ <- |[]]]].
      + assert (m0 = mr) by congruence. subst m0. exact Cr.
      + assert (m0 = mg) by congruence. subst m0. exact Cg.
      + assert (m0 = mb) by congruence. subst m0. exact Cb.
    - intros k p q Ep Eq. unfold component in Br, Bg, Bb. cbn [gray_raw] in Br, Bg, Bb.
      split; [apply (Br k); rewrite nth_error_map; [rewrite Ep|rewrite Eq]; reflexivity|]. split; [apply (Bg k); rewrite nth_error_map; [rewrite Ep|rewrite Eq]; reflexivity|].
      split; [apply (Bb k); rewrite nth_error_map; [rewrite Ep|rewrite Eq]; reflexivity|].
      pose proof (map_nth_error ch4 k _ Eq) as A. rewrite X6, Ai in A. rewrite (map_nth_error ch4 k _ Ep) in A. congruence.
    - intros sel Hsel. cbn in Hsel. destruct Hsel as [ <- |[ <- |[ <- |[]]]]; [exists f1, q1, b1, s1; exact Ar|exists f2, q2, b2, s2; exact Ag|exists f3, q3, b3, s3; exact Ab]. }
  assert (All : forall times, exists previous, watermark_times fe times image = Ok previous /\ Inv previous).
  { induction times as [|k IH]; cbn [watermark_times].
    - exists image. split; [reflexivity|]. split; [exact Hw|]. split; [exact Ed|]. split; [reflexivity|]. intros sel m0 Hsel E0.
      destruct (Start sel Hsel) as (m0' & E0' & Rc). assert (m0' = m0) by congruence. subst m0'. exact Rc.
    - destruct IH as (prev & Ep & Ip). destruct (Step prev Ip) as (res & Eres & Ires & _). exists res. rewrite Ep. cbn [bind]. split; [exact Eres|exact Ires]. }
  intros times. destruct (All times) as (prev & Ep & Ip). destruct (Step prev Ip) as (res & Eres & (I1 & I2 & _) & Hch & Hsig).
  exists prev, res. split; [exact Ep|]. split; [cbn [watermark_times]; rewrite Ep; cbn [bind]; exact Eres|]. split; [exact I1|]. split; [exact I2|]. split; [exact Hch|exact Hsig].
Qed.
End Shipped.

(** ** Concrete case: an even RGBA picture has no ties with either front end; it can be watermarked any number of times. *)
Lemma even_no_ties D v n : (n mod 8 = 0)%nat -> (0 < n)%nat -> Z.of_nat (n * n) < 2 ^ 53 -> 0 <= v < 256 -> ~ tie D (64 * v) -> no_ties D (mkGray n n (repeat v (n * n))) n.
Proof.
  intros Hm Hn Hr Hv Ht pixels Ep i j Hi Hj. cbn [gray_raw] in Ep.
  assert (G : gray_picture (mkGray n n (repeat v (n * n))) n 3).
  { unfold gray_picture. cbn [gwidth gheight gray_raw]. rewrite repeat_length. repeat split; try assumption; try lia. apply Forall_forall. intros x Hx. apply repeat_spec in Hx. subst x. unfold byte. lia. }
  destruct (gray_array _ n 3 G) as (m & Em & (Hc & _) & Hcell). cbn [gwidth gheight gray_raw] in Em. assert (m = pixels) by congruence. subst m.
  assert (Bt : block_sum pixels i j = 64 * v).
  { unfold block_sum, block_total. rewrite (zsum_ext _ _ (fun _ => 8 * v)); [rewrite zsum_const; change (Z.of_nat (2 ^ 3)) with 8; lia|].
    intros p Hp. rewrite (zsum_ext _ _ (fun _ => v)); [rewrite zsum_const; reflexivity|]. intros q Hq.
    assert (Hdm : (n mod 2 ^ 3 = 0)%nat) by exact Hm.
    pose proof (place_lt_n n 3 _ p Hdm (block_lt n 3 i Hdm Hi) Hp) as P1. pose proof (place_lt_n n 3 _ q Hdm (block_lt n 3 j Hdm Hj) Hq) as P2.
    unfold pixel. change 8%nat with (2 ^ 3)%nat at 1 2. rewrite Hcell by assumption. unfold gray_pixel. cbn [gray_raw]. destruct (nth_error _ _) as [x|] eqn:Ex.
    - apply nth_error_In, repeat_spec in Ex. exact Ex.
    - apply nth_error_None in Ex. rewrite repeat_length in Ex. nia. }
  rewrite Bt. exact Ht.
Qed.
Example C87_instance : forall fe, In fe [command_line; web_page] -> forall times, exists result,
  watermark_times toy_ldpc toy_ed exact_libm (fun x => x) true (repeat false 8) fe (S times) colour512 = Ok result
  /\ changes_at_most (moves_at_most fe) colour512 result.
Proof.
  intros fe Hfe times. destruct C83_512_is_usable as (A & B & C & D).
  destruct (C87_f64_watermarking_again_and_again toy_ldpc toy_shape toy_decodes toy_ed toy_format toy_keys exact_libm exact_libm_accurate (fun x => x) true (repeat false 8) eq_refl fe colour512 512 Hfe colour512_wf eq_refl A B C D)
    with (times := times) as (prev & result & _ & H1 & _ & _ & H2 & _); [| |exists result; split; assumption].
  - unfold colours_within, colour512. cbn [get_pixels]. apply Forall_forall. intros p Hp. apply repeat_spec in Hp. subst p.
    intros sel Hsel. cbn in Hsel. destruct Hfe as [ <- |[ <- |[]]]; destruct Hsel as [ <- |[ <- |[ <- |[]]]]; cbn [margin_of command_line web_page ch1 ch2 ch3]; lia.
  - intros sel Hsel. unfold component, colour512. cbn [dimensions get_pixels fst snd]. assert (Mr : forall A B (f : A -> B) x k, map f (repeat x k) = repeat (f x) k) by (intros A' B' f x k; induction k; cbn; congruence). rewrite Mr. clear Mr.
    apply even_no_ties; [exact A|lia|lia| |].
    + cbn in Hsel. destruct Hsel as [ <- |[ <- |[ <- |[]]]]; cbn [ch1 ch2 ch3]; lia.
    + cbn in Hsel. destruct Hfe as [ <- |[ <- |[]]]; destruct Hsel as [ <- |[ <- |[ <- |[]]]]; cbn [depth_of command_line web_page ch1 ch2 ch3];
        (apply C86_ties_of_the_front_ends; [auto|vm_compute; discriminate|vm_compute; discriminate]).
Qed.

Print Assumptions C87_f64_watermarking_again_and_again.
