(** C78: changes beyond the tolerance of the quantiser are rejected (lib/sia/rust/watermarking/src/process.rs: watermark_channel,
    authenticate_channel), binary64.  The verdict is the signature check on a vector of integers that differs from the one that was signed - so it is false
    unless that very vector and signature are a forgery. *)
From Coq Require Import Reals Lra.
From Flocq Require Import Core BinarySingleNaN.
From Verif Require Import Outcome Floats FloatFacts Bits ListFacts Quantization QuantProofs QuantReal QuantFloat PropsQuant PropsQuant2 Codecs CodecProofs WatermarkProofs PropsCodec
  Encoding EncodingProofs PropsEncoding Matrix MatrixFacts Haar HaarProofs HaarReal PropsHaar Stego StegoProofs StegoMarks PropsStego Embedding EmbeddingProofs EmbeddingEffect PropsEmbedding PropsEmbedding2 PropsRobust
  Signature Process ProcessProofs Toy Zernike ZernikeProofs PropsZernike PropsProcess PropsProcess2 PropsProcess3.
Open Scope Z_scope.

(** ** Specification vocabulary *)
Definition i64_vector (v : list Z) : Prop := Forall (fun q => - 2 ^ 63 <= q < 2 ^ 63) v.
(** the message under signature changes with the vector (8 bytes per integer) *)
Definition another_message (v w : list Z) : Prop := i64_vector v /\ i64_vector w /\ v <> w /\ vec_i64_to_bytes v <> vec_i64_to_bytes w.
(** [sig] is accepted on the vector [v] only *)
Definition signs_only (E : ed25519) (sig v : list Z) : Prop :=
  forall w, another_message w v -> length w = length v -> verify E (vec_i64_to_bytes w) sig PUBLIC_KEY = Ok false.
(** features of ordinary size, and those of the received picture away from the bin boundaries (C02) *)
Definition ordinary_feature (step x : b64) : Prop := fin x /\ (Rabs (toR x) <= bpow radix2 29 * toR step)%R.
(** some feature moved by at least [k] steps *)
Definition some_feature_moved (step : b64) (features noised : list b64) (k : R) : Prop :=
  exists i x x', nth_error features i = Some x /\ nth_error noised i = Some x' /\ (k * toR step <= Rabs (toR x' - toR x))%R.

(** ** Proofs *)
Lemma quantize1_i64 (step y : b64) : - 2 ^ 63 <= quantize1 Bops step y < 2 ^ 63.
Proof.
  unfold quantize1, f_to_i64. generalize (f_floor Bops (f_div Bops y step)). intros z. cbn [f_cast Bops].
  pose proof (b_cast_range i64_min i64_max z ltac:(unfold i64_min, i64_max; lia)) as Hz. unfold i64_min, i64_max in *. lia.
Qed.
Lemma quantization_defined (step : b64) checks features : fin step -> (bpow radix2 (-500) <= toR step <= bpow radix2 500)%R ->
  Forall (ordinary_feature step) features -> no_overflow Bops step checks features.
Proof.
  intros Fs Hs H. apply (no_overflow_float step Hs). eapply Forall_impl; [|exact H]. intros x (Fx & Bx). split; [exact Fx|].
  eapply Rle_trans; [exact Bx|]. pose proof (S_pos step Hs). apply Rmult_le_compat_r; [lra|]. apply bpow_le. lia.
Qed.

Lemma quantize_i64 (step : b64) xs : i64_vector (quantize Bops xs step).
Proof. apply Forall_forall. intros y Hy. apply in_map_iff in Hy as (z & <- & _). apply quantize1_i64. Qed.
Lemma another v w : i64_vector v -> i64_vector w -> v <> w -> another_message v w.
Proof. intros H1 H2 H3. split; [exact H1|]. split; [exact H2|]. split; [exact H3|]. intros C. apply H3. now apply i64_bytes_inj. Qed.

(** *** The watermark of one picture in another: whoever the received channel comes from, if the watermark read from it is the one made
    for [features] and some feature is off by at least 3/2 + 2^-20 steps, the verdict is the signature check on another message. *)
Theorem C78_f64_a_watermark_is_tied_to_its_features : forall K E equalize features_of checks (depth step : b64) amount levels features quantised bits sig,
  fin step -> (bpow radix2 (-500) <= toR step <= bpow radix2 500)%R -> Forall (ordinary_feature step) features ->
  three_bit_quantization Bops checks features step = Ok (quantised, bits) ->
  forall received image payload text noised,
  from_shape_vec (gwidth received) (gheight received) (gray_raw received) = Ok image ->
  extract Bops K image depth levels = Ok payload -> watermark_deserialize payload = Ok (mkWatermark bits sig text) ->
  measures equalize features_of received amount noised -> length noised = length features ->
  Forall (fun x' => ordinary_feature step x' /\ away (toR x') (toR step)) noised ->
  some_feature_moved step features noised (3 / 2 + bpow radix2 (-20)) ->
  exists restored, three_bit_dequantization Bops checks noised bits step = Ok restored
    /\ length restored = length quantised /\ another_message restored quantised
    /\ authenticate_channel Bops K E equalize features_of checks received depth step amount levels = verify E (vec_i64_to_bytes restored) sig PUBLIC_KEY.
Proof.
  intros K E eq fo checks depth step amount L fs q bits sig Fs Hs Hf Eq rc im pl txt ns Eim Ex Ed Hm Hl Hn (i & x & x' & Hi & Hi' & Hfar).
  assert (N1 : no_overflow Bops step checks fs) by now apply quantization_defined.
  assert (N2 : no_overflow Bops step checks ns) by (apply quantization_defined; [exact Fs|exact Hs|eapply Forall_impl; [|exact Hn]; intros y (Hy & _); exact Hy]).
  destruct (dequantize_lists Bops step checks fs ns Hl N1 N2) as (D1 & D2).
  rewrite D1 in Eq. assert (Eb : bits = flat_map (bits3 Bops step) fs) by congruence. assert (Eqq : q = quantize Bops fs step) by congruence. rewrite <- Eb in D2.
  match type of D2 with _ = Ok ?r => set (restored := r) in * end.
  exists restored. split; [exact D2|]. split; [unfold restored; rewrite map_length, combine_length, Hl, Eqq; unfold quantize; rewrite map_length; lia|]. split.
  2:{ rewrite (authenticate_run Bops K E eq fo checks rc im amount ns step (mkWatermark bits sig txt) pl depth L Eim Hm Ex Ed). cbn [perturbation_vector signature]. rewrite D2. reflexivity. }
  apply another; [unfold restored; apply Forall_forall; intros y Hy; apply in_map_iff in Hy as (z & <- & _); apply quantize1_i64|rewrite Eqq; apply quantize_i64|]. intros C.
  assert (Hq : nth_error q i = Some (quantize1 Bops step x)) by (rewrite Eqq; unfold quantize; rewrite nth_error_map, Hi; reflexivity).
  assert (Hr : nth_error restored i = Some (quantize1 Bops step (restore_l Bops step x' (bits3 Bops step x)))) by (unfold restored; rewrite nth_error_map, (nth_combine _ _ _ _ _ Hi Hi'); reflexivity).
  refine (C03_f64_far_features_are_not_restored step fs ns checks bits restored q i x x' (quantize1 Bops step x) (quantize1 Bops step (restore_l Bops step x' (bits3 Bops step x))) Fs Hs Hl Hf _ _ D2 Hi Hi' Hq Hr Hfar _).
  - eapply Forall_impl; [|exact Hn]. intros y ((F1 & B1) & A1). auto.
  - rewrite D1. congruence.
  - assert (C1 : Some (quantize1 Bops step (restore_l Bops step x' (bits3 Bops step x))) = Some (quantize1 Bops step x)) by (rewrite <- Hr, <- Hq, C; reflexivity). congruence.
Qed.

Lemma quantize1_bounds (s y : b64) : ordinary_step (toR s) -> fin y -> (Rabs (toR y) <= bpow radix2 30 * toR s)%R ->
  ((IZR (quantize1 Bops s y) - bpow radix2 (-22)) * toR s <= toR y < (IZR (quantize1 Bops s y) + 1) * toR s)%R.
Proof. intros Hs Fy By. destruct (quantize1_qz s Hs y Fy By) as (-> & _). exact (qz_bounds s Hs y Fy By). Qed.
Lemma shifted_sum (s x' : b64) k y : fin s -> ordinary_step (toR s) -> (k = 1 \/ k = -1)%R -> (Rabs (toR x') <= bpow radix2 29 * toR s)%R ->
  toR y = rnd (toR x' + k * toR s) -> (Rabs (toR y - (toR x' + k * toR s)) <= bpow radix2 (-22) * toR s /\ Rabs (toR y) <= bpow radix2 30 * toR s)%R.
Proof.
  intros Fs Hs Hk Hx Hy. pose proof (S_pos s Hs) as HS. apply Rabs_le_inv in Hx.
  assert (Hsum : (Rabs (toR x' + k * toR s) <= (bpow radix2 29 + 2) * toR s)%R) by (apply Rabs_le; destruct Hk as [-> | ->]; nra).
  assert (He : (Rabs (toR y - (toR x' + k * toR s)) <= bpow radix2 (-22) * toR s)%R).
  { rewrite Hy. eapply Rle_trans; [apply rnd_err|]. pose proof (eta_small s Hs).
    apply Rle_trans with (u53 * ((bpow radix2 29 + 2) * toR s) + bpow radix2 (-60) * toR s)%R.
    - apply Rplus_le_compat; [|assumption]. apply Rmult_le_compat_l; [left; apply u53_pos|exact Hsum].
    - rewrite <- Rmult_assoc, <- Rmult_plus_distr_r. apply Rmult_le_compat_r; [lra|]. unfold u53. simpl bpow. lra. }
  split; [exact He|]. apply Rabs_le_inv in He. apply Rabs_le_inv in Hsum. apply Rabs_le. simpl bpow in *. lra.
Qed.

(** *** Whatever the received channel holds - the attacker may choose every pixel and so the whole watermark - a verdict true on features
    of which one is off by at least 2 + 2^-20 steps from the original's means that the signature stored in it was accepted on a vector other than
    the original's, and that vector is the one restored from the stored bits. *)
Theorem C78_f64_nothing_far_from_the_original_authenticates : forall K E equalize features_of checks (depth step : b64) amount levels features,
  fin step -> (bpow radix2 (-500) <= toR step <= bpow radix2 500)%R -> Forall (ordinary_feature step) features ->
  forall received noised, measures equalize features_of received amount noised -> Forall (ordinary_feature step) noised ->
  some_feature_moved step features noised (2 + bpow radix2 (-20)) ->
  authenticate_channel Bops K E equalize features_of checks received depth step amount levels = Ok true ->
  exists image payload w restored, from_shape_vec (gwidth received) (gheight received) (gray_raw received) = Ok image
    /\ extract Bops K image depth levels = Ok payload /\ watermark_deserialize payload = Ok w
    /\ three_bit_dequantization Bops checks noised (perturbation_vector w) step = Ok restored
    /\ another_message restored (quantize Bops features step) /\ verify E (vec_i64_to_bytes restored) (signature w) PUBLIC_KEY = Ok true.
Proof.
  intros K E eq fo checks depth step amount L fs Fs Hs Hf rc ns Hm Hn (i & x & x' & Hi & Hi' & Hfar) H.
  apply C37_authentic_iff_signature_on_restored_features in H as (im & fs' & pl & w & r & pb & vk & sg & H1 & H2 & H3 & H4 & H5 & H6 & H7 & H8 & H9).
  assert (fs' = ns) by (destruct Hm as (e & M1 & M2), H2 as (e' & M1' & M2'); congruence). subst fs'.
  destruct (dequantization_near Bops checks ns _ step r H5) as (Lr & _ & Hr).
  exists im, pl, w, r. split; [exact H1|]. split; [exact H3|]. split; [exact H4|]. split; [exact H5|]. split; [apply another; [|apply quantize_i64|]|].
  1:{ apply Forall_forall. intros y Hy. apply In_nth_error in Hy as (j & Hj). assert (Hlt : (j < length ns)%nat) by (assert (j < length r)%nat by (apply nth_error_Some; congruence); lia).
      destruct (nth_error ns j) as [z|] eqn:Ez; [|apply nth_error_None in Ez; lia]. destruct (Hr j y z Hj Ez) as [ -> |[ -> | -> ]]; apply quantize1_i64. }
  2:{ unfold verify, decode_hex_unwrap. rewrite H6. cbn [bind]. rewrite H7. cbn [unwrap_err bind]. rewrite H8. cbn [unwrap_err bind]. now rewrite H9. }
  intros C.
  assert (Hq : nth_error r i = Some (quantize1 Bops step x)) by (rewrite C; unfold quantize; rewrite nth_error_map, Hi; reflexivity).
  rewrite Forall_forall in Hf, Hn. destruct (Hf x (nth_error_In _ _ Hi)) as (Fx & Bx). destruct (Hn x' (nth_error_In _ _ Hi')) as (Fx' & Bx').
  pose proof (S_pos step Hs) as HS.
  assert (B30 : forall y, (Rabs y <= bpow radix2 29 * toR step -> Rabs y <= bpow radix2 30 * toR step)%R) by (intros y Hy; simpl bpow in *; lra).
  pose proof (quantize1_bounds step x Hs Fx (B30 _ Bx)) as Hb. set (q := quantize1 Bops step x) in *. apply Rabs_le_inv in Bx.
  destruct (Hr i q x' Hq Hi') as [E1|[E1|E1]].
  - pose proof (quantize1_bounds step x' Hs Fx' (B30 _ Bx')) as Hb'. rewrite <- E1 in Hb'. simpl bpow in *. unfold Rabs in Hfar. destruct (Rcase_abs (toR x' - toR x)); nra.
  - assert (Hsm : small (toR x' + toR step)) by (apply (small_S step Hs) with 31; [lia|]; apply Rabs_le_inv in Bx'; apply Rabs_le; simpl bpow in *; lra).
    destruct (b_add_ok x' step Fx' Fs Hsm) as (Fy & Vy). destruct (shifted_sum step x' 1 (f_add Bops x' step) Fs Hs (or_introl eq_refl) Bx') as (S1 & S2); [rewrite Vy; f_equal; ring|].
    pose proof (quantize1_bounds step _ Hs Fy S2) as Hb'. rewrite <- E1 in Hb'. apply Rabs_le_inv in S1. simpl bpow in *. unfold Rabs in Hfar. destruct (Rcase_abs (toR x' - toR x)); nra.
  - assert (Hsm : small (toR x' - toR step)) by (apply (small_S step Hs) with 31; [lia|]; apply Rabs_le_inv in Bx'; apply Rabs_le; simpl bpow in *; lra).
    destruct (b_sub_ok x' step Fx' Fs Hsm) as (Fy & Vy). destruct (shifted_sum step x' (-1) (f_sub Bops x' step) Fs Hs (or_intror eq_refl) Bx') as (S1 & S2); [rewrite Vy; f_equal; ring|].
    pose proof (quantize1_bounds step _ Hs Fy S2) as Hb'. rewrite <- E1 in Hb'. apply Rabs_le_inv in S1. simpl bpow in *. unfold Rabs in Hfar. destruct (Rcase_abs (toR x' - toR x)); nra.
Qed.

(** *** From pixel to verdict: watermark a channel, change every pixel by at most [t] (small enough for the watermark to be read, C63):
    if that moves some feature by at least 3/2 + 2^-20 steps, the verdict is the check of the signature made by watermarking on another message
    than the signed one; it is false if that signature fits the signed vector only. *)
Theorem C78_f64_tampering_beyond_the_tolerance_is_detected : forall K, ldpc_shape K -> ldpc_decodes K ->
  forall E, signature_format E -> key_pair E PRIVATE_KEY PUBLIC_KEY ->
  forall equalize features_of checks pad, length pad = 8%nat ->
  forall channel n levels (depth step : b64) amount features t,
  gray_picture channel n levels -> (levels <= 10)%nat -> usable n levels -> measures equalize features_of channel amount features ->
  fin step -> (bpow radix2 (-500) <= toR step <= bpow radix2 500)%R -> Forall (ordinary_feature step) features -> (length features <= 85)%nat ->
  (stored_size n levels (payload_size (length features)) <= band_capacity n levels)%nat ->
  0 <= t -> fin depth -> (65 / 64 * 2 ^ (levels + 1) <= toR depth <= 2 ^ 20)%R -> (2 ^ levels * (IZR t + / 2 + / 1024) < (/ 4 - / 512) * toR depth)%R ->
  gray_room channel n levels (8 * stored_size n levels (payload_size (length features))) (3 * toR depth / 2 ^ (levels + 2)) ->
  exists marked sig, watermark_channel Bops K E equalize features_of checks pad channel depth step amount levels = Ok marked
    /\ gray_picture marked n levels /\ sign E (vec_i64_to_bytes (quantize Bops features step)) PRIVATE_KEY PUBLIC_KEY = Ok sig
    /\ forall received noised, gray_picture received n levels -> changed_by_at_most marked received t ->
         measures equalize features_of received amount noised -> length noised = length features ->
         Forall (fun x' => ordinary_feature step x' /\ away (toR x') (toR step)) noised ->
         some_feature_moved step features noised (3 / 2 + bpow radix2 (-20)) ->
         (exists restored, length restored = length features /\ another_message restored (quantize Bops features step)
           /\ authenticate_channel Bops K E equalize features_of checks received depth step amount levels = verify E (vec_i64_to_bytes restored) sig PUBLIC_KEY)
         /\ (signs_only E sig (quantize Bops features step) ->
             authenticate_channel Bops K E equalize features_of checks received depth step amount levels = Ok false).
Proof.
  intros K Hsh Hdec E HE Hk eq fo checks pad Hpad ch n L depth step amount fs t Hg HL10 Hu Hm Fst Hst Hof H85 Hcap Ht Fd Hd2 Hd Hroom. pose proof (proj2 Hd2) as Hd20.
  assert (Ht' : (0 <= IZR t)%R) by (apply IZR_le; exact Ht). assert (HpL : (1 <= 2 ^ L)%R) by (apply pow_R1_Rle; lra).
  assert (Hd1 : (1 <= toR depth <= 2 ^ 20)%R) by (split; [|exact Hd20]; assert (0 <= 2 ^ L * IZR t)%R by nra; rewrite Rmult_plus_distr_l, Rmult_plus_distr_l in Hd; lra).
  destruct (gray_array ch n L Hg) as (im & Eim & Him & Hcell).
  pose proof (quantization_ok Bops step checks fs (quantization_defined step checks fs Fst Hst Hof)) as Eq. set (q := quantize Bops fs step) in *. set (bits := flat_map (bits3 Bops step) fs) in *.
  destruct (quantization_inv Bops checks fs step q bits Eq) as (_ & _ & Lb).
  destruct (sign_verify E _ _ (vec_i64_to_bytes q) HE Hk) as (sig & Es & Ls & Bs & Ev).
  destruct (payload_of pad bits sig (length fs) Hpad Bs Ls Lb H85) as (pl & Ep & Bp & Lp & Edp).
  pose proof (payload_size_range _ H85) as Hsz.
  assert (Hr' : room im n L (8 * stored_size n L (length pl)) (3 * toR depth / 2 ^ (L + 2))) by (rewrite Lp; now apply (gray_room_array ch)).
  assert (Hl : (1 <= Z.of_nat (length pl) <= 65533)) by (rewrite Lp; lia). assert (Hcap' : (stored_size n L (length pl) <= band_capacity n L)%nat) by (rewrite Lp; exact Hcap).
  destruct (C31_f64_embed_then_extract_returns_the_payload K Hsh Hdec im n L depth pl Him HL10 Hu Bp Hl Hcap' Fd Hd2 Hr') as (out & Eo & Pout & _).
  destruct (array_gray out n L Pout) as (Gout & Fout). pose proof Hg as (W & H & _).
  pose proof Pout as ((Hwf & D0 & D1 & _) & _).
  exists (mkGray n n (into_raw_vec out)), sig. split; [|split; [exact Gout|split; [exact Es|]]].
  - pose proof (watermark_run Bops K E eq fo checks pad ch im amount fs step q bits sig pl out depth L Eim Hm Eq Es Ep Eo Hwf ltac:(congruence) ltac:(congruence)) as R.
    rewrite W, H in R. exact R.
  - intros received noised Grc Hch Hmr Hln Hon Hmv. destruct (gray_array received n L Grc) as (rc & Erc & _).
    pose proof Grc as (W' & H' & _). assert (Erc' : from_shape_vec n n (gray_raw received) = Ok rc) by congruence.
    destruct (changed_noise _ received n L t out rc Gout Grc Hch Fout Erc') as (Prc & Hnoise).
    pose proof (C63_f64_small_pixel_changes_keep_the_payload K Hsh Hdec im n L depth pl out rc t Him HL10 Hu Bp Hl Hcap' Fd Hd1 Hr' Eo Prc Hnoise Hd) as Ex.
    destruct (C78_f64_a_watermark_is_tied_to_its_features K E eq fo checks depth step amount L fs q bits sig Fst Hst Hof Eq received rc pl WATERMARK_TEXT noised Erc Ex Edp Hmr Hln Hon Hmv)
      as (r & _ & Lr & Ar & Vr).
    split; [exists r; split; [rewrite Lr; unfold q, quantize; apply map_length|split; assumption]|]. intros Ho. rewrite Vr. now apply Ho.
Qed.

(** ** Witness: at the command line's settings the grey channel is watermarked, every pixel of the result is changed by 1 or 2 - and the
    extractor reports 9.0625 instead of 2.5 for such pictures: with a scheme that accepts one vector only, the verdict is false. *)
Definition pixel0 (image : array2 Z) : Z := match cell image 0 0 with Some v => v | None => 0 end.
Definition touchy_features (image : array2 Z) (amount : nat) : outcome (list b64) :=
  Ok (if pixel0 image =? 128 then repeat (b_dyadic 5 (-1)) amount else repeat (b_dyadic 145 (-4)) amount).
Definition disturb (v : Z) : Z := if v =? 126 then 127 else if v <=? 253 then v + 2 else v - 2.
(** one vector gets the signature "true", all others "false" *)
Definition one_vector_ed (v0 : list Z) : ed25519 := {|
  keypair := unit; pubkey := unit; ed_signature := bool;
  keypair_from_bytes := fun _ => Some tt; pubkey_from_bytes := fun _ => Some tt;
  signature_from_bytes := fun l => if Nat.eqb (length l) 64 then Some (Z.odd (nth 0 l 0)) else None;
  signature_to_bytes := fun b : bool => Z.b2z b :: repeat 0 63;
  ed_sign := fun _ data => if list_eq_dec Z.eq_dec data (vec_i64_to_bytes v0) then true else false;
  ed_verify := fun _ data s => Bool.eqb (if list_eq_dec Z.eq_dec data (vec_i64_to_bytes v0) then true else false) s
|}.
Lemma one_vector_format v0 : signature_format (one_vector_ed v0).
Proof.
  split; [intros [|]; reflexivity|intros [|]; reflexivity|]. intros s. constructor; [destruct s; unfold byte; cbn; lia|]. apply Forall_forall. intros x Hx. apply repeat_spec in Hx. subst x. unfold byte. lia.
Qed.
Lemma one_vector_keys v0 : key_pair (one_vector_ed v0) PRIVATE_KEY PUBLIC_KEY.
Proof.
  destruct toy_keys as (sb & pb & _ & _ & H1 & H2 & _). exists sb, pb, tt, tt. split; [exact H1|]. split; [exact H2|]. split; [reflexivity|]. split; [reflexivity|].
  intros data. cbn [ed_verify ed_sign one_vector_ed]. apply eqb_reflx.
Qed.
Lemma one_vector_only v0 sig : i64_vector v0 -> sign (one_vector_ed v0) (vec_i64_to_bytes v0) PRIVATE_KEY PUBLIC_KEY = Ok sig -> signs_only (one_vector_ed v0) sig v0.
Proof.
  intros H0 Hs w (Iw & _ & _ & Hw) _. destruct toy_keys as (sb & pb & _ & _ & H1 & H2 & _). unfold sign, verify, decode_hex_unwrap in *. rewrite H1, H2 in Hs. rewrite H2. cbn [bind keypair_from_bytes pubkey_from_bytes one_vector_ed unwrap_err] in *.
  cbn [ed_sign signature_to_bytes one_vector_ed] in Hs. destruct (list_eq_dec Z.eq_dec (vec_i64_to_bytes v0) (vec_i64_to_bytes v0)) as [_|C]; [|congruence].
  assert (E : sig = 1 :: repeat 0 63) by (cbn [Z.b2z] in Hs; congruence). rewrite E. cbn [signature_from_bytes one_vector_ed length repeat Nat.eqb unwrap_err bind nth ed_verify].
  destruct (list_eq_dec Z.eq_dec (vec_i64_to_bytes w) (vec_i64_to_bytes v0)) as [C|_]; [congruence|reflexivity].
Qed.

Lemma disturb_byte v : byte v -> byte (disturb v) /\ disturb v <> 128 /\ Z.abs (disturb v - v) <= 2.
Proof. unfold byte, disturb. intros H. destruct (v =? 126) eqn:E1; [apply Z.eqb_eq in E1; lia|apply Z.eqb_neq in E1]. destruct (v <=? 253) eqn:E2; [apply Z.leb_le in E2|apply Z.leb_gt in E2]; lia. Qed.
Lemma value_of m e : Z.abs m < 2 ^ 53 -> -1022 <= e <= 900 -> fin (b_dyadic m e) /\ toR (b_dyadic m e) = (IZR m * bpow radix2 e)%R.
Proof. intros H1 H2. apply b_dyadic_exact; lia. Qed.
Lemma away_9 : away (145 / 16) 1.
Proof.
  intros n. right. rewrite Rmult_1_r. destruct (Z_le_gt_dec n 9) as [H|H].
  - apply IZR_le in H. rewrite Rabs_pos_eq by lra. simpl bpow. lra.
  - assert (H' : 10 <= n) by lia. apply IZR_le in H'. rewrite Rabs_left by lra. simpl bpow. lra.
Qed.
Example C78_f64_instance : exists marked,
  watermark_channel Bops toy_ldpc (one_vector_ed (repeat 2 11)) (fun l => l) touchy_features true (repeat false 8) grey512 (f_of_Z Bops 100) (f_of_Z Bops 1) 11 3 = Ok marked
  /\ authenticate_channel Bops toy_ldpc (one_vector_ed (repeat 2 11)) (fun l => l) touchy_features true (mkGray 512 512 (map disturb (gray_raw marked))) (f_of_Z Bops 100) (f_of_Z Bops 1) 11 3 = Ok false.
Proof.
  destruct (gray_array grey512 512 3 grey512_picture) as (im & Eim & Him & Hcell).
  assert (P0 : pixel0 im = 128) by (unfold pixel0; rewrite Hcell by lia; reflexivity).
  assert (Hm : measures (fun l => l) touchy_features grey512 11 (repeat (b_dyadic 5 (-1)) 11)) by (exists im; split; [exact Eim|]; unfold touchy_features; rewrite P0; reflexivity).
  destruct (b_of_Z_ok 100) as (F1 & V1); [lia|]. destruct (b_of_Z_ok 1) as (F2 & V2); [lia|].
  change (b_of_Z 100) with (f_of_Z Bops 100) in *. change (b_of_Z 1) with (f_of_Z Bops 1) in *.
  destruct (value_of 5 (-1)) as (F3 & V3); [lia|lia|]. destruct (value_of 145 (-4)) as (F4 & V4); [lia|lia|].
  assert (W3 : toR (b_dyadic 5 (-1)) = (5 / 2)%R) by (rewrite V3; simpl; lra). assert (W4 : toR (b_dyadic 145 (-4)) = (145 / 16)%R) by (rewrite V4; simpl; lra).
  assert (Eq : quantize Bops (repeat (b_dyadic 5 (-1)) 11) (f_of_Z Bops 1) = repeat 2 11) by (vm_compute; reflexivity).
  destruct (C78_f64_tampering_beyond_the_tolerance_is_detected toy_ldpc toy_shape toy_decodes (one_vector_ed (repeat 2 11)) (one_vector_format _) (one_vector_keys _) (fun l => l) touchy_features true (repeat false 8) eq_refl
              grey512 512 3 (f_of_Z Bops 100) (f_of_Z Bops 1) 11 (repeat (b_dyadic 5 (-1)) 11) 2 grey512_picture ltac:(lia) usable_512 Hm F2) as (mk & sig & E1 & G & Es & A).
  - rewrite V2. split; [apply Rle_trans with (bpow radix2 0); [apply bpow_le; lia|simpl; lra]|apply Rle_trans with (bpow radix2 0); [simpl; lra|apply bpow_le; lia]].
  - apply Forall_repeat. split; [exact F3|]. rewrite W3, V2, Rabs_pos_eq by lra. simpl bpow. lra.
  - rewrite repeat_length. lia.
  - rewrite repeat_length. exact fits_512.
  - lia.
  - exact F1.
  - rewrite V1. simpl. lra.
  - rewrite V1. simpl. lra.
  - apply grey512_room. rewrite V1. simpl. lra.
  - exists mk. split; [exact E1|].
    destruct G as (W & H & Hl & Hb & Hrest).
    assert (G2 : gray_picture (mkGray 512 512 (map disturb (gray_raw mk))) 512 3).
    { unfold gray_picture. cbn [gwidth gheight gray_raw]. split; [reflexivity|]. split; [reflexivity|]. split; [rewrite map_length; exact Hl|]. split; [|exact Hrest].
      unfold bytes in *. rewrite Forall_map. eapply Forall_impl; [|exact Hb]. intros v Hv. now apply disturb_byte. }
    destruct (gray_array _ 512 3 G2) as (om & Eom & _ & Hc).
    assert (P1 : pixel0 om <> 128).
    { unfold pixel0. rewrite Hc by lia. unfold gray_pixel. cbn [gray_raw]. rewrite nth_error_map. destruct (nth_error (gray_raw mk) (512 * 0 + 0)) as [v|] eqn:Ev; cbn [option_map]; [|lia].
      apply disturb_byte. unfold bytes in Hb. rewrite Forall_forall in Hb. apply Hb. eapply nth_error_In. exact Ev. }
    apply (A (mkGray 512 512 (map disturb (gray_raw mk))) (repeat (b_dyadic 145 (-4)) 11) G2).
    + split; [cbn [gwidth]; congruence|]. split; [cbn [gheight]; congruence|]. cbn [gray_raw]. clear - Hb. induction (gray_raw mk) as [|v t IH]; constructor; [|apply IH; inversion Hb; assumption].
      inversion Hb; subst. now apply disturb_byte.
    + exists om. split; [exact Eom|]. unfold touchy_features. destruct (pixel0 om =? 128) eqn:Ep; [apply Z.eqb_eq in Ep; contradiction|reflexivity].
    + rewrite !repeat_length. reflexivity.
    + apply Forall_repeat. rewrite V2. split; [split; [exact F4|rewrite W4, V2, Rabs_pos_eq by lra; simpl bpow; lra]|rewrite W4; exact away_9].
    + exists 0%nat, (b_dyadic 5 (-1)), (b_dyadic 145 (-4)). split; [reflexivity|]. split; [reflexivity|]. rewrite V2, W3, W4, Rabs_pos_eq by lra. simpl bpow. lra.
    + rewrite Eq in *. apply one_vector_only; [|exact Es]. apply Forall_repeat. lia.
Qed.

Print Assumptions C78_f64_a_watermark_is_tied_to_its_features.
Print Assumptions C78_f64_nothing_far_from_the_original_authenticates.
Print Assumptions C78_f64_tampering_beyond_the_tolerance_is_detected.
