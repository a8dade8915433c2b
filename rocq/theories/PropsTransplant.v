(** Property C92: a watermark can be copied from one picture to another without any key; what the authenticator says about the copy
    (lib/sia/rust/watermarking/src/process.rs: authenticate_channel; configuration as in C83). *)
From Coq Require Import Reals Lra.
From Flocq Require Import Core BinarySingleNaN.
From Verif Require Import Outcome Floats FloatFacts Bits ListFacts Quantization QuantProofs QuantReal QuantFloat PropsQuant PropsQuant2 Codecs CodecProofs WatermarkProofs PropsCodec
  Encoding EncodingProofs PropsEncoding Matrix MatrixFacts Haar HaarProofs HaarReal PropsHaar Stego StegoProofs StegoMarks PropsStego Embedding EmbeddingProofs EmbeddingEffect PropsEmbedding PropsEmbedding2 PropsRobust
  Signature Process ProcessProofs Toy Zernike ZernikeProofs PropsZernike ZernikeBound PropsZernike2 ZernikeGen PropsZernikeF64 LibmSpec LibmExact PropsZernikeAcc
  PropsProcess PropsProcess2 Image PropsImage PropsProcess3 PropsProcess4 PropsProcess5 PropsProcess6 PropsTamper Equalize PropsEqualize PropsShipped PropsShipped2.
Open Scope Z_scope.

Lemma Forall2_pointwise {A B} (P : A -> B -> Prop) l l' : length l = length l' ->
  (forall k a b, nth_error l k = Some a -> nth_error l' k = Some b -> P a b) -> Forall2 P l l'.
Proof.
  revert l'. induction l as [|a l IH]; intros [|b l'] Hl H; try discriminate; constructor; [exact (H 0%nat a b eq_refl eq_refl)|].
  apply IH; [cbn in Hl; lia|]. intros k x y Hx Hy. exact (H (S k) x y Hx Hy).
Qed.

Section Copy.
Context (K : ldpc) (Hsh : ldpc_shape K) (Hdec : ldpc_decodes K) (E : ed25519) (HE : signature_format E) (Hk : key_pair E PRIVATE_KEY PUBLIC_KEY).
Context (M : libm b64) (HM : accurate M) (gamma : b64 -> b64) (checks : bool) (pad : list bool) (Hpad : length pad = 8%nat).
Let features_of := zernike_f64 M gamma checks.
Let one : b64 := f_of_Z Bops 1.

Lemma unit_step : fin one /\ toR one = 1%R.
Proof. destruct (b_of_Z_ok 1) as (F1 & V1); [lia|]. split; [exact F1|exact V1]. Qed.

(** The verdict about a channel with features [noised] that holds the bits of the features [fs] and a signature on their integer parts. *)
Definition verdict_is (verdict : outcome bool) (sig : list Z) (features noised : list b64) : Prop :=
  Forall (fun x' : b64 => away (toR x') 1) noised ->
    (features_agree features noised -> verdict = Ok true)
    /\ (~ features_agree features noised -> exists restored, length restored = 11%nat /\ another_message restored (integer_parts features)
          /\ verdict = verify E (vec_i64_to_bytes restored) sig PUBLIC_KEY).

Lemma signed_parts fs q bits : Forall (fun x : b64 => fin x /\ (0 <= toR x <= 1000)%R) fs ->
  three_bit_quantization Bops checks fs one = Ok (q, bits) -> q = integer_parts fs.
Proof.
  intros Bf Eq. destruct unit_step as (F1 & V1).
  assert (W29 : Forall (fun x : b64 => fin x /\ (Rabs (toR x) <= bpow radix2 29)%R) fs).
  { revert Bf. apply Forall_impl. intros x (Fx & H0 & H1). split; [exact Fx|]. rewrite Rabs_pos_eq by exact H0. simpl. lra. }
  assert (N1 : no_overflow Bops one checks fs).
  { apply (no_overflow_float one (unit_ordinary one V1)). eapply Forall_impl; [|exact W29]. intros x (Fx & Bx). split; [exact Fx|]. rewrite V1. apply Rle_trans with (1 := Bx). simpl. lra. }
  pose proof (quantization_ok Bops one checks fs N1) as Eq'. assert (q = quantize Bops fs one) by congruence. subst q. unfold quantize, integer_parts.
  apply map_ext_in. intros x Hin. rewrite Forall_forall in W29. destruct (W29 x Hin) as (Fx & Bx). apply (unit_halves one x F1 V1 Fx).
  apply Rle_trans with (1 := Bx). apply bpow_le. lia.
Qed.

Lemma verdict_holds verdict sig fs ns q bits restored :
  Forall (fun x : b64 => fin x /\ (0 <= toR x <= 1000)%R) fs -> Forall (fun x : b64 => fin x /\ (0 <= toR x <= 1000)%R) ns -> length fs = 11%nat -> length ns = 11%nat ->
  three_bit_quantization Bops checks fs one = Ok (q, bits) -> three_bit_dequantization Bops checks ns bits one = Ok restored ->
  verify E (vec_i64_to_bytes q) sig PUBLIC_KEY = Ok true ->
  verdict = verify E (vec_i64_to_bytes restored) sig PUBLIC_KEY -> verdict_is verdict sig fs ns.
Proof.
  intros Bf Bn Lf Ln Eq1 Dq1 Ev Au Haway. destruct unit_step as (F1 & V1).
  pose proof (signed_parts fs q bits Bf Eq1) as Q.
  assert (W29 : forall xs : list b64, Forall (fun x : b64 => fin x /\ (0 <= toR x <= 1000)%R) xs -> Forall (fun x : b64 => fin x /\ (Rabs (toR x) <= bpow radix2 29)%R) xs).
  { intros xs. apply Forall_impl. intros x (Fx & H0 & H1). split; [exact Fx|]. rewrite Rabs_pos_eq by exact H0. simpl. lra. }
  destruct (C03_f64_unit_step_correction_capability one fs ns checks F1 V1 ltac:(congruence) (W29 _ Bf)) as (bits' & restored' & E1 & E2 & _ & Hcap').
  { pose proof (W29 _ Bn) as B29. rewrite Forall_forall in B29, Haway |- *. intros x Hin. destruct (B29 x Hin). split; [assumption|]. split; [assumption|now apply Haway]. }
  assert (bits' = bits) by congruence. subst bits'.
  assert (restored' = restored) by congruence. subst restored'.
  assert (Lr : length restored = 11%nat).
  { destruct (dequantization_near Bops checks ns _ one restored Dq1) as (L1 & L2 & _). destruct (quantization_inv Bops checks fs one q bits Eq1) as (_ & _ & Lb). lia. }
  assert (Ag : restored = integer_parts fs <-> features_agree fs ns).
  { apply restored_agree; [congruence|congruence|]. intros i x x' r A B C. exact (proj1 (Hcap' i x x' r A B C)). }
  assert (I64 : i64_vector restored).
  { apply Forall_forall. intros r Hr'. apply In_nth_error in Hr' as (i & Hi). assert (Hlt : (i < length restored)%nat) by (apply nth_error_Some; congruence).
    destruct (nth_error fs i) as [x|] eqn:Ex; [|apply nth_error_None in Ex; lia]. destruct (nth_error ns i) as [x'|] eqn:Ex'; [|apply nth_error_None in Ex'; lia].
    pose proof (proj2 (Hcap' i x x' r Ex Ex' Hi)) as H1. rewrite Forall_forall in Bn. destruct (Bn x' (nth_error_In _ _ Ex')) as (_ & B0 & B1).
    pose proof (Zfloor_lb (toR x')). pose proof (Zfloor_ub (toR x')).
    assert (C1 : (IZR (Zfloor (toR x')) < IZR 2000)%R) by (simpl; lra). assert (C2 : (IZR (-1) < IZR (Zfloor (toR x')) + 1)%R) by (simpl; lra).
    apply lt_IZR in C1. rewrite <- plus_IZR in C2. apply lt_IZR in C2. lia. }
  split.
  - intros H. apply Ag in H. rewrite Au, H, <- Q. exact Ev.
  - intros H. exists restored. split; [exact Lr|]. split; [|exact Au]. apply another; [exact I64|now apply integer_parts_i64|]. intros C. apply H. now apply Ag.
Qed.

(** *** C92: watermark a picture with either front end. From any of its colour channels the watermark can be read and hidden, with embed alone, in
    any other channel [target] of any usable size with the usual distance from black and white, changing it no more than watermarking would. The
    copy holds that watermark; authenticate_channel returns a verdict about it, which is true if no feature of the copy is more than two half bins
    off the donor's, and otherwise the check of the donor's signature on a message it was not made for. *)
Theorem C92_f64_watermarks_can_be_copied : forall fe image n, In fe [command_line; web_page] ->
  well_formed image -> dimensions image = (n, n) -> (n mod 8 = 0)%nat -> side_ok n -> usable n 3 ->
  (stored_size n 3 (payload_size 11) <= band_capacity n 3)%nat -> colours_within (margin_of fe) image ->
  let depth := f_of_Z Bops (depth_of fe) in
  exists result, watermark_image Bops K E equalize_histogram features_of checks pad image depth one 11 = Ok result
    /\ forall sel, In sel [ch1; ch2; ch3] -> exists donor read_bytes watermark copied features sig,
         measures equalize_histogram features_of (component sel image) 11 features
         /\ sign E (vec_i64_to_bytes (integer_parts features)) PRIVATE_KEY PUBLIC_KEY = Ok sig
         /\ from_shape_vec n n (gray_raw (component sel result)) = Ok donor
         /\ extract Bops K donor depth 3 = Ok read_bytes /\ watermark_deserialize read_bytes = Ok watermark /\ watermark_serialize pad watermark = Ok copied
         /\ forall target m target_array, gray_picture target m 3 -> side_ok m -> usable m 3 -> (stored_size m 3 (payload_size 11) <= band_capacity m 3)%nat ->
            Forall (fun v => margin_of fe <= v <= 255 - margin_of fe) (gray_raw target) -> from_shape_vec m m (gray_raw target) = Ok target_array ->
            exists forged_array, embed Bops K target_array copied depth 3 = Ok forged_array /\
              let forged := mkGray m m (into_raw_vec forged_array) in
              gray_picture forged m 3 /\ changed_by_at_most target forged (moves_at_most fe)
              /\ extract Bops K forged_array depth 3 = Ok copied
              /\ exists noised verdict, measures equalize_histogram features_of forged 11 noised
                 /\ authenticate_channel Bops K E equalize_histogram features_of checks forged depth one 11 3 = Ok verdict
                 /\ verdict_is (Ok verdict) sig features noised.
Proof.
  intros fe image n Hfe Hw Ed Hm8 Hs Hu Hcap Hcol depth.
  destruct (C83_f64_the_scheme_as_shipped K Hsh Hdec E HE Hk M HM gamma checks pad Hpad fe image n Hfe Hw Ed Hm8 Hs Hu Hcap Hcol) as (result & Eres & Wres & Dres & _ & Hch).
  exists result. split; [exact Eres|]. intros sel Hsel. destruct (Hch sel Hsel) as (fs & q & bits & sig & Hm & Lf & Eq & Es & Rd).
  assert (Hr : Z.of_nat (n * n) < 2 ^ 53) by (unfold side_ok in Hs; rewrite Nat2Z.inj_mul; nia).
  assert (Sel : sel = ch1 \/ sel = ch2 \/ sel = ch3) by (cbn in Hsel; intuition auto).
  assert (Gc : gray_picture (component sel image) n 3) by (apply component_picture; auto).
  assert (Gr : gray_picture (component sel result) n 3) by (apply component_picture; auto).
  pose proof (measured_small M HM gamma checks pad Hpad _ n fs Gc Hs Hu Hm) as Bf.
  assert (Eq1 : three_bit_quantization Bops checks fs one = Ok (q, bits)) by exact Eq. clear Eq.
  pose proof (signed_parts fs q bits Bf Eq1) as Q.
  destruct (quantization_inv Bops checks fs one q bits Eq1) as (_ & _ & Lb).
  destruct (front_end_depth pad Hpad fe Hfe) as (Fd & Hd2 & Hd & Ht & Hmar). fold depth in Fd, Hd2, Hd, Hmar.
  assert (S0 : changed_by_at_most (component sel result) (component sel result) (survives fe)).
  { split; [reflexivity|]. split; [reflexivity|]. clear - Ht. generalize (gray_raw (component sel result)). induction l as [|x l IH]; constructor; [lia|exact IH]. }
  destruct (Rd _ Gr S0) as (px & rb & _ & _ & _ & Epx & Exx & Ewm & _).
  destruct (sign_verify E _ _ (vec_i64_to_bytes q) HE Hk) as (sig' & Es' & Ls & Bs & Ev). assert (sig' = sig) by congruence. subst sig'.
  destruct (payload_of pad bits sig 11 Hpad Bs Ls ltac:(lia) ltac:(lia)) as (pl & Ep & Bp & Lp & Edp).
  exists px, rb, (mkWatermark bits sig WATERMARK_TEXT), pl, fs, sig. split; [exact Hm|]. split; [rewrite <- Q; exact Es|]. split; [exact Epx|]. split; [exact Exx|]. split; [exact Ewm|]. split; [exact Ep|].
  intros target m ta Gt Hst Hut Hcapt Hrange Eta. pose proof (usable_side m 3 Hut) as Hm2.
  destruct (gray_array target m 3 Gt) as (im & Eim & Him & Hcell). pose proof Gt as (W & H & Lt & _).
  assert (im = ta) by congruence. subst im.
  assert (Hroom : gray_room target m 3 (8 * stored_size m 3 (payload_size 11)) (3 * toR depth / 2 ^ (3 + 2))).
  { intros i j v _ _ Ev' _. unfold gray_pixel in Ev'. apply nth_error_In in Ev'. rewrite Forall_forall in Hrange. specialize (Hrange v Ev').
    assert (IZR (margin_of fe) <= IZR v)%R by (apply IZR_le; lia). assert (IZR v <= IZR (255 - margin_of fe))%R by (apply IZR_le; lia). rewrite minus_IZR in *. lra. }
  assert (Hr' : room ta m 3 (8 * stored_size m 3 (length pl)) (3 * toR depth / 2 ^ (3 + 2))) by (rewrite Lp; now apply (gray_room_array target)).
  pose proof (payload_size_range 11 ltac:(lia)) as Hsz.
  assert (Hl : (1 <= Z.of_nat (length pl) <= 65533)) by (rewrite Lp; lia). assert (Hcap' : (stored_size m 3 (length pl) <= band_capacity m 3)%nat) by (rewrite Lp; exact Hcapt).
  destruct (C31_f64_embed_then_extract_returns_the_payload K Hsh Hdec ta m 3 depth pl Him ltac:(lia) Hut Bp Hl Hcap' Fd Hd2 Hr') as (out & Eo & Pout & Ex).
  destruct (array_gray out m 3 Pout) as (Gout & Fout). exists out. split; [exact Eo|]. cbn zeta. split; [exact Gout|]. split.
  { split; [symmetry; exact W|]. split; [symmetry; exact H|]. cbn [gray_raw]. pose proof Gout as (_ & _ & Lo & _). cbn [gray_raw] in Lo. apply Forall2_pointwise; [congruence|].
    intros k v w Hv Hw'.
    assert (Hkm : (k < m * m)%nat) by (rewrite <- Lt; apply nth_error_Some; congruence).
    assert (Hdm : (k = k / m * m + k mod m)%nat) by (rewrite (Nat.mul_comm _ m); apply Nat.div_mod; lia).
    assert (I1 : (k / m < m)%nat) by (apply Nat.div_lt_upper_bound; lia). assert (I2 : (k mod m < m)%nat) by (apply Nat.mod_upper_bound; lia).
    destruct (gray_array _ m 3 Gout) as (om & Eom & _ & Hcello). cbn [gwidth gheight gray_raw] in Eom. assert (om = out) by congruence. subst om.
    pose proof (Hcell _ _ I1 I2) as A1. pose proof (Hcello _ _ I1 I2) as A2. unfold gray_pixel in A1, A2. cbn [gray_raw] in A2.
    assert (Hix : (m * (k / m) + k mod m = k)%nat) by lia.
    rewrite Hix in A1, A2. rewrite Hv in A1. rewrite Hw' in A2.
    destruct (C32_f64_pixel_change_of_the_front_ends K ta m pl out Him) as (C1 & C2).
    destruct Hfe as [ <- |[ <- |[]]]; [exact (C1 Eo _ _ _ _ A1 A2)|exact (C2 Eo _ _ _ _ A1 A2)]. }
  split; [exact Ex|].
  destruct (zernike_measures_f64 M HM gamma checks equalize_histogram (mkGray m m (into_raw_vec out)) m 3 11 C76_equalisation_keeps_grey Gout Hm2 Hst ltac:(lia)) as (B & ns & es' & Hm' & _ & _ & _ & _ & _ & _ & Ln & _ & Bn).
  assert (Ord : forall xs : list b64, Forall (fun x : b64 => fin x /\ (0 <= toR x <= 1000)%R) xs -> Forall (ordinary_feature one) xs).
  { destruct unit_step as (F1 & V1). intros xs. apply Forall_impl. intros x (Fx & H0 & H1). split; [exact Fx|]. rewrite V1, Rabs_pos_eq by exact H0. simpl. lra. }
  assert (Hst1 : (bpow radix2 (-500) <= toR one <= bpow radix2 500)%R).
  { destruct unit_step as (F1 & V1). rewrite V1. split; [apply Rle_trans with (bpow radix2 0); [apply bpow_le; lia|simpl; lra]|apply Rle_trans with (bpow radix2 0); [simpl; lra|apply bpow_le; lia]]. }
  assert (F1 : fin one) by exact (proj1 unit_step).
  assert (N1 : no_overflow Bops one checks fs) by (apply quantization_defined; auto).
  assert (N2 : no_overflow Bops one checks ns) by (apply quantization_defined; auto).
  destruct (dequantize_lists Bops one checks fs ns ltac:(congruence) N1 N2) as (D1 & D2).
  assert (Eb : flat_map (bits3 Bops one) fs = bits).
  { pose proof (quantization_ok Bops one checks fs N1) as Eq'. congruence. }
  rewrite Eb in D2. match type of D2 with _ = Ok ?r => set (restored := r) in * end.
  pose proof (authenticate_run Bops K E equalize_histogram features_of checks (mkGray m m (into_raw_vec out)) out 11 ns one (mkWatermark bits sig WATERMARK_TEXT) pl depth 3 Fout Hm' Ex Edp) as AR.
  cbn [perturbation_vector Codecs.signature] in AR. rewrite D2 in AR. cbn [bind] in AR.
  assert (HV : exists v, verify E (vec_i64_to_bytes restored) sig PUBLIC_KEY = Ok v).
  { pose proof HE as [P1 _ _]. destruct Hk as (sb & pb & kp & vk & H1 & H2 & H3 & H4 & H5). unfold sign, verify, decode_hex_unwrap in *.
    rewrite H1, H2 in Es. cbn [bind] in Es. rewrite H3 in Es. cbn [unwrap_err bind] in Es. rewrite H2. cbn [bind]. rewrite H4. cbn [unwrap_err bind].
    assert (Esig : sig = signature_to_bytes E (ed_sign E kp (vec_i64_to_bytes q))) by congruence. rewrite Esig, P1. cbn [unwrap_err bind]. eexists. reflexivity. }
  destruct HV as (v & HV). exists ns, v. split; [exact Hm'|]. split; [etransitivity; [exact AR|exact HV]|].
  apply (verdict_holds (Ok v) sig fs ns q bits restored); auto; congruence.
Qed.
End Copy.

(** ** Concrete case: from the even colour picture to an even grey channel of another level, with both front ends. *)
Example C92_instance : forall fe, In fe [command_line; web_page] -> exists result donor read_bytes watermark copied target_array forged_array verdict,
  watermark_image Bops toy_ldpc toy_ed equalize_histogram (zernike_f64 exact_libm (fun x => x) true) true (repeat false 8) colour512 (f_of_Z Bops (depth_of fe)) (f_of_Z Bops 1) 11 = Ok result
  /\ from_shape_vec 512 512 (gray_raw (component ch2 result)) = Ok donor /\ extract Bops toy_ldpc donor (f_of_Z Bops (depth_of fe)) 3 = Ok read_bytes
  /\ watermark_deserialize read_bytes = Ok watermark /\ watermark_serialize (repeat false 8) watermark = Ok copied
  /\ from_shape_vec 512 512 (gray_raw grey512) = Ok target_array
  /\ embed Bops toy_ldpc target_array copied (f_of_Z Bops (depth_of fe)) 3 = Ok forged_array
  /\ authenticate_channel Bops toy_ldpc toy_ed equalize_histogram (zernike_f64 exact_libm (fun x => x) true) true (mkGray 512 512 (into_raw_vec forged_array)) (f_of_Z Bops (depth_of fe)) (f_of_Z Bops 1) 11 3 = Ok verdict.
Proof.
  intros fe Hfe. destruct C83_512_is_usable as (A & B & C & D).
  assert (Hcol : colours_within (margin_of fe) colour512).
  { unfold colours_within, colour512. cbn [get_pixels]. apply Forall_forall. intros p Hp. apply repeat_spec in Hp. subst p.
    intros sel Hsel. cbn in Hsel. destruct Hfe as [ <- |[ <- |[]]]; destruct Hsel as [ <- |[ <- |[ <- |[]]]]; cbn [margin_of command_line web_page ch1 ch2 ch3]; lia. }
  destruct (C92_f64_watermarks_can_be_copied toy_ldpc toy_shape toy_decodes toy_ed toy_format toy_keys exact_libm exact_libm_accurate (fun x => x) true (repeat false 8) eq_refl fe colour512 512 Hfe colour512_wf eq_refl A B C D Hcol)
    as (result & H1 & H2).
  destruct (H2 ch2 ltac:(cbn; tauto)) as (donor & rb & wm & cp & fs & sig & _ & _ & E1 & E2 & E3 & E4 & X).
  destruct (gray_array grey512 512 3 grey512_picture) as (ta & Eta & _).
  destruct (X grey512 512%nat ta grey512_picture B C D) as (fo & E5 & _ & _ & _ & ns & v & _ & Au & _).
  - unfold grey512. cbn [gray_raw]. apply Forall_forall. intros v Hv. apply repeat_spec in Hv. subst v. destruct Hfe as [ <- |[ <- |[]]]; cbn; lia.
  - exact Eta.
  - exists result, donor, rb, wm, cp, ta, fo, v. repeat (split; [assumption|]). exact Au.
Qed.

Print Assumptions C92_f64_watermarks_can_be_copied.
