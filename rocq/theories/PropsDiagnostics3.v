(** Property C93, continued: what a whole picture prints and what the check of a channel prints. *)
From Coq Require Import String Ascii.
From Verif Require Import Outcome Floats Bits Quantization Codecs Encoding Matrix Haar Stego IndexArith IndexArithProofs StegoProofs Embedding Signature Process Zernike ZernikeProofs ProcessProofs Image PropsImage Timer
  Console Diagnostics PropsDiagnostics.
Open Scope Z_scope.
Open Scope list_scope.
Open Scope logged_scope.

Section Pictures.
Context {F : Type} (O : FOps F) (K : ldpc) (E : ed25519) (D : debug_text F).
Context (equalize : list Z -> list Z) (features_of : array2 Z -> nat -> outcome (list F)) (checks : bool) (pad : list bool).

(** *** C93: a picture that is watermarked prints what its channels print, red first, then green, then blue - or only the one of a grey picture - and
    nothing else *)
Theorem C93_what_a_watermarked_picture_prints : forall image depth step amount marked,
  watermark_image O K E equalize features_of checks pad image depth step amount = Ok marked ->
  fst (watermark_logged O K E D equalize features_of checks pad image depth step amount)
  = concat (map (fun sel => fst (watermark_channel_logged O K E D equalize features_of checks pad (component sel image) depth step amount 3))
      (if has_color image then [ch1; ch2; ch3] else [ch1])).
Proof.
  intros image depth step amount marked H. unfold watermark_image, watermark, watermark_logged, component in *.
  destruct (dimensions image) as (w, h). cbn zeta in *. cbn [fst snd].
  assert (W : forall ch g, watermark_channel O K E equalize features_of checks pad ch depth step amount DWT_LEVELS = Ok g ->
    snd (watermark_channel_logged O K E D equalize features_of checks pad ch depth step amount DWT_LEVELS) = Ok g).
  { intros ch g Hg. destruct (C93_printing_changes_nothing O K E D equalize features_of checks pad ch depth step amount DWT_LEVELS image) as (Hs & _). now rewrite Hs. }
  apply bind_ok in H as (r & Hr & H). rewrite (fst_lbind_ok _ _ r (W _ _ Hr)).
  destruct (has_color image).
  - apply bind_ok in H as (g & Hg & H). apply bind_ok in H as (b & Hb & H). rewrite (fst_lbind_ok _ _ g (W _ _ Hg)), (fst_lbind_ok _ _ b (W _ _ Hb)). cbn [quiet fst map concat]. reflexivity.
  - cbn [quiet lbind fst snd app map concat]. reflexivity.
Qed.

Definition decoder_messages (stream : list Z) (capacity : nat) (decoded : list Z) : list message :=
  named "bits length: " (debug_nat (8 * length stream))
  :: match get_code_by_codeword_length capacity with
     | None => []
     | Some c => [named "use LDPC code: (" (debug_nat (8 * k_bytes c) ++ bytes_of_string ", " ++ debug_nat (8 * n_bytes c) ++ bytes_of_string ")");
                  named "codewords to be decoded: " (debug_nat (length (chunks (n_bytes c) stream)));
                  named "expected data bytes length: " (debug_nat (length decoded))]
     end.
Lemma slice_length {A} (l r : list A) a b : slice l a b = Ok r -> length r = (b - a)%nat.
Proof.
  unfold slice. destruct (Nat.leb_spec a b) as [H1|H1]; [|discriminate]. destruct (Nat.leb_spec b (length l)) as [H2|H2]; [|discriminate]. cbn [andb]. intros H.
  assert (X : r = firstn (b - a) (skipn a l)) by congruence. rewrite X, firstn_length, skipn_length. lia.
Qed.
Lemma decode_prints stream n decoded : decode K stream n = Ok decoded -> fst (decode_logged K stream n) = decoder_messages stream n decoded.
Proof.
  unfold decode_logged, decode, decoder_messages. intros H. rewrite fst_print, named_app, bits_of_bytes_len. f_equal. destruct (get_code_by_codeword_length n) as [c|]; [|reflexivity].
  apply bind_ok in H as (d & Hd & H). rewrite !fst_print. rewrite (fst_quiet_ok _ _ _ Hd). cbn zeta in *. destruct (concat d) as [|x [|y t]]; try discriminate H.
  rewrite fst_print. cbn [quiet fst]. rewrite !named_app. unfold ldpc_line. rewrite named_app. rewrite (slice_length _ _ _ _ H). replace (Z.to_nat (bytes_to_u16 x y) + 2 - 2)%nat with (Z.to_nat (bytes_to_u16 x y)) by lia.
  reflexivity.
Qed.
Lemma deserialize_prints bytes payload : data_deserialize bytes = Ok payload ->
  exists declared, Z.to_nat declared = length payload /\ fst (data_deserialize_logged bytes)
  = [named "serialized data bytes: " (debug_ints bytes); named "data length: " (debug_int declared);
     named "data bytes: (" (debug_nat 2 ++ bytes_of_string " - " ++ debug_nat (2 + length payload) ++ bytes_of_string ")"); named "deserialized data: " (debug_data payload)].
Proof.
  unfold data_deserialize_logged, data_deserialize. intros H. destruct (Nat.ltb (length bytes) 3); [discriminate H|]. apply bind_ok in H as (dl & H1 & H). apply bind_ok in H as (ints & H2 & H). apply bind_ok in H as (n & H3 & H).
  cbn zeta in *. exists n. pose proof (slice_length _ _ _ _ H) as L. replace (2 + Z.to_nat n - 2)%nat with (Z.to_nat n) in L by lia. split; [congruence|].
  rewrite fst_print, (fst_quiet_ok _ _ _ H1), (fst_quiet_ok _ _ _ H2), (fst_quiet_ok _ _ _ H3), !fst_print, (fst_quiet_ok _ _ _ H), fst_print, !named_app. cbn [quiet fst]. now rewrite L.
Qed.

(** *** C93: the messages of a channel that is checked, whatever the verdict, all of them and in order *)
Theorem C93_what_a_checked_channel_prints : forall channel depth step amount levels verdict, Z.of_nat (gwidth channel * gheight channel) < 2 ^ 53 -> (1 <= amount)%nat ->
  authenticate_channel O K E equalize features_of checks channel depth step amount levels = Ok verdict ->
  exists pixels features stream decoded declared payload w numbers,
    from_shape_vec (gwidth channel) (gheight channel) (gray_raw channel) = Ok pixels /\ measures equalize features_of channel amount features
    /\ (exists coefficients, dwt_2d O (mapv (f_of_Z O) pixels) levels false = Ok coefficients
          /\ read O coefficients (gwidth channel / 2 ^ levels) (gheight channel / 2 ^ levels) depth = Ok stream)
    /\ extract O K pixels depth levels = Ok payload /\ Z.to_nat declared = length payload
    /\ watermark_deserialize payload = Ok w
    /\ three_bit_dequantization O checks features (perturbation_vector w) step = Ok numbers
    /\ verify E (vec_i64_to_bytes numbers) (signature w) PUBLIC_KEY = Ok verdict
    /\ let capacity := (gwidth channel / 2 ^ levels * (gheight channel / 2 ^ levels) / 8)%nat in
       decode K stream capacity = Ok decoded /\ data_deserialize decoded = Ok payload
       /\ fst (authenticate_channel_logged O K E D equalize features_of checks channel depth step amount levels)
       = [named "Zernike moments indices: " (debug_ints (map (fun k => 1 + 2 * Z.of_nat k) (seq 0 amount)));
          named "Zernike moments: " (debug_f64s D features); named "features: " (debug_f64s D features);
          named "domain capacity: " (debug_nat capacity ++ bytes_of_string " bytes")]
         ++ decoder_messages stream capacity decoded
         ++ [named "serialized data bytes: " (debug_ints decoded); named "data length: " (debug_int declared);
             named "data bytes: (" (debug_nat 2 ++ bytes_of_string " - " ++ debug_nat (2 + length payload) ++ bytes_of_string ")"); named "deserialized data: " (debug_data payload);
             named "extracted watermark data: " (debug_ints payload); named "deserialized watermark data: " (debug_watermark D w);
             named "restored quantized features: " (debug_ints numbers); named "restored quantized features bytes: " (debug_ints (vec_i64_to_bytes numbers))].
Proof.
  intros ch depth step amount levels verdict Hsz Ham H. unfold authenticate_channel in H.
  apply bind_ok in H as ((px, fs) & Hf & H). destruct (channel_features_inv equalize features_of ch amount px fs Hf) as (Epx & Hm). pose proof Hm as (eqd & Ee & Efs).
  apply bind_ok in H as (pl & Hx & H). apply bind_ok in H as (wm & Hw & H). apply bind_ok in H as (ns & Hns & Hv). cbn zeta in Hv.
  pose proof Hx as Hx'. unfold extract in Hx'. apply bind_ok in Hx' as (cf & Hcf & Hx'). apply bind_ok in Hx' as (lw & Hlw & Hx'). apply bind_ok in Hx' as (lh & Hlh & Hx').
  apply bind_ok in Hx' as (st & Hst & Hx'). apply bind_ok in Hx' as (cap & Hcap & Hx'). apply bind_ok in Hx' as (dc & Hdc & Hds).
  destruct (deserialize_prints dc pl Hds) as (decl & Hdecl & Pd). exists px, fs, st, dc, decl, pl, wm, ns.
  assert (Dpx : dim0 px = gwidth ch /\ dim1 px = gheight ch).
  { unfold from_shape_vec in Epx. destruct (Nat.eqb _ _); [|discriminate Epx]. assert (X : px = mkArray2 (gwidth ch) (gheight ch) (split_rows (gwidth ch) (gheight ch) (gray_raw ch))) by congruence. rewrite X. split; reflexivity. }
  destruct Dpx as (D0 & D1). pose proof Hlw as Hlw'. pose proof Hlh as Hlh'. unfold ll_side in Hlw', Hlh'. destruct (Nat.leb 31 levels) eqn:E31; [discriminate Hlw'|].
  assert (Elw : lw = (gwidth ch / 2 ^ levels)%nat) by congruence. assert (Elh : lh = (gheight ch / 2 ^ levels)%nat) by congruence.
  assert (Egc : get_capacity lw lh = cap) by (unfold get_domain_capacity in Hcap; destruct (get_code_for_encode _); congruence).
  assert (Ecap : cap = (gwidth ch / 2 ^ levels * (gheight ch / 2 ^ levels) / 8)%nat).
  { rewrite <- Egc, Elw, Elh. apply capacity_eq.
    unfold representable. pose proof (Nat.div_le_upper_bound (gwidth ch) (2 ^ levels) (gwidth ch) ltac:(apply Nat.pow_nonzero; lia) ltac:(pose proof (Nat.pow_nonzero 2 levels ltac:(lia)); nia)).
    pose proof (Nat.div_le_upper_bound (gheight ch) (2 ^ levels) (gheight ch) ltac:(apply Nat.pow_nonzero; lia) ltac:(pose proof (Nat.pow_nonzero 2 levels ltac:(lia)); nia)).
    assert (gwidth ch / 2 ^ levels * (gheight ch / 2 ^ levels) <= gwidth ch * gheight ch)%nat by now apply Nat.mul_le_mono. lia. }
  split; [exact Epx|]. split; [exact Hm|]. split; [exists cf; split; [exact Hcf|]; rewrite <- Elw, <- Elh; exact Hst|]. split; [exact Hx|]. split; [exact Hdecl|]. split; [exact Hw|]. split; [exact Hns|]. split; [exact Hv|].
  cbn zeta. rewrite <- Ecap. split; [exact Hdc|]. split; [exact Hds|].
  unfold authenticate_channel_logged. rewrite (fst_lbind_ok _ _ (px, fs)) by (rewrite channel_features_same; exact Hf).
  assert (P1 : fst (channel_features_logged D equalize features_of checks ch amount) = [named "Zernike moments indices: " (debug_ints (map (fun k => 1 + 2 * Z.of_nat k) (seq 0 amount))); named "Zernike moments: " (debug_f64s D fs); named "features: " (debug_f64s D fs)]).
  { unfold channel_features_logged. rewrite (fst_quiet_ok _ _ _ Epx), (fst_quiet_ok _ _ _ Ee). unfold indices_logged. destruct amount as [|n]; [lia|]. cbn [get_order_by_features_amount].
    rewrite fst_print, (fst_quiet_ok _ _ _ Efs), !fst_print, !named_app. rewrite indices_odd, map_map.
    replace (map (fun x : nat => Z.of_nat (1 + 2 * x)) (seq 0 (S n))) with (map (fun k : nat => 1 + 2 * Z.of_nat k) (seq 0 (S n))) by (apply map_ext; intros k; lia). reflexivity. }
  rewrite P1. rewrite (fst_lbind_ok _ _ pl) by (rewrite extract_same; exact Hx).
  assert (P2 : fst (extract_logged O K px depth levels) = named "domain capacity: " (debug_nat cap ++ bytes_of_string " bytes") :: decoder_messages st cap dc
     ++ [named "serialized data bytes: " (debug_ints dc); named "data length: " (debug_int decl);
     named "data bytes: (" (debug_nat 2 ++ bytes_of_string " - " ++ debug_nat (2 + length pl) ++ bytes_of_string ")"); named "deserialized data: " (debug_data pl)]).
  { unfold extract_logged. rewrite (fst_quiet_ok _ _ _ Hcf), (fst_quiet_ok _ _ _ Hlw), (fst_quiet_ok _ _ _ Hlh), (fst_quiet_ok _ _ _ Hst).
    rewrite (fst_lbind_ok _ _ cap) by (rewrite capacity_same; exact Hcap). unfold get_domain_capacity_logged at 1. rewrite fst_print, Egc, named_app.
    rewrite (fst_lbind_ok _ _ dc) by (rewrite decode_same; exact Hdc). rewrite (decode_prints _ _ _ Hdc), Pd. reflexivity. }
  rewrite P2. rewrite fst_print, (fst_quiet_ok _ _ _ Hw), fst_print, (fst_quiet_ok _ _ _ Hns), !fst_print, !named_app. cbn [quiet fst app]. rewrite <- !app_assoc. reflexivity.
Qed.
End Pictures.

(** How many lines: 15 (13 without a code) for a channel that is watermarked, 16 (13) for one that is checked. *)
Lemma watermarked_lines {F} (O : FOps F) K E D equalize features_of checks pad channel depth step amount levels marked : Z.of_nat (gwidth channel * gheight channel) < 2 ^ 53 -> (1 <= amount)%nat ->
  watermark_channel O K E equalize features_of checks pad channel depth step amount levels = Ok marked ->
  length (fst (watermark_channel_logged O K E D equalize features_of checks pad channel depth step amount levels))
  = match get_code_by_codeword_length (gwidth channel / 2 ^ levels * (gheight channel / 2 ^ levels) / 8) with Some _ => 15%nat | None => 13%nat end.
Proof.
  intros Hs Ha H. destruct (C93_what_a_watermarked_channel_prints O K E D equalize features_of checks pad channel depth step amount levels marked Hs Ha H)
    as (px & fs & q & bits & sig & pl & fr & a & b & _ & _ & _ & _ & _ & _ & _ & _ & Hm). cbn zeta in Hm. rewrite Hm. unfold encoder_messages. cbn [app length]. destruct (get_code_by_codeword_length _); reflexivity.
Qed.
Lemma checked_lines {F} (O : FOps F) K E D equalize features_of checks channel depth step amount levels verdict : Z.of_nat (gwidth channel * gheight channel) < 2 ^ 53 -> (1 <= amount)%nat ->
  authenticate_channel O K E equalize features_of checks channel depth step amount levels = Ok verdict ->
  length (fst (authenticate_channel_logged O K E D equalize features_of checks channel depth step amount levels))
  = match get_code_by_codeword_length (gwidth channel / 2 ^ levels * (gheight channel / 2 ^ levels) / 8) with Some _ => 16%nat | None => 13%nat end.
Proof.
  intros Hs Ha H. destruct (C93_what_a_checked_channel_prints O K E D equalize features_of checks channel depth step amount levels verdict Hs Ha H)
    as (px & fs & st & dc & decl & pl & w & ns & _ & _ & _ & _ & _ & _ & _ & _ & _ & _ & Hm). rewrite Hm. unfold decoder_messages. rewrite !app_length. cbn [app length]. destruct (get_code_by_codeword_length _); reflexivity.
Qed.
(** *** C93: how many lines a picture prints *)
Theorem C93_how_many_lines : forall {F} (O : FOps F) K E D equalize features_of checks pad image depth step amount marked,
  Z.of_nat (fst (dimensions image) * snd (dimensions image)) < 2 ^ 53 -> (1 <= amount)%nat ->
  watermark_image O K E equalize features_of checks pad image depth step amount = Ok marked ->
  length (fst (watermark_logged O K E D equalize features_of checks pad image depth step amount))
  = ((if has_color image then 3 else 1) * (if get_code_by_codeword_length (fst (dimensions image) / 8 * (snd (dimensions image) / 8) / 8) then 15 else 13))%nat.
Proof.
  intros F O K E D equalize features_of checks pad image depth step amount marked Hs Ha H.
  rewrite (C93_what_a_watermarked_picture_prints O K E D equalize features_of checks pad image depth step amount marked H).
  assert (C : forall sel g, watermark_channel O K E equalize features_of checks pad (component sel image) depth step amount 3 = Ok g ->
    length (fst (watermark_channel_logged O K E D equalize features_of checks pad (component sel image) depth step amount 3))
    = if get_code_by_codeword_length (fst (dimensions image) / 8 * (snd (dimensions image) / 8) / 8) then 15%nat else 13%nat).
  { intros sel g Hg. apply (watermarked_lines O K E D equalize features_of checks pad (component sel image) depth step amount 3 g Hs Ha Hg). }
  unfold watermark_image, watermark in H. destruct (dimensions image) as (w, h) eqn:Ed. unfold component in *. rewrite Ed in *. cbn [fst snd] in *. cbn zeta in H.
  apply bind_ok in H as (r & Hr & H). destruct (has_color image).
  - apply bind_ok in H as (g & Hg & H). apply bind_ok in H as (b & Hb & _). cbn [map concat]. rewrite !app_length, (C ch1 r Hr), (C ch2 g Hg), (C ch3 b Hb). destruct (get_code_by_codeword_length _); reflexivity.
  - cbn [map concat]. rewrite app_nil_r, (C ch1 r Hr). destruct (get_code_by_codeword_length _); reflexivity.
Qed.

(** Witness: the colour picture of C42_C59_C60_instance prints 45 lines; its green channel, marked, prints 16 when it is checked. *)
Lemma colour512_size : dimensions colour512 = (512%nat, 512%nat).
Proof. reflexivity. Qed.
Lemma code_512 : get_code_by_codeword_length (512 / 8 * (512 / 8) / 8) = get_code_by_codeword_length 512.
Proof. f_equal. Qed.
Example C93_picture_instance : forall D, exists marked,
  watermark_image Bops Toy.toy_ldpc PropsProcess2.toy_ed (fun l => l) PropsProcess2.toy_features_f64 true (repeat false 8) colour512 (f_of_Z Bops 100) (f_of_Z Bops 1) 11 = Ok marked
  /\ length (fst (watermark_logged Bops Toy.toy_ldpc PropsProcess2.toy_ed D (fun l => l) PropsProcess2.toy_features_f64 true (repeat false 8) colour512 (f_of_Z Bops 100) (f_of_Z Bops 1) 11)) = 45%nat
  /\ length (fst (authenticate_channel_logged Bops Toy.toy_ldpc PropsProcess2.toy_ed D (fun l => l) PropsProcess2.toy_features_f64 true (component ch2 marked) (f_of_Z Bops 100) (f_of_Z Bops 1) 11 3)) = 16%nat.
Proof.
  intros D. destruct C42_C59_C60_instance as (m & Em & _ & _ & Ha). exists m. split; [exact Em|].
  assert (Hn : Z.of_nat (512 * 512) < 2 ^ 53) by (rewrite Nat2Z.inj_mul; lia). split.
  - pose proof (C93_how_many_lines Bops Toy.toy_ldpc PropsProcess2.toy_ed D (fun l => l) PropsProcess2.toy_features_f64 true (repeat false 8) colour512 (f_of_Z Bops 100) (f_of_Z Bops 1) 11 m) as L.
    rewrite colour512_size in L. cbn [fst snd] in L. rewrite (L Hn ltac:(lia) Em). rewrite code_512. reflexivity.
  - assert (Hd : dimensions m = (512%nat, 512%nat)) by (destruct (C42_watermark_preserves_size_layout_and_alpha _ _ _ _ _ _ _ _ _ _ _ colour512_wf Em) as (Hd & _); rewrite Hd; exact colour512_size).
    pose proof (checked_lines Bops Toy.toy_ldpc PropsProcess2.toy_ed D (fun l => l) PropsProcess2.toy_features_f64 true (component ch2 m) (f_of_Z Bops 100) (f_of_Z Bops 1) 11 3 true) as L.
    unfold component in L at 1 2 5 6. cbn [gwidth gheight] in L. rewrite Hd in L. cbn [fst snd] in L.
    change (2 ^ 3)%nat with 8%nat in L. rewrite (L Hn ltac:(lia) Ha). rewrite code_512. reflexivity.
Qed.

Print Assumptions C93_what_a_watermarked_picture_prints.
Print Assumptions C93_what_a_checked_channel_prints.
Print Assumptions C93_how_many_lines.
