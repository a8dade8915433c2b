(** Properties C93 (what the library prints), C94 (standard output that breaks) and C80 for standard output as a whole
    (the `println!` calls in lib/sia/rust/*/src, lib/sia/rust/cli/src/main.rs). *)
From Coq Require Import String Ascii.
From Verif Require Import Outcome Floats Bits ListFacts Quantization Codecs Encoding Matrix Haar Stego IndexArith IndexArithProofs StegoProofs Embedding Signature Process Zernike ZernikeProofs ProcessProofs Image Cli PropsCli Getopts PropsCli2 Timer PropsTimer
  Console PropsConsole Diagnostics.
Open Scope Z_scope.
Open Scope list_scope.
Open Scope logged_scope.

(** ** Printing changes nothing *)
Lemma snd_lbind {A B} (x : logged A) (k : A -> logged B) : snd (lbind x k) = bind (snd x) (fun a => snd (k a)).
Proof. unfold lbind, bind. destruct (snd x); reflexivity. Qed.
Lemma snd_print {B} t (k : unit -> logged B) : snd (lbind (say t) k) = snd (k tt).
Proof. reflexivity. Qed.
Lemma snd_quiet {A} (x : outcome A) : snd (quiet x) = x.
Proof. reflexivity. Qed.
Lemma bind_ext {A B} (x : outcome A) (f g : A -> outcome B) : (forall a, f a = g a) -> bind x f = bind x g.
Proof. intros H. destruct x; cbn [bind]; [apply H|reflexivity|reflexivity]. Qed.
Lemma bind_ret {A} (x : outcome A) : bind x (fun a => Ok a) = x.
Proof. destruct x; reflexivity. Qed.

Section Logged.
Context {F : Type} (O : FOps F) (K : ldpc) (E : ed25519) (D : debug_text F).
Context (equalize : list Z -> list Z) (features_of : array2 Z -> nat -> outcome (list F)) (checks : bool) (pad : list bool).

Lemma data_serialize_same payload : snd (data_serialize_logged payload) = data_serialize payload.
Proof. unfold data_serialize_logged. rewrite snd_print, snd_lbind, snd_quiet. apply bind_ret. Qed.
Lemma data_deserialize_same bytes : snd (data_deserialize_logged bytes) = data_deserialize bytes.
Proof.
  unfold data_deserialize_logged, data_deserialize. rewrite snd_print. destruct (Nat.ltb (length bytes) 3); [reflexivity|].
  rewrite snd_lbind, snd_quiet. apply bind_ext. intros dl. rewrite snd_lbind, snd_quiet. apply bind_ext. intros ints. rewrite snd_lbind, snd_quiet. apply bind_ext. intros n.
  rewrite !snd_print, snd_lbind, snd_quiet. apply bind_ret.
Qed.
Lemma encode_same input n : snd (encode_logged K input n) = encode K input n.
Proof.
  unfold encode_logged, encode. destruct (u16_to_bytes _) as (a, b). rewrite !snd_print. destruct (get_code_by_codeword_length n); [|reflexivity].
  rewrite !snd_print, snd_lbind, snd_quiet. apply bind_ext. reflexivity.
Qed.
Lemma decode_same bytes n : snd (decode_logged K bytes n) = decode K bytes n.
Proof.
  unfold decode_logged, decode. rewrite snd_print. destruct (get_code_by_codeword_length n); [|reflexivity].
  rewrite !snd_print, snd_lbind, snd_quiet. apply bind_ext. intros d. destruct (concat d) as [|x [|y t]]; try reflexivity.
Qed.
Lemma capacity_same w h : snd (get_domain_capacity_logged w h) = get_domain_capacity w h.
Proof. unfold get_domain_capacity_logged. rewrite snd_print. reflexivity. Qed.
Lemma embed_same m bytes depth levels : snd (embed_logged O K m bytes depth levels) = embed O K m bytes depth levels.
Proof.
  unfold embed_logged, embed. do 3 (rewrite snd_lbind, snd_quiet; apply bind_ext; intros ?). rewrite snd_lbind, capacity_same. apply bind_ext. intros c.
  rewrite snd_lbind, data_serialize_same. apply bind_ext. intros s. rewrite snd_lbind, encode_same. apply bind_ext. intros e.
  do 2 (rewrite snd_lbind, snd_quiet; apply bind_ext; intros ?). reflexivity.
Qed.
Lemma extract_same m depth levels : snd (extract_logged O K m depth levels) = extract O K m depth levels.
Proof.
  unfold extract_logged, extract. do 4 (rewrite snd_lbind, snd_quiet; apply bind_ext; intros ?). rewrite snd_lbind, capacity_same. apply bind_ext. intros c.
  rewrite snd_lbind, decode_same. apply bind_ext. intros d. apply data_deserialize_same.
Qed.
Lemma channel_features_same ch amount : snd (channel_features_logged D equalize features_of checks ch amount) = channel_features equalize features_of ch amount.
Proof. unfold channel_features_logged, channel_features. do 2 (rewrite snd_lbind, snd_quiet; apply bind_ext; intros ?). rewrite snd_lbind.
  replace (snd (indices_logged checks amount)) with (Ok tt : outcome unit) by (unfold indices_logged; destruct (get_order_by_features_amount checks amount); reflexivity). cbn [bind].
  rewrite snd_lbind, snd_quiet; apply bind_ext; intros ?. reflexivity.
Qed.

(** *** C93: whatever is printed, the library computes the same *)
Theorem C93_printing_changes_nothing : forall channel depth step amount levels image,
  snd (watermark_channel_logged O K E D equalize features_of checks pad channel depth step amount levels) = watermark_channel O K E equalize features_of checks pad channel depth step amount levels
  /\ snd (authenticate_channel_logged O K E D equalize features_of checks channel depth step amount levels) = authenticate_channel O K E equalize features_of checks channel depth step amount levels
  /\ snd (watermark_logged O K E D equalize features_of checks pad image depth step amount) = watermark_image O K E equalize features_of checks pad image depth step amount.
Proof.
  assert (W : forall ch depth step amount levels, snd (watermark_channel_logged O K E D equalize features_of checks pad ch depth step amount levels) = watermark_channel O K E equalize features_of checks pad ch depth step amount levels).
  { intros ch depth step amount levels. unfold watermark_channel_logged, watermark_channel. rewrite snd_lbind, channel_features_same. apply bind_ext. intros (px, fs).
    rewrite snd_lbind, snd_quiet. apply bind_ext. intros (q, bits). rewrite !snd_print, snd_lbind, snd_quiet. apply bind_ext. intros sig. rewrite !snd_print, snd_lbind, snd_quiet.
    apply bind_ext. intros data. rewrite snd_print, snd_lbind, embed_same. apply bind_ext. reflexivity. }
  intros ch depth step amount levels image. split; [apply W|]. split.
  - unfold authenticate_channel_logged, authenticate_channel. rewrite snd_lbind, channel_features_same. apply bind_ext. intros (px, fs). rewrite snd_lbind, extract_same. apply bind_ext. intros d.
    rewrite snd_print, snd_lbind, snd_quiet. apply bind_ext. intros w. rewrite snd_print, snd_lbind, snd_quiet. apply bind_ext. reflexivity.
  - unfold watermark_logged, watermark_image, watermark. destruct (dimensions image) as (w, h). rewrite snd_lbind, W. apply bind_ext. intros r.
    destruct (has_color image).
    + rewrite snd_lbind, W. apply bind_ext. intros g. rewrite snd_lbind, W. apply bind_ext. reflexivity.
    + reflexivity.
Qed.

(** ** What a successful run prints *)
Lemma fst_lbind_ok {A B} (x : logged A) (k : A -> logged B) a : snd x = Ok a -> fst (lbind x k) = fst x ++ fst (k a).
Proof. intros H. unfold lbind. rewrite H. reflexivity. Qed.
Lemma fst_quiet_ok {A B} (x : outcome A) (k : A -> logged B) a : x = Ok a -> fst (lbind (quiet x) k) = fst (k a).
Proof. intros ->. reflexivity. Qed.
Lemma fst_print {B} t (k : unit -> logged B) : fst (lbind (say t) k) = (t ++ newline) :: fst (k tt).
Proof. reflexivity. Qed.

(** The texts, in the words of the sources. *)
Definition named (label : string) (value : list Z) : message := bytes_of_string label ++ value ++ newline.
Definition encoder_messages (header_and_data : list Z) (capacity : nat) : list message :=
  [named "bytes to be encoded with length header: " (debug_ints header_and_data);
   named "binary length of the data to be encoded: " (debug_nat (8 * length header_and_data))]
  ++ match get_code_by_codeword_length capacity with
     | None => []
     | Some c => [named "use LDPC code: (" (debug_nat (8 * k_bytes c) ++ bytes_of_string ", " ++ debug_nat (8 * n_bytes c) ++ bytes_of_string ")");
                  named "words to be encoded: " (debug_nat (length (chunks (k_bytes c) header_and_data)))]
     end.

Lemma bits_of_bytes_len l : length (bits_of_bytes l) = (8 * length l)%nat.
Proof. induction l as [|a t IH]; [reflexivity|]. unfold bits_of_bytes in *. cbn [flat_map]. rewrite app_length, IH. cbn [byte_bits length]. lia. Qed.
Lemma named_app label value : (bytes_of_string label ++ value) ++ newline = named label value.
Proof. unfold named. now rewrite app_assoc. Qed.

Lemma encode_prints input n encoded : encode K input n = Ok encoded ->
  exists a b, u16_to_bytes (Z.of_nat (length input) mod 65536) = (a, b) /\ fst (encode_logged K input n) = encoder_messages (a :: b :: input) n.
Proof.
  unfold encode_logged, encode, encoder_messages. destruct (u16_to_bytes _) as (a, b). intros H. exists a, b. split; [reflexivity|]. rewrite !fst_print, !named_app. cbn [app] in *.
  rewrite bits_of_bytes_len. destruct (get_code_by_codeword_length n) as [c|]; [|reflexivity]. apply bind_ok in H as (e & He & _).
  rewrite !fst_print. rewrite (fst_quiet_ok _ _ _ He). rewrite !named_app. unfold ldpc_line. rewrite named_app. reflexivity.
Qed.

(** *** C93: the messages of a channel that is watermarked, all of them and in order.  The features, what is signed, the signature and the hidden
    bytes are among them in plain text. *)
Theorem C93_what_a_watermarked_channel_prints : forall channel depth step amount levels marked, Z.of_nat (gwidth channel * gheight channel) < 2 ^ 53 -> (1 <= amount)%nat ->
  watermark_channel O K E equalize features_of checks pad channel depth step amount levels = Ok marked ->
  exists pixels features quantised bits sig payload frame a b,
    from_shape_vec (gwidth channel) (gheight channel) (gray_raw channel) = Ok pixels /\ measures equalize features_of channel amount features
    /\ three_bit_quantization O checks features step = Ok (quantised, bits)
    /\ sign E (vec_i64_to_bytes quantised) PRIVATE_KEY PUBLIC_KEY = Ok sig
    /\ watermark_serialize pad (mkWatermark bits sig WATERMARK_TEXT) = Ok payload
    /\ (exists out, embed O K pixels payload depth levels = Ok out /\ gray_raw marked = into_raw_vec out)
    /\ data_serialize payload = Ok frame /\ u16_to_bytes (Z.of_nat (length frame) mod 65536) = (a, b)
    /\ let capacity := (gwidth channel / 2 ^ levels * (gheight channel / 2 ^ levels) / 8)%nat in
       fst (watermark_channel_logged O K E D equalize features_of checks pad channel depth step amount levels)
       = [named "Zernike moments indices: " (debug_ints (map (fun k => 1 + 2 * Z.of_nat k) (seq 0 amount)));
          named "Zernike moments: " (debug_f64s D features); named "features: " (debug_f64s D features);
          named "quantized_features: " (debug_ints quantised); named "perturbation_vector: " (debug_bits D bits);
          named "signature: " (debug_ints sig); named "watermark: " (debug_watermark D (mkWatermark bits sig WATERMARK_TEXT));
          named "watermark data: " (debug_ints payload);
          named "domain capacity: " (debug_nat capacity ++ bytes_of_string " bytes");
          named "data: " (debug_data payload); named "serialized data bytes: " (debug_ints frame)]
         ++ encoder_messages (a :: b :: frame) capacity.
Proof.
  intros ch depth step amount levels marked Hsz Ham H. unfold watermark_channel in H.
  apply bind_ok in H as ((px, fs) & Hf & H). destruct (channel_features_inv equalize features_of ch amount px fs Hf) as (Epx & Hm). pose proof Hm as (eqd & Ee & Efs).
  apply bind_ok in H as ((q, bits) & Hq & H). apply bind_ok in H as (sig & Hs & H). apply bind_ok in H as (pl & Hp & H). apply bind_ok in H as (out & Ho & H).
  destruct (Nat.leb _ _); [|discriminate H]. assert (Em : gray_raw marked = into_raw_vec out) by (assert (X : marked = mkGray (gwidth ch) (gheight ch) (into_raw_vec out)) by congruence; rewrite X; reflexivity). clear H.
  pose proof Ho as Ho'. unfold embed in Ho'. apply bind_ok in Ho' as (cf & Hcf & Ho'). apply bind_ok in Ho' as (lw & Hlw & Ho'). apply bind_ok in Ho' as (lh & Hlh & Ho').
  apply bind_ok in Ho' as (cap & Hcap & Ho'). apply bind_ok in Ho' as (fr & Hfr & Ho'). apply bind_ok in Ho' as (enc & Henc & Ho'). apply bind_ok in Ho' as (cf' & Hcf' & Ho'). apply bind_ok in Ho' as (rs & Hrs & Ho').
  destruct (encode_prints fr cap enc Henc) as (a & b & Hab & Pe).
  exists px, fs, q, bits, sig, pl, fr, a, b. split; [exact Epx|]. split; [exact Hm|]. split; [exact Hq|]. split; [exact Hs|]. split; [exact Hp|]. split; [exists out; split; [exact Ho|exact Em]|]. split; [exact Hfr|]. split; [exact Hab|].
  assert (Dpx : dim0 px = gwidth ch /\ dim1 px = gheight ch).
  { unfold from_shape_vec in Epx. destruct (Nat.eqb _ _); [|discriminate Epx]. assert (X : px = mkArray2 (gwidth ch) (gheight ch) (split_rows (gwidth ch) (gheight ch) (gray_raw ch))) by congruence. rewrite X. split; reflexivity. }
  destruct Dpx as (D0 & D1). unfold ll_side in Hlw, Hlh. destruct (Nat.leb 31 levels); [discriminate Hlw|].
  assert (Elw : lw = (gwidth ch / 2 ^ levels)%nat) by congruence. assert (Elh : lh = (gheight ch / 2 ^ levels)%nat) by congruence.
  assert (Ecap : cap = (gwidth ch / 2 ^ levels * (gheight ch / 2 ^ levels) / 8)%nat).
  { unfold get_domain_capacity in Hcap. destruct (get_code_for_encode _); [|discriminate Hcap]. assert (X : cap = get_capacity lw lh) by congruence. rewrite X, Elw, Elh. apply capacity_eq.
    unfold representable. pose proof (Nat.div_le_upper_bound (gwidth ch) (2 ^ levels) (gwidth ch) ltac:(apply Nat.pow_nonzero; lia) ltac:(pose proof (Nat.pow_nonzero 2 levels ltac:(lia)); nia)).
    pose proof (Nat.div_le_upper_bound (gheight ch) (2 ^ levels) (gheight ch) ltac:(apply Nat.pow_nonzero; lia) ltac:(pose proof (Nat.pow_nonzero 2 levels ltac:(lia)); nia)).
    assert (gwidth ch / 2 ^ levels * (gheight ch / 2 ^ levels) <= gwidth ch * gheight ch)%nat by now apply Nat.mul_le_mono. lia. }
  cbn zeta. rewrite <- Ecap.
  unfold watermark_channel_logged. rewrite (fst_lbind_ok _ _ (px, fs)) by (rewrite channel_features_same; exact Hf).
  assert (P1 : fst (channel_features_logged D equalize features_of checks ch amount) = [named "Zernike moments indices: " (debug_ints (map (fun k => 1 + 2 * Z.of_nat k) (seq 0 amount))); named "Zernike moments: " (debug_f64s D fs); named "features: " (debug_f64s D fs)]).
  { unfold channel_features_logged. rewrite (fst_quiet_ok _ _ _ Epx), (fst_quiet_ok _ _ _ Ee). unfold indices_logged. destruct amount as [|n]; [lia|]. cbn [get_order_by_features_amount].
    rewrite fst_print, (fst_quiet_ok _ _ _ Efs), !fst_print, !named_app. rewrite indices_odd, map_map.
    replace (map (fun x : nat => Z.of_nat (1 + 2 * x)) (seq 0 (S n))) with (map (fun k : nat => 1 + 2 * Z.of_nat k) (seq 0 (S n))) by (apply map_ext; intros k; lia). reflexivity. }
  rewrite P1. rewrite (fst_quiet_ok _ _ (q, bits) Hq). rewrite !fst_print, !named_app. rewrite (fst_quiet_ok _ _ _ Hs). rewrite !fst_print, !named_app. rewrite (fst_quiet_ok _ _ _ Hp). rewrite fst_print, named_app.
  rewrite (fst_lbind_ok _ _ out) by (rewrite embed_same; exact Ho).
  assert (P2 : fst (embed_logged O K px pl depth levels) = [named "domain capacity: " (debug_nat cap ++ bytes_of_string " bytes"); named "data: " (debug_data pl); named "serialized data bytes: " (debug_ints fr)]
     ++ encoder_messages (a :: b :: fr) cap).
  { unfold embed_logged. rewrite (fst_quiet_ok _ _ _ Hcf). unfold ll_side. destruct (Nat.leb 31 levels) eqn:E31.
    - unfold embed in Ho. rewrite Hcf in Ho. cbn [bind] in Ho. unfold ll_side in Ho. rewrite E31 in Ho. discriminate Ho.
    - rewrite (fst_quiet_ok _ _ _ Hlw), (fst_quiet_ok _ _ _ Hlh). rewrite (fst_lbind_ok _ _ cap) by (rewrite capacity_same; exact Hcap). unfold get_domain_capacity_logged at 1. rewrite fst_print.
      assert (Egc : get_capacity lw lh = cap) by (unfold get_domain_capacity in Hcap; destruct (get_code_for_encode _); congruence). rewrite Egc, named_app.
      rewrite (fst_lbind_ok _ _ fr) by (rewrite data_serialize_same; exact Hfr). unfold data_serialize_logged at 1. rewrite fst_print, (fst_quiet_ok _ _ _ Hfr), fst_print, !named_app.
      rewrite (fst_lbind_ok _ _ enc) by (rewrite encode_same; exact Henc). rewrite Pe. rewrite (fst_quiet_ok _ _ _ Hcf'), (fst_quiet_ok _ _ _ Hrs). cbn [quiet fst app]. rewrite app_nil_r. reflexivity. }
  rewrite P2. cbn [quiet fst app]. rewrite app_nil_r. reflexivity.
Qed.
End Logged.


Print Assumptions C93_printing_changes_nothing.
Print Assumptions C93_what_a_watermarked_channel_prints.
