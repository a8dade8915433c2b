(** Proofs about Encoding.v, relative to the laws of the LDPC coder. *)
From Verif Require Import Outcome Bits ListFacts Codecs CodecProofs WatermarkProofs Encoding.
Open Scope Z_scope.

(** What is assumed of the third-party coder: codewords have n/8 bytes, every n/8-byte input is decoded to at least k/8
    bytes, and codewords are decoded to their message. *)
Definition ldpc_shape (L : ldpc) : Prop :=
  (forall c m, bytes m -> length m = k_bytes c ->
     length (ldpc_copy_encode L c m) = n_bytes c /\ bytes (ldpc_copy_encode L c m))
  /\ (forall c r, bytes r -> length r = n_bytes c -> (k_bytes c <= length (ldpc_decode_bf L c r))%nat).
Definition ldpc_decodes (L : ldpc) : Prop :=
  forall c m, bytes m -> length m = k_bytes c ->
     firstn (k_bytes c) (ldpc_decode_bf L c (ldpc_copy_encode L c m)) = m.

(** The decoder turns the received word [r] into the message [m]. *)
Definition decodes_to (L : ldpc) (c : code) (r m : list Z) : Prop :=
  length r = n_bytes c /\ (k_bytes c <= length (ldpc_decode_bf L c r))%nat /\
  firstn (k_bytes c) (ldpc_decode_bf L c r) = m.

Lemma k_pos c : (0 < k_bytes c)%nat. Proof. destruct c; cbn; lia. Qed.
Lemma n_pos c : (0 < n_bytes c)%nat. Proof. destruct c; cbn; lia. Qed.

(** Zero-padding of a message word. *)
Definition zpad (k : nat) (w : list Z) : list Z := w ++ repeat 0 (k - length w).

Lemma byte_bits_0 : byte_bits 0 = repeat false 8. Proof. reflexivity. Qed.
Lemma bits_zeros n : bits_of_bytes (repeat 0 n) = repeat false (8 * n).
Proof.
  induction n as [|n IH]; [reflexivity|].
  change (repeat 0 (S n)) with (0 :: repeat 0 n). change (bits_of_bytes (0 :: repeat 0 n)) with (byte_bits 0 ++ bits_of_bytes (repeat 0 n)).
  rewrite IH, byte_bits_0, <- repeat_app. f_equal. lia.
Qed.

Lemma bytes_repeat0 n : bytes (repeat 0 n).
Proof. induction n; constructor; [unfold byte; lia|assumption]. Qed.

Lemma zpad_bytes k w : bytes w -> bytes (zpad k w).
Proof. intros H. apply Forall_app. split; [exact H|apply bytes_repeat0]. Qed.
Lemma zpad_length k w : (length w <= k)%nat -> length (zpad k w) = k.
Proof. intros H. unfold zpad. rewrite app_length, repeat_length. lia. Qed.

Lemma padded_word k w : bytes w -> (length w <= k)%nat ->
  raw_bytes zero_pad (pad_bits (bits_of_bytes w) (8 * k)) = zpad k w.
Proof.
  intros Hw Hl. unfold pad_bits. rewrite bits_of_bytes_length.
  rewrite firstn_all2 by (rewrite bits_of_bytes_length; lia).
  replace (8 * k - 8 * length w)%nat with (8 * (k - length w))%nat by lia.
  rewrite <- bits_zeros, <- bits_of_bytes_app. apply raw_bytes_bits_of_bytes. apply zpad_bytes. exact Hw.
Qed.

Lemma Forall2_impl {A B} (P Q : A -> B -> Prop) l m : (forall a b, P a b -> Q a b) -> Forall2 P l m -> Forall2 Q l m.
Proof. intros H. induction 1; constructor; auto. Qed.

Section WithL.
Context (L : ldpc).

Lemma encode_word_ok c w : bytes w -> (length w <= k_bytes c)%nat ->
  encode_word L c w = Ok (ldpc_copy_encode L c (zpad (k_bytes c) w)).
Proof.
  intros Hw Hl. unfold encode_word. rewrite padded_word by assumption.
  rewrite zpad_length, Nat.eqb_refl by assumption. reflexivity.
Qed.

(** The two length bytes: big-endian, modulo 65536. *)
Definition be16 (n : Z) : list Z := [n / 256 mod 256; n mod 256].

Lemma u16_to_bytes_eq n : 0 <= n -> u16_to_bytes n = (n / 256 mod 256, n mod 256).
Proof.
  intros Hn. unfold u16_to_bytes. change 255 with (Z.ones 8). rewrite !Z.land_ones by lia.
  rewrite Z.shiftr_div_pow2 by lia. reflexivity.
Qed.

Lemma bytes_to_u16_eq b0 b1 : byte b0 -> byte b1 -> bytes_to_u16 b0 b1 = 256 * b0 + b1.
Proof.
  unfold byte, bytes_to_u16. intros H0 H1. rewrite Z.shiftl_mul_pow2 by lia. change (2 ^ 8) with 256.
  rewrite Z.mod_small by lia.
  assert (E : Z.land (b0 * 256) b1 = 0).
  { apply Z.bits_inj'. intros i Hi. rewrite Z.land_spec, Z.bits_0. change 256 with (2 ^ 8).
    destruct (Z_lt_le_dec i 8).
    - rewrite Z.mul_pow2_bits_low by lia. reflexivity.
    - rewrite <- (Z.mod_small b1 (2 ^ 8)) by (change (2 ^ 8) with 256; lia).
      rewrite Z.mod_pow2_bits_high by lia. apply andb_false_r. }
  rewrite <- Z.lxor_lor, <- Z.add_nocarry_lxor by exact E. lia.
Qed.

Definition words_of (c : code) (input : list Z) : list (list Z) :=
  map (zpad (k_bytes c)) (chunks (k_bytes c) (be16 (Z.of_nat (length input) mod 65536) ++ input)).

Lemma be16_bytes n : bytes (be16 n).
Proof. repeat constructor; apply Z.mod_pos_bound; lia. Qed.

Lemma Forall_chunks {A} (P : A -> Prop) n l : (0 < n)%nat -> Forall P l -> Forall (Forall P) (chunks n l).
Proof. intros Hn H. rewrite <- (concat_chunks n l Hn) in H. now apply Forall_concat in H. Qed.

Lemma encode_ok input cap c : bytes input -> get_code_by_codeword_length cap = Some c ->
  encode L input cap = Ok (concat (map (ldpc_copy_encode L c) (words_of c input))).
Proof.
  intros Hi Hc. unfold encode. rewrite u16_to_bytes_eq by (apply Z.mod_pos_bound; lia). rewrite Hc.
  fold (be16 (Z.of_nat (length input) mod 65536)).
  change ([Z.of_nat (length input) mod 65536 / 256 mod 256; (Z.of_nat (length input) mod 65536) mod 256])
    with (be16 (Z.of_nat (length input) mod 65536)).
  rewrite (mapM_ok_map _ (fun w => ldpc_copy_encode L c (zpad (k_bytes c) w))).
  - cbn [bind]. unfold words_of. rewrite map_map. reflexivity.
  - intros w Hw.
    assert (B : bytes (be16 (Z.of_nat (length input) mod 65536) ++ input)) by (apply Forall_app; split; [apply be16_bytes|exact Hi]).
    pose proof (Forall_chunks _ (k_bytes c) _ (k_pos c) B) as HB.
    pose proof (chunks_lengths (k_bytes c) (be16 (Z.of_nat (length input) mod 65536) ++ input) (k_pos c)) as HL.
    rewrite Forall_forall in HB, HL. apply encode_word_ok; [apply HB; exact Hw|]. apply HL; exact Hw.
Qed.

Lemma words_of_props c input : bytes input ->
  Forall (fun w => bytes w /\ length w = k_bytes c) (words_of c input).
Proof.
  intros Hi. unfold words_of. apply Forall_map.
  assert (B : bytes (be16 (Z.of_nat (length input) mod 65536) ++ input)) by (apply Forall_app; split; [apply be16_bytes|exact Hi]).
  pose proof (Forall_chunks _ (k_bytes c) _ (k_pos c) B) as HB.
  pose proof (chunks_lengths (k_bytes c) (be16 (Z.of_nat (length input) mod 65536) ++ input) (k_pos c)) as HL.
  rewrite Forall_forall in *. intros w Hw. split; [apply zpad_bytes, HB, Hw|apply zpad_length, HL, Hw].
Qed.

Lemma words_of_length c input : length (words_of c input) = ((length input + 2 + k_bytes c - 1) / k_bytes c)%nat.
Proof.
  unfold words_of. rewrite map_length, chunks_length by apply k_pos. rewrite app_length. cbn [be16 length].
  f_equal. lia.
Qed.

Lemma concat_map_zpad c ws : Forall (fun w => 0 < length w <= k_bytes c)%nat ws ->
  (forall i w, nth_error ws i = Some w -> (S i < length ws)%nat -> length w = k_bytes c) ->
  exists z, concat (map (zpad (k_bytes c)) ws) = concat ws ++ z.
Proof.
  intros Hl. induction Hl as [|w t Hw Ht IH]; intros Hf.
  - exists []. reflexivity.
  - destruct t as [|w2 t].
    + cbn [map concat]. exists (repeat 0 (k_bytes c - length w)). rewrite !app_nil_r. reflexivity.
    + destruct IH as (z & IH).
      { intros i x Hx Hi. apply (Hf (S i) x); [exact Hx|]. cbn [length] in *. lia. }
      exists z. cbn [map concat] in *. rewrite IH.
      assert (Ew : zpad (k_bytes c) w = w).
      { unfold zpad. rewrite (Hf O w) by (try reflexivity; cbn [length]; lia).
        rewrite Nat.sub_diag. cbn [repeat]. apply app_nil_r. }
      rewrite Ew, <- !app_assoc. reflexivity.
Qed.

Lemma words_concat c input : exists z,
  concat (words_of c input) = be16 (Z.of_nat (length input) mod 65536) ++ input ++ z.
Proof.
  unfold words_of. set (l := be16 _ ++ input).
  destruct (concat_map_zpad c (chunks (k_bytes c) l)) as (z & E).
  - apply chunks_lengths, k_pos.
  - intros i w Hw Hi. rewrite chunks_length in Hi by apply k_pos.
    assert (Hlt : (S i * k_bytes c < length l)%nat).
    { assert (S (S i) <= (length l + k_bytes c - 1) / k_bytes c)%nat by lia.
      pose proof (k_pos c). pose proof (Nat.mul_div_le (length l + k_bytes c - 1) (k_bytes c) ltac:(lia)). nia. }
    rewrite nth_error_chunks in Hw by (try apply k_pos; lia). injection Hw as <-.
    rewrite firstn_length, skipn_length. lia.
  - exists z. rewrite E, concat_chunks by apply k_pos. unfold l. rewrite <- app_assoc. reflexivity.
Qed.

Lemma decode_words c rs ms : Forall2 (decodes_to L c) rs ms -> mapM (decode_word L c) rs = Ok ms.
Proof.
  intros H. apply mapM_Forall2. eapply Forall2_impl; [|exact H].
  intros r m (Hr & Hk & Hm). unfold decode_word. rewrite Hr, Nat.eqb_refl.
  apply slice_ok. split; [lia|]. cbn [skipn]. rewrite Nat.sub_0_r. symmetry. exact Hm.
Qed.

(** Decoding any received words that decode to the transmitted messages, followed by anything decodable. *)
Lemma decode_received input cap c rs tail : bytes input ->
  get_code_by_codeword_length cap = Some c ->
  Forall2 (decodes_to L c) rs (words_of c input) ->
  (length tail mod n_bytes c = 0)%nat -> (forall r, In r (chunks (n_bytes c) tail) -> (k_bytes c <= length (ldpc_decode_bf L c r))%nat) ->
  decode L (concat rs ++ tail) cap = Ok (firstn (Z.to_nat (Z.of_nat (length input) mod 65536)) input).
Proof.
  intros Hi Hc Hrs Ht Hk. unfold decode. rewrite Hc.
  assert (Hlen : Forall (fun r => length r = n_bytes c) rs).
  { clear - Hrs. induction Hrs; constructor; [apply H|assumption]. }
  rewrite chunks_concat_app by (try apply n_pos; exact Hlen).
  rewrite mapM_app, (decode_words _ _ _ Hrs). cbn [bind].
  assert (Htail : mapM (decode_word L c) (chunks (n_bytes c) tail) =
                  Ok (map (fun r => firstn (k_bytes c) (ldpc_decode_bf L c r)) (chunks (n_bytes c) tail))).
  { apply mapM_ok_map. intros r Hr. unfold decode_word.
    pose proof (chunks_full (n_bytes c) tail (n_pos c) Ht) as Hf. rewrite Forall_forall in Hf.
    rewrite (Hf r Hr), Nat.eqb_refl. apply slice_ok. split; [split; [lia|apply Hk; exact Hr]|].
    cbn [skipn]. rewrite Nat.sub_0_r. reflexivity. }
  rewrite Htail. cbn [bind]. rewrite concat_app.
  destruct (words_concat c input) as (z & ->).
  set (n := Z.of_nat (length input) mod 65536).
  assert (Hn : 0 <= n < 65536) by (apply Z.mod_pos_bound; lia).
  cbn [be16 app].
  rewrite bytes_to_u16_eq by (unfold byte; apply Z.mod_pos_bound; lia).
  replace (256 * (n / 256 mod 256) + n mod 256) with n.
  2:{ rewrite (Z.mod_small (n / 256)) by (split; [apply Z.div_pos; lia|apply Z.div_lt_upper_bound; lia]).
      apply Z.div_mod; lia. }
  apply slice_ok. cbn [length]. rewrite !app_length.
  assert (Hle : (Z.to_nat n <= length input)%nat).
  { unfold n. rewrite <- (Nat2Z.id (length input)) at 2. apply Z2Nat.inj_le; try lia.
    apply Z.mod_le; lia. }
  split; [lia|]. cbn [skipn]. replace (Z.to_nat n + 2 - 2)%nat with (Z.to_nat n) by lia.
  rewrite <- app_assoc, firstn_app. replace (Z.to_nat n - length input)%nat with 0%nat by lia.
  rewrite firstn_O, app_nil_r. reflexivity.
Qed.

Lemma encode_length input cap c : ldpc_shape L -> bytes input -> get_code_by_codeword_length cap = Some c ->
  forall out, encode L input cap = Ok out ->
  length out = ((length input + 2 + k_bytes c - 1) / k_bytes c * n_bytes c)%nat /\ bytes out.
Proof.
  intros (Hs & _) Hi Hc out Ho. rewrite (encode_ok input cap c Hi Hc) in Ho.
  assert (E : out = concat (map (ldpc_copy_encode L c) (words_of c input))) by congruence. subst out. clear Ho.
  pose proof (words_of_props c input Hi) as Hw.
  split.
  - rewrite (length_concat_const (n_bytes c)).
    + rewrite map_length, words_of_length. reflexivity.
    + apply Forall_map. eapply Forall_impl; [|exact Hw]. intros w (H1 & H2). apply (Hs c w H1 H2).
  - apply Forall_concat, Forall_map. eapply Forall_impl; [|exact Hw]. intros w (H1 & H2). apply (Hs c w H1 H2).
Qed.

Lemma roundtrip_general input cap c tail : ldpc_shape L -> ldpc_decodes L -> bytes input -> bytes tail ->
  get_code_by_codeword_length cap = Some c -> (length tail mod n_bytes c = 0)%nat ->
  exists out, encode L input cap = Ok out /\
    decode L (out ++ tail) cap = Ok (firstn (Z.to_nat (Z.of_nat (length input) mod 65536)) input).
Proof.
  intros (Hs1 & Hs2) Hd Hi Ht Hc Hm. eexists; split; [apply encode_ok; eassumption|].
  apply decode_received with c; try assumption.
  - pose proof (words_of_props c input Hi) as Hw. induction Hw as [|w t (H1 & H2) _ IH]; constructor; [|exact IH].
    destruct (Hs1 c w H1 H2) as (H3 & H4). repeat split; [exact H3|apply Hs2; assumption|apply Hd; assumption].
  - intros r Hr. pose proof (chunks_full (n_bytes c) tail (n_pos c) Hm) as Hf.
    pose proof (Forall_chunks _ (n_bytes c) _ (n_pos c) Ht) as HB. rewrite Forall_forall in *.
    apply Hs2; [apply HB; exact Hr|apply Hf; exact Hr].
Qed.

Lemma decode_ragged bs cap c : get_code_by_codeword_length cap = Some c -> (length bs mod n_bytes c <> 0)%nat ->
  exists r, decode L bs cap = Panic r.
Proof.
  intros Hc Hm. unfold decode. rewrite Hc.
  assert (H : is_ok (mapM (decode_word L c) (chunks (n_bytes c) bs)) = false).
  { pose proof (chunks_ragged (n_bytes c) bs (n_pos c) Hm) as Hr.
    assert (exists w, In w (chunks (n_bytes c) bs) /\ length w <> n_bytes c) as (w & Hw & Hl).
    { clear - Hr. induction (chunks (n_bytes c) bs) as [|w t IH]; [exfalso; apply Hr; constructor|].
      destruct (Nat.eq_dec (length w) (n_bytes c)) as [E|N].
      - destruct IH as (x & Hx & Hl); [intros H; apply Hr; constructor; assumption|]. exists x. split; [right|]; assumption.
      - exists w. split; [left; reflexivity|exact N]. }
    apply (mapM_not_ok _ _ w Hw). unfold decode_word.
    destruct (Nat.eqb (length w) (n_bytes c)) eqn:E; [apply Nat.eqb_eq in E; congruence|reflexivity]. }
  assert (Ho : forall l, mapM (decode_word L c) l <> Outside).
  { induction l as [|w t IH]; [discriminate|]. cbn [mapM]. unfold decode_word at 1.
    destruct (Nat.eqb (length w) (n_bytes c)); [|discriminate].
    destruct (slice_cases (ldpc_decode_bf L c w) 0 (k_bytes c)) as [(_ & ->)|(_ & ->)]; cbn [bind]; [|discriminate].
    destruct (mapM (decode_word L c) t); [discriminate|discriminate|congruence]. }
  specialize (Ho (chunks (n_bytes c) bs)).
  destruct (mapM (decode_word L c) (chunks (n_bytes c) bs)); [discriminate|eexists; reflexivity|congruence].
Qed.

(** *** no code *)
Lemma uncoded_encode input cap : get_code_by_codeword_length cap = None ->
  encode L input cap = Ok (be16 (Z.of_nat (length input) mod 65536) ++ input).
Proof.
  intros Hc. unfold encode. rewrite u16_to_bytes_eq by (apply Z.mod_pos_bound; lia). rewrite Hc. reflexivity.
Qed.
Lemma uncoded_decode bs cap : get_code_by_codeword_length cap = None -> decode L bs cap = Ok bs.
Proof. intros Hc. unfold decode. rewrite Hc. reflexivity. Qed.

Lemma uncoded_never d cap s rest : get_code_by_codeword_length cap = None ->
  data_serialize d = Ok s ->
  exists out dec, encode L s cap = Ok out /\ decode L (out ++ rest) cap = Ok dec /\ data_deserialize dec <> Ok d.
Proof.
  intros Hc Hs. rewrite (uncoded_encode s cap Hc). eexists. eexists. split; [reflexivity|].
  split; [now apply uncoded_decode|].
  destruct (Z_le_gt_dec (Z.of_nat (length d)) 65535) as [Hd|Hd]; [|rewrite data_serialize_long in Hs by lia; discriminate].
  rewrite data_serialize_ok in Hs by exact Hd.
  assert (Es : s = u16_to_le (Z.of_nat (length d)) ++ d) by congruence. clear Hs.
  assert (Hsl : length s = (2 + length d)%nat) by (rewrite Es, app_length; unfold u16_to_le; rewrite le_bytes_length; reflexivity).
  rewrite Hsl. set (m := Z.of_nat (2 + length d) mod 65536).
  unfold be16. rewrite <- app_assoc. cbn [app].
  assert (Hm : 0 <= m < 65536) by (apply Z.mod_pos_bound; lia).
  rewrite data_deserialize_eq; [|unfold byte; apply Z.mod_pos_bound; lia|unfold byte; apply Z.mod_pos_bound; lia|].
  2:{ apply len_pos_nonnil. rewrite app_length. lia. }
  destruct (Nat.leb _ _) eqn:E; [|discriminate]. apply Nat.leb_le in E.
  intros H. injection H as H. apply (f_equal (@length Z)) in H. rewrite firstn_length in H.
  rewrite (Z.mod_small (m / 256)) in * by (split; [apply Z.div_pos; lia|apply Z.div_lt_upper_bound; lia]).
  rewrite Nat.min_l in H by exact E.
  assert (E2 : Z.of_nat (length d) = m / 256 + 256 * (m mod 256)).
  { rewrite <- H. apply Z2Nat.id. Z.to_euclidean_division_equations. lia. }
  assert (E3 : Z.of_nat (2 + length d) = Z.of_nat (length d) + 2) by lia.
  unfold m in *. rewrite E3 in *. clear - E2 Hd.
  pose proof (Z.div_mod (Z.of_nat (length d) + 2) 65536 ltac:(lia)) as D1.
  pose proof (Z.mod_pos_bound (Z.of_nat (length d) + 2) 65536 ltac:(lia)) as D2.
  set (x := (Z.of_nat (length d) + 2) mod 65536) in *.
  pose proof (Z.div_mod x 256 ltac:(lia)) as D3. pose proof (Z.mod_pos_bound x 256 ltac:(lia)) as D4.
  set (hi := x / 256) in *. set (lo := x mod 256) in *. set (q := (Z.of_nat (length d) + 2) / 65536) in *.
  assert (0 <= hi < 256) by lia.
  assert (q = 0 \/ q = 1) by lia. lia.
Qed.
End WithL.
