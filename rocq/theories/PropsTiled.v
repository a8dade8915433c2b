(** Property C106: pictures that repeat one 8x8 tile - flat pictures above all - hold the same bit everywhere, and no watermark: on them the authenticator does not
    say no, it dies (lib/sia/rust/embedding/src/lib.rs: extract; lib/sia/rust/encoding/src/lib.rs: decode; lib/sia/rust/watermarking/src/process.rs: authenticate_channel). *)
From Coq Require Import Reals Lra.
From Flocq Require Import Core BinarySingleNaN.
From Verif Require Import Outcome Floats FloatFacts Bits ListFacts Quantization QuantProofs QuantReal QuantFloat PropsQuant PropsQuant2 Codecs CodecProofs WatermarkProofs PropsCodec
  Encoding EncodingProofs PropsEncoding Matrix MatrixFacts Haar HaarProofs HaarReal HaarFloat PropsHaar Stego StegoProofs StegoMarks PropsStego Embedding EmbeddingProofs EmbeddingEffect PropsEmbedding PropsEmbedding2 PropsEmbedding3 PropsRobust
  Signature Process ProcessProofs Toy Zernike ZernikeProofs PropsZernike ZernikeBound PropsZernike2 ZernikeGen PropsZernikeF64 LibmSpec LibmExact PropsZernikeAcc
  PropsProcess PropsProcess2 Image PropsImage PropsProcess3 PropsProcess4 PropsProcess5 PropsProcess6 PropsTamper Equalize PropsEqualize PropsShipped PropsShipped2 PropsInteger PropsClipping PropsRepair PropsVerdict.
Open Scope nat_scope.

(** ** Specification vocabulary *)
(** The picture repeats one tile of 2^levels x 2^levels pixels. *)
Definition tiled (image : array2 Z) (n levels : nat) : Prop := forall i j i' j', i < n -> j < n -> i' < n -> j' < n ->
  i mod 2 ^ levels = i' mod 2 ^ levels -> j mod 2 ^ levels = j' mod 2 ^ levels -> cell image i j = cell image i' j'.
(** A byte of eight equal bits. *)
Definition uniform (bit : bool) : Z := if bit then 255%Z else 0%Z.
(** The decoder leaves words of equal bits alone: the all-zero word is a codeword of every linear code, the all-one word of some. *)
Definition keeps_uniform (K : ldpc) (bit : bool) : Prop :=
  forall c, firstn (k_bytes c) (ldpc_decode_bf K c (repeat (uniform bit) (n_bytes c))) = repeat (uniform bit) (k_bytes c).

(** ** Helpers *)
Section AnyArithmetic.
Context {F : Type} (O : FOps F).

Definition periodic (w h p : nat) (M : nat -> nat -> F) : Prop := forall i j i' j', i < w -> j < h -> i' < w -> j' < h ->
  i mod p = i' mod p -> j mod p = j' mod p -> M i j = M i' j'.

Lemma double_mod i i' p a : 0 < p -> a < 2 -> i mod p = i' mod p -> (2 * i + a) mod (2 * p) = (2 * i' + a) mod (2 * p).
Proof.
  intros Hp Ha H. pose proof (Nat.div_mod i p ltac:(lia)) as D. pose proof (Nat.div_mod i' p ltac:(lia)) as D'. pose proof (Nat.mod_upper_bound i p ltac:(lia)) as B.
  assert (E : forall x, x = p * (x / p) + x mod p -> x mod p < p -> (2 * x + a) mod (2 * p) = 2 * (x mod p) + a).
  { intros x Dx Bx. symmetry. apply (Nat.mod_unique (2 * x + a) (2 * p) (x / p)); [lia|]. nia. }
  rewrite (E i D B), (E i' D') by lia. lia.
Qed.

Lemma iteration_periodic d0 d1 level it M p : divisible d0 d1 level -> it < level -> 0 < p ->
  periodic (d0 / 2 ^ it) (d1 / 2 ^ it) (2 * p) M -> periodic (d0 / 2 ^ S it) (d1 / 2 ^ S it) p (iteration O false d0 d1 M it).
Proof.
  intros (D0 & D1) Hit Hp HM i j i' j' Hi Hj Hi' Hj' Ei Ej.
  destruct (half_even _ _ it D0 Hit) as (E0 & H0). destruct (half_even _ _ it D1 Hit) as (E1 & H1).
  unfold iteration. rewrite H0, H1 in *. set (w := d0 / 2 ^ S it) in *. set (h := d1 / 2 ^ S it) in *. clearbody w h.
  unfold cols_pass. rewrite !(proj2 (Nat.ltb_lt _ _)) by lia. cbn [andb]. unfold step. rewrite !Nat.div2_double. rewrite !(proj2 (Nat.ltb_lt _ _)) by assumption.
  assert (G : forall a b a' b', a < 2 * w -> a' < 2 * w -> b < h -> b' < h -> a mod (2 * p) = a' mod (2 * p) -> b mod p = b' mod p ->
    rows_pass O false (2 * w) (2 * h) M a b = rows_pass O false (2 * w) (2 * h) M a' b').
  { intros a b a' b' Ha Ha' Hb Hb' Ea Eb. unfold rows_pass. rewrite !(proj2 (Nat.ltb_lt _ _)) by lia. cbn [andb]. unfold step. rewrite !Nat.div2_double. rewrite !(proj2 (Nat.ltb_lt _ _)) by assumption.
    f_equal; (apply HM; [lia|lia|lia|lia|exact Ea|]).
    - pose proof (double_mod b b' p 0 Hp ltac:(lia) Eb) as X. now rewrite !Nat.add_0_r in X.
    - apply double_mod; [exact Hp|lia|exact Eb]. }
  f_equal; (apply G; [lia|lia|lia|lia| |exact Ej]).
  - pose proof (double_mod i i' p 0 Hp ltac:(lia) Ei) as X. now rewrite !Nat.add_0_r in X.
  - apply double_mod; [exact Hp|lia|exact Ei].
Qed.

Lemma fold_periodic d0 d1 level : divisible d0 d1 level -> forall len s M, s + len <= level ->
  periodic (d0 / 2 ^ s) (d1 / 2 ^ s) (2 ^ len) M -> periodic (d0 / 2 ^ (s + len)) (d1 / 2 ^ (s + len)) 1 (fold_left (iteration O false d0 d1) (seq s len) M).
Proof.
  intros D. induction len as [|len IH]; intros s M Hl HM; cbn [seq fold_left].
  - rewrite Nat.add_0_r. exact HM.
  - replace (s + S len) with (S s + len) by lia. apply IH; [lia|]. apply (iteration_periodic d0 d1 level); [exact D|lia|apply pow2_pos|]. exact HM.
Qed.
Lemma transform_periodic n level M : divisible n n level -> periodic n n (2 ^ level) M ->
  forall i j i' j', i < n / 2 ^ level -> j < n / 2 ^ level -> i' < n / 2 ^ level -> j' < n / 2 ^ level -> transform O false n n level M i j = transform O false n n level M i' j'.
Proof.
  intros D HM i j i' j' Hi Hj Hi' Hj'. unfold transform. pose proof (fold_periodic n n level D level 0 M ltac:(lia)) as G. cbn [Nat.pow Nat.add] in G. rewrite Nat.div_1_r in G.
  apply (G HM); try assumption; now rewrite !Nat.mod_1_r.
Qed.

(** *** C106: a tiled picture shows one and the same bit at every place; any arithmetic, any depth. *)
Theorem C106_tiled_pictures_show_one_bit : forall K image n levels depth, picture image n levels -> tiled image n levels -> 9 <= band_capacity n levels ->
  exists bit, extract O K image depth levels = bind (decode K (repeat (uniform bit) (band_capacity n levels)) (band_capacity n levels)) data_deserialize.
Proof.
  intros K m n L depth (Hc & H8) Ht H9. unfold band_capacity in *. fold (band n L) in *.
  destruct (extract_run O K m n L depth Hc H9) as (C & Hdom & C0 & C1 & GC & EX). pose proof (carrier_band m n L Hc) as (Hsn & Hrep & Hdiv & _).
  pose proof (read_ok O depth (band n L) C Hrep Hdom) as Erd. set (got := map _ _) in Erd.
  destruct (read_bits O depth (band n L) C _ Hrep Hdom Erd) as (Ll & Hbits). pose proof (read_bytes O depth (band n L) C _ Hrep Hdom Erd) as Bgot. clearbody got.
  assert (Hs0 : 0 < band n L) by (destruct (band n L); [cbn in H9; lia|lia]).
  assert (Per : periodic n n (2 ^ L) (get O (mapv (f_of_Z O) m))).
  { intros i j i' j' Hi Hj Hi' Hj' Ei Ej. specialize (Ht i j i' j' Hi Hj Hi' Hj' Ei Ej). destruct Hc as (Hwf & E0 & E1 & _).
    pose proof (mapv_wf (f_of_Z O) m Hwf) as Hwf'.
    assert (X : cell (mapv (f_of_Z O) m) i j = cell (mapv (f_of_Z O) m) i' j') by (rewrite !cell_mapv, Ht; reflexivity).
    rewrite !(cell_get O) in X by (try exact Hwf'; cbn [mapv dim0 dim1]; lia). congruence. }
  exists (bit_of O depth (get O C 0 0)). rewrite EX, Erd. cbn [bind]. f_equal. f_equal. 
  assert (G : got = repeat (uniform (bit_of O depth (get O C 0 0))) (band n L * band n L / 8)).
  { apply bytes_ext; [exact Bgot|apply Forall_repeat; unfold byte, uniform; destruct (bit_of _ _ _); lia|now rewrite repeat_length|].
    intros k Hk. rewrite <- nth_bits, Hbits by exact Hk. rewrite Ll in Hk. pose proof (Nat.mul_div_le (band n L * band n L) 8).
    assert (Hk2 : k < band n L * band n L) by lia. destruct (place_lt (band n L) k Hs0 Hk2) as (P1 & P2).
    rewrite (cell_bit_get O depth n L C k Hdom Hk2 Hs0). rewrite !GC.
    rewrite (transform_periodic n L _ Hdiv Per (k / band n L) (k mod band n L) 0 0) by assumption.
    unfold payload_bit. set (b := bit_of _ _ _). assert (Hd : k / 8 < band n L * band n L / 8) by (apply Nat.div_lt_upper_bound; lia). rewrite (nth_error_nth _ _ 0%Z (nth_error_repeat (uniform b) Hd)).
    pose proof (Nat.mod_upper_bound k 8 ltac:(lia)) as H7. set (r := k mod 8) in *. clearbody r b. unfold uniform.
    destruct b; do 8 (destruct r as [|r]; [reflexivity|]); lia. }
  now rewrite G.
Qed.
End AnyArithmetic.

Lemma firstn_repeat {A} (x : A) k l : firstn k (repeat x l) = repeat x (Nat.min k l).
Proof. revert l. induction k; intros [|l]; cbn; f_equal; auto. Qed.
Lemma skipn_repeat {A} (x : A) k l : skipn k (repeat x l) = repeat x (l - k).
Proof. revert l. induction k; intros [|l]; cbn; auto. Qed.

Lemma decode_words K c bit : ldpc_shape K -> keeps_uniform K bit -> forall len, 0 < len -> 
  (exists r, mapM (decode_word K c) (chunks (n_bytes c) (repeat (uniform bit) len)) = Panic r)
  \/ exists q, 0 < q /\ mapM (decode_word K c) (chunks (n_bytes c) (repeat (uniform bit) len)) = Ok (repeat (repeat (uniform bit) (k_bytes c)) q).
Proof.
  intros (_ & Hs) Hk len. induction len as [len IH] using lt_wf_ind. intros Hl. pose proof (n_pos c) as Hn.
  rewrite chunks_step by (try exact Hn; (destruct len; [lia|discriminate])). rewrite firstn_repeat, skipn_repeat. cbn [mapM]. unfold decode_word at 1 3. rewrite repeat_length.
  destruct (Nat.eqb_spec (Nat.min (n_bytes c) len) (n_bytes c)) as [E|E]; [|left; eexists; reflexivity]. rewrite E.
  assert (Es : slice (ldpc_decode_bf K c (repeat (uniform bit) (n_bytes c))) 0 (k_bytes c) = Ok (repeat (uniform bit) (k_bytes c))).
  { unfold slice. rewrite (proj2 (Nat.leb_le (k_bytes c) _)).
    - cbn [Nat.leb andb skipn]. rewrite Nat.sub_0_r. now rewrite Hk.
    - apply Hs; [|apply repeat_length]. apply Forall_repeat. unfold byte, uniform. destruct bit; lia. }
  rewrite Es. cbn [bind]. destruct (Nat.eq_dec (len - n_bytes c) 0) as [Z0|N0].
  - rewrite Z0. right. exists 1. split; [lia|]. reflexivity.
  - destruct (IH (len - n_bytes c) ltac:(lia) ltac:(lia)) as [(r & X)|(q & Hq & X)]; rewrite X; cbn [bind]; [left; eexists; reflexivity|].
    right. exists (S q). split; [lia|reflexivity].
Qed.
Lemma concat_repeat {A} (x : A) k q : concat (repeat (repeat x k) q) = repeat x (q * k).
Proof. induction q; cbn [repeat concat Nat.mul]; [reflexivity|]. now rewrite IHq, <- repeat_app. Qed.

(** What is framed as 65535 bytes of ones is never complete. *)
Lemma uniform_frames bit l : (exists r, data_deserialize (repeat (uniform bit) l) = Panic r) \/ data_deserialize (repeat (uniform bit) l) = Ok []
  \/ (bit = true /\ (65537 <= Z.of_nat l)%Z).
Proof.
  destruct l as [|[|[|l]]]; [left; eexists; reflexivity..|]. unfold data_deserialize. rewrite repeat_length. cbn [Nat.ltb Nat.leb].
  unfold slice at 1. rewrite repeat_length. cbn [Nat.leb andb Nat.sub firstn skipn repeat bind].
  destruct bit; unfold uniform.
  - change (vec_u16_from_bytes [255%Z; 255%Z]) with (Ok [65535%Z]). cbn [bind nth_error unwrap]. unfold slice. rewrite (proj2 (Nat.leb_le _ _)) by lia. cbn [andb].
    destruct (Nat.leb_spec (2 + Z.to_nat 65535) (length (255%Z :: 255%Z :: 255%Z :: repeat 255%Z l))) as [H|H]; [|left; eexists; reflexivity].
    right. right. split; [reflexivity|]. cbn [length] in H. rewrite repeat_length in H. lia.
  - change (vec_u16_from_bytes [0%Z; 0%Z]) with (Ok [0%Z]). cbn [bind nth_error unwrap]. right. left. unfold slice. cbn [Z.to_nat Nat.add Nat.leb length andb Nat.sub firstn]. reflexivity.
Qed.

Lemma uniform_data K bit cap : ldpc_shape K -> keeps_uniform K bit -> 9 <= cap ->
  (exists r, bind (decode K (repeat (uniform bit) cap) cap) data_deserialize = Panic r) \/ bind (decode K (repeat (uniform bit) cap) cap) data_deserialize = Ok [].
Proof.
  intros Hs Hk H9. unfold decode. destruct (get_code_by_codeword_length cap) as [c|] eqn:Ec.
  - destruct (decode_words K c bit Hs Hk cap ltac:(lia)) as [(r & X)|(q & Hq & X)]; rewrite X; cbn [bind]; [left; eexists; reflexivity|].
    rewrite concat_repeat. assert (Hk8 : 8 <= k_bytes c) by (destruct c; cbn; lia). set (l := q * k_bytes c). assert (Hl : 2 <= l) by (unfold l; nia). clearbody l.
    destruct l as [|[|l]]; [lia|lia|]. cbn [repeat]. set (len := Z.to_nat _). 
    assert (Elen : len = Z.to_nat (if bit then 65535 else 0)) by (unfold len, uniform; destruct bit; reflexivity). clearbody len.
    unfold slice. rewrite (proj2 (Nat.leb_le 2 (len + 2))) by lia. cbn [andb]. destruct (Nat.leb_spec (len + 2) (length (uniform bit :: uniform bit :: repeat (uniform bit) l))) as [H|H]; [|left; eexists; reflexivity].
    cbn [skipn bind]. rewrite firstn_repeat. cbn [length] in H. rewrite repeat_length in H. replace (Nat.min (len + 2 - 2) l) with len by lia.
    destruct (uniform_frames bit len) as [(r & ->)|[ -> |( -> & Hx)]]; [left; eexists; reflexivity|now right|]. exfalso. lia.
  - cbn [bind]. destruct (uniform_frames bit cap) as [(r & ->)|[ -> |( -> & Hx)]]; [left; eexists; reflexivity|now right|]. exfalso.
    unfold get_code_by_codeword_length in Ec. destruct (_ =? 128)%Z; [discriminate|]. destruct (_ =? 256)%Z; [discriminate|]. destruct (_ || _)%bool; [discriminate|]. destruct (_ || _)%bool; [discriminate|].
    destruct (Z.leb_spec 8192 (Z.of_nat cap * 8)); [discriminate|]. lia.
Qed.

(** *** C106: so no watermark is found: nothing at all, or an empty payload. *)
Theorem C106_tiled_pictures_hold_no_data : forall {F} (O : FOps F) K image n levels depth, ldpc_shape K -> keeps_uniform K false -> keeps_uniform K true ->
  picture image n levels -> tiled image n levels -> 9 <= band_capacity n levels ->
  (exists r, extract O K image depth levels = Panic r) \/ extract O K image depth levels = Ok [].
Proof.
  intros F O K m n L depth Hs K0 K1 Hp Ht H9. destruct (C106_tiled_pictures_show_one_bit O K m n L depth Hp Ht H9) as (bit & ->).
  apply (uniform_data K bit _ Hs); [destruct bit; assumption|exact H9].
Qed.
(** For the depths in use and sums that are not on a border (C86) the bit is known; pictures that show zeros only (tiled or not) need nothing but the all-zero codeword. *)
Theorem C106_f64_pictures_of_zeros_hold_no_data : forall K image n depth, ldpc_shape K -> keeps_uniform K false -> (1 <= depth <= 4096)%Z ->
  picture image n 3 -> 9 <= band_capacity n 3 ->
  (forall bi bj, bi < n / 8 -> bj < n / 8 -> (4 * depth < block_total image 3 bi bj mod (8 * depth))%Z) ->
  (exists r, extract Bops K image (f_of_Z Bops depth) 3 = Panic r) \/ extract Bops K image (f_of_Z Bops depth) 3 = Ok [].
Proof.
  intros K m n D Hs K0 HD Hp H9 Hz. destruct (C86_f64_extraction_in_integers K m n D HD Hp H9) as (rc & Lr & Br & Hb & ->).
  assert (Er : rc = repeat (uniform false) (band_capacity n 3)).
  { apply bytes_ext; [exact Br|apply Forall_repeat; unfold byte, uniform; lia|now rewrite repeat_length|]. intros k Hk. rewrite Lr in Hk.
    assert (Hs0 : 0 < n / 8) by (unfold band_capacity in H9; change (2 ^ 3) with 8 in H9; destruct (n / 8); [cbn in H9; lia|lia]).
    assert (Hk2 : k < n / 8 * (n / 8)) by (unfold band_capacity in Hk; change (2 ^ 3) with 8 in Hk; pose proof (Nat.mul_div_le (n / 8 * (n / 8)) 8); lia).
    destruct (place_lt (n / 8) k Hs0 Hk2) as (P1 & P2). specialize (Hz _ _ P1 P2). specialize (Hb k Hk). cbv zeta in Hb.
    revert Hz Hb. generalize (block_total m 3 (k / (n / 8)) (k mod (n / 8))). intros T Hz Hb. rewrite Hb.
    - unfold bit_read. rewrite (proj2 (Z.ltb_ge _ _)) by lia. symmetry. unfold payload_bit.
      assert (Hd : k / 8 < band_capacity n 3) by (apply Nat.div_lt_upper_bound; lia). rewrite (nth_error_nth _ _ 0%Z (nth_error_repeat (uniform false) Hd)). cbn [uniform]. apply Z.bits_0.
    - unfold border. intros X. pose proof (Z.mod_pos_bound T (8 * D) ltac:(lia)) as B. apply Z.mod_divide in X as (q & X); [|lia]. subst T.
      assert (Y : (q * (4 * D) mod (8 * D) = 4 * D * (q mod 2))%Z) by (replace (q * (4 * D))%Z with (4 * D * q)%Z by ring; replace (8 * D)%Z with (4 * D * 2)%Z by ring; apply Z.mul_mod_distr_l; lia).
      rewrite Y in Hz. pose proof (Z.mod_pos_bound q 2 ltac:(lia)). nia. }
  rewrite Er. apply (uniform_data K false _ Hs K0 H9).
Qed.

(** Both words are codewords of a code that has them and decodes its codewords. *)
Lemma codewords_are_kept K bit : ldpc_decodes K -> (forall c, ldpc_copy_encode K c (repeat (uniform bit) (k_bytes c)) = repeat (uniform bit) (n_bytes c)) -> keeps_uniform K bit.
Proof.
  intros Hd He c. rewrite <- He. apply Hd; [|apply repeat_length]. apply Forall_repeat. unfold byte, uniform. destruct bit; lia.
Qed.

(** *** C106: the authenticator never returns on such a picture, whatever the features, keys and signatures; any arithmetic. *)
Theorem C106_no_verdict_on_tiled_pictures : forall {F} (O : FOps F) K E equalize features_of checks channel pixels n levels depth step amount verdict,
  ldpc_shape K -> keeps_uniform K false -> keeps_uniform K true ->
  from_shape_vec (gwidth channel) (gheight channel) (gray_raw channel) = Ok pixels -> picture pixels n levels -> tiled pixels n levels -> 9 <= band_capacity n levels ->
  authenticate_channel O K E equalize features_of checks channel depth step amount levels <> Ok verdict.
Proof.
  intros F O K E eq fo checks ch px n L depth step amount v Hs K0 K1 Epx Hp Ht H9 H. unfold authenticate_channel in H.
  apply bind_ok in H as ((px' & fs) & H1 & H). apply channel_features_inv in H1 as (E1 & _). assert (px' = px) by congruence. subst px'. cbn beta iota in H.
  apply bind_ok in H as (pl & H2 & H). destruct (C106_tiled_pictures_hold_no_data O K px n L depth Hs K0 K1 Hp Ht H9) as [(r & X)|X]; [congruence|].
  assert (pl = []) by congruence. subst pl. discriminate H.
Qed.

(** The shipped scheme on flat channels: for every grey level and every side from 72 to 65528 divisible by 8, at any depth. *)
Section Flat.
Context (K : ldpc) (Hsh : ldpc_shape K) (K0 : keeps_uniform K false) (K1 : keeps_uniform K true) (E : ed25519).
Context (M : libm b64) (HM : accurate M) (gamma : b64 -> b64) (checks : bool).
Let features_of := zernike_f64 M gamma checks.

Theorem C106_f64_flat_pictures_kill_the_authenticator : forall level n (depth step : b64) amount, byte level -> n mod 8 = 0 -> side_ok n -> 72 <= n -> 1 <= amount <= 11 ->
  is_panic (authenticate_channel Bops K E equalize_histogram features_of checks (mkGray n n (repeat level (n * n))) depth step amount 3) = true.
Proof.
  intros g n depth step amount Hg Hm Hs Hn Ha.
  assert (Hr : (Z.of_nat (n * n) < 2 ^ 53)%Z) by (unfold side_ok in Hs; rewrite Nat2Z.inj_mul; nia).
  assert (Gp : gray_picture (mkGray n n (repeat g (n * n))) n 3).
  { unfold gray_picture. cbn [gwidth gheight gray_raw]. rewrite repeat_length. repeat split; auto; try lia. apply Forall_repeat. exact Hg. }
  destruct (gray_array _ n 3 Gp) as (px & Epx & Hp & Hcell).
  assert (H9 : 9 <= band_capacity n 3).
  { unfold band_capacity. change (2 ^ 3) with 8. apply Nat.mod_divides in Hm as (q & ->); [|lia]. assert (Q : 8 * q / 8 = q) by (rewrite Nat.mul_comm; apply Nat.div_mul; lia). rewrite Q. apply Nat.div_le_lower_bound; nia. }
  assert (Ht : tiled px n 3).
  { intros i j i' j' Hi Hj Hi' Hj' _ _. rewrite !Hcell by assumption. unfold gray_pixel. cbn [gray_raw]. assert (N : forall a b, a < n -> b < n -> nth_error (repeat g (n * n)) (n * a + b) = Some g) by (intros a b La Lb; apply nth_error_repeat; nia). rewrite (N i j Hi Hj), (N i' j' Hi' Hj'). reflexivity. }
  destruct (measured_exists M HM gamma checks (mkGray n n (repeat g (n * n))) n 3 amount Gp ltac:(lia) Hs Ha) as (fs & Hme).
  unfold authenticate_channel. rewrite (channel_features_ok equalize_histogram features_of _ amount px fs Epx Hme). cbn [bind].
  destruct (C106_tiled_pictures_hold_no_data Bops K px n 3 depth Hsh K0 K1 Hp Ht H9) as [(r & ->)| -> ]; reflexivity.
Qed.
End Flat.

(** Any channel, tiled or not, whose blocks all show zeros: the all-zero word being a codeword is enough. *)
Theorem C106_f64_channels_of_zeros_kill_the_authenticator : forall K, ldpc_shape K -> keeps_uniform K false -> forall E (M : libm b64), accurate M ->
  forall gamma checks channel pixels n depth (step : b64) amount, gray_picture channel n 3 -> side_ok n -> 72 <= n -> 1 <= amount <= 11 -> (1 <= depth <= 4096)%Z ->
  from_shape_vec n n (gray_raw channel) = Ok pixels -> (forall bi bj, bi < n / 8 -> bj < n / 8 -> (4 * depth < block_total pixels 3 bi bj mod (8 * depth))%Z) ->
  is_panic (authenticate_channel Bops K E equalize_histogram (zernike_f64 M gamma checks) checks channel (f_of_Z Bops depth) step amount 3) = true.
Proof.
  intros K Hsh K0 E M HM gamma checks ch px n D step amount Gp Hs Hn Ha HD Epx Hz. pose proof Gp as (W & H & _ & _ & Hm & _).
  destruct (gray_array _ n 3 Gp) as (px' & Epx' & Hp & _). rewrite W, H in Epx'. assert (px' = px) by congruence. subst px'.
  assert (H9 : 9 <= band_capacity n 3).
  { unfold band_capacity. change (2 ^ 3) with 8 in *. apply Nat.mod_divides in Hm as (q & ->); [|lia]. assert (Q : 8 * q / 8 = q) by (rewrite Nat.mul_comm; apply Nat.div_mul; lia). rewrite Q. apply Nat.div_le_lower_bound; nia. }
  destruct (measured_exists M HM gamma checks ch n 3 amount Gp ltac:(lia) Hs Ha) as (fs & Hme).
  unfold authenticate_channel. rewrite (channel_features_ok equalize_histogram (zernike_f64 M gamma checks) ch amount px fs) by (try exact Hme; rewrite W, H; exact Epx). cbn [bind].
  destruct (C106_f64_pictures_of_zeros_hold_no_data K px n D Hsh K0 HD Hp H9 Hz) as [(r & ->)| -> ]; reflexivity.
Qed.
(** Flat channels that show zeros, at the depths of the command line and of the page: 64 times the level lies in the upper half of its interval. *)
Theorem C106_f64_flat_channels_of_zeros : forall K, ldpc_shape K -> keeps_uniform K false -> forall E (M : libm b64), accurate M ->
  forall gamma checks fe level n (step : b64) amount, In fe [command_line; web_page] -> byte level -> (4 * depth_of fe < 64 * level mod (8 * depth_of fe))%Z ->
  n mod 8 = 0 -> side_ok n -> 72 <= n -> 1 <= amount <= 11 ->
  is_panic (authenticate_channel Bops K E equalize_histogram (zernike_f64 M gamma checks) checks (mkGray n n (repeat level (n * n))) (f_of_Z Bops (depth_of fe)) step amount 3) = true.
Proof.
  intros K Hsh K0 E M HM gamma checks fe g n step amount Hfe Hg Hz Hm Hs Hn Ha.
  assert (Hr : (Z.of_nat (n * n) < 2 ^ 53)%Z) by (unfold side_ok in Hs; rewrite Nat2Z.inj_mul; nia).
  assert (Gp : gray_picture (mkGray n n (repeat g (n * n))) n 3).
  { unfold gray_picture. cbn [gwidth gheight gray_raw]. rewrite repeat_length. repeat split; auto; try lia. apply Forall_repeat. exact Hg. }
  destruct (gray_array _ n 3 Gp) as (px & Epx & Hp & Hcell). cbn [gwidth gheight] in Epx.
  apply (C106_f64_channels_of_zeros_kill_the_authenticator K Hsh K0 E M HM gamma checks _ px n (depth_of fe) step amount Gp Hs Hn Ha); [destruct Hfe as [ <- |[ <- |[]]]; cbn; lia|exact Epx|].
  intros bi bj Hi Hj. assert (T : block_total px 3 bi bj = (64 * g)%Z); [|rewrite T; exact Hz].
  rewrite block_total_dsum. rewrite (dsum_ext _ (fun _ _ => g)); [rewrite dsum_const; lia|]. intros p q Hp' Hq. unfold pixel.
  assert (H8s : 8 * (n / 8) <= n) by (apply Nat.mul_div_le; lia). assert (Li : 8 * bi + p < n) by lia. assert (Lj : 8 * bj + q < n) by lia.
  rewrite (Hcell _ _ Li Lj). unfold gray_pixel. cbn [gray_raw]. rewrite nth_error_repeat by nia. reflexivity.
Qed.
Theorem C106_which_flat_pictures_show_zeros : forall level,
  ((4 * 100 < 64 * level mod (8 * 100))%Z <-> (7 <= level mod 25 <= 12 \/ 19 <= level mod 25)%Z)
  /\ ((4 * 500 < 64 * level mod (8 * 500))%Z <-> (32 <= level mod 125 <= 62 \/ 94 <= level mod 125)%Z).
Proof.
  intros g. split.
  - pose proof (Z.div_mod g 25 ltac:(lia)) as D. pose proof (Z.mod_pos_bound g 25 ltac:(lia)) as B. set (a := (g / 25)%Z) in *. set (b := (g mod 25)%Z) in *. clearbody a b. subst g.
    replace (64 * (25 * a + b))%Z with (64 * b + (2 * a) * (8 * 100))%Z by ring. rewrite Z.mod_add by lia.
    destruct (Z_lt_le_dec b 13); [rewrite Z.mod_small by lia; lia|]. replace (64 * b)%Z with (64 * b - 800 + 1 * (8 * 100))%Z by ring. rewrite Z.mod_add, Z.mod_small by lia. lia.
  - pose proof (Z.div_mod g 125 ltac:(lia)) as D. pose proof (Z.mod_pos_bound g 125 ltac:(lia)) as B. set (a := (g / 125)%Z) in *. set (b := (g mod 125)%Z) in *. clearbody a b. subst g.
    replace (64 * (125 * a + b))%Z with (64 * b + (2 * a) * (8 * 500))%Z by ring. rewrite Z.mod_add by lia.
    destruct (Z_lt_le_dec b 63); [rewrite Z.mod_small by lia; lia|]. replace (64 * b)%Z with (64 * b - 4000 + 1 * (8 * 500))%Z by ring. rewrite Z.mod_add, Z.mod_small by lia. lia.
Qed.

(** ** The hypotheses are met *)
Example C106_instance : forall level, byte level ->
  is_panic (authenticate_channel Bops toy_ldpc toy_ed equalize_histogram (zernike_f64 exact_libm (fun x => x) true) true (mkGray 512 512 (repeat level (512 * 512))) (f_of_Z Bops 100) (f_of_Z Bops 1) 11 3) = true.
Proof.
  intros g Hg. assert (Kk : forall bit, keeps_uniform toy_ldpc bit).
  { intros bit. apply codewords_are_kept; [exact toy_decodes|]. intros c. cbn [toy_ldpc ldpc_copy_encode]. rewrite <- repeat_app. f_equal. destruct c; reflexivity. }
  apply (C106_f64_flat_pictures_kill_the_authenticator toy_ldpc toy_shape (Kk false) (Kk true) toy_ed exact_libm exact_libm_accurate); [exact Hg|reflexivity|unfold side_ok; lia|lia|lia].
Qed.

Print Assumptions C106_tiled_pictures_show_one_bit.
Print Assumptions C106_tiled_pictures_hold_no_data.
Print Assumptions C106_no_verdict_on_tiled_pictures.
Print Assumptions C106_f64_flat_pictures_kill_the_authenticator.
Print Assumptions C106_f64_pictures_of_zeros_hold_no_data.
Print Assumptions C106_f64_channels_of_zeros_kill_the_authenticator.
Print Assumptions C106_f64_flat_channels_of_zeros.
Print Assumptions C106_which_flat_pictures_show_zeros.
