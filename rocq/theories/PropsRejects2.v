(** Property C109: the configuration both front ends use - eleven features - can reject what it has just signed.  The picture is flat but for fourteen squares that are one
    grey level darker; the watermark is read from the untouched result without an error and the verdict is no, whatever the key, the error-correcting code and the level
    (lib/sia/rust/watermarking/src/process.rs: watermark_channel, authenticate_channel). *)
From Coq Require Import Reals Lra.
From Flocq Require Import Core BinarySingleNaN.
From Coquelicot Require Import Complex.
From Verif Require Import Outcome Floats FloatFacts Bits ListFacts Quantization QuantProofs QuantReal QuantFloat PropsQuant PropsQuant2 Codecs CodecProofs WatermarkProofs PropsCodec
  Encoding EncodingProofs PropsEncoding Matrix MatrixFacts Haar HaarProofs HaarReal HaarFloat PropsHaar Stego StegoProofs StegoMarks PropsStego Embedding EmbeddingProofs EmbeddingEffect PropsEmbedding PropsEmbedding2 PropsEmbedding3 PropsRobust
  Signature Process ProcessProofs Toy Zernike ZernikeProofs PropsZernike ZernikeBound PropsZernike2 ZernikeGen PropsZernikeF64 LibmSpec LibmExact PropsZernikeAcc
  PropsProcess PropsProcess2 Image PropsImage PropsProcess3 PropsProcess4 PropsProcess5 PropsProcess6 PropsTamper Equalize PropsEqualize PropsShipped PropsShipped2 PropsInteger PropsClipping PropsClipping2 PropsRepair PropsRepair2 PropsVerdict PropsUnused PropsSound RelError EqualizeProofs PropsTurn PropsSame PropsRejects PowerMoment SpottedMoment.
Open Scope Z_scope.

(** ** Specification vocabulary *)
(** A flat picture with fourteen squares of 32 x 32 pixels that are one level darker ([dark_squares] lists their rows and columns). *)
Definition spotted512 (level : Z) : gray := mkGray 512 512 (map (fun k => if dark (k / 512 / 32) (k mod 512 / 32) then level - 1 else level) (seq 0 (512 * 512))).
(** Flat blocks of this level and of the next darker one both end up below the darker one, whichever bit they store. *)
Definition sinks (depth level : Z) : Prop :=
  ~ tie depth (64 * level) /\ ~ tie depth (64 * (level - 1)) /\ forall bit, added depth bit (64 * level) < -1 /\ added depth bit (64 * (level - 1)) < 0.

(** ** Helpers: the picture *)
Definition spot (level : Z) (i j : nat) : Z := if dark i j then level - 1 else level.
Lemma spot_cases level i j : spot level i j = level - 1 \/ spot level i j = level.
Proof. unfold spot. destruct (dark i j); auto. Qed.
Lemma spotted_at level i j : (i < 512)%nat -> (j < 512)%nat -> nth_error (gray_raw (spotted512 level)) (512 * i + j) = Some (spot level (i / 32) (j / 32)).
Proof.
  intros Hi Hj. cbn [spotted512 gray_raw]. rewrite nth_error_map, nth_error_seq by lia. cbn [option_map].
  rewrite <- (Nat.div_unique (512 * i + j) 512 i j Hj eq_refl), <- (Nat.mod_unique (512 * i + j) 512 i j Hj eq_refl). reflexivity.
Qed.
Lemma spotted_picture level : byte level -> 1 <= level -> gray_picture (spotted512 level) 512 3.
Proof.
  intros Hb H1. destruct big as (_ & B2).
  assert (By : forall l, bytes (map (fun k => if dark (k / 512 / 32) (k mod 512 / 32) then level - 1 else level) l)).
  { clear B2. intros l. induction l as [|k l IH]; cbn [map]; constructor; [|exact IH]. unfold byte in *. destruct (dark _ _); lia. }
  unfold gray_picture. cbn [spotted512 gwidth gheight gray_raw]. split; [reflexivity|]. split; [reflexivity|]. split; [rewrite map_length; apply seq_length|].
  split; [apply By|]. split; [reflexivity|]. split; [lia|]. rewrite B2. lia.
Qed.
Opaque spotted512.
Lemma div_32 b p : (p < 8)%nat -> ((8 * b + p) / 32 = b / 4)%nat.
Proof. intros H. change 32%nat with (8 * 4)%nat. rewrite <- Nat.div_div by lia. f_equal. symmetry. now apply (Nat.div_unique _ 8 b p). Qed.
Lemma div_8 b p : (p < 8)%nat -> ((8 * b + p) / 8 = b)%nat.
Proof. intros H. symmetry. now apply (Nat.div_unique _ 8 b p). Qed.
Lemma div_32_8 i : (i / 32 = i / 8 / 4)%nat.
Proof. rewrite Nat.div_div by lia. reflexivity. Qed.

Lemma spotted_cells level im : byte level -> 1 <= level -> from_shape_vec 512 512 (gray_raw (spotted512 level)) = Ok im ->
  (forall i j, (i < 512)%nat -> (j < 512)%nat -> cell im i j = Some (spot level (i / 32) (j / 32)))
  /\ (forall bi bj, (bi < 64)%nat -> (bj < 64)%nat -> block_total im 3 bi bj = 64 * spot level (bi / 4) (bj / 4)).
Proof.
  intros Hb H1 Eim. destruct (gray_array (spotted512 level) 512 3 (spotted_picture level Hb H1)) as (im' & Eim' & Him & Hcell). change (gwidth (spotted512 level)) with 512%nat in Eim'. change (gheight (spotted512 level)) with 512%nat in Eim'.
  assert (im' = im) by congruence. subst im'.
  assert (C : forall i j, (i < 512)%nat -> (j < 512)%nat -> cell im i j = Some (spot level (i / 32) (j / 32))) by (intros i j Hi Hj; rewrite Hcell by assumption; unfold gray_pixel; now apply spotted_at).
  split; [exact C|]. intros bi bj Hi Hj. rewrite block_total_dsum, (dsum_ext _ (fun _ _ => spot level (bi / 4) (bj / 4))); [rewrite dsum_const; lia|]. intros p q Hp Hq. unfold pixel. rewrite C by lia. now rewrite !div_32 by assumption.
Qed.

Lemma spotted_withstands depth level im : 17 <= depth -> not_cut depth level -> not_cut depth (level - 1) -> (forall i j, (i < 512)%nat -> (j < 512)%nat -> cell im i j = Some (spot level (i / 32) (j / 32))) ->
  forall bi bj, (bi < 64)%nat -> (bj < 64)%nat -> withstands depth 0 im bi bj.
Proof.
  intros HD (Hc1 & Hc2) (Hc3 & Hc4) C bi bj Hi Hj. left. unfold excess, lack. rewrite !over_block_dsum.
  assert (P : forall p q, (p < 8)%nat -> (q < 8)%nat -> pixel im (8 * bi + p) (8 * bj + q) = spot level (bi / 4) (bj / 4)) by (intros p q Hp Hq; unfold pixel; rewrite C by lia; now rewrite !div_32 by assumption).
  destruct (spot_cases level (bi / 4) (bj / 4)) as [X|X]; rewrite X in P;
    (rewrite (dsum_ext _ (fun _ _ => 0)), (dsum_ext (fun p q => Z.max 0 (strongest depth - _)) (fun _ _ => 0)); [rewrite dsum_const; lia| |]; intros p q Hp Hq; rewrite (P p q Hp Hq); lia).
Qed.

(** ** Helpers: counting *)
Lemma rank_zsum l v : rank l v = zsum (length l) (fun k => if nth k l 0 <=? v then 1 else 0).
Proof.
  induction l as [|x l IH]; [reflexivity|]. cbn [length]. rewrite zsum_split0. cbn [nth]. rewrite <- IH. unfold rank. cbn [filter]. destruct (x <=? v); cbn [length]; lia.
Qed.
Lemma coarse a b (F : nat -> nat -> Z) : zsum (a * 32) (fun i => zsum (b * 32) (fun j => F (i / 32)%nat (j / 32)%nat)) = 1024 * zsum a (fun i => zsum b (F i)).
Proof.
  assert (D : forall i p, (p < 32)%nat -> ((32 * i + p) / 32 = i)%nat) by (intros i p Hp; symmetry; now apply (Nat.div_unique _ 32 i p)).
  assert (E : forall n (f : nat -> Z), zsum (n * 32) (fun j => f (j / 32)%nat) = 32 * zsum n f).
  { intros n f. rewrite zsum_mul, <- zsum_scal. apply zsum_ext. intros k Hk. rewrite (zsum_ext 32 _ (fun _ => f k)); [rewrite zsum_const; reflexivity|]. intros p Hp. now rewrite D. }
  rewrite (E a (fun i => zsum (b * 32) (fun j => F i (j / 32)%nat))). rewrite (zsum_ext a _ (fun i => 32 * zsum b (F i))) by (intros i _; apply E). rewrite zsum_scal. lia.
Qed.
(** A raster of 512 x 512 values, each at most [v] exactly in the chosen squares. *)
Lemma rank_squares l v (F : nat -> nat -> bool) : length l = (512 * 512)%nat -> (forall i j, (i < 512)%nat -> (j < 512)%nat -> (nth (512 * i + j) l 0 <=? v) = F (i / 32)%nat (j / 32)%nat) ->
  rank l v = 1024 * zsum 16 (fun i => zsum 16 (fun j => if F i j then 1 else 0)).
Proof.
  intros L H. rewrite rank_zsum, L, zsum_mul, <- (coarse 16 16 (fun i j => if F i j then 1 else 0)). change (16 * 32)%nat with 512%nat. apply zsum_ext. intros i Hi. apply zsum_ext. intros j Hj. now rewrite H.
Qed.
Lemma rank_squares_le l v (F : nat -> nat -> bool) : length l = (512 * 512)%nat -> (forall i j, (i < 512)%nat -> (j < 512)%nat -> nth (512 * i + j) l 0 <= v -> F (i / 32)%nat (j / 32)%nat = true) ->
  rank l v <= 1024 * zsum 16 (fun i => zsum 16 (fun j => if F i j then 1 else 0)).
Proof.
  intros L H. rewrite rank_zsum, L, zsum_mul, <- (coarse 16 16 (fun i j => if F i j then 1 else 0)). change (16 * 32)%nat with 512%nat. apply zsum2_le. intros i j Hi Hj.
  destruct (Z.leb_spec (nth (512 * i + j) l 0) v) as [X|X]; [rewrite (H i j Hi Hj X); lia|destruct (F _ _); lia].
Qed.
Lemma count_dark : 1024 * zsum 16 (fun i => zsum 16 (fun j => if dark i j then 1 else 0)) = 14336. Proof. vm_compute. reflexivity. Qed.
Lemma count_below : 1024 * zsum 16 (fun i => zsum 16 (fun j => if (i <? 8)%nat || dark i j then 1 else 0)) = 139264. Proof. vm_compute. reflexivity. Qed.
Lemma count_up : 1024 * zsum 16 (fun i => zsum 16 (fun j : nat => if (i <? 8)%nat then 1 else 0)) = 131072. Proof. vm_compute. reflexivity. Qed.
Lemma levels : level_of 14336 262144 = 13 /\ level_of 139264 262144 = 135 /\ level_of 131072 262144 = 127 /\ level_of 262144 262144 = 255. Proof. vm_compute. auto. Qed.

Lemma pixel_raw A i j : square_image A 512 -> (i < 512)%nat -> (j < 512)%nat -> pixel A i j = nth (512 * i + j) (into_raw_vec A) 0.
Proof.
  intros ((WA & A0 & A1) & _) Hi Hj. pose proof (raw_nth A i j WA ltac:(lia) ltac:(lia)) as R. rewrite A1, (Nat.mul_comm i) in R. apply eq_IZR. rewrite R. unfold pix, pixel. destruct (cell A i j); reflexivity.
Qed.
Lemma index_512 i j : (i < 512)%nat -> (j < 512)%nat -> (512 * i + j < 512 * 512)%nat. Proof. lia. Qed.

(** Equalised: the squares become 13, the rest 255. *)
Lemma equalised_before level A : byte level -> 1 <= level -> square_image A 512 -> into_raw_vec A = equalize_histogram (gray_raw (spotted512 level)) -> flat_blocks A before.
Proof.
  intros Hb H1 SA RA bi bj p q Hi Hj Hp Hq. destruct (spotted_picture level Hb H1) as (_ & _ & L & Bl & _). destruct big as (_ & B2).
  set (l := gray_raw (spotted512 level)) in *.
  assert (N : forall i j, (i < 512)%nat -> (j < 512)%nat -> nth (512 * i + j) l 0 = spot level (i / 32) (j / 32)) by (intros i j Hi' Hj'; apply nth_error_nth; now apply spotted_at).
  assert (ZL : Z.of_nat (length l) = 262144) by (rewrite L, B2; lia).
  rewrite pixel_raw, RA by (try exact SA; lia). rewrite equalize_nth by (try exact Bl; rewrite L; apply index_512; lia). rewrite ZL, N by lia. rewrite !div_32 by assumption. unfold before, spot.
  destruct levels as (L1 & _ & _ & L4). destruct (dark (bi / 4) (bj / 4)).
  - rewrite (rank_squares l (level - 1) dark L), count_dark; [exact L1|]. intros i j Hi' Hj'. rewrite N by assumption. unfold spot. destruct (dark _ _); [apply Z.leb_refl|apply Z.leb_gt; lia].
  - rewrite rank_all, ZL; [exact L4|]. apply Forall_forall. intros x Hx. apply In_nth_error in Hx as (k & Hk). assert (Hlt : (k < 512 * 512)%nat) by (rewrite <- L; apply nth_error_Some; congruence).
    pose proof (Nat.div_mod k 512 ltac:(lia)) as D. pose proof (Nat.mod_upper_bound k 512 ltac:(lia)). assert (k / 512 < 512)%nat by (apply Nat.div_lt_upper_bound; [lia|exact Hlt]).
    apply nth_error_nth with (d := 0) in Hk. rewrite D, N in Hk by assumption. destruct (spot_cases level (k / 512 / 32) (k mod 512 / 32)) as [X|X]; rewrite X in Hk; lia.
Qed.

(** The marked channel: [m] are the levels of the blocks of its upper half. *)
Definition sunk (l : list Z) (level : Z) (m : nat -> nat -> Z) : Prop := length l = (512 * 512)%nat /\ bytes l /\ (forall bi bj, m bi bj < level - 1)
  /\ forall i j, (i < 512)%nat -> (j < 512)%nat -> nth (512 * i + j) l 0 = if (i <? 256)%nat then m (i / 8)%nat (j / 8)%nat else spot level (i / 32) (j / 32).
Lemma half_32 i : (i <? 256)%nat = (i / 32 <? 8)%nat.
Proof.
  destruct (Nat.ltb_spec (i / 32) 8) as [X|X]; [apply Nat.ltb_lt|apply Nat.ltb_ge]; pose proof (Nat.div_mod i 32 ltac:(lia)); pose proof (Nat.mod_upper_bound i 32 ltac:(lia)); lia.
Qed.
Lemma equalised_after level A l m : sunk l level m -> square_image A 512 -> into_raw_vec A = equalize_histogram l ->
  exists v, flat_blocks A v /\ (forall bi bj, (bi < 32)%nat -> (bj < 64)%nat -> 0 <= v bi bj <= 127) /\ (forall bi bj, (32 <= bi < 64)%nat -> (bj < 64)%nat -> v bi bj = below bi bj).
Proof.
  intros (L & Bl & Hm & N) SA RA. destruct big as (_ & B2). assert (ZL : Z.of_nat (length l) = 262144) by (rewrite L, B2; lia). destruct levels as (_ & L2 & L3 & L4).
  exists (fun bi bj => if (bi <? 32)%nat then level_of (rank l (m bi bj)) 262144 else below bi bj). split; [|split].
  - intros bi bj p q Hi Hj Hp Hq. rewrite pixel_raw, RA by (try exact SA; lia). rewrite equalize_nth by (try exact Bl; rewrite L; apply index_512; lia). rewrite ZL, N by lia. rewrite !div_8, !div_32 by assumption.
    destruct (Nat.ltb_spec bi 32) as [X|X], (Nat.ltb_spec (8 * bi + p) 256) as [Y|Y]; try (exfalso; lia); [reflexivity|]. unfold below, spot. destruct (dark (bi / 4) (bj / 4)).
    + rewrite (rank_squares l (level - 1) (fun i j => (i <? 8)%nat || dark i j) L), count_below; [exact L2|]. intros i j Hi' Hj'. rewrite N, half_32 by assumption. destruct (Nat.ltb_spec (i / 32) 8); cbn [orb].
      * apply Z.leb_le. specialize (Hm (i / 8)%nat (j / 8)%nat). lia.
      * unfold spot. destruct (dark _ _); [apply Z.leb_refl|apply Z.leb_gt; lia].
    + rewrite rank_all, ZL; [exact L4|]. apply Forall_forall. intros x Hx. apply In_nth_error in Hx as (k & Hk). assert (Hlt : (k < 512 * 512)%nat) by (rewrite <- L; apply nth_error_Some; congruence).
      pose proof (Nat.div_mod k 512 ltac:(lia)) as D. pose proof (Nat.mod_upper_bound k 512 ltac:(lia)). assert (k / 512 < 512)%nat by (apply Nat.div_lt_upper_bound; [lia|exact Hlt]).
      apply nth_error_nth with (d := 0) in Hk. rewrite D, N in Hk by assumption. destruct (_ <? 256)%nat; [specialize (Hm (k / 512 / 8)%nat (k mod 512 / 8)%nat); lia|].
      destruct (spot_cases level (k / 512 / 32) (k mod 512 / 32)) as [X'|X']; rewrite X' in Hk; lia.
  - intros bi bj Hi Hj. rewrite (proj2 (Nat.ltb_lt bi 32) Hi). split; [apply level_in_range|]. rewrite <- L3. apply level_of_mono; [|lia|lia]. split; [apply rank_range|]. rewrite <- count_up.
    apply (rank_squares_le l (m bi bj) (fun i _ => (i <? 8)%nat) L). intros i j Hi' Hj' Hle. rewrite N, half_32 in Hle by assumption. destruct (i / 32 <? 8)%nat; [reflexivity|]. exfalso. specialize (Hm bi bj).
    destruct (spot_cases level (i / 32) (j / 32)) as [X|X]; rewrite X in Hle; lia.
  - intros bi bj Hi Hj. destruct (Nat.ltb_spec bi 32); [lia|reflexivity].
Qed.

(** ** Helpers: marking *)
Section Rejects.
Context (K : ldpc) (Hsh : ldpc_shape K) (Hdec : ldpc_decodes K) (E : ed25519) (HE : signature_format E) (Hk : key_pair E PRIVATE_KEY PUBLIC_KEY).
Context (M : libm b64) (HM : accurate M) (gamma : b64 -> b64) (checks : bool) (pad : list bool) (Hpad : length pad = 8%nat).
Let features_of := zernike_f64 M gamma checks.
Let one : b64 := f_of_Z Bops 1.

Lemma stored_512_11 : (8 * stored_size 512 3 (payload_size 11))%nat = carrying_blocks 512.
Proof. vm_compute. reflexivity. Qed.

Lemma marked_sinks depth level im pl out : 1 <= depth <= 4096 -> byte level -> 2 <= level -> sinks depth level -> from_shape_vec 512 512 (gray_raw (spotted512 level)) = Ok im ->
  picture im 512 3 -> bytes pl -> length pl = payload_size 11 -> embed Bops K im pl (f_of_Z Bops depth) 3 = Ok out -> picture out 512 3 -> exists m, sunk (into_raw_vec out) level m.
Proof.
  intros HD Hb H2 (Ht1 & Ht2 & Hadd) Eim Him Bp Lp Eo Po. destruct (spotted_cells level im Hb ltac:(lia) Eim) as (C & BT). destruct big as (B1 & B2).
  destruct (C86_f64_embedding_in_integers K im 512 depth pl out HD Him Eo) as (fr & st & E1 & E2 & H).
  destruct (encoded_size_ok K 512 3 pl fr st Hsh Bp E1 E2) as ((Sz & _) & _). destruct C83_512_is_usable as (_ & _ & (Hcod & _) & _). specialize (Sz Hcod). rewrite Lp in Sz.
  destruct (array_gray out 512 3 Po) as (Gm & Fm). destruct (gray_array _ 512 3 Gm) as (om & Eom & _ & Ocell). cbn [gwidth gheight gray_raw] in Eom.
  assert (om = out) by congruence. subst om. pose proof Gm as (_ & _ & Lm & Bm & _). cbn [gray_raw] in Lm, Bm.
  assert (Ht : forall a b, ~ tie depth (64 * spot level a b)) by (intros a b; destruct (spot_cases level a b) as [ -> | -> ]; assumption).
  exists (fun bi bj => clamp 0 255 (spot level (bi / 4) (bj / 4) + added depth (payload_bit st (64 * bi + bj)) (64 * spot level (bi / 4) (bj / 4)))).
  split; [exact Lm|]. split; [exact Bm|]. split.
  - intros bi bj. destruct (Hadd (payload_bit st (64 * bi + bj))) as (A1 & A2). unfold byte in Hb. destruct (spot_cases level (bi / 4) (bj / 4)) as [ -> | -> ]; revert A1 A2;
      generalize (added depth (payload_bit st (64 * bi + bj)) (64 * (level - 1))) (added depth (payload_bit st (64 * bi + bj)) (64 * level)); intros; unfold clamp; lia.
  - intros i j Hi Hj. apply nth_error_nth. pose proof (Ocell i j Hi Hj) as A. unfold gray_pixel in A. cbn [gray_raw] in A. rewrite <- A. clear A.
    pose proof (C i j Hi Hj) as Cc.
    assert (Sm : block_sum im i j = 64 * spot level (i / 32) (j / 32)) by (unfold block_sum; rewrite BT by (apply Nat.div_lt_upper_bound; lia); now rewrite !div_32_8).
    rewrite (H i j _ Cc) by (rewrite Sm; apply Ht). f_equal. unfold stores. rewrite Sm. change (512 / 8)%nat with 64%nat.
    pose proof (proj2 C100_carrying_blocks_of_512 (512 * i + j)%nat) as CB. rewrite <- stored_512_11, <- Sz in CB. unfold block_of in CB. change (512 / 8)%nat with 64%nat in CB.
    rewrite <- (Nat.div_unique (512 * i + j) 512 i j Hj eq_refl), <- (Nat.mod_unique (512 * i + j) 512 i j Hj eq_refl) in CB.
    destruct (Nat.ltb_spec (64 * (i / 8) + j / 8) (8 * length st)) as [X|X], (Nat.ltb_spec i 256) as [Y|Y].
    + now rewrite <- !div_32_8.
    + exfalso. apply CB in X. rewrite B1 in X. lia.
    + exfalso. assert (Z : (512 * i + j < 512 * 256)%nat) by lia. apply CB in Z. lia.
    + reflexivity.
Qed.

(** *** C109: the untouched result of watermarking such a channel with eleven features.  The watermark is read from the result as it was written; the last feature of the
    original is above 4.2, that of the result below 2; and the authenticator's answer is no - unless the signature also fits another vector. *)
Theorem C109_f64_the_front_ends_can_reject_their_own_picture : forall depth level, 17 <= depth <= 4096 -> byte level -> sinks depth level -> not_cut depth level -> not_cut depth (level - 1) ->
  exists marked features noised bits sig, watermark_channel Bops K E equalize_histogram features_of checks pad (spotted512 level) (f_of_Z Bops depth) one 11 3 = Ok marked
    /\ measures equalize_histogram features_of (spotted512 level) 11 features /\ measures equalize_histogram features_of marked 11 noised
    /\ sign E (vec_i64_to_bytes (integer_parts features)) PRIVATE_KEY PUBLIC_KEY = Ok sig
    /\ shows_watermark K marked (f_of_Z Bops depth) 3 (mkWatermark bits sig WATERMARK_TEXT)
    /\ (exists x x', nth_error features 10 = Some x /\ nth_error noised 10 = Some x' /\ (42 / 10 < toR x)%R /\ (toR x' < 2)%R)
    /\ (exists verdict, authenticate_channel Bops K E equalize_histogram features_of checks marked (f_of_Z Bops depth) one 11 3 = Ok verdict)
    /\ (authenticate_channel Bops K E equalize_histogram features_of checks marked (f_of_Z Bops depth) one 11 3 = Ok true ->
          exists other, length other = 11%nat /\ another_message other (integer_parts features) /\ verify E (vec_i64_to_bytes other) sig PUBLIC_KEY = Ok true)
    /\ (signs_only E sig (integer_parts features) -> authenticate_channel Bops K E equalize_histogram features_of checks marked (f_of_Z Bops depth) one 11 3 = Ok false).
Proof.
  intros depth level HD Hb Hsink Hcut Hcut'. assert (H2 : 2 <= level) by (destruct Hcut' as (X & _); unfold strongest in X; Z.to_euclidean_division_equations; lia).
  pose proof (spotted_picture level Hb ltac:(lia)) as Hg. destruct C83_512_is_usable as (_ & Hs & Hu & Hcap).
  destruct unit_one as (F1 & V1). fold one in F1, V1. destruct big as (B1 & B2).
  (* the original *)
  destruct (zernike_measures_f64 M HM gamma checks equalize_histogram (spotted512 level) 512 3 11 C76_equalisation_keeps_grey Hg ltac:(lia) Hs ltac:(lia)) as (A & fs & es & Hm & Hme & EA & SA & BA & RA & EgA & Lf & Cf & Bf).
  assert (Near : forall ch0 B (xs : list b64) ys, from_shape_vec 512 512 (equalize_histogram (gray_raw ch0)) = Ok B -> gwidth ch0 = 512%nat -> gheight ch0 = 512%nat ->
            measures equalize_histogram (fun image m => calculate_features (fun x => x) checks image MomentsZernike m) ch0 11 ys -> square_image B 512 -> Forall2 (close_to (/ 128)) xs ys ->
            exists x, nth_error xs 10 = Some x /\ (Rabs (toR x - Cmod (kappa * IZR (re_sum B), - (kappa * IZR (im_sum B)))) <= / 128)%R).
  { intros ch0 B xs ys EB G1 G2 (e & X1 & X2) SB Cl. rewrite G1, G2 in X1. assert (e = B) by congruence. subst e. pose proof (feature_top (fun x => x) checks B ys SB X2) as T.
    assert (Q : forall (l : list b64) l' k y, Forall2 (close_to (/ 128)) l l' -> nth_error l' k = Some y -> exists x, nth_error l k = Some x /\ close_to (/ 128) x y).
    { clear. intros l l' k y H. revert k. induction H as [|a b l l' Hab _ IH]; intros [|k] Hy; cbn [nth_error] in *; try discriminate; [exists a; split; [reflexivity|congruence]|now apply IH]. }
    destruct (Q _ _ _ _ Cl T) as (x & Ex & (_ & _ & Cx)). exists x. split; [exact Ex|exact Cx]. }
  destruct (Near _ A fs es EA eq_refl eq_refl Hme SA Cf) as (x & Ex & Cx). pose proof (feature_before A (equalised_before level A Hb ltac:(lia) SA RA)) as FB.
  assert (Hx : (424 / 100 <= toR x)%R) by (apply Rabs_le_inv in Cx; lra).
  assert (N1 : forall xs, Forall (fun x : b64 => fin x /\ (0 <= toR x <= 1000)%R) xs -> no_overflow Bops one checks xs).
  { intros xs B. apply (no_overflow_float one (unit_ordinary one V1)). eapply Forall_impl; [|exact (bounded_29 _ B)]. intros y (Fy & By). split; [exact Fy|]. rewrite V1. apply Rle_trans with (1 := By). simpl. lra. }
  pose proof (quantization_ok Bops one checks fs (N1 _ Bf)) as Eq. assert (Qx : quantize Bops fs one = integer_parts fs) by exact (quantize_is_integer_parts fs Bf). rewrite Qx in Eq. set (bits := flat_map (bits3 Bops one) fs) in *.
  destruct (quantization_inv Bops checks fs one (integer_parts fs) bits Eq) as (_ & _ & Lb). rewrite Lf in Lb.
  destruct (sign_verify E _ _ (vec_i64_to_bytes (integer_parts fs)) HE Hk) as (sig & Es & Ls & Bs & Ev).
  destruct (payload_of pad bits sig 11 Hpad Bs Ls Lb ltac:(lia)) as (pl & Ep & Bp & Lp & Edp).
  (* marking *)
  destruct (gray_array (spotted512 level) 512 3 Hg) as (im & Eim & Him & _). change (gwidth (spotted512 level)) with 512%nat in Eim. change (gheight (spotted512 level)) with 512%nat in Eim.
  destruct (spotted_cells level im Hb ltac:(lia) Eim) as (C & _).
  assert (Sz : (8 * stored_size 512 3 (length pl))%nat = carrying_blocks 512) by (rewrite Lp; exact stored_512_11).
  destruct (C88_f64_how_much_cutting_is_harmless K Hsh Hdec im 512 depth pl 0 ltac:(lia) Him Hu Bp ltac:(rewrite Lp; vm_compute; split; discriminate)) as (out & Eo & Po & X).
  { rewrite Lp. apply Nat.le_trans with (2 := Hcap). vm_compute. lia. }
  { intros bi bj Hi Hj _. exact (spotted_withstands depth level im ltac:(lia) Hcut Hcut' C bi bj Hi Hj). }
  specialize (X out Po). rewrite Sz in X. assert (Exx : extract Bops K out (f_of_Z Bops depth) 3 = Ok pl) by (apply X; intros bi bj _ _ _; rewrite Z.sub_diag; cbn; lia). clear X.
  destruct (array_gray out 512 3 Po) as (Gm & Fm). pose proof Po as ((Wo & O0 & O1 & _) & _).
  set (marked := mkGray 512 512 (into_raw_vec out)) in *.
  assert (W : watermark_channel Bops K E equalize_histogram features_of checks pad (spotted512 level) (f_of_Z Bops depth) one 11 3 = Ok marked).
  { exact (watermark_run Bops K E equalize_histogram features_of checks pad (spotted512 level) im 11 fs one (integer_parts fs) bits sig pl out (f_of_Z Bops depth) 3 Eim Hm Eq Es Ep Eo Wo O0 O1). }
  (* the marked channel *)
  destruct (marked_sinks depth level im pl out ltac:(lia) Hb H2 Hsink Eim Him Bp Lp Eo Po) as (m & Hsunk).
  destruct (zernike_measures_f64 M HM gamma checks equalize_histogram marked 512 3 11 C76_equalisation_keeps_grey Gm ltac:(lia) Hs ltac:(lia)) as (A' & fs' & es' & Hm' & Hme' & EA' & SA' & BA' & RA' & EgA' & Lf' & Cf' & Bf').
  destruct (Near _ A' fs' es' EA' eq_refl eq_refl Hme' SA' Cf') as (x' & Ex' & Cx').
  destruct (equalised_after level A' (into_raw_vec out) m Hsunk SA' RA') as (v & V2 & V3 & V4). pose proof (feature_after A' v V2 V3 V4) as FA.
  assert (Hx' : (toR x' <= 198 / 100)%R) by (apply Rabs_le_inv in Cx'; lra). clear Near.
  assert (Em : from_shape_vec (gwidth marked) (gheight marked) (gray_raw marked) = Ok out) by exact Fm.
  assert (Sh : shows_watermark K marked (f_of_Z Bops depth) 3 (mkWatermark bits sig WATERMARK_TEXT)) by (exists out, pl; split; [exact Em|]; split; [exact Exx|exact Edp]).
  destruct (C99_f64_the_verdict_whenever_the_watermark_is_read K E HE Hk M HM gamma checks (spotted512 level) marked 512 512 3 3 (f_of_Z Bops depth) 3 11 fs (integer_parts fs) bits sig WATERMARK_TEXT
              Hg Hs ltac:(lia) Gm Hs ltac:(lia) ltac:(lia) Hm Eq Es Sh) as (_ & nn & _ & (Verd & _)).
  assert (Forge : authenticate_channel Bops K E equalize_histogram features_of checks marked (f_of_Z Bops depth) one 11 3 = Ok true ->
            exists other, length other = 11%nat /\ another_message other (integer_parts fs) /\ verify E (vec_i64_to_bytes other) sig PUBLIC_KEY = Ok true).
  { intros Yes.
    assert (Ord : forall l, Forall (fun x : b64 => fin x /\ (0 <= toR x <= 1000)%R) l -> Forall (ordinary_feature one) l).
    { intros l Hl. eapply Forall_impl; [|exact (bounded_29 _ Hl)]. intros z (Fz & Bz). split; [exact Fz|]. rewrite V1, Rmult_1_r. exact Bz. }
    assert (Hst : (bpow radix2 (-500) <= toR one <= bpow radix2 500)%R) by (rewrite V1; split; [apply Rle_trans with (bpow radix2 0); [apply bpow_le; lia|simpl; lra]|apply Rle_trans with (bpow radix2 0); [simpl; lra|apply bpow_le; lia]]).
    destruct (C78_f64_nothing_far_from_the_original_authenticates K E equalize_histogram features_of checks (f_of_Z Bops depth) one 11 3 fs F1 Hst (Ord _ Bf) marked fs' Hm' (Ord _ Bf'))
      as (im2 & pl2 & w2 & r & Y1 & Y2 & Y3 & Y4 & Y5 & Y6); [|exact Yes|].
    - exists 10%nat, x, x'. split; [exact Ex|]. split; [exact Ex'|]. rewrite V1, Rmult_1_r. assert (bpow radix2 (-20) < / 8)%R by (apply Rlt_le_trans with (bpow radix2 (-3)); [apply bpow_lt; lia|simpl; lra]).
      rewrite Rabs_left by lra. lra.
    - rewrite Em in Y1. assert (im2 = out) by congruence. subst im2. assert (pl2 = pl) by congruence. subst pl2. rewrite Edp in Y3. assert (w2 = mkWatermark bits sig WATERMARK_TEXT) by congruence. subst w2.
      cbn [perturbation_vector Codecs.signature] in Y4, Y6. rewrite Qx in Y5. exists r. split; [|split; [exact Y5|exact Y6]].
      destruct (dequantization_near Bops checks fs' bits one r Y4) as (L1 & L3 & _). lia. }
  exists marked, fs, fs', bits, sig. split; [exact W|]. split; [exact Hm|]. split; [exact Hm'|]. split; [exact Es|]. split; [exact Sh|].
  split; [exists x, x'; split; [exact Ex|]; split; [exact Ex'|]; split; lra|].
  split; [exact Verd|]. split; [exact Forge|]. intros Only. destruct Verd as ([|] & Ve); [|exact Ve]. exfalso. destruct (Forge Ve) as (o & Lo & Ao & Vo).
  assert (Z : Ok true = Ok false).
  { rewrite <- Vo. apply Only; [exact Ao|]. rewrite Lo. unfold integer_parts. rewrite map_length. symmetry. exact Lf. }
  discriminate Z.
Qed.

(** Pictures whose colour channels are of this kind, given to the library function as both front ends do: each channel of the untouched result is rejected. *)
Theorem C109_f64_whole_pictures : forall depth image (colour : (rgba -> Z) -> Z), 17 <= depth <= 4096 -> well_formed image -> dimensions image = (512, 512)%nat ->
  (forall sel, In sel [ch1; ch2; ch3] -> component sel image = spotted512 (colour sel) /\ byte (colour sel) /\ sinks depth (colour sel) /\ not_cut depth (colour sel) /\ not_cut depth (colour sel - 1)) ->
  (forall features sig, sign E (vec_i64_to_bytes (integer_parts features)) PRIVATE_KEY PUBLIC_KEY = Ok sig ->
     (exists sel, In sel [ch1; ch2; ch3] /\ measures equalize_histogram features_of (component sel image) 11 features) -> signs_only E sig (integer_parts features)) ->
  exists result, watermark_image Bops K E equalize_histogram features_of checks pad image (f_of_Z Bops depth) one 11 = Ok result
    /\ forall sel, In sel [ch1; ch2; ch3] ->
         authenticate_channel Bops K E equalize_histogram features_of checks (component sel result) (f_of_Z Bops depth) one 11 3 = Ok false.
Proof.
  intros depth image colour HD Hw Ed Hc Only.
  assert (Ch : forall sel, In sel [ch1; ch2; ch3] -> exists m, watermark_channel Bops K E equalize_histogram features_of checks pad (component sel image) (f_of_Z Bops depth) one 11 3 = Ok m
            /\ authenticate_channel Bops K E equalize_histogram features_of checks m (f_of_Z Bops depth) one 11 3 = Ok false).
  { intros sel Hsel. destruct (Hc sel Hsel) as (Ec & Hb & Hdk & Hcut & Hcut').
    destruct (C109_f64_the_front_ends_can_reject_their_own_picture depth (colour sel) HD Hb Hdk Hcut Hcut') as (m & fs & ns & bits & sig & A & B & _ & S & _ & _ & _ & _ & D). rewrite <- Ec in A, B.
    exists m. split; [exact A|]. apply D. apply (Only fs sig S). exists sel. split; [exact Hsel|exact B]. }
  destruct (Ch ch1 ltac:(cbn; tauto)) as (m1 & W1 & A1). destruct (Ch ch2 ltac:(cbn; tauto)) as (m2 & W2 & A2). destruct (Ch ch3 ltac:(cbn; tauto)) as (m3 & W3 & A3).
  destruct (proj2 (proj2 (C42_watermark_returns_iff_the_channels_do b64 Bops K E equalize_histogram features_of checks pad image (f_of_Z Bops depth) one 11))) as (result & Er).
  { split; [exists m1; exact W1|]. intros _. split; [exists m2; exact W2|exists m3; exact W3]. }
  exists result. split; [exact Er|].
  destruct (C42_watermark_preserves_size_layout_and_alpha K E equalize_histogram features_of checks pad image (f_of_Z Bops depth) one 11 result Hw Er) as (_ & _ & _ & _ & _ & _ & H1 & H2 & H3).
  assert (m1 = component ch1 result) by congruence. assert (m2 = component ch2 result) by congruence. assert (m3 = component ch3 result) by congruence. subst m1 m2 m3.
  intros sel Hsel. cbn in Hsel. destruct Hsel as [ <- |[ <- |[ <- |[]]]]; assumption.
Qed.
End Rejects.


(** Which levels: at the depth of the command line 28 of the 256, at that of the web page 32. *)
Definition no_tie (depth sum : Z) : bool :=
  negb (sum mod (8 * depth) =? 4 * depth) && negb ((wanted depth true sum - sum) mod 64 =? 32) && negb ((wanted depth false sum - sum) mod 64 =? 32).
Definition sinking_levels (depth : Z) : list Z :=
  filter (fun v => no_tie depth (64 * v) && no_tie depth (64 * (v - 1))
    && (added depth true (64 * v) <? -1) && (added depth false (64 * v) <? -1) && (added depth true (64 * (v - 1)) <? 0) && (added depth false (64 * (v - 1)) <? 0)
    && (strongest depth <=? v - 1) && (v <=? 255 - strongest depth)) (map Z.of_nat (seq 0 256)).
Lemma no_tie_ok depth sum : no_tie depth sum = true <-> ~ tie depth sum.
Proof.
  unfold no_tie, tie. rewrite !andb_true_iff, !negb_true_iff, !Z.eqb_neq. split.
  - intros ((A & B) & C) [X|([|] & X)]; contradiction.
  - intros H. split; [split|]; intros X; apply H; [now left|right; now exists true|right; now exists false].
Qed.
Theorem C109_which_levels : forall depth level, In level (sinking_levels depth) <-> byte level /\ sinks depth level /\ not_cut depth level /\ not_cut depth (level - 1).
Proof.
  intros depth level. unfold sinking_levels. rewrite filter_In, in_map_iff. rewrite !andb_true_iff, !no_tie_ok, !Z.ltb_lt, !Z.leb_le. unfold sinks, not_cut, byte. split.
  - intros ((k & Hk & Hin) & (((((((A & B) & C) & D) & F) & G) & H) & I)). apply in_seq in Hin. split; [lia|]. split; [|lia]. split; [exact A|]. split; [exact B|]. intros [|]; split; assumption.
  - intros (Hb & (A & B & H) & F & G). split; [exists (Z.to_nat level); split; [lia|apply in_seq; lia]|]. destruct (H true), (H false). repeat split; try assumption; lia.
Qed.
Theorem C109_how_many_levels : length (sinking_levels (depth_of command_line)) = 28%nat /\ length (sinking_levels (depth_of web_page)) = 32%nat
  /\ In 80 (sinking_levels (depth_of command_line)) /\ In 80 (sinking_levels (depth_of web_page)).
Proof. repeat split; try (vm_compute; reflexivity); vm_compute; tauto. Qed.

(** ** Concrete case: the grey picture of levels 80 and 79 at the depth of either front end, under a signature scheme that accepts only what was signed. *)
Definition spots512 : dynimage := ImageRgba8 512 512 (map (fun k => if dark (k / 512 / 32) (k mod 512 / 32) then (79, 79, 79, 255) else (80, 80, 80, 255)) (seq 0 (512 * 512))).
Lemma spots512_wf : well_formed spots512.
Proof.
  assert (P : forall l, Forall pixel8 (map (fun k => if dark (k / 512 / 32) (k mod 512 / 32) then (79, 79, 79, 255) else (80, 80, 80, 255)) l)).
  { induction l as [|k l IH]; cbn [map]; constructor; [|exact IH]. destruct (dark _ _); unfold pixel8, byte; cbn; lia. }
  unfold well_formed, spots512. cbn [dimensions get_pixels has_alpha has_color]. split; [rewrite map_length; apply seq_length|]. split; [apply P|split; discriminate].
Qed.
Transparent spotted512.
Lemma spots512_channel sel : In sel [ch1; ch2; ch3] -> component sel spots512 = spotted512 80.
Proof.
  intros Hs. assert (P : forall l, map sel (map (fun k => if dark (k / 512 / 32) (k mod 512 / 32) then (79, 79, 79, 255) else (80, 80, 80, 255)) l) = map (fun k => if dark (k / 512 / 32) (k mod 512 / 32) then 80 - 1 else 80) l).
  { intros l. rewrite map_map. apply map_ext. intros k. cbn in Hs. destruct Hs as [ <- |[ <- |[ <- |[]]]]; destruct (dark _ _); reflexivity. }
  unfold component, spots512, spotted512. cbn [dimensions get_pixels fst snd]. now rewrite P.
Qed.
Opaque spotted512 spots512 watermark_image.
Example C109_instance : exists vector, let features_of := zernike_f64 exact_libm (fun x => x) true in let E := one_vector_ed vector in
  forall fe, In fe [command_line; web_page] ->
  exists result, watermark_image Bops toy_ldpc E equalize_histogram features_of true (repeat false 8) spots512 (f_of_Z Bops (depth_of fe)) (f_of_Z Bops 1) 11 = Ok result
    /\ forall sel, In sel [ch1; ch2; ch3] -> authenticate_channel Bops toy_ldpc E equalize_histogram features_of true (component sel result) (f_of_Z Bops (depth_of fe)) (f_of_Z Bops 1) 11 3 = Ok false.
Proof.
  destruct C83_512_is_usable as (_ & Hs & _). assert (B80 : byte 80) by (unfold byte; lia).
  destruct (zernike_measures_f64 exact_libm exact_libm_accurate (fun x => x) true equalize_histogram (spotted512 80) 512 3 11 C76_equalisation_keeps_grey (spotted_picture 80 B80 ltac:(lia)) ltac:(lia) Hs ltac:(lia)) as (_ & fs & _ & Hm & _ & _ & _ & _ & _ & _ & _ & _ & Bf).
  exists (integer_parts fs). intros features_of E fe Hfe.
  apply (C109_f64_whole_pictures toy_ldpc toy_shape toy_decodes E (one_vector_format _) (one_vector_keys _) exact_libm exact_libm_accurate (fun x => x) true (repeat false 8) eq_refl
           (depth_of fe) spots512 (fun _ => 80)).
  - destruct Hfe as [ <- |[ <- |[]]]; cbn [depth_of command_line web_page]; lia.
  - exact spots512_wf.
  - Transparent spots512. reflexivity. Opaque spots512.
  - intros sel Hsel. split; [now apply spots512_channel|]. apply (proj1 (C109_which_levels (depth_of fe) 80)). destruct C109_how_many_levels as (_ & _ & A & B). destruct Hfe as [ <- |[ <- |[]]]; assumption.
  - intros features sig Es (sel & Hsel & Hf). rewrite (spots512_channel sel Hsel) in Hf. assert (features = fs) by (destruct Hm as (e1 & X1 & X2), Hf as (e2 & Y1 & Y2); congruence). subst features.
    apply one_vector_only; [|exact Es]. rewrite <- quantize_is_integer_parts by exact Bf. apply quantize_i64.
Qed.

Print Assumptions C109_f64_the_front_ends_can_reject_their_own_picture.
Print Assumptions C109_f64_whole_pictures.
Print Assumptions C109_which_levels.
Print Assumptions C109_how_many_levels.
