(** Property C118: pictures that cannot be marked at the depths 6 to 15.  A block whose sum is close to a multiple of eight depths is not changed by the library's three levels,
    whatever the payload; so watermarking a mosaic whose colours are multiples of the depth returns Ok and the mosaic itself
    (lib/sia/rust/embedding/src/lib.rs: embed, extract; lib/sia/rust/watermarking/src/lib.rs: watermark; lib/sia/rust/watermarking/src/process.rs: watermark_channel). *)
From Coq Require Import Reals Lra.
From Flocq Require Import Core BinarySingleNaN.
From Verif Require Import Outcome Floats FloatFacts Bits ListFacts Quantization QuantProofs QuantReal QuantFloat PropsQuant PropsQuant2 Codecs CodecProofs WatermarkProofs PropsCodec
  Encoding EncodingProofs PropsEncoding Matrix MatrixFacts Haar HaarProofs HaarReal HaarFloat PropsHaar Stego StegoProofs StegoMarks PropsStego Embedding EmbeddingProofs EmbeddingEffect PropsEmbedding PropsEmbedding2 PropsEmbedding3 PropsRobust
  Signature Process ProcessProofs Toy Zernike ZernikeProofs PropsZernike ZernikeBound PropsZernike2 ZernikeGen PropsZernikeF64 LibmSpec LibmExact PropsZernikeAcc
  PropsProcess PropsProcess2 Image PropsImage PropsProcess3 PropsProcess4 PropsProcess5 PropsProcess6 PropsTamper Equalize PropsEqualize PropsShipped PropsShipped2 PropsInteger PropsClipping PropsClipping2 PropsRepair PropsRepair2 PropsVerdict PropsUnused PropsForged PropsBright PropsBlockwise PropsFaint.
Open Scope Z_scope.

(** ** Specification vocabulary *)
(** A sum within 31 - 2 depth of a multiple of eight depths (for depths above 15 there is none). *)
Definition near_centre (depth sum : Z) : Prop := exists k, Z.abs (sum - 8 * depth * k) <= 31 - 2 * depth.
Definition blocks_near_centres (depth : Z) (g : gray) (n : nat) : Prop := forall bi bj, (bi < n / 8)%nat -> (bj < n / 8)%nat -> near_centre depth (block_sum g n bi bj).
(** A mosaic: all pixels of an 8x8 block have the same value, a multiple of the depth. *)
Definition mosaic (depth : Z) (g : gray) (n : nat) : Prop := forall bi bj, (bi < n / 8)%nat -> (bj < n / 8)%nat -> exists k, gray_block g n bi bj = repeat (depth * k) 64.

(** ** Proofs *)
Lemma near_is_small D sum b r amount : 1 <= D -> near_centre D sum -> Z.abs (sum - 8 * D * r) <= 4 * D -> 6 <= D ->
  Z.abs (64 * amount - (8 * D * r + (if b : bool then 2 * D else - (2 * D)) - sum)) <= 32 -> amount = 0.
Proof.
  intros H1 (k & Hk) Hr H6 Ha. assert (HD : D <= 15) by lia. assert (r = k). { assert (Q : 8 * D * (r - k) = 8 * D * r - 8 * D * k) by lia. assert (L : Z.abs (8 * D * (r - k)) < 8 * D) by lia. clear -L H6. nia. }
  subst r. destruct b; lia.
Qed.

(** *** A block near a centre is never marked. *)
Theorem C118_f64_a_block_near_a_centre_is_not_marked : forall K image n depth payload marked, 6 <= depth -> picture image n 3 ->
  embed Bops K image payload (f_of_Z Bops depth) 3 = Ok marked ->
  forall bi bj, (bi < n / 8)%nat -> (bj < n / 8)%nat -> near_centre depth (block_total image 3 bi bj) ->
  forall i j, (i / 8 = bi)%nat -> (j / 8 = bj)%nat -> cell marked i j = cell image i j.
Proof.
  intros K m n D pl out HD Hp E bi bj Hi Hj Hnear i j Di Dj. assert (D15 : D <= 15) by (destruct Hnear as (k & Hk); lia).
  destruct (C86_f64_every_block K m n D pl out ltac:(lia) Hp E) as (frame & stored & _ & _ & H). specialize (H bi bj Hi Hj). cbv zeta in H. destruct H as (Hu & Hm).
  destruct (Nat.le_gt_cases (8 * length stored) (n / 8 * bi + bj)) as [L|L]; [exact (Hu L i j Di Dj)|]. destruct (Hm L) as (r & Hr & Hc). clear Hu Hm.
  pose proof Hp as (Hcar & H8). pose proof Hcar as (Wf & D0 & D1 & Hmod & _). change (2 ^ 3)%nat with 8%nat in Hmod.
  assert (En : n = (8 * (n / 8))%nat) by (pose proof (Nat.div_mod n 8 ltac:(lia)); lia).
  assert (Li : (i < n)%nat) by (pose proof (Nat.div_mod i 8 ltac:(lia)); pose proof (Nat.mod_upper_bound i 8 ltac:(lia)); lia).
  assert (Lj : (j < n)%nat) by (pose proof (Nat.div_mod j 8 ltac:(lia)); pose proof (Nat.mod_upper_bound j 8 ltac:(lia)); lia).
  destruct (cell_bounds m i j Wf) as (v & Ev); [lia|lia|]. destruct (Hc i j v Di Dj Ev) as (a & Ha & Ea).
  assert (a = 0) by (exact (near_is_small D _ _ r a ltac:(lia) Hnear Hr HD Ha)). subst a. rewrite Ea, Ev, Z.add_0_r. f_equal.
  pose proof (image8_cell m i j v H8 Ev) as B. unfold clamp, byte in *. lia.
Qed.

Theorem C118_f64_pictures_that_cannot_be_marked : forall K image n depth payload marked, 6 <= depth -> picture image n 3 ->
  (forall bi bj, (bi < n / 8)%nat -> (bj < n / 8)%nat -> near_centre depth (block_total image 3 bi bj)) ->
  embed Bops K image payload (f_of_Z Bops depth) 3 = Ok marked -> marked = image.
Proof.
  intros K m n D pl out HD Hp Hall E. pose proof Hp as (Hcar & _). pose proof Hcar as (Wf & D0 & D1 & Hmod & _). change (2 ^ 3)%nat with 8%nat in Hmod.
  destruct (C35_embed_keeps_the_shape K m pl (f_of_Z Bops D) 3 out Wf E) as ((Wo & _) & O0 & O1).
  apply array2_ext; auto. intros i j Hi Hj. rewrite O0, D0 in Hi. rewrite O1, D1 in Hj.
  assert (Bi : (i / 8 < n / 8)%nat) by (apply Nat.div_lt_upper_bound; [lia|]; pose proof (Nat.div_mod n 8 ltac:(lia)); lia).
  assert (Bj : (j / 8 < n / 8)%nat) by (apply Nat.div_lt_upper_bound; [lia|]; pose proof (Nat.div_mod n 8 ltac:(lia)); lia).
  exact (C118_f64_a_block_near_a_centre_is_not_marked K m n D pl out HD Hp E _ _ Bi Bj (Hall _ _ Bi Bj) i j eq_refl eq_refl).
Qed.

(** *** From depth 17 on there is no such picture: what is embedded can be read (given room to black and white). *)
Theorem C118_f64_from_17_on_marks_can_be_read : forall K, ldpc_shape K -> ldpc_decodes K -> forall image n depth payload, 17 <= depth <= 2 ^ 20 ->
  picture image n 3 -> usable n 3 -> bytes payload -> 1 <= Z.of_nat (length payload) <= 65533 ->
  (stored_size n 3 (length payload) <= band_capacity n 3)%nat -> room image n 3 (8 * stored_size n 3 (length payload)) (3 * IZR depth / 32) ->
  exists marked, embed Bops K image payload (f_of_Z Bops depth) 3 = Ok marked /\ picture marked n 3 /\ extract Bops K marked (f_of_Z Bops depth) 3 = Ok payload.
Proof.
  intros K Hsh Hdec m n D pl HD Hp Hu Hb Hl Hcap Hroom. destruct (b_of_Z_ok D) as (Fd & Vd); [lia|]. change (b_of_Z D) with (f_of_Z Bops D) in *.
  apply (C31_f64_embed_then_extract_returns_the_payload K Hsh Hdec m n 3 (f_of_Z Bops D) pl Hp ltac:(lia) Hu Hb Hl Hcap Fd).
  - rewrite Vd. assert (17 <= IZR D <= 1048576)%R by (split; [apply (IZR_le 17)|apply (IZR_le _ 1048576)]; lia). simpl. lra.
  - rewrite Vd. replace (2 ^ (3 + 2))%R with 32%R by (simpl; lra). exact Hroom.
Qed.

(** *** Whole pictures *)
Lemma unmarked_channel K E eq fo checks pad ch n (step : b64) depth amount m : 6 <= depth -> gray_picture ch n 3 -> blocks_near_centres depth ch n ->
  watermark_channel Bops K E eq fo checks pad ch (f_of_Z Bops depth) step amount 3 = Ok m ->
  forall k v w, nth_error (gray_raw ch) k = Some v -> nth_error (gray_raw m) k = Some w -> v = w.
Proof.
  intros HD Hg Hnear H k v w Ev Ew. pose proof Hg as (Wd & Hh & Hl & _ & Hmod & HL & Hr).
  destruct (gray_array ch n 3 Hg) as (im & Eim & Hp & Hcell).
  apply watermark_inv in H as (im' & fs & q & bits & sig & pl & out & H1 & _ & _ & _ & _ & H6 & ->).
  assert (im' = im) by congruence. subst im'. cbn [gray_raw] in Ew. clear H1.
  assert (Fim : from_shape_vec n n (gray_raw ch) = Ok im) by (rewrite <- Eim, Wd, Hh; reflexivity).
  assert (out = im). { apply (C118_f64_pictures_that_cannot_be_marked K im n depth pl out HD Hp); [|exact H6]. intros bi bj Hi Hj. rewrite (block_sum_total ch n im bi bj Hg Fim Hi Hj). now apply Hnear. }
  subst out. destruct (array_gray im n 3 Hp) as (Gm & Fm). destruct (gray_array _ n 3 Gm) as (om & Eom & _ & Ocell). cbn [gwidth gheight gray_raw] in Eom.
  assert (om = im) by congruence. subst om.
  assert (Hk : (k < n * n)%nat) by (rewrite <- Hl; apply nth_error_Some; congruence).
  assert (Hn : n <> 0%nat) by (intros ->; lia).
  pose proof (Nat.div_mod k n Hn) as Dm. pose proof (Nat.mod_upper_bound k n Hn) as Mb.
  assert (Hd : (k / n < n)%nat) by (apply Nat.div_lt_upper_bound; lia).
  assert (C1 : cell im (k / n)%nat (k mod n)%nat = Some v) by (rewrite Hcell by assumption; unfold gray_pixel; now rewrite <- Dm).
  assert (C2 : cell im (k / n)%nat (k mod n)%nat = Some w) by (rewrite Ocell by assumption; unfold gray_pixel; cbn [gray_raw]; now rewrite <- Dm).
  congruence.
Qed.

Section Unmarked.
Context (K : ldpc) (Hsh : ldpc_shape K) (Hdec : ldpc_decodes K) (E : ed25519) (HE : signature_format E) (Hk : key_pair E PRIVATE_KEY PUBLIC_KEY).
Context (M : libm b64) (HM : accurate M) (gamma : b64 -> b64) (checks : bool) (pad : list bool) (Hpad : length pad = 8%nat).
Let features_of := zernike_f64 M gamma checks.
Let one : b64 := f_of_Z Bops 1.

Theorem C118_f64_watermarking_changes_nothing : forall image n depth, 6 <= depth ->
  well_formed image -> dimensions image = (n, n) -> (n mod 8 = 0)%nat -> side_ok n -> usable n 3 -> (stored_size n 3 (payload_size 11) <= band_capacity n 3)%nat ->
  (forall sel, In sel [ch1; ch2; ch3] -> blocks_near_centres depth (component sel image) n) ->
  exists result, watermark_image Bops K E equalize_histogram features_of checks pad image (f_of_Z Bops depth) one 11 = Ok result
    /\ dimensions result = dimensions image /\ get_pixels result = get_pixels image.
Proof.
  intros image n depth HD Hw Ed Hm8 Hs Hu Hcap Hnear.
  assert (Hr : Z.of_nat (n * n) < 2 ^ 53) by (unfold side_ok in Hs; rewrite Nat2Z.inj_mul; nia).
  assert (Gp : forall sel, sel = ch1 \/ sel = ch2 \/ sel = ch3 -> gray_picture (component sel image) n 3) by (intros sel Hsel; now apply component_picture).
  assert (Ch : forall sel, sel = ch1 \/ sel = ch2 \/ sel = ch3 -> exists marked, watermark_channel Bops K E equalize_histogram features_of checks pad (component sel image) (f_of_Z Bops depth) one 11 3 = Ok marked).
  { intros sel Hsel. apply (faint_channel K Hsh Hdec E HE Hk M HM gamma checks pad Hpad (f_of_Z Bops depth) _ n (Gp sel Hsel) Hs Hu Hcap). }
  destruct (C42_watermark_returns_iff_the_channels_do b64 Bops K E equalize_histogram features_of checks pad image (f_of_Z Bops depth) one 11) as (_ & (_ & Ret)).
  destruct Ret as (result & H); [split; [apply Ch; auto|intros _; split; apply Ch; auto]|]. exists result. split; [exact H|].
  destruct (C42_watermark_preserves_size_layout_and_alpha K E equalize_histogram features_of checks pad image (f_of_Z Bops depth) one 11 result Hw H) as (D & X2 & X3 & X4 & X5 & Ha & H1 & H2 & H3).
  split; [exact D|].
  assert (S : forall sel, sel = ch1 \/ sel = ch2 \/ sel = ch3 -> watermark_channel Bops K E equalize_histogram features_of checks pad (component sel image) (f_of_Z Bops depth) one 11 3 = Ok (component sel result) ->
              forall k p q, nth_error (get_pixels image) k = Some p -> nth_error (get_pixels result) k = Some q -> sel p = sel q).
  { intros sel Hsel Hc k p q Ep Eq.
    apply (unmarked_channel K E equalize_histogram features_of checks pad (component sel image) n one depth 11 (component sel result) HD (Gp sel Hsel) (Hnear sel ltac:(cbn; intuition auto)) Hc k);
      unfold component; cbn [gray_raw]; rewrite nth_error_map; [now rewrite Ep|now rewrite Eq]. }
  apply nth_error_ext. intros k.
  assert (L : length (get_pixels result) = length (get_pixels image)) by (rewrite <- (map_length ch4 (get_pixels result)), Ha, map_length; reflexivity).
  destruct (nth_error (get_pixels image) k) as [p|] eqn:Ep; [|apply nth_error_None; apply nth_error_None in Ep; lia].
  destruct (nth_error (get_pixels result) k) as [q|] eqn:Eq; [|apply nth_error_None in Eq; assert (k < length (get_pixels image))%nat by (apply nth_error_Some; congruence); lia].
  pose proof (S ch1 (or_introl eq_refl) H1 k p q Ep Eq) as C1. pose proof (S ch2 (or_intror (or_introl eq_refl)) H2 k p q Ep Eq) as C2. pose proof (S ch3 (or_intror (or_intror eq_refl)) H3 k p q Ep Eq) as C3.
  pose proof (map_nth_error ch4 k _ Eq) as A. rewrite Ha in A. rewrite (map_nth_error ch4 k _ Ep) in A.
  destruct p as (((p1 & p2) & p3) & p4), q as (((q1 & q2) & q3) & q4). cbn [ch1 ch2 ch3 ch4] in *. congruence.
Qed.

Lemma mosaic_near depth g n : 0 <= depth <= 15 -> mosaic depth g n -> blocks_near_centres depth g n.
Proof.
  intros HD Hm bi bj Hi Hj. destruct (Hm bi bj Hi Hj) as (k & Ek). exists (8 * k). unfold block_sum. rewrite Ek.
  assert (R : forall c v, fold_right Z.add 0 (repeat v c) = Z.of_nat c * v) by (induction c as [|c IH]; intros v; [reflexivity|]; cbn [repeat fold_right]; rewrite IH; lia).
  rewrite R. change (Z.of_nat 64) with 64. lia.
Qed.
Theorem C118_f64_mosaics_stay_unmarked : forall image n depth, 6 <= depth <= 15 ->
  well_formed image -> dimensions image = (n, n) -> (n mod 8 = 0)%nat -> side_ok n -> usable n 3 -> (stored_size n 3 (payload_size 11) <= band_capacity n 3)%nat ->
  (forall sel, In sel [ch1; ch2; ch3] -> mosaic depth (component sel image) n) ->
  exists result, watermark_image Bops K E equalize_histogram features_of checks pad image (f_of_Z Bops depth) one 11 = Ok result
    /\ dimensions result = dimensions image /\ get_pixels result = get_pixels image.
Proof.
  intros image n depth HD Hw Ed Hm8 Hs Hu Hcap Hmos. apply (C118_f64_watermarking_changes_nothing image n depth ltac:(lia) Hw Ed Hm8 Hs Hu Hcap). intros sel Hsel. apply mosaic_near; [lia|]. now apply Hmos.
Qed.
End Unmarked.

(** ** The hypotheses are met: the coloured picture of the other examples at depth 6, and a mosaic, black on the left and white on the right, at depth 15. *)
Opaque watermark_image.
Example C118_instance : exists result,
  watermark_image Bops toy_ldpc toy_ed equalize_histogram (zernike_f64 exact_libm (fun x => x) true) true (repeat false 8) colour512 (f_of_Z Bops 6) (f_of_Z Bops 1) 11 = Ok result
  /\ get_pixels result = get_pixels colour512.
Proof.
  destruct C83_512_is_usable as (A & B & C & D). assert (Ed : dimensions colour512 = (512, 512)%nat) by reflexivity.
  destruct (C118_f64_watermarking_changes_nothing toy_ldpc toy_shape toy_decodes toy_ed toy_format toy_keys exact_libm exact_libm_accurate (fun x => x) true (repeat false 8) eq_refl colour512 512 6
    ltac:(lia) colour512_wf Ed A B C D) as (result & H1 & _ & H2); [|exists result; now split].
  intros sel Hsel bi bj Hi Hj.
  assert (Eb : block_sum (component sel colour512) 512 bi bj = 64 * sel (100, 128, 150, 77)).
  { rewrite colour512_component, block_sum_dsum. rewrite (PropsClipping.dsum_ext _ (fun _ _ => sel (100, 128, 150, 77))); [rewrite PropsClipping.dsum_const; lia|].
    intros p q Hp Hq. cbn [gray_raw]. apply nth_error_nth. apply nth_error_repeat. change (512 / 8)%nat with 64%nat in Hi, Hj. clear -Hi Hj Hp Hq. nia. }
  rewrite Eb. cbn in Hsel. destruct Hsel as [ <- |[ <- |[ <- |[]]]]; cbn [ch1 ch2 ch3]; [exists 133|exists 171|exists 200]; lia.
Qed.
Definition halves (n : nat) : dynimage := ImageRgba8 n n (map (fun k => if (k mod n <? n / 16 * 8)%nat then (0, 0, 0, 255) else (255, 255, 255, 255)) (seq 0 (n * n))).
Lemma halves_wf n : well_formed (halves n).
Proof.
  unfold well_formed, halves. cbn [dimensions get_pixels has_alpha has_color]. split; [now rewrite map_length, seq_length|]. split; [|split; discriminate].
  apply Forall_forall. intros p Hp. apply in_map_iff in Hp as (k & <- & _). destruct (_ <? _)%nat; unfold pixel8, byte; cbn; lia.
Qed.
Lemma halves_mosaic n sel : In sel [ch1; ch2; ch3] -> (n mod 8 = 0)%nat -> (8 <= n)%nat -> mosaic 15 (component sel (halves n)) n.
Proof.
  intros Hsel Hm Hn bi bj Hi Hj. assert (En : n = (8 * (n / 8))%nat) by (pose proof (Nat.div_mod n 8 ltac:(lia)); lia).
  assert (X : forall p q, (p < 8)%nat -> (q < 8)%nat -> nth (n * (8 * bi + p) + (8 * bj + q)) (gray_raw (component sel (halves n))) 0 = if (bj <? n / 16)%nat then 0 else 255).
  { intros p q Hp Hq. unfold component, halves. cbn [gray_raw get_pixels dimensions fst snd]. rewrite map_map. rewrite nth_map_seq by nia.
    assert (K2 : ((n * (8 * bi + p) + (8 * bj + q)) mod n = 8 * bj + q)%nat) by (rewrite (Nat.add_comm (n * _)), (Nat.mul_comm n), Nat.mod_add, Nat.mod_small by lia; lia).
    rewrite K2. assert (C : (8 * bj + q <? n / 16 * 8)%nat = (bj <? n / 16)%nat) by (generalize (n / 16)%nat; intros z; destruct (Nat.ltb_spec bj z), (Nat.ltb_spec (8 * bj + q) (z * 8)); try reflexivity; lia).
    rewrite C. clear -Hsel. destruct (bj <? n / 16)%nat; cbn in Hsel; destruct Hsel as [ <- |[ <- |[ <- |[]]]]; reflexivity. }
  exists (if (bj <? n / 16)%nat then 0 else 17). unfold gray_block. cbn [seq flat_map map app]. rewrite !X by lia. destruct (bj <? n / 16)%nat; reflexivity.
Qed.
Example C118_instance_mosaic : exists result,
  watermark_image Bops toy_ldpc toy_ed equalize_histogram (zernike_f64 exact_libm (fun x => x) true) true (repeat false 8) (halves 512) (f_of_Z Bops 15) (f_of_Z Bops 1) 11 = Ok result
  /\ get_pixels result = get_pixels (halves 512).
Proof.
  destruct C83_512_is_usable as (A & B & C & D). assert (Ed : dimensions (halves 512) = (512, 512)%nat) by reflexivity.
  destruct (C118_f64_mosaics_stay_unmarked toy_ldpc toy_shape toy_decodes toy_ed toy_format toy_keys exact_libm exact_libm_accurate (fun x => x) true (repeat false 8) eq_refl (halves 512) 512 15
    ltac:(lia) (halves_wf 512) Ed A B C D) as (result & H1 & _ & H2); [|exists result; now split].
  intros sel Hsel. apply halves_mosaic; [exact Hsel|reflexivity|lia].
Qed.

Print Assumptions C118_f64_a_block_near_a_centre_is_not_marked.
Print Assumptions C118_f64_pictures_that_cannot_be_marked.
Print Assumptions C118_f64_from_17_on_marks_can_be_read.
Print Assumptions C118_f64_watermarking_changes_nothing.
Print Assumptions C118_f64_mosaics_stay_unmarked.
