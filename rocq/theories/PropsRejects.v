(** Property C107: the program can reject what it has just signed.  A flat channel of 512 x 512 pixels, of one of many grey levels, watermarked with one feature and
    shown to the authenticator untouched: the watermark is read without an error and the verdict is no (lib/sia/rust/watermarking/src/process.rs: watermark_channel,
    authenticate_channel; lib/sia/rust/utils/src/lib.rs and the image crate's equalize_histogram as modelled in Equalize.v). *)
From Coq Require Import Reals Lra.
From Flocq Require Import Core BinarySingleNaN.
From Coquelicot Require Import Complex.
From Verif Require Import Outcome Floats FloatFacts Bits ListFacts Quantization QuantProofs QuantReal QuantFloat PropsQuant PropsQuant2 Codecs CodecProofs WatermarkProofs PropsCodec
  Encoding EncodingProofs PropsEncoding Matrix MatrixFacts Haar HaarProofs HaarReal HaarFloat PropsHaar Stego StegoProofs StegoMarks PropsStego Embedding EmbeddingProofs EmbeddingEffect PropsEmbedding PropsEmbedding2 PropsEmbedding3 PropsRobust
  Signature Process ProcessProofs Toy Zernike ZernikeProofs PropsZernike ZernikeBound PropsZernike2 ZernikeGen PropsZernikeF64 LibmSpec LibmExact PropsZernikeAcc
  PropsProcess PropsProcess2 Image PropsImage PropsProcess3 PropsProcess4 PropsProcess5 PropsProcess6 PropsTamper Equalize PropsEqualize PropsShipped PropsShipped2 PropsInteger PropsClipping PropsClipping2 PropsRepair PropsRepair2 PropsVerdict PropsUnused PropsSound RelError EqualizeProofs.
Open Scope Z_scope.

(** ** Specification vocabulary *)
Definition flat512 (level : Z) : gray := mkGray 512 512 (repeat level (512 * 512)).
(** A flat block of this level is made darker to store a bit, whichever bit it is. *)
Definition darkens (depth level : Z) : Prop := ~ tie depth (64 * level) /\ forall bit, added depth bit (64 * level) < 0.
(** The levels whose pixels are not cut off at black or white. *)
Definition not_cut (depth level : Z) : Prop := strongest depth <= level <= 255 - strongest depth.

(** ** Helpers: the linear moment *)
Lemma sumn_le n f g : (forall i, (i < n)%nat -> (f i <= g i)%R) -> (sumn n f <= sumn n g)%R.
Proof. induction n; intros H; cbn [sumn]; [lra|]. apply Rplus_le_compat; [apply IHn; intros; apply H; lia|apply H; lia]. Qed.

Lemma position_sign h i : (i < 2 * h)%nat -> ((i < h)%nat -> (position (2 * h) i < 0)%R) /\ ((h <= i)%nat -> (0 < position (2 * h) i)%R).
Proof.
  intros Hi. unfold position. set (N := INR (2 * h)). assert (HN : (2 <= N)%R) by (unfold N; change 2%R with (INR 2); apply le_INR; lia).
  assert (HNh : N = (2 * INR h)%R) by (unfold N; rewrite mult_INR; reflexivity).
  assert (Hs2 : (0 < sqrt 2)%R) by (apply sqrt_lt_R0; lra).
  assert (Hq : (0 < / (N - 1) / sqrt 2)%R) by (apply Rdiv_lt_0_compat; [apply Rinv_0_lt_compat; lra|exact Hs2]).
  replace ((2 * INR i / (N - 1) - 1) / sqrt 2)%R with ((2 * INR i - (N - 1)) * (/ (N - 1) / sqrt 2))%R by (field; split; lra).
  split; intros H.
  - assert (X : (INR i + 1 <= INR h)%R) by (rewrite <- S_INR; apply le_INR; lia). nra.
  - assert (X : (INR h <= INR i)%R) by (apply le_INR; lia). nra.
Qed.

Lemma linear_moment g checks A h : (1 <= h)%nat -> square_image A (2 * h) -> exists z, calculate_features g checks A MomentsZernike 1 = Ok [Cmod z]
  /\ fst z = (2 / (PI * INR (2 * h) ^ 2) * sumn (2 * h) (fun i => sumn (2 * h) (fun j => pix A i j * position (2 * h) i)))%R.
Proof.
  intros Hh SA. set (n := (2 * h)%nat) in *.
  destruct (C44_number_and_indices_of_features g checks A 1 ltac:(unfold amount_ok; lia)) as (fs & Ef & Lf & Hf).
  { exact (proj1 (proj1 SA)). } { destruct SA as ((_ & -> & ->) & _). lia. }
  destruct (Hf 0%nat ltac:(lia)) as (z & Ez & En). destruct fs as [|x [|]]; try discriminate Lf. cbn [nth_error] in En. assert (Ex : x = Cmod z) by congruence. subst x.
  exists z. split; [exact Ef|].
  change (2 * 1 - 1)%nat with 1%nat in Ez. change (2 * 0 + 1)%nat with 1%nat in Ez.
  pose proof (C44_moments_are_zernike_moments g A n 1 1 SA ltac:(lia) eq_refl eq_refl ltac:(lia)) as M. cbv zeta in M. rewrite Ez in M.
  match type of M with Ok z = Ok (?a, ?b) => assert (Fz : fst z = a) by (replace z with (a, b) by congruence; reflexivity) end. clear M Ez.
  rewrite Fz. replace (INR 1 + 1)%R with 2%R by (simpl; lra). f_equal. rewrite sum_over_sumn. apply sumn_ext. intros i Hi. rewrite sum_over_sumn. apply sumn_ext. intros j Hj. cbv beta.
  assert (Er : radial_polynomial 1 1 (sqrt (position n i ^ 2 + position n j ^ 2)) = sqrt (position n i ^ 2 + position n j ^ 2)).
  { unfold radial_polynomial, sum_over. simpl. field. }
  rewrite Er. cbn [complex_power fst]. set (r := sqrt _).
  assert (Hp : position n i <> 0%R).
  { destruct (position_sign h i Hi) as (P1 & P2). fold n in P1, P2. destruct (Nat.lt_ge_cases i h) as [X|X]; [specialize (P1 X)|specialize (P2 X)]; lra. }
  assert (Hr : (0 < r)%R) by (apply sqrt_lt_R0; assert (0 < position n i ^ 2)%R by (rewrite <- Rsqr_pow2; now apply Rsqr_pos_lt); assert (0 <= position n j ^ 2)%R by (rewrite <- Rsqr_pow2; apply Rle_0_sqr); lra).
  replace (r * (1 * (position n i / r) - 0 * (position n j / r)))%R with (position n i) by (field; lra). reflexivity.
Qed.

Lemma dark_above_white g checks A h : (1 <= h)%nat -> square_image A (2 * h) ->
  (forall i j, (i < h)%nat -> (j < 2 * h)%nat -> (pix A i j <= 127)%R) -> (forall i j, (h <= i < 2 * h)%nat -> (j < 2 * h)%nat -> pix A i j = 255%R) ->
  exists x, calculate_features g checks A MomentsZernike 1 = Ok [x] /\ (14 < x)%R.
Proof.
  intros Hh SA Hup Hlo. destruct (linear_moment g checks A h Hh SA) as (z & Ef & Fz). exists (Cmod z). split; [exact Ef|].
  set (n := (2 * h)%nat) in *. set (N := INR n) in *. assert (HN : (2 <= N)%R) by (unfold N; change 2%R with (INR 2); apply le_INR; lia).
  assert (HNh : N = (2 * INR h)%R) by (unfold N, n; rewrite mult_INR; reflexivity).
  assert (Hs2 : (0 < sqrt 2 < 1415 / 1000)%R).
  { split; [apply sqrt_lt_R0; lra|]. apply Rsqr_incrst_0; [|apply sqrt_pos|lra]. unfold Rsqr. rewrite sqrt_sqrt by lra. lra. }
  assert (S : (128 * N * INR h ^ 2 / (N - 1) / sqrt 2 <= sumn n (fun i => sumn n (fun j => pix A i j * position n i)))%R).
  { apply Rle_trans with (sumn n (fun i => (if Nat.ltb i h then 127 else 255) * N / (N - 1) / sqrt 2 * (2 * INR i - (N - 1)))%R).
    - right. unfold n. replace (2 * h)%nat with (h + h)%nat by lia. rewrite sumn_plus.
      rewrite (sumn_ext h _ (fun i => 127 * N / (N - 1) / sqrt 2 * (2 * INR i - (N - 1)))%R) by (intros i Hi; cbv beta; now rewrite (proj2 (Nat.ltb_lt i h) Hi)).
      rewrite (sumn_ext h (fun k => _ * (2 * INR (h + k) - _))%R (fun i => 255 * N / (N - 1) / sqrt 2 * (2 * INR i - (N - 1 - 2 * INR h)))%R).
      2:{ intros i Hi. cbv beta. rewrite (proj2 (Nat.ltb_ge (h + i) h)) by lia. rewrite plus_INR. ring. }
      rewrite !sumn_linear. rewrite HNh. field. repeat split; lra.
    - apply sumn_le. intros i Hi. apply Rle_trans with (sumn n (fun _ => (if Nat.ltb i h then 127 else 255) * position n i)%R).
      + right. rewrite sumn_const. fold N. unfold position. fold N. field. split; lra.
      + apply sumn_le. intros j Hj. destruct (position_sign h i Hi) as (P1 & P2). fold n in P1, P2. destruct (Nat.ltb_spec i h) as [X|X].
        * specialize (P1 X). specialize (Hup i j X Hj). nra.
        * rewrite (Hlo i j) by lia. lra. }
  assert (B : (14 < fst z)%R).
  { rewrite Fz. pose proof PI_bounds as HP.
    apply Rlt_le_trans with (2 / (PI * N ^ 2) * (128 * N * INR h ^ 2 / (N - 1) / sqrt 2))%R.
    2:{ apply Rmult_le_compat_l; [|exact S]. left. apply Rdiv_lt_0_compat; [lra|]. apply Rmult_lt_0_compat; [lra|]. apply pow_lt. lra. }
    replace (2 / (PI * N ^ 2) * (128 * N * INR h ^ 2 / (N - 1) / sqrt 2))%R with (64 / (PI * sqrt 2) * (N / (N - 1)))%R.
    - assert (H1 : (1 <= N / (N - 1))%R) by (apply Rmult_le_reg_r with (N - 1)%R; [lra|]; unfold Rdiv; rewrite Rmult_assoc, Rinv_l by lra; lra).
      assert (Hps : (0 < PI * sqrt 2 < 4446 / 1000)%R) by (split; [apply Rmult_lt_0_compat; lra|nra]).
      assert (H2 : (14 < 64 / (PI * sqrt 2))%R) by (apply Rmult_lt_reg_r with (PI * sqrt 2)%R; [lra|]; unfold Rdiv; rewrite Rmult_assoc, Rinv_l by lra; lra).
      nra.
    - replace (INR h) with (N / 2)%R by lra. field. repeat split; lra. }
  apply Rlt_le_trans with (fst z); [exact B|]. apply Rle_trans with (Rabs (fst z)); [apply Rle_abs|]. eapply Rle_trans; [|apply Rmax_Cmod]. apply Rmax_l.
Qed.

(** Equalisation: the half that is darker than the other, flat, half stays below the middle, and the flat half becomes white. *)
Lemma half_equalised up v m : bytes up -> length up = m -> (1 <= m)%nat -> 2 * Z.of_nat m <= 2 ^ 24 -> byte v -> Forall (fun p => p < v) up ->
  let l := up ++ repeat v m in
  (forall k, (k < m)%nat -> nth k (equalize_histogram l) 0 <= 127) /\ (forall k, (m <= k < 2 * m)%nat -> nth k (equalize_histogram l) 0 = 255).
Proof.
  intros Hb Hl Hm H24 Hv Hlt l.
  assert (Bl : bytes l) by (apply Forall_app; split; [exact Hb|apply Forall_repeat; exact Hv]).
  assert (Ll : length l = (2 * m)%nat) by (unfold l; rewrite app_length, repeat_length; lia).
  split; intros k Hk.
  - rewrite equalize_nth by (try exact Bl; lia). rewrite Ll. replace (Z.of_nat (2 * m)) with (2 * Z.of_nat m) by lia.
    rewrite <- (level_half (Z.of_nat m)) by lia. apply level_of_mono; [|lia|lia]. split; [apply rank_range|].
    assert (X : nth k l 0 < v).
    { unfold l. rewrite app_nth1 by lia. rewrite Forall_forall in Hlt. apply Hlt. apply nth_In. lia. }
    unfold l at 1. rewrite rank_app, (rank_repeat_lt v) by exact X. rewrite Z.add_0_r. pose proof (rank_range up (nth k l 0)). lia.
  - assert (X : nth k l 0 = v).
    { unfold l. rewrite app_nth2 by lia. apply nth_error_nth, nth_error_repeat. lia. }
    apply (C76_equalisation_is_monotone l k k Bl); [lia|lia|lia|]. rewrite X. unfold l. apply Forall_app. split; [eapply Forall_impl; [|exact Hlt]; cbn; lia|apply Forall_repeat; lia].
Qed.

(** ** Helpers: the marked channel *)
Section Rejects.
Context (K : ldpc) (Hsh : ldpc_shape K) (Hdec : ldpc_decodes K) (E : ed25519) (HE : signature_format E) (Hk : key_pair E PRIVATE_KEY PUBLIC_KEY).
Context (M : libm b64) (HM : accurate M) (gamma : b64 -> b64) (checks : bool) (pad : list bool) (Hpad : length pad = 8%nat).
Let features_of := zernike_f64 M gamma checks.
Let one : b64 := f_of_Z Bops 1.

Lemma flat512_picture level : byte level -> gray_picture (flat512 level) 512 3.
Proof.
  intros Hb. destruct big as (_ & B2). unfold gray_picture, flat512. cbn [gwidth gheight gray_raw]. split; [reflexivity|]. split; [reflexivity|]. split; [apply repeat_length|].
  split; [apply Forall_repeat; exact Hb|]. split; [reflexivity|]. split; [lia|]. rewrite B2. lia.
Qed.

Lemma stored_512 : (8 * stored_size 512 3 (payload_size 1))%nat = carrying_blocks 512.
Proof. vm_compute. reflexivity. Qed.

Lemma flat_cells level im : byte level -> from_shape_vec 512 512 (repeat level (512 * 512)) = Ok im ->
  (forall i j, (i < 512)%nat -> (j < 512)%nat -> cell im i j = Some level) /\ (forall bi bj, (bi < 64)%nat -> (bj < 64)%nat -> block_total im 3 bi bj = 64 * level).
Proof.
  intros Hb Eim. destruct (gray_array (flat512 level) 512 3 (flat512_picture level Hb)) as (im' & Eim' & Him & Hcell). cbn [flat512 gwidth gheight gray_raw] in Eim'.
  assert (im' = im) by congruence. subst im'.
  assert (C : forall i j, (i < 512)%nat -> (j < 512)%nat -> cell im i j = Some level).
  { intros i j Hi Hj. rewrite Hcell by assumption. unfold gray_pixel, flat512. cbn [gray_raw]. apply nth_error_repeat. destruct big as (_ & ->). lia. }
  split; [exact C|]. intros bi bj Hi Hj. rewrite block_total_dsum, (dsum_ext _ (fun _ _ => level)); [rewrite dsum_const; lia|]. intros p q Hp Hq. unfold pixel. rewrite C by lia. reflexivity.
Qed.

Lemma flat_withstands depth level im : 17 <= depth -> not_cut depth level -> (forall i j, (i < 512)%nat -> (j < 512)%nat -> cell im i j = Some level) ->
  forall bi bj, (bi < 64)%nat -> (bj < 64)%nat -> withstands depth 0 im bi bj.
Proof.
  intros HD (Hc1 & Hc2) C bi bj Hi Hj. left. unfold excess, lack. rewrite !over_block_dsum.
  assert (P : forall p q, (p < 8)%nat -> (q < 8)%nat -> pixel im (8 * bi + p) (8 * bj + q) = level) by (intros p q Hp Hq; unfold pixel; rewrite C by lia; reflexivity).
  rewrite (dsum_ext _ (fun _ _ => 0)), (dsum_ext (fun p q => Z.max 0 (strongest depth - _)) (fun _ _ => 0)); [rewrite dsum_const; lia| |]; intros p q Hp Hq; rewrite (P p q Hp Hq); lia.
Qed.

Lemma darkened depth level im pl out : 1 <= depth <= 4096 -> byte level -> darkens depth level -> from_shape_vec 512 512 (repeat level (512 * 512)) = Ok im ->
  picture im 512 3 -> bytes pl -> length pl = payload_size 1 -> embed Bops K im pl (f_of_Z Bops depth) 3 = Ok out -> picture out 512 3 ->
  exists up, into_raw_vec out = up ++ repeat level (512 * 256) /\ length up = (512 * 256)%nat /\ bytes up /\ Forall (fun p => p < level) up.
Proof.
  intros HD Hb (Ht & Hadd) Eim Him Bp Lp Eo Po. destruct (flat_cells level im Hb Eim) as (C & BT). destruct big as (B1 & B2).
  destruct (C86_f64_embedding_in_integers K im 512 depth pl out HD Him Eo) as (fr & st & E1 & E2 & H).
  destruct (encoded_size_ok K 512 3 pl fr st Hsh Bp E1 E2) as ((Sz & _) & _). destruct C83_512_is_usable as (_ & _ & (Hcod & _) & _). specialize (Sz Hcod). rewrite Lp in Sz.
  destruct (array_gray out 512 3 Po) as (Gm & Fm). destruct (gray_array _ 512 3 Gm) as (om & Eom & _ & Ocell). cbn [gwidth gheight gray_raw] in Eom.
  assert (om = out) by congruence. subst om. pose proof Gm as (_ & _ & Lm & Bm & _). cbn [gray_raw] in Lm, Bm.
  set (raw := into_raw_vec out) in *.
  assert (Hpos : 0 < level).
  { destruct (Z.eq_dec level 0) as [Z0|Z0]; [|unfold byte in Hb; lia]. subst level. pose proof (Hadd true) as A. unfold added, wanted, bin in A. replace (64 * 0 + 4 * depth) with (4 * depth) in A by ring.
    rewrite (Z.div_small (4 * depth) (8 * depth)) in A by lia. Z.to_euclidean_division_equations. lia. }
  assert (Px : forall k, (k < 512 * 512)%nat -> exists v, nth_error raw k = Some v /\ ((k < 512 * 256)%nat -> v < level) /\ ((512 * 256 <= k)%nat -> v = level)).
  { intros k Hk'. pose proof (Nat.div_mod k 512 ltac:(lia)) as Dm. pose proof (Nat.mod_upper_bound k 512 ltac:(lia)) as Mb.
    assert (Hd : (k / 512 < 512)%nat) by (apply Nat.div_lt_upper_bound; [lia|exact Hk']).
    pose proof (Ocell (k / 512)%nat (k mod 512)%nat Hd Mb) as A. unfold gray_pixel in A. cbn [gray_raw] in A. rewrite <- Dm in A.
    pose proof (C _ _ Hd Mb) as Cc.
    assert (Sm : block_sum im (k / 512) (k mod 512) = 64 * level) by (unfold block_sum; apply BT; apply Nat.div_lt_upper_bound; lia).
    rewrite (H _ _ level Cc) in A by (rewrite Sm; exact Ht). fold raw in A. rewrite <- A. eexists. split; [reflexivity|].
    pose proof (proj2 C100_carrying_blocks_of_512 k) as CB. rewrite <- stored_512, <- Sz in CB. unfold block_of in CB. unfold stores. change (512 / 8)%nat with 64%nat in *.
    destruct (Nat.ltb_spec (64 * (k / 512 / 8) + k mod 512 / 8) (8 * length st)) as [X|X].
    - split; [intros _|intros Y; apply CB in X; rewrite B1 in *; lia]. rewrite Sm. specialize (Hadd (payload_bit st (64 * (k / 512 / 8) + k mod 512 / 8))). revert Hadd. generalize (added depth (payload_bit st (64 * (k / 512 / 8) + k mod 512 / 8)) (64 * level)). intros a Ha. clear - Ha Hpos Hb. unfold clamp, byte in *. lia.
    - split; [intros Y; apply CB in Y; lia|reflexivity]. }
  exists (firstn (512 * 256) raw). assert (Lf : length (firstn (512 * 256) raw) = (512 * 256)%nat) by (rewrite firstn_length, Lm, B1, B2; lia).
  split; [|split; [exact Lf|split]].
  - rewrite <- (firstn_skipn (512 * 256) raw) at 1. f_equal. apply nth_error_ext. intros k. rewrite nth_error_skipn'. destruct (Nat.lt_ge_cases k (512 * 256)) as [X|X].
    + destruct (Px (512 * 256 + k)%nat ltac:(rewrite B1, B2 in *; lia)) as (v & -> & _ & Y). rewrite nth_error_repeat by exact X. f_equal. apply Y. rewrite B1. lia.
    + rewrite (proj2 (nth_error_None _ _)) by (rewrite Lm, B1, B2 in *; lia). symmetry. apply nth_error_None. rewrite repeat_length. exact X.
  - apply Forall_forall. intros x Hx. unfold bytes in Bm. rewrite Forall_forall in Bm. apply Bm. rewrite <- (firstn_skipn (512 * 256) raw); apply in_or_app; now left.
  - apply Forall_forall. intros x Hx. apply In_nth_error in Hx as (k & Hx). assert (Hlt : (k < 512 * 256)%nat) by (rewrite <- Lf; apply nth_error_Some; congruence).
    destruct (Px k ltac:(rewrite B1, B2 in *; lia)) as (v & Ev & Y & _). rewrite nth_error_firstn' in Hx by exact Hlt. rewrite Ev in Hx. assert (v = x) by congruence. subst v. now apply Y.
Qed.

(** *** C107: the untouched result of watermarking a flat channel of such a level.  The vector that is signed is [0]; the watermark is read from the result as it was
    written; the only feature of the result is more than 13 away from the signed one; and the authenticator's answer is no - unless the signature also fits another vector. *)
Theorem C107_f64_the_program_rejects_its_own_picture : forall depth level, 17 <= depth <= 4096 -> byte level -> darkens depth level -> not_cut depth level ->
  exists marked bits sig, watermark_channel Bops K E equalize_histogram features_of checks pad (flat512 level) (f_of_Z Bops depth) one 1 3 = Ok marked
    /\ sign E (vec_i64_to_bytes [0]) PRIVATE_KEY PUBLIC_KEY = Ok sig
    /\ shows_watermark K marked (f_of_Z Bops depth) 3 (mkWatermark bits sig WATERMARK_TEXT)
    /\ (exists x x', measures equalize_histogram features_of (flat512 level) 1 [x] /\ measures equalize_histogram features_of marked 1 [x']
          /\ (0 <= toR x <= / 128)%R /\ (13 < toR x')%R)
    /\ (exists verdict, authenticate_channel Bops K E equalize_histogram features_of checks marked (f_of_Z Bops depth) one 1 3 = Ok verdict)
    /\ (authenticate_channel Bops K E equalize_histogram features_of checks marked (f_of_Z Bops depth) one 1 3 = Ok true ->
          exists other, length other = 1%nat /\ another_message other [0] /\ verify E (vec_i64_to_bytes other) sig PUBLIC_KEY = Ok true)
    /\ (signs_only E sig [0] -> authenticate_channel Bops K E equalize_histogram features_of checks marked (f_of_Z Bops depth) one 1 3 = Ok false).
Proof.
  intros depth level HD Hb Hdark Hcut. pose proof (flat512_picture level Hb) as Hg. destruct C83_512_is_usable as (_ & Hs & Hu & Hcap).
  destruct unit_one as (F1 & V1). fold one in F1, V1. destruct big as (B1 & B2).
  (* the flat channel *)
  destruct (zernike_measures_f64 M HM gamma checks equalize_histogram (flat512 level) 512 3 1 C76_equalisation_keeps_grey Hg ltac:(lia) Hs ltac:(lia)) as (A & fs & es & Hm & Hme & EA & SA & BA & RA & EgA & Lf & Cf & Bf).
  assert (Ees : es = [0%R]).
  { pose proof (C77_flat_channels_have_zero_features (fun x => x) checks 512 level 1 ltac:(lia) ltac:(rewrite B2; lia) Hb ltac:(unfold amount_ok; lia)) as X.
    destruct X as (e & X1 & X2), Hme as (e' & Y1 & Y2). unfold flat512 in Y1. assert (e' = e) by congruence. subst e'. cbn [repeat] in X2. congruence. }
  subst es. destruct fs as [|x [|]]; try discriminate Lf.
  assert (Hx : (0 <= toR x <= / 128)%R).
  { inversion Bf as [|? ? (_ & P & _)]; subst. inversion Cf as [|? ? ? ? (_ & _ & Q)]; subst. split; [exact P|]. rewrite Rminus_0_r, Rabs_pos_eq in Q by exact P. exact Q. }
  assert (Ei : integer_parts [x] = [0]).
  { unfold integer_parts. cbn [map]. f_equal. apply Zfloor_imp. simpl. lra. }
  assert (N1 : forall xs, Forall (fun x : b64 => fin x /\ (0 <= toR x <= 1000)%R) xs -> no_overflow Bops one checks xs).
  { intros xs B. apply (no_overflow_float one (unit_ordinary one V1)). eapply Forall_impl; [|exact (bounded_29 _ B)]. intros y (Fy & By). split; [exact Fy|]. rewrite V1. apply Rle_trans with (1 := By). simpl. lra. }
  pose proof (quantization_ok Bops one checks [x] (N1 _ Bf)) as Eq. assert (Qx : quantize Bops [x] one = [0]) by (rewrite <- Ei; exact (quantize_is_integer_parts [x] Bf)). rewrite Qx in Eq. set (bits := flat_map (bits3 Bops one) [x]) in *.
  destruct (quantization_inv Bops checks [x] one [0] bits Eq) as (_ & _ & Lb).
  destruct (sign_verify E _ _ (vec_i64_to_bytes [0]) HE Hk) as (sig & Es & Ls & Bs & Ev).
  destruct (payload_of pad bits sig 1 Hpad Bs Ls Lb ltac:(lia)) as (pl & Ep & Bp & Lp & Edp).
  (* marking *)
  destruct (gray_array (flat512 level) 512 3 Hg) as (im & Eim & Him & _). cbn [flat512 gwidth gheight gray_raw] in Eim.
  destruct (flat_cells level im Hb Eim) as (C & _).
  assert (Sz : (8 * stored_size 512 3 (length pl))%nat = carrying_blocks 512) by (rewrite Lp; exact stored_512).
  destruct (C88_f64_how_much_cutting_is_harmless K Hsh Hdec im 512 depth pl 0 ltac:(lia) Him Hu Bp ltac:(rewrite Lp; vm_compute; split; discriminate)) as (out & Eo & Po & X).
  { rewrite Lp. apply Nat.le_trans with (2 := Hcap). vm_compute. lia. }
  { intros bi bj Hi Hj _. exact (flat_withstands depth level im ltac:(lia) Hcut C bi bj Hi Hj). }
  specialize (X out Po). rewrite Sz in X. assert (Ex : extract Bops K out (f_of_Z Bops depth) 3 = Ok pl) by (apply X; intros bi bj _ _ _; rewrite Z.sub_diag; cbn; lia). clear X.
  destruct (array_gray out 512 3 Po) as (Gm & Fm). pose proof Po as ((Wo & O0 & O1 & _) & _).
  set (marked := mkGray 512 512 (into_raw_vec out)) in *.
  assert (W : watermark_channel Bops K E equalize_histogram features_of checks pad (flat512 level) (f_of_Z Bops depth) one 1 3 = Ok marked).
  { exact (watermark_run Bops K E equalize_histogram features_of checks pad (flat512 level) im 1 [x] one [0] bits sig pl out (f_of_Z Bops depth) 3 Eim Hm Eq Es Ep Eo Wo O0 O1). }
  (* the marked channel *)
  destruct (darkened depth level im pl out ltac:(lia) Hb Hdark Eim Him Bp Lp Eo Po) as (up & Eraw & Lup & Bup & Hup).
  destruct (zernike_measures_f64 M HM gamma checks equalize_histogram marked 512 3 1 C76_equalisation_keeps_grey Gm ltac:(lia) Hs ltac:(lia)) as (A' & fs' & es' & Hm' & Hme' & EA' & SA' & BA' & RA' & EgA' & Lf' & Cf' & Bf').
  assert (Feat : exists y, calculate_features (fun x => x) checks A' MomentsZernike 1 = Ok [y] /\ (14 < y)%R).
  { destruct (half_equalised up level (512 * 256) Bup Lup ltac:(rewrite B1; lia) ltac:(rewrite B1; lia) Hb Hup) as (Q1 & Q2). rewrite <- Eraw in Q1, Q2. cbn [marked gray_raw] in RA'.
    destruct SA' as ((WA & A0 & A1) & SA2).
    apply (dark_above_white (fun x => x) checks A' 256); [lia|exact (conj (conj WA (conj A0 A1)) SA2)| |]; intros i j Hi Hj; change (2 * 256)%nat with 512%nat in *;
      rewrite <- raw_nth by (try exact WA; lia); rewrite RA', A1.
    - apply (IZR_le _ 127). apply Q1. rewrite B1. lia.
    - f_equal. apply Q2. rewrite B1. lia. }
  destruct Feat as (y & Ey & Hy).
  assert (Ees' : es' = [y]).
  { destruct Hme' as (e & X1 & X2). cbn [marked gwidth gheight gray_raw] in X1, EA'. assert (e = A') by congruence. subst e. congruence. }
  subst es'. destruct fs' as [|x' [|]]; try discriminate Lf'.
  assert (Hx' : (13 < toR x')%R).
  { inversion Cf' as [|? ? ? ? (_ & _ & Q)]; subst. revert Q. unfold Rabs. destruct Rcase_abs; lra. }
  assert (Em : from_shape_vec (gwidth marked) (gheight marked) (gray_raw marked) = Ok out) by exact Fm.
  assert (Sh : shows_watermark K marked (f_of_Z Bops depth) 3 (mkWatermark bits sig WATERMARK_TEXT)) by (exists out, pl; split; [exact Em|]; split; [exact Ex|exact Edp]).
  destruct (C99_f64_the_verdict_whenever_the_watermark_is_read K E HE Hk M HM gamma checks (flat512 level) marked 512 512 3 3 (f_of_Z Bops depth) 3 1 [x] [0] bits sig WATERMARK_TEXT
              Hg Hs ltac:(lia) Gm Hs ltac:(lia) ltac:(lia) Hm Eq Es Sh) as (_ & noised & _ & (Verd & _)).
  assert (Forge : authenticate_channel Bops K E equalize_histogram features_of checks marked (f_of_Z Bops depth) one 1 3 = Ok true ->
            exists other, length other = 1%nat /\ another_message other [0] /\ verify E (vec_i64_to_bytes other) sig PUBLIC_KEY = Ok true).
  { intros Yes.
    assert (Ord : forall l, Forall (fun x : b64 => fin x /\ (0 <= toR x <= 1000)%R) l -> Forall (ordinary_feature one) l).
    { intros l Hl. eapply Forall_impl; [|exact (bounded_29 _ Hl)]. intros z (Fz & Bz). split; [exact Fz|]. rewrite V1, Rmult_1_r. exact Bz. }
    assert (Hst : (bpow radix2 (-500) <= toR one <= bpow radix2 500)%R) by (rewrite V1; split; [apply Rle_trans with (bpow radix2 0); [apply bpow_le; lia|simpl; lra]|apply Rle_trans with (bpow radix2 0); [simpl; lra|apply bpow_le; lia]]).
    destruct (C78_f64_nothing_far_from_the_original_authenticates K E equalize_histogram features_of checks (f_of_Z Bops depth) one 1 3 [x] F1 Hst (Ord _ Bf) marked [x'] Hm' (Ord _ Bf'))
      as (im2 & pl2 & w2 & r & Y1 & Y2 & Y3 & Y4 & Y5 & Y6); [|exact Yes|].
    - exists 0%nat, x, x'. split; [reflexivity|]. split; [reflexivity|]. rewrite V1, Rmult_1_r. assert (bpow radix2 (-20) < 1)%R by (apply Rlt_le_trans with (bpow radix2 0); [apply bpow_lt; lia|simpl; lra]).
      rewrite Rabs_pos_eq by lra. lra.
    - rewrite Em in Y1. assert (im2 = out) by congruence. subst im2. assert (pl2 = pl) by congruence. subst pl2. rewrite Edp in Y3. assert (w2 = mkWatermark bits sig WATERMARK_TEXT) by congruence. subst w2.
      cbn [perturbation_vector Codecs.signature] in Y4, Y6. rewrite Qx in Y5. exists r. split; [|split; [exact Y5|exact Y6]].
      destruct (dequantization_near Bops checks [x'] bits one r Y4) as (_ & L3 & _). cbn [length] in Lb. lia. }
  exists marked, bits, sig. split; [exact W|]. split; [exact Es|]. split; [exact Sh|]. split; [exists x, x'; split; [exact Hm|]; split; [exact Hm'|]; split; [exact Hx|exact Hx']|].
  split; [exact Verd|]. split; [exact Forge|]. intros Only. destruct Verd as ([|] & Ve); [|exact Ve]. exfalso. destruct (Forge Ve) as (o & Lo & Ao & Vo).
  assert (Z : Ok true = Ok false) by (rewrite <- Vo; apply Only; [exact Ao|cbn [length]; exact Lo]). discriminate Z.
Qed.

(** Pictures of one colour, given to the library function with one feature: each colour channel of the untouched result is rejected. *)
Theorem C107_f64_pictures_of_one_colour_are_rejected : forall depth image (colour : (rgba -> Z) -> Z), 17 <= depth <= 4096 -> well_formed image -> dimensions image = (512, 512)%nat ->
  (forall sel, In sel [ch1; ch2; ch3] -> Forall (fun p => sel p = colour sel) (get_pixels image) /\ byte (colour sel) /\ darkens depth (colour sel) /\ not_cut depth (colour sel)) ->
  (forall sig, sign E (vec_i64_to_bytes [0]) PRIVATE_KEY PUBLIC_KEY = Ok sig -> signs_only E sig [0]) ->
  exists result, watermark_image Bops K E equalize_histogram features_of checks pad image (f_of_Z Bops depth) one 1 = Ok result
    /\ forall sel, In sel [ch1; ch2; ch3] ->
         authenticate_channel Bops K E equalize_histogram features_of checks (component sel result) (f_of_Z Bops depth) one 1 3 = Ok false.
Proof.
  intros depth image colour HD Hw Ed Hc Only.
  assert (Fl : forall sel, In sel [ch1; ch2; ch3] -> component sel image = flat512 (colour sel)).
  { intros sel Hsel. destruct (Hc sel Hsel) as (Hf & _). pose proof Hw as Hw'. unfold well_formed in Hw'. rewrite Ed in Hw'. destruct Hw' as (Hl & _).
    unfold component, flat512. rewrite Ed. cbn [fst snd]. f_equal. rewrite <- Hl. clear - Hf. induction Hf as [|p l Hp _ IH]; [reflexivity|]. cbn [map length repeat]. now rewrite Hp, IH. }
  assert (Ch : forall sel, In sel [ch1; ch2; ch3] -> exists m, watermark_channel Bops K E equalize_histogram features_of checks pad (component sel image) (f_of_Z Bops depth) one 1 3 = Ok m
            /\ authenticate_channel Bops K E equalize_histogram features_of checks m (f_of_Z Bops depth) one 1 3 = Ok false).
  { intros sel Hsel. destruct (Hc sel Hsel) as (_ & Hb & Hdk & Hcut). rewrite (Fl sel Hsel).
    destruct (C107_f64_the_program_rejects_its_own_picture depth (colour sel) HD Hb Hdk Hcut) as (m & bits & sig & A & B & _ & _ & _ & _ & D). exists m. split; [exact A|]. exact (D (Only sig B)). }
  destruct (Ch ch1 ltac:(cbn; tauto)) as (m1 & W1 & A1). destruct (Ch ch2 ltac:(cbn; tauto)) as (m2 & W2 & A2). destruct (Ch ch3 ltac:(cbn; tauto)) as (m3 & W3 & A3).
  destruct (proj2 (proj2 (C42_watermark_returns_iff_the_channels_do b64 Bops K E equalize_histogram features_of checks pad image (f_of_Z Bops depth) one 1))) as (result & Er).
  { split; [exists m1; exact W1|]. intros _. split; [exists m2; exact W2|exists m3; exact W3]. }
  exists result. split; [exact Er|].
  destruct (C42_watermark_preserves_size_layout_and_alpha K E equalize_histogram features_of checks pad image (f_of_Z Bops depth) one 1 result Hw Er) as (_ & _ & _ & _ & _ & _ & H1 & H2 & H3).
  assert (m1 = component ch1 result) by congruence. assert (m2 = component ch2 result) by congruence. assert (m3 = component ch3 result) by congruence. subst m1 m2 m3.
  intros sel Hsel. cbn in Hsel. destruct Hsel as [ <- |[ <- |[ <- |[]]]]; assumption.
Qed.
End Rejects.

(** Which levels: at the depth of the command line 47 of the 256, at that of the web page 35. *)
Definition rejected_levels (depth : Z) : list Z :=
  filter (fun v => negb ((64 * v) mod (8 * depth) =? 4 * depth) && negb ((wanted depth true (64 * v) - 64 * v) mod 64 =? 32) && negb ((wanted depth false (64 * v) - 64 * v) mod 64 =? 32)
    && (added depth true (64 * v) <? 0) && (added depth false (64 * v) <? 0) && (strongest depth <=? v) && (v <=? 255 - strongest depth)) (map Z.of_nat (seq 0 256)).
Theorem C107_which_levels : forall depth level, In level (rejected_levels depth) <-> byte level /\ darkens depth level /\ not_cut depth level.
Proof.
  intros depth level. unfold rejected_levels. rewrite filter_In, in_map_iff. rewrite !andb_true_iff, !negb_true_iff, !Z.eqb_neq, !Z.ltb_lt, !Z.leb_le.
  unfold darkens, not_cut, tie, byte. split.
  - intros ((k & Hk & Hin) & (((((A & B) & C) & D) & E) & F) & G). apply in_seq in Hin. split; [lia|]. split; [|lia]. split.
    + intros [X|([|] & X)]; [apply A|apply B|apply C]; exact X.
    + intros [|]; assumption.
  - intros (Hb & (Ht & Ha) & F & G). split; [exists (Z.to_nat level); split; [lia|apply in_seq; lia]|]. repeat split; try (apply Ha); try assumption.
    + intros X. apply Ht. now left.
    + intros X. apply Ht. right. now exists true.
    + intros X. apply Ht. right. now exists false.
Qed.
Theorem C107_how_many_levels : length (rejected_levels (depth_of command_line)) = 47%nat /\ length (rejected_levels (depth_of web_page)) = 35%nat
  /\ In 80 (rejected_levels (depth_of command_line)) /\ In 80 (rejected_levels (depth_of web_page)).
Proof. repeat split; try (vm_compute; reflexivity); vm_compute; tauto. Qed.

(** ** Concrete case: the flat picture of level 80, at the depth of either front end, under a signature scheme that accepts only what was signed. *)
Definition dull512 : dynimage := ImageRgba8 512 512 (repeat (80, 80, 80, 255) (512 * 512)).
Lemma dull512_wf : well_formed dull512.
Proof.
  unfold well_formed, dull512. cbn [dimensions get_pixels has_alpha has_color]. split; [apply repeat_length|]. split; [|split; discriminate].
  apply Forall_repeat. unfold pixel8, byte. cbn. lia.
Qed.
Opaque watermark_image.
Example C107_instance : forall fe, In fe [command_line; web_page] ->
  let features_of := zernike_f64 exact_libm (fun x => x) true in let E := one_vector_ed [0] in
  exists result, watermark_image Bops toy_ldpc E equalize_histogram features_of true (repeat false 8) dull512 (f_of_Z Bops (depth_of fe)) (f_of_Z Bops 1) 1 = Ok result
    /\ forall sel, In sel [ch1; ch2; ch3] -> authenticate_channel Bops toy_ldpc E equalize_histogram features_of true (component sel result) (f_of_Z Bops (depth_of fe)) (f_of_Z Bops 1) 1 3 = Ok false.
Proof.
  intros fe Hfe features_of E.
  apply (C107_f64_pictures_of_one_colour_are_rejected toy_ldpc toy_shape toy_decodes E (one_vector_format _) (one_vector_keys _) exact_libm exact_libm_accurate (fun x => x) true (repeat false 8) eq_refl
           (depth_of fe) dull512 (fun _ => 80)).
  - destruct Hfe as [ <- |[ <- |[]]]; cbn [depth_of command_line web_page]; lia.
  - exact dull512_wf.
  - reflexivity.
  - intros sel Hsel. split.
    + unfold dull512. cbn [get_pixels]. apply Forall_forall. intros p Hp. apply repeat_spec in Hp. subst p. cbn in Hsel. destruct Hsel as [ <- |[ <- |[ <- |[]]]]; reflexivity.
    + apply (proj1 (C107_which_levels (depth_of fe) 80)). destruct C107_how_many_levels as (_ & _ & A & B). destruct Hfe as [ <- |[ <- |[]]]; assumption.
  - intros sig Es. apply one_vector_only; [|exact Es]. constructor; [|constructor]. lia.
Qed.

Print Assumptions C107_f64_the_program_rejects_its_own_picture.
Print Assumptions C107_f64_pictures_of_one_colour_are_rejected.
Print Assumptions C107_which_levels.
Print Assumptions C107_how_many_levels.
