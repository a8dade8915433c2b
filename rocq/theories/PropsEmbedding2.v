(** Properties C34, C35, C57: saturation, shape, and the picture sizes that can carry a payload. *)
From Coq Require Import Reals Lra.
From Flocq Require Import Core BinarySingleNaN.
From Verif Require Import Outcome Floats FloatFacts Bits ListFacts IndexArithProofs Codecs CodecProofs WatermarkProofs Encoding EncodingProofs PropsEncoding
  Matrix MatrixFacts Haar HaarProofs HaarReal HaarFloat PropsHaar QuantFloat Stego StegoProofs StegoMarks PropsStego Embedding EmbeddingProofs EmbeddingEffect PropsEmbedding Toy.
Open Scope R_scope.

(** *** C34 *)
Definition black (image : array2 Z) : Prop := forall i j v, cell image i j = Some v -> v = 0%Z.

Lemma nearest_0 : nearest 0 = 0%Z.
Proof. apply nearest_imp. rewrite Rminus_self, Rabs_R0. lra. Qed.
Lemma bit_of_small depth c : 0 < depth -> 0 <= c < depth / 2 -> bit_of Rops depth c = true.
Proof.
  intros Hd Hc. unfold bit_of. cbn [f_ge f_sub f_mul f_div f_round f_of_Z Rops]. fold (nearest (c / depth)).
  assert (0 <= c / depth) by (apply Rmult_le_pos; [lra|left; now apply Rinv_0_lt_compat]).
  assert (c / depth < / 2) by (apply Rmult_lt_reg_r with depth; [exact Hd|]; unfold Rdiv; rewrite Rmult_assoc, Rinv_l by lra; lra).
  rewrite (nearest_imp _ 0) by (rewrite Rminus_0_r, Rabs_pos_eq; lra). apply Rle_bool_true. lra.
Qed.
Lemma sumn_range n f a b : (forall k, (k < n)%nat -> a <= f k <= b) -> INR n * a <= sumn n f <= INR n * b.
Proof.
  induction n as [|n IH]; intros H; [cbn; lra|]. cbn [sumn]. rewrite S_INR.
  specialize (IH ltac:(intros; apply H; lia)). specialize (H n ltac:(lia)). lra.
Qed.
Lemma blocksum_range s M i j a b : (forall p q, (p < s)%nat -> (q < s)%nat -> a <= M (s * i + p)%nat (s * j + q)%nat <= b) ->
  INR s * (INR s * a) <= blocksum s M i j <= INR s * (INR s * b).
Proof. intros H. unfold blocksum. apply sumn_range. intros p Hp. apply sumn_range. intros q Hq. apply H; assumption. Qed.

Lemma black_pixR m i j : black m -> pixR m i j = 0.
Proof. intros H. unfold pixR. destruct (cell m i j) eqn:E; [|reflexivity]. now rewrite (H i j z E). Qed.

(** Coefficients of the marked black picture. *)
Lemma black_coefficients K m n L depth payload out ser enc : picture m n L -> black m -> 0 < depth ->
  embed Rops K m payload depth L = Ok out -> data_serialize payload = Ok ser -> encode K ser (band_capacity n L) = Ok enc ->
  (9 <= band_capacity n L)%nat /\ (length enc <= band_capacity n L)%nat /\ picture out n L /\
  forall i j, (i < band n L)%nat -> (j < band n L)%nat ->
    let c := transR false n n L (pixR out) i j in
    0 <= c <= depth / 4 + 2 ^ L / 2
    /\ ((used (band n L) enc i j = true -> payload_bit enc (band n L * i + j) = false) -> c = 0).
Proof.
  intros (Hc & H8) Hb Hd E Eser Eenc. destruct (embed_inv Rops K m n L depth payload out Hc E) as (H9 & ser' & enc' & E1 & E2 & E3).
  assert (ser' = ser) by congruence. subst ser'. unfold band_capacity in *. fold (band n L) in *. assert (enc' = enc) by congruence. subst enc'.
  destruct (embed_effect_real K m n L depth payload ser enc Hc H8 Hd H9 E1 E2 E3) as (out' & Eo & Heff).
  assert (out' = out) by congruence. subst out'. split; [exact H9|]. split; [exact E3|].
  split; [exact (eff_shape _ _ _ _ _ _ _ _ _ Heff)|]. pose proof (carrier_band m n L Hc) as (_ & _ & Hdiv & _).
  assert (HpL : 1 <= 2 ^ L) by (apply pow_R1_Rle; lra).
  assert (Hpi : 0 < (/ 2) ^ L) by (apply pow_lt; lra). assert (Hpe : (/ 2) ^ L * 2 ^ L = 1) by (rewrite pow_inv, Rinv_l; lra).
  pose proof (cells_of m out n L depth enc 0 0 _ Hc Heff) as Hcells.
  destruct Heff as [(Hco & H8o) (D & HD0 & Hpix & HD)].
  assert (HC0 : forall i j, (i < n)%nat -> (j < n)%nat -> transR false n n L (pixR m) i j = 0).
  { intros i j Hi Hj. pose proof (trans_bound false n n L 0 (pixR m) Hdiv) as Hbd. specialize (Hbd ltac:(intros a b _ _; rewrite black_pixR by exact Hb; rewrite Rabs_R0; lra) i j Hi Hj).
    rewrite Rmult_0_r in Hbd. pose proof (Rabs_pos (transR false n n L (pixR m) i j)). destruct (Req_dec (transR false n n L (pixR m) i j) 0) as [Ez|Ez]; [exact Ez|].
    apply Rabs_pos_lt in Ez. lra. }
  pose proof (div_pow_le n L) as Hle. fold (band n L) in Hle.
  assert (HDv : forall i j, used (band n L) enc i j = true -> D i j = depth * quarter (payload_bit enc (band n L * i + j))).
  { intros i j Hu. assert (Hij : (i < band n L)%nat /\ (j < band n L)%nat).
    { unfold used in Hu. destruct (Nat.ltb_spec i (band n L)), (Nat.ltb_spec j (band n L)); try discriminate. auto. }
    destruct (HD i j Hu) as (r & Er & Hr & _).
    rewrite HC0 in Hr by lia. rewrite HC0 in Er by lia. unfold Rdiv in Er. rewrite Rmult_0_l, nearest_0 in Er. subst r.
    rewrite Rplus_0_l, Rplus_0_l in Hr. rewrite Rmult_0_l in Hr.
    set (q := depth * quarter _) in *. destruct (Req_dec (D i j - q) 0) as [Ez|Ez]; [lra|]. apply Rabs_pos_lt in Ez. lra. }
  intros i j Hi Hj. cbv zeta.
  (* pixels of block (i,j) *)
  assert (Hpx : forall p q, (p < 2 ^ L)%nat -> (q < 2 ^ L)%nat ->
     let w := pixR out (2 ^ L * i + p)%nat (2 ^ L * j + q)%nat in
     0 <= w <= (/ 2) ^ L * (depth / 4) + / 2 /\ ((used (band n L) enc i j = true -> payload_bit enc (band n L * i + j) = false) -> w = 0)).
  { intros p q Hp Hq w. unfold w.
    assert (Hlt : forall k q, (k < band n L)%nat -> (q < 2 ^ L)%nat -> (2 ^ L * k + q < n)%nat).
    { intros k' q' Hk' Hq'. pose proof (Nat.mul_div_le n (2 ^ L) ltac:(pose proof (pow2_pos L); lia)). unfold band in Hk'. nia. }
    pose proof (Hlt i p Hi Hp) as Hip. pose proof (Hlt j q Hj Hq) as Hjq.
    destruct (Hpix _ _ Hip Hjq) as (x & Hx & Ec). destruct (Hcells _ _ Hip Hjq) as (v & w' & Ev & Ew & Pv & Pw). rewrite Pw.
    assert (Ew' : w' = clamp 0 255 (nearest x)) by congruence. rewrite Ew'.
    rewrite black_pixR, !place_div in Hx by assumption. rewrite Rplus_0_l in Hx.
    assert (Ex : x = (/ 2) ^ L * D i j).
    { destruct (Req_dec (x - (/ 2) ^ L * D i j) 0) as [Ez|Ez]; [lra|]. apply Rabs_pos_lt in Ez. lra. }
    assert (HDle : D i j <= depth / 4).
    { destruct (used (band n L) enc i j) eqn:Hu; [rewrite HDv by exact Hu; unfold quarter; destruct (payload_bit _ _); nra|rewrite HD0 by exact Hu; lra]. }
    assert (Hxle : x <= (/ 2) ^ L * (depth / 4)) by (rewrite Ex; apply Rmult_le_compat_l; lra).
    pose proof (nearest_half x) as Hn. apply Rabs_le_inv in Hn.
    pose proof (clamp_byte (nearest x)) as (Hcb & _). split.
    - split; [now apply (IZR_le 0)|]. destruct (Z.le_gt_cases (nearest x) 0) as [Hz|Hz].
      + replace (clamp 0 255 (nearest x)) with 0%Z by (unfold clamp; lia). nra.
      + apply Rle_trans with (IZR (nearest x)); [apply IZR_le; unfold clamp; lia|lra].
    - intros Hbit. assert (HDn : D i j <= 0).
      { destruct (used (band n L) enc i j) eqn:Hu; [rewrite HDv by exact Hu; rewrite Hbit by reflexivity; unfold quarter; nra|rewrite HD0 by exact Hu; lra]. }
      assert (Hx0 : x <= 0) by (rewrite Ex; nra).
      assert (Hz : (nearest x <= 0)%Z).
      { destruct (Z.le_gt_cases (nearest x) 0) as [Hz|Hz]; [exact Hz|].
        exfalso. assert (1 <= nearest x)%Z by lia. apply IZR_le in H. lra. }
      replace (clamp 0 255 (nearest x)) with 0%Z by (unfold clamp; lia). reflexivity. }
  rewrite trans_LL by assumption. assert (HINR : INR (2 ^ L) = 2 ^ L) by (rewrite pow_INR; reflexivity). split.
  - pose proof (blocksum_range (2 ^ L) (pixR out) i j 0 ((/ 2) ^ L * (depth / 4) + / 2) ltac:(intros p q Hp Hq; apply (Hpx p q Hp Hq))) as Hr.
    rewrite !HINR in Hr. split; [apply Rmult_le_pos; [lra|]; nra|].
    apply Rle_trans with ((/ 2) ^ L * (2 ^ L * (2 ^ L * ((/ 2) ^ L * (depth / 4) + / 2)))).
    + apply Rmult_le_compat_l; [lra|apply Hr].
    + right. rewrite pow_inv. field. lra.
  - intros Hbit. pose proof (blocksum_range (2 ^ L) (pixR out) i j 0 0 ltac:(intros p q Hp Hq; destruct (Hpx p q Hp Hq) as (_ & H0); rewrite H0 by exact Hbit; lra)) as Hr.
    assert (Ez : blocksum (2 ^ L) (pixR out) i j = 0) by (rewrite !Rmult_0_r in Hr; lra). rewrite Ez. ring.
Qed.

(** Every 0 bit of the stored data is read back as 1, for every positive depth. *)
Theorem C34_black_image_reads_zero_bits_as_ones : forall K image n levels depth payload marked ser enc,
  picture image n levels -> black image -> 0 < depth -> embed Rops K image payload depth levels = Ok marked ->
  data_serialize payload = Ok ser -> encode K ser (band_capacity n levels) = Ok enc ->
  exists coefficients received, dwt_2d Rops (mapv IZR marked) levels false = Ok coefficients
    /\ read Rops coefficients (n / 2 ^ levels) (n / 2 ^ levels) depth = Ok received
    /\ forall k, (k < 8 * length enc)%nat -> payload_bit enc k = false -> payload_bit received k = true.
Proof.
  intros K m n L depth payload out ser enc Hp Hb Hd E Eser Eenc.
  destruct (black_coefficients K m n L depth payload out ser enc Hp Hb Hd E Eser Eenc) as (H9 & Hlen & (Hco & H8o) & HC).
  pose proof (carrier_band out n L Hco) as (Hsn & Hrep & Hdiv & _). destruct Hco as (Hwf & E0 & E1 & Hmod & HL & Hr).
  assert (Hwf' : wf (mapv IZR out)) by now apply mapv_wf.
  destruct (dwt_2d_ok Rops false L (mapv IZR out) Hwf') as (C & EC & WC & A0 & A1 & GC); [cbn [mapv dim0 dim1]; rewrite E0, E1; exact Hdiv|lia|].
  cbn [mapv dim0 dim1] in A0, A1, GC. rewrite E0, E1 in *. fold (band n L).
  assert (Hdom : in_domain (band n L) C) by (split; [exact WC|]; rewrite A0, A1; split; exact Hsn).
  exists C, (map (byte_at Rops depth (band n L) C) (seq 0 (band n L * band n L / 8))). split; [exact EC|].
  pose proof (read_ok Rops depth (band n L) C Hrep Hdom) as Erd. split; [exact Erd|]. intros k Hk Hbit.
  destruct (read_bits Rops depth (band n L) C _ Hrep Hdom Erd) as (Ll & Hbits). rewrite <- nth_bits.
  unfold band_capacity in *. fold (band n L) in *.
  rewrite Hbits by (rewrite Ll; lia).
  assert (Hs : (0 < band n L)%nat) by (destruct (band n L); [cbn in H9; lia|lia]).
  destruct (used_cell n L enc k Hs Hk Hlen) as (Hu & Hk2). rewrite cell_bit_get by assumption. rewrite GC.
  rewrite (transform_ext Rops false n n L _ (pixR out) Hdiv) by (intros; apply get_pixR).
  destruct (place_lt (band n L) k Hs Hk2) as (P1 & P2). destruct (HC _ _ P1 P2) as (_ & Hz).
  rewrite Hz by (intros _; rewrite place_inv by exact Hs; exact Hbit). apply bit_of_small; lra.
Qed.

(** The extractor's outcome on a marked black picture does not depend on the payload. *)
Theorem C34_black_image_forgets_the_payload : forall K image n levels depth payload payload' marked marked',
  picture image n levels -> black image -> 2 ^ (levels + 1) < depth ->
  embed Rops K image payload depth levels = Ok marked -> embed Rops K image payload' depth levels = Ok marked' ->
  extract Rops K marked depth levels = extract Rops K marked' depth levels.
Proof.
  intros K m n L depth payload payload' out out' Hp Hb Hd E E'.
  assert (Hd0 : 0 < depth) by (assert (0 < 2 ^ (L + 1)) by (apply pow_lt; lra); lra).
  assert (G : forall pl o, embed Rops K m pl depth L = Ok o ->
    extract Rops K o depth L = (let cap := (band n L * band n L / 8)%nat in bind (decode K (repeat 255%Z cap) cap) data_deserialize)).
  { intros pl o Eo. destruct (embed_inv Rops K m n L depth pl o (proj1 Hp) Eo) as (H9 & ser & enc & E1 & E2 & E3).
    destruct (black_coefficients K m n L depth pl o ser enc Hp Hb Hd0 Eo E1 E2) as (_ & _ & (Hco & H8o) & HC).
    pose proof (carrier_band o n L Hco) as (_ & Hrep & Hdiv & _).
    destruct (extract_run Rops K o n L depth Hco H9) as (C & Hdom & C0 & C1 & GC & EX). rewrite EX.
    rewrite read_ok by assumption. cbn [bind].
    replace (map (byte_at Rops depth (band n L) C) (seq 0 (band n L * band n L / 8))) with (repeat 255%Z (band n L * band n L / 8)); [reflexivity|].
    assert (Hs : (0 < band n L)%nat) by (destruct (band n L); [cbn in H9; lia|lia]).
    assert (Hbit : forall k, (k < band n L * band n L)%nat -> cell_bit Rops depth (band n L) C k = true).
    { intros k Hk2. rewrite cell_bit_get by assumption. rewrite GC.
      rewrite (transform_ext Rops false n n L _ (pixR o) Hdiv) by (intros; apply get_pixR).
      destruct (place_lt (band n L) k Hs Hk2) as (P1 & P2). destruct (HC _ _ P1 P2) as (Hr & _).
      apply bit_of_small; [exact Hd0|]. rewrite pow_add in Hd. simpl (2 ^ 1) in Hd. lra. }
    apply nth_error_ext. intros k. rewrite nth_error_map.
    destruct (Nat.lt_ge_cases k (band n L * band n L / 8)) as [Hk|Hk].
    - rewrite (nth_error_repeat _ Hk). rewrite (nth_error_nth' _ 0%nat) by (rewrite seq_length; exact Hk). rewrite seq_nth by exact Hk. cbn [option_map].
      f_equal. unfold byte_at. rewrite (map_ext_in _ (fun _ => true)); [reflexivity|]. intros o' Ho'. apply in_seq in Ho'. apply Hbit.
      pose proof (Nat.mul_div_le (band n L * band n L) 8 ltac:(lia)). lia.
    - rewrite (proj2 (nth_error_None (seq 0 _) k)) by (rewrite seq_length; exact Hk).
      rewrite (proj2 (nth_error_None (repeat _ _) k)) by (rewrite repeat_length; exact Hk). reflexivity. }
  rewrite (G _ _ E), (G _ _ E'). reflexivity.
Qed.

(** *** C35 *)
Lemma foldM_inv {A B} (P : B -> Prop) (f : B -> A -> outcome B) l : (forall s a s', In a l -> P s -> f s a = Ok s' -> P s') ->
  forall s s', P s -> foldM f l s = Ok s' -> P s'.
Proof.
  induction l as [|a t IH]; intros H s s' HP E; cbn [foldM] in E; [congruence|].
  apply bind_ok in E as (s1 & E1 & E2). apply (IH ltac:(intros; eapply H; [right|..]; eassumption) s1 s'); [|exact E2].
  apply (H s a); [now left|exact HP|exact E1].
Qed.

Definition same_shape {A B} (m : array2 A) (m' : array2 B) : Prop := wf m' /\ dim0 m' = dim0 m /\ dim1 m' = dim1 m.

Lemma dwt_1d_length {F} (O : FOps F) l bw l' : dwt_1d O l 1 bw = Ok l' -> length l' = length l.
Proof.
  intros E. destruct (Nat.eq_dec (length l mod 2) 0) as [H|H].
  - destruct (dwt_1d_spec O l bw (f_of_Z O 0) H) as (l2 & E2 & L2 & _). congruence.
  - unfold dwt_1d in E. change (2 ^ 1)%nat with 2%nat in E. rewrite (proj2 (Nat.eqb_neq _ _) H) in E. discriminate.
Qed.

Lemma dwt_2d_shape {F} (O : FOps F) m levels bw m' : wf m -> dwt_2d O m levels bw = Ok m' -> same_shape m m'.
Proof.
  intros Hwf E. unfold dwt_2d in E. destruct levels as [|k]; [discriminate|].
  apply (foldM_inv (fun x => same_shape m x)) in E; [exact E| |repeat split; try reflexivity; apply Hwf].
  clear E. intros s it s' _ (Hs & S0 & S1) E. unfold dwt_2d_iteration in E. destruct (Nat.leb 31 it); [discriminate|].
  apply bind_ok in E as (s1 & E1 & E2). unfold process_rows, process_columns in *.
  pose proof (div_pow_le (dim0 s) it) as Hle0. pose proof (div_pow_le (dim1 s) it) as Hle1.
  assert (Hs1 : same_shape m s1).
  { apply (foldM_inv (fun x => same_shape m x)) in E1; [exact E1| |repeat split; try assumption; apply Hs].
    intros a i a' Hi (Ha & A0 & A1) Ea. apply in_seq in Hi. apply bind_ok in Ea as (v & Ev & Ea).
    assert (Ea' : a' = assign_row a (dim1 s / 2 ^ it) i v) by congruence. rewrite Ea'.
    apply dwt_1d_length in Ev. pose proof (row_length a i Ha ltac:(lia)) as Hrl.
    unfold view_row in Ev. rewrite firstn_length, Hrl in Ev.
    destruct (assign_row_spec O a (dim1 s / 2 ^ it) i v Ha) as (W & _); [lia|lia|lia|]. repeat split; try assumption; apply W. }
  apply (foldM_inv (fun x => same_shape m x)) in E2; [exact E2| |exact Hs1].
  intros a j a' Hj (Ha & A0 & A1) Ea. apply in_seq in Hj. apply bind_ok in Ea as (v & Ev & Ea).
  assert (Ea' : a' = assign_col a (dim0 s / 2 ^ it) j v) by congruence. rewrite Ea'.
  apply dwt_1d_length in Ev. unfold view_col in Ev. rewrite map_length, firstn_length in Ev. pose proof (proj1 Ha) as Hl.
  destruct (assign_col_spec O a (dim0 s / 2 ^ it) j v Ha) as (W & _); [lia|lia|lia|]. repeat split; try assumption; apply W.
Qed.

Lemma write_shape {F} (O : FOps F) m w h bs depth m' : wf m -> write O m w h bs depth = Ok m' -> same_shape m m'.
Proof.
  intros Hwf E. unfold write in E. destruct (_ <? _)%nat; [discriminate|]. apply bind_ok in E as (st & E & Em).
  assert (Em' : m' = fst st) by congruence. rewrite Em'.
  apply (foldM_inv (fun x => same_shape m (fst x))) in E; [exact E| |repeat split; try reflexivity; apply Hwf].
  intros (a, o) b s' _ (Ha & A0 & A1) Eb. cbn [fst] in *. unfold write_bit in Eb. destruct (get_column_and_row o w h) as (c, r).
  apply bind_ok in Eb as (x & _ & Eb). assert (Es : s' = (set_cell a r c (mark O depth b x), S o)) by congruence. rewrite Es. cbn [fst].
  pose proof (set_cell_wf a r c (mark O depth b x) Ha) as W. repeat split; try assumption; apply W.
Qed.

Lemma b_cast_range lo hi x : (lo <= 0 <= hi)%Z -> (lo <= b_cast lo hi x <= hi)%Z.
Proof. intros H. destruct x as [s|s| |s mm e Hb]; cbn [b_cast]; try destruct s; unfold clamp; lia. Qed.

Theorem C35_embed_keeps_the_shape : forall K image payload (depth : b64) levels marked,
  wf image -> embed Bops K image payload depth levels = Ok marked -> image8 marked /\ dim0 marked = dim0 image /\ dim1 marked = dim1 image.
Proof.
  intros K m payload depth L out Hwf E. unfold embed in E.
  apply bind_ok in E as (C & EC & E). apply bind_ok in E as (w & _ & E). apply bind_ok in E as (h & _ & E). apply bind_ok in E as (cap & _ & E).
  apply bind_ok in E as (ser & _ & E). apply bind_ok in E as (enc & _ & E). apply bind_ok in E as (C' & EW & E). apply bind_ok in E as (R & ER & E).
  apply dwt_2d_shape in EC as (W1 & A0 & A1); [|now apply mapv_wf]. apply write_shape in EW as (W2 & B0 & B1); [|exact W1].
  apply dwt_2d_shape in ER as (W3 & C0 & C1); [|exact W2]. cbn [mapv dim0 dim1] in *.
  assert (Eo : out = mapv (fun x => f_to_u8 Bops (f_round Bops x)) R) by congruence. rewrite Eo. cbn [mapv dim0 dim1].
  split; [|split; congruence]. apply image8_cells; [now apply mapv_wf|]. intros i j v Ev. rewrite cell_mapv in Ev.
  destruct (cell R i j) as [x|]; [|discriminate]. cbn [option_map] in Ev.
  assert (Ev' : v = f_to_u8 Bops (f_round Bops x)) by congruence. rewrite Ev'. unfold byte.
  change (f_to_u8 Bops (f_round Bops x)) with (b_cast 0 255 (f_round Bops x)).
  pose proof (b_cast_range 0 255 (f_round Bops x) ltac:(lia)). lia.
Qed.

Lemma mapM_outside {A B} (f : A -> outcome B) l : (forall a, f a <> Outside) -> mapM f l <> Outside.
Proof.
  intros H. induction l as [|a t IH]; cbn [mapM]; [discriminate|]. destruct (f a) eqn:E; cbn [bind]; [|discriminate|now elim (H a)].
  destruct (mapM f t); cbn [bind]; congruence.
Qed.
Lemma read_not_outside {F} (O : FOps F) m w h depth : read O m w h depth <> Outside.
Proof.
  unfold read. apply mapM_outside. intros i. unfold read_next.
  assert (H : mapM (read_bit O m w h depth) (seq (8 * i) 8) <> Outside).
  { apply mapM_outside. intros o. unfold read_bit. destruct (get_column_and_row o w h). destruct (view_get _ _ _ _ _); discriminate. }
  destruct (mapM _ _); cbn [bind]; congruence.
Qed.

(** A low-pass band of fewer than 72 cells: both directions panic. *)
Theorem C35_small_domains_are_rejected : forall (F : Type) (O : FOps F) K image depth levels,
  wf image -> (dim0 image mod 2 ^ levels = 0)%nat -> (dim1 image mod 2 ^ levels = 0)%nat -> (1 <= levels <= 30)%nat ->
  ((dim0 image / 2 ^ levels) * (dim1 image / 2 ^ levels) < 72)%nat ->
  (forall payload, embed O K image payload depth levels = Panic MinCapacity)
  /\ is_panic (extract O K image depth levels) = true.
Proof.
  intros F O K m depth L Hwf D0 D1 HL Hsmall.
  assert (Hwf' : wf (mapv (f_of_Z O) m)) by now apply mapv_wf.
  destruct (dwt_2d_ok O false L (mapv (f_of_Z O) m) Hwf') as (C & EC & _); [split; assumption|lia|].
  assert (Hrep : representable (band (dim0 m) L) (band (dim1 m) L)).
  { unfold representable, band. apply Z.lt_trans with 72%Z; [lia|reflexivity]. }
  assert (Hcap : (band (dim0 m) L * band (dim1 m) L / 8 < 9)%nat).
  { unfold band. apply Nat.div_lt_upper_bound; lia. }
  split.
  - intros payload. unfold embed. rewrite EC. cbn [bind]. rewrite !ll_side_ok by lia. cbn [bind]. rewrite get_domain_capacity_small by assumption. reflexivity.
  - unfold extract. rewrite EC. cbn [bind]. rewrite !ll_side_ok by lia. cbn [bind].
    pose proof (read_not_outside O C (band (dim0 m) L) (band (dim1 m) L) depth) as Hno.
    destruct (read O C _ _ depth); cbn [bind]; [|reflexivity|congruence]. rewrite get_domain_capacity_small by assumption. reflexivity.
Qed.

(** *** C57 *)
(** A coded capacity that is not a whole number of code words: every extraction panics. *)
Theorem C57_ragged_sizes_always_panic : forall (F : Type) (O : FOps F) K image n levels depth,
  carrier image n levels -> coded (band_capacity n levels) ->
  (band_capacity n levels mod codeword_size (band_capacity n levels) <> 0)%nat ->
  is_panic (extract O K image depth levels) = true.
Proof.
  intros F O K m n L depth Hc Hcod Hmod. unfold band_capacity in *. fold (band n L) in *.
  assert (H9 : (9 <= band n L * band n L / 8)%nat) by (unfold coded in Hcod; lia).
  destruct (extract_run O K m n L depth Hc H9) as (C & Hdom & _ & _ & _ & EX). rewrite EX.
  destruct (carrier_band m n L Hc) as (_ & Hrep & _). rewrite read_ok by assumption. cbn [bind].
  set (l := map _ _). assert (Ll : length l = (band n L * band n L / 8)%nat) by (unfold l; now rewrite map_length, seq_length).
  destruct (code_cases (band n L * band n L / 8)) as [(_ & c & Ec & En & Ek)|(N & _)]; [|contradiction].
  destruct (decode_ragged K l _ c Ec) as (r & Er); [rewrite En, Ll; exact Hmod|]. rewrite Er. reflexivity.
Qed.

(** An uncoded capacity: what was embedded is never returned, although every stored bit is read back correctly. *)
Theorem C57_uncoded_sizes_never_return_the_payload : forall K, ldpc_shape K -> forall image n levels depth payload marked,
  picture image n levels -> ~ coded (band_capacity n levels) -> bytes payload ->
  2 ^ (levels + 1) < depth -> room image n levels (8 * (length payload + 4)) (3 * depth / 2 ^ (levels + 2)) ->
  embed Rops K image payload depth levels = Ok marked -> extract Rops K marked depth levels <> Ok payload.
Proof.
  intros K Hsh m n L depth payload out Hp Hn Hb Hd Hroom E. pose proof Hp as (Hc & H8).
  assert (Hd0 : 0 < depth) by (assert (0 < 2 ^ (L + 1)) by (apply pow_lt; lra); lra).
  destruct (embed_inv Rops K m n L depth payload out Hc E) as (H9 & ser & enc & E1 & E2 & E3).
  destruct (embed_effect_real K m n L depth payload ser enc Hc H8 Hd0 H9 E1 E2 E3) as (out' & Eo & Heff).
  assert (out' = out) by congruence. subst out'.
  destruct (encoded_size_ok K n L payload ser enc Hsh Hb E1 E2) as ((_ & S2) & Benc). specialize (S2 Hn).
  destruct (extract_bits Rops K out n L depth enc (proj1 (eff_shape _ _ _ _ _ _ _ _ _ Heff)) H9 Benc E3) as (tail & Bt & Lt & EX).
  - apply (marked_bits_real m n L depth out enc _ Hp Heff Hd E3). rewrite S2. exact Hroom.
  - rewrite EX. destruct (C15_uncoded_never_roundtrips K _ Hn) as (_ & H15 & _).
    destruct (H15 payload ser tail E1) as (o & d & Eo' & Ed & Hne). unfold band_capacity in Eo', Ed. fold (band n L) in Eo', Ed.
    assert (o = enc) by congruence. subst o. rewrite Ed. exact Hne.
Qed.
Theorem C57_f64_uncoded_sizes_never_return_the_payload : forall K, ldpc_shape K -> forall image n levels (depth : b64) payload marked,
  picture image n levels -> (levels <= 10)%nat -> ~ coded (band_capacity n levels) -> bytes payload ->
  fin depth -> 65 / 64 * 2 ^ (levels + 1) <= toR depth <= 2 ^ 20 ->
  room image n levels (8 * (length payload + 4)) (3 * toR depth / 2 ^ (levels + 2)) ->
  embed Bops K image payload depth levels = Ok marked -> extract Bops K marked depth levels <> Ok payload.
Proof.
  intros K Hsh m n L depth payload out Hp HL Hn Hb Fd Hd Hroom E. pose proof Hp as (Hc & H8).
  assert (Hd20 : toR depth <= bpow radix2 20) by (simpl bpow; lra).
  assert (Hd0 : / 1024 <= toR depth) by (assert (1 <= 2 ^ (L + 1)) by (apply pow_R1_Rle; lra); lra).
  destruct (embed_inv Bops K m n L depth payload out Hc E) as (H9 & ser & enc & E1 & E2 & E3).
  destruct (embed_effect_float K m n L depth payload ser enc Hc H8 HL Fd (conj Hd0 Hd20) H9 E1 E2 E3) as (out' & Eo & Heff).
  assert (out' = out) by congruence. subst out'.
  destruct (encoded_size_ok K n L payload ser enc Hsh Hb E1 E2) as ((_ & S2) & Benc). specialize (S2 Hn).
  destruct (extract_bits Bops K out n L depth enc (proj1 (eff_shape _ _ _ _ _ _ _ _ _ Heff)) H9 Benc E3) as (tail & Bt & Lt & EX).
  - apply (marked_bits_float m n L depth out enc Hp HL Fd Heff (conj (proj1 Hd) Hd20) E3). rewrite S2. exact Hroom.
  - rewrite EX. destruct (C15_uncoded_never_roundtrips K _ Hn) as (_ & H15 & _).
    destruct (H15 payload ser tail E1) as (o & d & Eo' & Ed & Hne). unfold band_capacity in Eo', Ed. fold (band n L) in Eo', Ed.
    assert (o = enc) by congruence. subst o. rewrite Ed. exact Hne.
Qed.

(** The usable picture sides at the library's three levels. *)
Definition usableb (s : nat) : bool :=
  match get_code_by_codeword_length (s * s / 8) with Some c => Nat.eqb ((s * s / 8) mod n_bytes c) 0 | None => false end.
Lemma usable_b n L : usable n L <-> usableb (n / 2 ^ L) = true.
Proof.
  unfold usable, usableb, band_capacity. set (cap := (n / 2 ^ L * (n / 2 ^ L) / 8)%nat).
  destruct (code_cases cap) as [(Hc & c & -> & En & _)|(Hn & ->)].
  - rewrite En, Nat.eqb_eq. tauto.
  - split; [tauto|discriminate].
Qed.

Theorem C57_usable_sides_below_1024 : forall n, (n mod 8 = 0)%nat -> (n < 1024)%nat ->
  (usable n 3 <-> n = 128%nat \/ n = 256%nat \/ n = 512%nat).
Proof.
  intros n Hm Hn. rewrite usable_b. change (2 ^ 3)%nat with 8%nat. set (s := (n / 8)%nat).
  assert (En : n = (8 * s)%nat) by (unfold s; pose proof (Nat.div_mod n 8 ltac:(lia)); lia). rewrite En. clearbody s. subst n.
  assert (Hs : In s (seq 0 128)) by (apply in_seq; lia). clear Hn Hm.
  assert (Hall : forallb (fun s => Bool.eqb (usableb s) (Nat.eqb s 16 || Nat.eqb s 32 || Nat.eqb s 64)) (seq 0 128) = true) by (vm_compute; reflexivity).
  rewrite forallb_forall in Hall. specialize (Hall s Hs). apply Bool.eqb_prop in Hall. rewrite Hall.
  rewrite !orb_true_iff, !Nat.eqb_eq. lia.
Qed.
Theorem C57_usable_sides_from_1024 : forall n, (n mod 8 = 0)%nat -> (1024 <= n)%nat ->
  (usable n 3 <-> (Z.of_nat (n / 8 * (n / 8) / 8) mod 1024 = 0)%Z).
Proof.
  intros n Hm Hn. unfold usable, band_capacity. change (2 ^ 3)%nat with 8%nat. set (s := (n / 8)%nat).
  assert (Hs : (128 <= s)%nat) by (unfold s; apply Nat.div_le_lower_bound; lia). clearbody s.
  assert (Hss : (Z.of_nat 2048 <= Z.of_nat (s * s / 8))%Z) by (apply Nat2Z.inj_le, Nat.div_le_lower_bound; nia).
  set (cap := (s * s / 8)%nat) in *. clearbody cap. assert (Hcs : codeword_size cap = Z.to_nat 1024).
  { unfold codeword_size. rewrite (proj2 (Z.leb_le _ _)) by lia. reflexivity. }
  rewrite Hcs. split.
  - intros (_ & H). rewrite <- (Z2Nat.id 1024) at 1 by lia. rewrite <- Nat2Z.inj_mod, H. reflexivity.
  - intros H. split; [right; lia|]. apply Nat2Z.inj. rewrite Nat2Z.inj_mod, Z2Nat.id by lia. exact H.
Qed.

(** ** Witnesses: a mid-grey 128 x 128 picture, depth 100, three levels, a 12-byte payload *)
Definition grey128 : array2 Z := wit_matrix 128%Z 128 128.
Lemma cell_wit {A} (x : A) a b i j v : cell (wit_matrix x a b) i j = Some v -> v = x.
Proof.
  unfold cell, wit_matrix. cbn [rows]. intros H. destruct (nth_error (repeat (repeat x b) a) i) as [r|] eqn:E; [|discriminate].
  apply nth_error_In, repeat_spec in E. subst r. apply nth_error_In, repeat_spec in H. exact H.
Qed.
Lemma grey128_picture : picture grey128 128 3.
Proof.
  assert (W : wf grey128) by apply wit_wf. split.
  - split; [exact W|]. repeat split; lia.
  - apply image8_cells; [exact W|]. intros i j v E. apply cell_wit in E. subst v. unfold byte. lia.
Qed.
Example C30_witness : ldpc_shape toy_ldpc /\ ldpc_decodes toy_ldpc /\ picture grey128 128 3 /\ usable 128 3
  /\ (stored_size 128 3 12 <= band_capacity 128 3)%nat /\ 2 ^ (3 + 1) < 100
  /\ room grey128 128 3 (8 * stored_size 128 3 12) (3 * 100 / 2 ^ (3 + 2)).
Proof.
  split; [exact toy_shape|]. split; [exact toy_decodes|]. split; [exact grey128_picture|].
  split; [apply usable_b; vm_compute; reflexivity|]. split; [vm_compute; lia|]. split; [simpl; lra|].
  intros i j v E _. apply cell_wit in E. subst v. simpl. lra.
Qed.
Example C31_witness : fin (f_of_Z Bops 100) /\ 65 / 64 * 2 ^ (3 + 1) <= toR (f_of_Z Bops 100) <= 2 ^ 20
  /\ room grey128 128 3 (8 * stored_size 128 3 12) (3 * toR (f_of_Z Bops 100) / 2 ^ (3 + 2)).
Proof.
  destruct (b_of_Z_ok 100) as (F1 & V1); [lia|]. change (b_of_Z 100) with (f_of_Z Bops 100) in *. rewrite V1.
  split; [exact F1|]. split; [simpl; lra|]. intros i j v E _. apply cell_wit in E. subst v. simpl. lra.
Qed.
(** so embedding and extracting at depth 100 really happens in the f64 model: *)
Example C31_instance : exists marked, embed Bops toy_ldpc grey128 (repeat 65%Z 12) (f_of_Z Bops 100) 3 = Ok marked
  /\ extract Bops toy_ldpc marked (f_of_Z Bops 100) 3 = Ok (repeat 65%Z 12).
Proof.
  destruct C30_witness as (H1 & H2 & H3 & H4 & H5 & _). destruct C31_witness as (H6 & H7 & H8).
  destruct (C31_f64_embed_then_extract_returns_the_payload toy_ldpc H1 H2 grey128 128 3 (f_of_Z Bops 100) (repeat 65%Z 12)) as (mk & E1 & _ & E2);
    try assumption; try (rewrite repeat_length); try lia; try assumption.
  - apply Forall_forall. intros x Hx. apply repeat_spec in Hx. subst x. unfold byte. lia.
  - exists mk. split; assumption.
Qed.
Example C34_witness : picture (wit_matrix 0%Z 128 128) 128 3 /\ black (wit_matrix 0%Z 128 128)
  /\ exists marked, embed Rops toy_ldpc (wit_matrix 0%Z 128 128) (repeat 65%Z 12) 100 3 = Ok marked.
Proof.
  assert (W : wf (wit_matrix 0%Z 128 128)) by apply wit_wf.
  assert (P : picture (wit_matrix 0%Z 128 128) 128 3).
  { split; [split; [exact W|repeat split; lia]|]. apply image8_cells; [exact W|]. intros i j v E. apply cell_wit in E. subst v. unfold byte. lia. }
  split; [exact P|]. split; [intros i j v E; now apply cell_wit in E|].
  assert (Eser : exists ser, data_serialize (repeat 65%Z 12) = Ok ser) by (eexists; vm_compute; reflexivity). destruct Eser as (ser & Eser).
  assert (Eenc : exists enc, encode toy_ldpc ser (band 128 3 * band 128 3 / 8) = Ok enc /\ (length enc <= 32)%nat).
  { assert (Es : ser = [12; 0]%Z ++ repeat 65%Z 12) by (vm_compute in Eser; vm_compute; congruence). rewrite Es. eexists. split; [vm_compute; reflexivity|]. vm_compute. lia. }
  destruct Eenc as (enc & Eenc & Lenc).
  destruct (embed_run Rops toy_ldpc _ 128 3 100 (repeat 65%Z 12) ser enc (proj1 P)) as (H & _); [vm_compute; lia|exact Eser|exact Eenc|].
  destruct H as (R & ER & _); [|eauto]. change (band 128 3 * band 128 3 / 8)%nat with 32%nat. exact Lenc.
Qed.
(** ragged: a 768 x 768 picture; uncoded: 192 x 192 *)
Example C57_witness : (coded (band_capacity 768 3) /\ (band_capacity 768 3 mod codeword_size (band_capacity 768 3) <> 0)%nat)
  /\ ~ coded (band_capacity 192 3) /\ usable 1024 3.
Proof.
  split; [|split].
  - replace (band_capacity 768 3) with 1152%nat by (vm_compute; reflexivity). split; [right; lia|]. vm_compute. discriminate.
  - replace (band_capacity 192 3) with 72%nat by (vm_compute; reflexivity). unfold coded. lia.
  - apply usable_b. vm_compute. reflexivity.
Qed.

Print Assumptions C30_embed_then_extract_returns_the_payload.
Print Assumptions C31_f64_embed_then_extract_returns_the_payload.
Print Assumptions C32_pixel_change_bound.
Print Assumptions C32_f64_pixel_change_bound.
Print Assumptions C32_f64_pixel_change_of_the_front_ends.
Print Assumptions C33_unused_blocks_are_unchanged.
Print Assumptions C33_f64_unused_blocks_are_unchanged.
Print Assumptions C34_black_image_reads_zero_bits_as_ones.
Print Assumptions C34_black_image_forgets_the_payload.
Print Assumptions C35_embed_keeps_the_shape.
Print Assumptions C35_small_domains_are_rejected.
Print Assumptions C57_ragged_sizes_always_panic.
Print Assumptions C57_uncoded_sizes_never_return_the_payload.
Print Assumptions C57_f64_uncoded_sizes_never_return_the_payload.
Print Assumptions C57_usable_sides_below_1024.
Print Assumptions C57_usable_sides_from_1024.
