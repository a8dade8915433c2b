(** Property C115: a depth that is too small.  The library takes any depth; below two thirds of 2^levels (for its three levels: below 16/3) no pixel of any picture is ever
    changed, whatever the payload: the call returns Ok and there is no watermark in the result
    (lib/sia/rust/embedding/src/lib.rs: embed, extract; lib/sia/rust/watermarking/src/lib.rs: watermark; lib/sia/rust/watermarking/src/process.rs: watermark_channel). *)
From Coq Require Import Reals Lra.
From Flocq Require Import Core BinarySingleNaN.
From Verif Require Import Outcome Floats FloatFacts Bits ListFacts Quantization QuantProofs QuantReal QuantFloat PropsQuant PropsQuant2 Codecs CodecProofs WatermarkProofs PropsCodec
  Encoding EncodingProofs PropsEncoding Matrix MatrixFacts Haar HaarProofs HaarReal HaarFloat PropsHaar Stego StegoProofs StegoMarks PropsStego Embedding EmbeddingProofs EmbeddingEffect PropsEmbedding PropsEmbedding2 PropsEmbedding3 PropsRobust
  Signature Process ProcessProofs Toy Zernike ZernikeProofs PropsZernike ZernikeBound PropsZernike2 ZernikeGen PropsZernikeF64 LibmSpec LibmExact PropsZernikeAcc
  PropsProcess PropsProcess2 Image PropsImage PropsProcess3 PropsProcess4 PropsProcess5 PropsProcess6 PropsTamper Equalize PropsEqualize PropsShipped PropsShipped2 PropsInteger PropsClipping PropsClipping2 PropsRepair PropsRepair2 PropsVerdict PropsUnused PropsForged PropsBright PropsBlockwise.
Open Scope R_scope.

(** ** Proofs *)
Lemma same_pixels (m out : array2 Z) : wf m -> wf out -> dim0 out = dim0 m -> dim1 out = dim1 m ->
  (forall i j v w, cell m i j = Some v -> cell out i j = Some w -> Rabs (IZR w - IZR v) < 1) -> out = m.
Proof.
  intros Wm Wo E0 E1 H. apply array2_ext; auto. intros i j Hi Hj. rewrite E0 in Hi. rewrite E1 in Hj.
  destruct (cell_bounds m i j Wm Hi Hj) as (v & Ev). destruct (cell_bounds out i j Wo) as (w & Ew); [now rewrite E0|now rewrite E1|].
  rewrite Ev, Ew. f_equal. specialize (H i j v w Ev Ew). rewrite <- minus_IZR, <- abs_IZR in H. apply lt_IZR in H. lia.
Qed.

(** *** C115, exact arithmetic: any number of levels *)
Theorem C115_small_depths_embed_nothing : forall K image n levels depth payload marked,
  picture image n levels -> 0 < depth -> 3 * depth < 2 ^ (levels + 1) -> embed Rops K image payload depth levels = Ok marked -> marked = image.
Proof.
  intros K m n L d pl out Hp Hd Hs E. pose proof Hp as (Hc & _). pose proof Hc as (Wf & D0 & D1 & _).
  destruct (embed_pixels_real K m n L d pl out Hc E) as ((Wo & O0 & O1 & _) & _).
  apply same_pixels; [exact Wf|exact Wo|congruence|congruence|]. intros i j v w Ev Ew. eapply Rle_lt_trans; [exact (C32_pixel_change_bound K m n L d pl out Hp Hd E i j v w Ev Ew)|].
  assert (P : 0 < 2 ^ L) by (apply pow_lt; lra). rewrite pow_add in Hs. rewrite pow_add. simpl (2 ^ 1) in Hs. simpl (2 ^ 2).
  apply (Rmult_lt_reg_r (2 ^ L)); [exact P|]. replace ((3 * d / (2 ^ L * (2 * (2 * 1))) + / 2) * 2 ^ L) with (3 * d / 4 + 2 ^ L / 2) by (field; lra). lra.
Qed.

(** *** C115, binary64 *)
Theorem C115_f64_small_depths_embed_nothing : forall K image n levels (depth : b64) payload marked,
  picture image n levels -> (levels <= 10)%nat -> fin depth -> / 1024 <= toR depth -> 769 * toR depth < 511 * 2 ^ levels ->
  embed Bops K image payload depth levels = Ok marked -> marked = image.
Proof.
  intros K m n L d pl out Hp HL Fd Hd Hs E. pose proof Hp as ((Wf & _) & _).
  destruct (C35_embed_keeps_the_shape K m pl d L out Wf E) as ((Wo & _) & O0 & O1).
  assert (P : 0 < 2 ^ L) by (apply pow_lt; lra).
  assert (P10 : 2 ^ L <= 2 ^ 10) by (apply Rle_pow; [lra|exact HL]). simpl (2 ^ 10) in P10.
  apply same_pixels; [exact Wf|exact Wo|exact O0|exact O1|]. intros i j v w Ev Ew.
  eapply Rle_lt_trans; [apply (C32_f64_pixel_change_bound K m n L d pl out Hp HL Fd) with (1 := conj Hd (ltac:(simpl; lra) : toR d <= 2 ^ 20)) (2 := E) (3 := Ev) (4 := Ew)|].
  apply (Rmult_lt_reg_r (2 ^ L)); [exact P|]. replace (((3 / 4 + / 1024) * toR d / 2 ^ L + / 2 + / 1024) * 2 ^ L) with ((3 / 4 + / 1024) * toR d + (/ 2 + / 1024) * 2 ^ L) by (field; lra). lra.
Qed.

(** *** C115 for whole pictures: nothing is changed, so nothing can be read. *)
Theorem C115_f64_small_depths_leave_the_picture : forall K E equalize features_of checks pad image n (depth step : b64) amount result,
  well_formed image -> dimensions image = (n, n) -> (n mod 8 = 0)%nat -> (Z.of_nat (n * n) < 2 ^ 53)%Z ->
  fin depth -> / 1024 <= toR depth -> toR depth <= 5 ->
  watermark_image Bops K E equalize features_of checks pad image depth step amount = Ok result ->
  dimensions result = dimensions image /\ get_pixels result = get_pixels image.
Proof.
  intros K E eq fo checks pad image n depth step amount result Hw Ed Hm Hr Fd Hd Hs H.
  destruct (C42_watermark_preserves_size_layout_and_alpha K E eq fo checks pad image depth step amount result Hw H) as (D & X2 & X3 & X4 & X5 & Ha & H1 & H2 & H3).
  split; [exact D|].
  assert (S : forall sel, sel = ch1 \/ sel = ch2 \/ sel = ch3 -> watermark_channel Bops K E eq fo checks pad (component sel image) depth step amount 3 = Ok (component sel result) ->
              forall k p q, nth_error (get_pixels image) k = Some p -> nth_error (get_pixels result) k = Some q -> sel q = sel p).
  { intros sel Hsel Hc k p q Ep Eq.
    assert (B : (Z.abs (sel q - sel p) <= 0)%Z).
    { apply (channel_change K E eq fo checks pad (component sel image) n depth step amount (component sel result) 0 (component_picture sel image n Hw Ed Hsel Hm Hr) Hc) with (k := k);
        [|unfold component; cbn [gray_raw]; now rewrite nth_error_map, Ep|unfold component; cbn [gray_raw]; now rewrite nth_error_map, Eq].
      intros im payload marked Hp He i j v w Ev Ew.
      assert (marked = im) by (apply (C115_f64_small_depths_embed_nothing K im n 3 depth payload marked Hp ltac:(lia) Fd Hd); [simpl (2 ^ 3); lra|exact He]). subst marked.
      assert (v = w) by congruence. lia. }
    lia. }
  apply nth_error_ext. intros k.
  assert (L : length (get_pixels result) = length (get_pixels image)) by (rewrite <- (map_length ch4 (get_pixels result)), Ha, map_length; reflexivity).
  destruct (nth_error (get_pixels image) k) as [p|] eqn:Ep; [|apply nth_error_None; apply nth_error_None in Ep; lia].
  destruct (nth_error (get_pixels result) k) as [q|] eqn:Eq; [|apply nth_error_None in Eq; assert (k < length (get_pixels image))%nat by (apply nth_error_Some; congruence); lia].
  pose proof (S ch1 (or_introl eq_refl) H1 k p q Ep Eq) as C1. pose proof (S ch2 (or_intror (or_introl eq_refl)) H2 k p q Ep Eq) as C2. pose proof (S ch3 (or_intror (or_intror eq_refl)) H3 k p q Ep Eq) as C3.
  pose proof (map_nth_error ch4 k _ Eq) as A. rewrite Ha in A. rewrite (map_nth_error ch4 k _ Ep) in A.
  destruct p as (((p1 & p2) & p3) & p4), q as (((q1 & q2) & q3) & q4). cbn [ch1 ch2 ch3 ch4] in *. congruence.
Qed.

(** *** C115: and the call succeeds.  With the features both front ends use, whatever the colours. *)
Section Faint.
Context (K : ldpc) (Hsh : ldpc_shape K) (Hdec : ldpc_decodes K) (E : ed25519) (HE : signature_format E) (Hk : key_pair E PRIVATE_KEY PUBLIC_KEY).
Context (M : libm b64) (HM : accurate M) (gamma : b64 -> b64) (checks : bool) (pad : list bool) (Hpad : length pad = 8%nat).
Let features_of := zernike_f64 M gamma checks.
Let one : b64 := f_of_Z Bops 1.

Lemma faint_channel (depth : b64) channel n : gray_picture channel n 3 -> side_ok n -> usable n 3 -> (stored_size n 3 (payload_size 11) <= band_capacity n 3)%nat ->
  exists marked, watermark_channel Bops K E equalize_histogram features_of checks pad channel depth one 11 3 = Ok marked.
Proof.
  intros Hg Hs Hu Hcap. pose proof (usable_side n 3 Hu) as Hn.
  destruct (gray_array channel n 3 Hg) as (im & Eim & Him & _). pose proof Him as (Hc & _).
  destruct (measured_exists M HM gamma checks channel n 3 11 Hg Hn Hs ltac:(lia)) as (fs & Hm).
  destruct (measured_1000 M HM gamma checks channel n 3 11 fs Hg Hn Hs ltac:(lia) Hm) as (Lf & Bf).
  destruct unit_one as (F1 & V1). fold one in F1, V1.
  assert (N1 : no_overflow Bops one checks fs).
  { apply (no_overflow_float one (unit_ordinary one V1)). eapply Forall_impl; [|exact (bounded_29 _ Bf)]. intros x (Fx & Bx). split; [exact Fx|]. rewrite V1. apply Rle_trans with (1 := Bx). simpl. lra. }
  pose proof (quantization_ok Bops one checks fs N1) as Eq. set (q := quantize Bops fs one) in *. set (bits := flat_map (bits3 Bops one) fs) in *.
  destruct (quantization_inv Bops checks fs one q bits Eq) as (_ & _ & Lb).
  destruct (sign_verify E _ _ (vec_i64_to_bytes q) HE Hk) as (sig & Es & Ls & Bs & Ev).
  destruct (payload_of pad bits sig (length fs) Hpad Bs Ls Lb ltac:(lia)) as (pl & Ep & Bp & Lp & Edp). rewrite Lf in Lp.
  pose proof (payload_size_range 11 ltac:(lia)) as Hsz. destruct Hu as (Hcod & Hmod).
  destruct (extract_payload Bops K im n 3 depth pl Hc Hsh Hdec Hcod Hmod Bp ltac:(rewrite Lp; lia) ltac:(rewrite Lp; exact Hcap)) as (ser & enc & E1 & E2 & E3 & E4 & E5 & _).
  destruct (embed_run Bops K im n 3 depth pl ser enc Hc E5 E1 E2) as (R & _). destruct (R E3) as (out & Eo & Wo & O0 & O1 & _).
  eexists. apply (watermark_run Bops K E equalize_histogram features_of checks pad channel im 11 fs one q bits sig pl _ depth 3 Eim Hm Eq Es Ep Eo).
  - now apply mapv_wf.
  - pose proof Hg as (W & H & _). cbn [mapv dim0]. congruence.
  - pose proof Hg as (W & H & _). cbn [mapv dim1]. congruence.
Qed.

Theorem C115_f64_faint_watermarks_are_none : forall image n (depth : b64),
  well_formed image -> dimensions image = (n, n) -> (n mod 8 = 0)%nat -> side_ok n -> usable n 3 ->
  (stored_size n 3 (payload_size 11) <= band_capacity n 3)%nat -> fin depth -> / 1024 <= toR depth -> toR depth <= 5 ->
  exists result, watermark_image Bops K E equalize_histogram features_of checks pad image depth one 11 = Ok result
    /\ dimensions result = dimensions image /\ get_pixels result = get_pixels image.
Proof.
  intros image n depth Hw Ed Hm8 Hs Hu Hcap Fd Hd1 Hd2.
  assert (Hr : (Z.of_nat (n * n) < 2 ^ 53)%Z) by (unfold side_ok in Hs; rewrite Nat2Z.inj_mul; nia).
  assert (Ch : forall sel, sel = ch1 \/ sel = ch2 \/ sel = ch3 -> exists marked, watermark_channel Bops K E equalize_histogram features_of checks pad (component sel image) depth one 11 3 = Ok marked).
  { intros sel Hsel. apply (faint_channel depth _ n); [now apply component_picture|exact Hs|exact Hu|exact Hcap]. }
  destruct (C42_watermark_returns_iff_the_channels_do b64 Bops K E equalize_histogram features_of checks pad image depth one 11) as (_ & (_ & Ret)).
  destruct Ret as (result & Eres); [split; [apply Ch; auto|intros _; split; apply Ch; auto]|]. exists result. split; [exact Eres|].
  exact (C115_f64_small_depths_leave_the_picture K E equalize_histogram features_of checks pad image n depth one 11 result Hw Ed Hm8 Hr Fd Hd1 Hd2 Eres).
Qed.
End Faint.

(** ** The hypotheses are met: depth 5 and the coloured picture of 512 x 512 pixels. *)
Opaque colour512 watermark_image.
Example C115_instance : exists result,
  watermark_image Bops toy_ldpc toy_ed equalize_histogram (zernike_f64 exact_libm (fun x => x) true) true (repeat false 8) colour512 (f_of_Z Bops 5) (f_of_Z Bops 1) 11 = Ok result
  /\ get_pixels result = get_pixels colour512.
Proof.
  destruct C83_512_is_usable as (A & B & C & D). assert (Ed : dimensions colour512 = (512, 512)%nat) by reflexivity.
  destruct (b_of_Z_ok 5) as (F5 & V5); [lia|]. change (b_of_Z 5) with (f_of_Z Bops 5) in *.
  destruct (C115_f64_faint_watermarks_are_none toy_ldpc toy_shape toy_decodes toy_ed toy_format toy_keys exact_libm exact_libm_accurate (fun x => x) true (repeat false 8) eq_refl colour512 512 (f_of_Z Bops 5)
    colour512_wf Ed A B C D F5) as (result & H1 & _ & H2); [rewrite V5; lra|rewrite V5; lra|]. exists result. now split.
Qed.
(** The bound cannot be raised to the next integer: with depth 6 this picture, whose blocks all have the sum 26, is changed wherever a one is stored. *)
Definition sparse128 : array2 Z := mkArray2 128 128 (map (fun i => map (fun j => if (8 * (i mod 8) + j mod 8 <? 26)%nat then 1%Z else 0%Z) (seq 0 128)) (seq 0 128)).
Lemma sparse128_cell i j : (i < 128)%nat -> (j < 128)%nat -> cell sparse128 i j = Some (if (8 * (i mod 8) + j mod 8 <? 26)%nat then 1%Z else 0%Z).
Proof.
  intros Hi Hj. unfold cell, sparse128. cbn [rows]. rewrite (map_nth_error _ i (seq 0 128) (d := i)) by (rewrite nth_error_nth' with (d := 0%nat) by (rewrite seq_length; exact Hi); now rewrite seq_nth).
  rewrite (map_nth_error _ j (seq 0 128) (d := j)) by (rewrite nth_error_nth' with (d := 0%nat) by (rewrite seq_length; exact Hj); now rewrite seq_nth). reflexivity.
Qed.
Lemma sparse128_picture : picture sparse128 128 3.
Proof.
  assert (W : wf sparse128) by (split; [reflexivity|]; apply Forall_forall; intros r Hr; apply in_map_iff in Hr as (i & <- & _); now rewrite map_length, seq_length).
  split; [split; [exact W|]; repeat split; lia|]. apply image8_cells; [exact W|]. intros i j v Ev.
  destruct (Nat.lt_ge_cases i 128) as [Hi|Hi]; [destruct (Nat.lt_ge_cases j 128) as [Hj|Hj]|].
  - rewrite sparse128_cell in Ev by assumption. unfold byte. destruct (_ <? _)%nat; assert (v = 1 \/ v = 0)%Z by (left + right; congruence); lia.
  - destruct (cell_some_lt sparse128 128 3 i j v) as (_ & L); [split; [exact W|]; repeat split; lia|exact Ev|lia].
  - destruct (cell_some_lt sparse128 128 3 i j v) as (L & _); [split; [exact W|]; repeat split; lia|exact Ev|lia].
Qed.
Lemma sparse128_sum bi bj : (bi < 16)%nat -> (bj < 16)%nat -> block_total sparse128 3 bi bj = 26%Z.
Proof.
  intros Hi Hj. unfold block_total. change (2 ^ 3)%nat with 8%nat.
  rewrite (PropsRobust.zsum_ext 8 _ (fun p => zsum 8 (fun q => if (8 * p + q <? 26)%nat then 1%Z else 0%Z))); [vm_compute; reflexivity|].
  intros p Hp. apply PropsRobust.zsum_ext. intros q Hq. unfold pixel. rewrite sparse128_cell by lia.
  rewrite (Nat.add_comm (8 * bi)), (Nat.add_comm (8 * bj)), (Nat.mul_comm 8 bi), (Nat.mul_comm 8 bj), !Nat.mod_add, !Nat.mod_small by lia. reflexivity.
Qed.
Example C115_depth_6_changes_pixels : exists marked i j, embed Bops toy_ldpc sparse128 (repeat 65%Z 12) (f_of_Z Bops 6) 3 = Ok marked /\ (i < 128)%nat /\ (j < 128)%nat /\ cell marked i j <> cell sparse128 i j.
Proof.
  assert (Eser : data_serialize (repeat 65%Z 12) = Ok ([12; 0]%Z ++ repeat 65%Z 12)) by (vm_compute; reflexivity).
  assert (Eenc : exists enc, encode toy_ldpc ([12; 0]%Z ++ repeat 65%Z 12) (band 128 3 * band 128 3 / 8) = Ok enc /\ (0 < length enc <= 32)%nat /\ exists k, (k < 8 * length enc)%nat /\ payload_bit enc k = true)
    by (eexists; split; [vm_compute; reflexivity|]; split; [vm_compute; lia|first [exists 0%nat; split; [vm_compute; lia|vm_compute; reflexivity]|exists 1%nat; split; [vm_compute; lia|vm_compute; reflexivity]|exists 2%nat; split; [vm_compute; lia|vm_compute; reflexivity]|exists 3%nat; split; [vm_compute; lia|vm_compute; reflexivity]|exists 4%nat; split; [vm_compute; lia|vm_compute; reflexivity]|exists 5%nat; split; [vm_compute; lia|vm_compute; reflexivity]|exists 6%nat; split; [vm_compute; lia|vm_compute; reflexivity]|exists 7%nat; split; [vm_compute; lia|vm_compute; reflexivity]|exists 8%nat; split; [vm_compute; lia|vm_compute; reflexivity]|exists 9%nat; split; [vm_compute; lia|vm_compute; reflexivity]|exists 10%nat; split; [vm_compute; lia|vm_compute; reflexivity]|exists 11%nat; split; [vm_compute; lia|vm_compute; reflexivity]|exists 12%nat; split; [vm_compute; lia|vm_compute; reflexivity]|exists 13%nat; split; [vm_compute; lia|vm_compute; reflexivity]|exists 14%nat; split; [vm_compute; lia|vm_compute; reflexivity]|exists 15%nat; split; [vm_compute; lia|vm_compute; reflexivity]]]).
  destruct Eenc as (enc & Eenc & Lenc & k & Hk & Bk).
  destruct (embed_run Bops toy_ldpc _ 128 3 (f_of_Z Bops 6) (repeat 65%Z 12) ([12; 0]%Z ++ repeat 65%Z 12) enc (proj1 sparse128_picture)) as (H & _); [vm_compute; lia|exact Eser|exact Eenc|].
  destruct H as (R & ER & _); [change (band 128 3 * band 128 3 / 8)%nat with 32%nat; exact (proj2 Lenc)|].
  set (marked := mapv (fun x => f_to_u8 Bops (f_round Bops x)) R) in ER. clearbody marked. exists marked, (8 * (k / 16))%nat, (8 * (k mod 16))%nat.
  assert (L1 : (k / 16 < 16)%nat) by (apply Nat.div_lt_upper_bound; lia). pose proof (Nat.mod_upper_bound k 16 ltac:(lia)) as L2.
  split; [exact ER|]. split; [lia|]. split; [lia|].
  destruct (C86_f64_embedding_in_integers toy_ldpc sparse128 128 6 _ marked ltac:(lia) sparse128_picture ER) as (ser & enc' & E1 & E2 & Hcell).
  assert (enc' = enc). { assert (ser = [12; 0]%Z ++ repeat 65%Z 12) by congruence. subst ser. change (band 128 3 * band 128 3 / 8)%nat with (band_capacity 128 3) in Eenc. congruence. } subst enc'.
  assert (D1 : (8 * (k / 16) / 8)%nat = (k / 16)%nat) by (rewrite Nat.mul_comm; apply Nat.div_mul; lia). assert (D2 : (8 * (k mod 16) / 8)%nat = (k mod 16)%nat) by (rewrite Nat.mul_comm; apply Nat.div_mul; lia).
  assert (S : PropsInteger.block_sum sparse128 (8 * (k / 16)) (8 * (k mod 16)) = 26%Z) by (unfold PropsInteger.block_sum; rewrite D1, D2; apply sparse128_sum; assumption).
  pose proof (sparse128_cell (8 * (k / 16)) (8 * (k mod 16)) ltac:(lia) ltac:(lia)) as Ec.
  rewrite (Hcell _ _ _ Ec); [|rewrite S; intros [T|(b & T)]; [vm_compute in T; discriminate|destruct b; vm_compute in T; discriminate]].
  rewrite Ec. rewrite (Nat.mul_comm 8 (k / 16)), (Nat.mul_comm 8 (k mod 16)) , !Nat.mod_mul in * by lia. change (8 * 0 + 0 <? 26)%nat with true in *. cbv match in *.
  unfold stores. cbv zeta. rewrite S. change (128 / 8)%nat with 16%nat.
  rewrite !Nat.div_mul by lia. replace (16 * (k / 16) + k mod 16)%nat with k by (pose proof (Nat.div_mod k 16 ltac:(lia)); lia).
  rewrite (proj2 (Nat.ltb_lt _ _) Hk), Bk. vm_compute. discriminate.
Qed.

Print Assumptions C115_small_depths_embed_nothing.
Print Assumptions C115_f64_small_depths_embed_nothing.
Print Assumptions C115_f64_small_depths_leave_the_picture.
Print Assumptions C115_f64_faint_watermarks_are_none.
