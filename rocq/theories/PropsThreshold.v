(** Property C112: the condition on the depth in C30 (more than 2^(levels+1), 16 for the three levels of the library) cannot be weakened: at 2^(levels+1) every bit
    written into a flat picture of even brightness is read back inverted (exact arithmetic)
    (lib/sia/rust/embedding/src/lib.rs: embed, extract; lib/sia/rust/embedding/src/io/steganography.rs). *)
From Coq Require Import Reals Lra.
From Flocq Require Import Core BinarySingleNaN.
From Verif Require Import Outcome Floats FloatFacts Bits ListFacts IndexArithProofs Codecs CodecProofs WatermarkProofs Encoding EncodingProofs PropsEncoding
  Matrix MatrixFacts Haar HaarProofs HaarReal HaarFloat PropsHaar QuantFloat Stego StegoProofs StegoMarks PropsStego Embedding EmbeddingProofs EmbeddingEffect
  PropsEmbedding PropsEmbedding2 Toy PropsRobust.
Open Scope R_scope.

(** ** Specification vocabulary *)
Definition flat_picture (image : array2 Z) (n : nat) (v : Z) : Prop := forall i j, (i < n)%nat -> (j < n)%nat -> cell image i j = Some v.

Lemma zsum_const n c : zsum n (fun _ => c) = (Z.of_nat n * c)%Z.
Proof. induction n; cbn [zsum]; [reflexivity|]. rewrite IHn. lia. Qed.

Lemma same_block_coefficient m n L bi bj v : (n mod 2 ^ L = 0)%nat -> (bi < n / 2 ^ L)%nat -> (bj < n / 2 ^ L)%nat ->
  (forall i j, (i < n)%nat -> (j < n)%nat -> (i / 2 ^ L = bi)%nat -> (j / 2 ^ L = bj)%nat -> cell m i j = Some v) -> coefficient m L bi bj = IZR v * 2 ^ L.
Proof.
  intros Hm Hi Hj H. pose proof (pow2_pos L) as P. unfold coefficient, block_total.
  assert (X : zsum (2 ^ L) (fun p => zsum (2 ^ L) (fun q => pixel m (2 ^ L * bi + p) (2 ^ L * bj + q))) = (Z.of_nat (2 ^ L) * (Z.of_nat (2 ^ L) * v))%Z).
  { rewrite <- zsum_const. apply zsum_ext. intros p Hp. rewrite <- zsum_const. apply zsum_ext. intros q Hq.
    unfold pixel. pose proof (place_lt_n n L bi p Hm Hi Hp) as Hx. pose proof (place_lt_n n L bj q Hm Hj Hq) as Hy. rewrite H; [reflexivity|exact Hx|exact Hy| |].
    - rewrite Nat.mul_comm, Nat.div_add_l, Nat.div_small by lia. lia.
    - rewrite Nat.mul_comm, Nat.div_add_l, Nat.div_small by lia. lia. }
  rewrite X, !mult_IZR, <- INR_IZR_INZ, pow_INR. simpl (INR 2). assert (0 < 2 ^ L) by (apply pow_lt; lra). change (1 + 1) with 2. field. lra.
Qed.

(** Rounding at the ties of non-negative numbers goes up. *)
Lemma nearest_tie k : (0 <= k)%Z -> nearest (IZR k + / 2) = (k + 1)%Z.
Proof.
  intros Hk. unfold nearest, Znearest. assert (E : Zfloor (IZR k + / 2) = k) by (apply Zfloor_imp; rewrite plus_IZR; simpl; lra). rewrite E.
  replace (IZR k + / 2 - IZR k) with (/ 2) by ring. rewrite Rcompare_Eq by reflexivity.
  rewrite (proj2 (Z.leb_le 0 k) Hk). apply Zceil_imp. rewrite plus_IZR, minus_IZR, plus_IZR. simpl. lra.
Qed.
Lemma nearest_minus_half : nearest (IZR (-1) + / 2) = (-1)%Z.
Proof.
  unfold nearest, Znearest. assert (E : Zfloor (IZR (-1) + / 2) = (-1)%Z) by (apply Zfloor_imp; simpl; lra). rewrite E.
  replace (IZR (-1) + / 2 - IZR (-1)) with (/ 2) by ring. rewrite Rcompare_Eq by reflexivity. reflexivity.
Qed.
Lemma nearest_int k : nearest (IZR k) = k.
Proof. apply nearest_imp. replace (IZR k - IZR k) with 0 by ring. rewrite Rabs_R0. lra. Qed.

(** *** C112 *)
Theorem C112_the_condition_on_the_depth_is_sharp : forall K image n levels payload marked v,
  picture image n levels -> flat_picture image n v -> Z.even v = true ->
  embed Rops K image payload (2 ^ (levels + 1)) levels = Ok marked ->
  exists frame stored received, data_serialize payload = Ok frame /\ encode K frame (band_capacity n levels) = Ok stored
    /\ extract Rops K marked (2 ^ (levels + 1)) levels = bind (decode K received (band_capacity n levels)) data_deserialize
    /\ bytes received /\ length received = band_capacity n levels
    /\ forall k, (k < 8 * length stored)%nat -> payload_bit received k = negb (payload_bit stored k).
Proof.
  intros K m n L payload out v Hp Hflat Hev E. pose proof Hp as (Hc & H8). pose proof Hc as (Wf & D0 & D1 & Hm & HL & Hr).
  destruct (embed_pixels_real K m n L _ payload out Hc E) as (Hco & Ho8 & frame & stored & E1 & E2 & Ls & Hpx).
  destruct (embed_inv Rops K m n L _ payload out Hc E) as (H9 & _).
  set (s := band n L) in *. change (s * s / 8)%nat with (band_capacity n L) in *.
  destruct (C61_extraction_in_closed_form K out n L (2 ^ (L + 1)) (conj Hco Ho8) H9) as (received & Lr & Br & Hbits & EX).
  exists frame, stored, received. split; [exact E1|]. split; [exact E2|]. split; [exact EX|]. split; [exact Br|]. split; [exact Lr|].
  intros k Hk. assert (Hk' : (k < 8 * band_capacity n L)%nat) by lia. specialize (Hbits k Hk'). cbv zeta in Hbits.
  assert (Hs0 : (0 < s)%nat) by (unfold band_capacity in H9; fold (band n L) in H9; fold s in H9; destruct s; [cbn in H9; lia|lia]).
  assert (Hk2 : (k < s * s)%nat) by (unfold band_capacity in Hk'; fold (band n L) in Hk'; fold s in Hk'; pose proof (Nat.mul_div_le (s * s) 8 ltac:(lia)); lia).
  destruct (place_lt s k Hs0 Hk2) as (P1 & P2). change (n / 2 ^ L)%nat with s in Hbits.
  pose proof (pow2_pos L) as PL. assert (Pw : 0 < 2 ^ L) by (apply pow_lt; lra).
  apply Z.even_spec in Hev as (h & Hv).
  assert (Hh : (0 <= h <= 127)%Z).
  { assert (X : cell m 0 0 = Some v) by (apply Hflat; unfold s, band in Hs0; destruct n; [rewrite Nat.div_0_l in Hs0 by lia; lia|lia|rewrite Nat.div_0_l in Hs0 by lia; lia|lia]).
    pose proof (image8_cell m 0 0 v H8 X) as Hb. unfold byte in Hb. lia. }
  set (b := payload_bit stored k) in *. set (v' := if b then (v + 1)%Z else v).
  assert (C : coefficient out L (k / s) (k mod s) = IZR v' * 2 ^ L).
  { apply (same_block_coefficient out n L); [exact Hm|exact P1|exact P2|]. intros i j Hi Hj Bi Bj.
    rewrite (Hpx i j v (Hflat i j Hi Hj)). f_equal. unfold pixel_shift, block_number. rewrite Bi, Bj. change (n / 2 ^ L)%nat with s.
    rewrite (same_block_coefficient m n L _ _ v Hm P1 P2) by (intros; now apply Hflat).
    assert (Ek : (s * (k / s) + k mod s = k)%nat) by (pose proof (Nat.div_mod k s ltac:(lia)); lia). rewrite Ek, (proj2 (Nat.ltb_lt _ _) Hk). fold b.
    replace (IZR v * 2 ^ L / 2 ^ (L + 1)) with (IZR h) by (rewrite Hv, mult_IZR, pow_add; field; lra). rewrite nearest_int.
    replace ((2 ^ (L + 1) * (IZR h + quarter b) - IZR v * 2 ^ L) / 2 ^ L) with (2 * quarter b) by (rewrite Hv, mult_IZR, pow_add; field; lra).
    unfold v'. destruct b; unfold quarter.
    - replace (IZR v + 2 * / 4) with (IZR v + / 2) by lra. rewrite nearest_tie by lia. unfold clamp. lia.
    - replace (IZR v + 2 * - / 4) with (IZR (v - 1) + / 2) by (rewrite minus_IZR; lra).
      destruct (Z.eq_dec v 0) as [-> |Hn0]; [replace (IZR (0 - 1) + / 2) with (IZR (-1) + / 2) by (simpl; lra); rewrite nearest_minus_half; reflexivity|]. rewrite nearest_tie by lia. unfold clamp. lia. }
  rewrite C in Hbits.
  assert (R : IZR v' * 2 ^ L / 2 ^ (L + 1) = IZR v' / 2) by (rewrite pow_add; field; lra). rewrite R in Hbits. clear R.
  assert (V : v' = (2 * h + (if b then 1 else 0))%Z) by (unfold v'; destruct b; lia).
  destruct b; cbn [negb].
  - replace (IZR v' / 2) with (IZR h + / 2) in Hbits by (rewrite V, plus_IZR, mult_IZR; lra). rewrite nearest_tie in Hbits by lia.
    destruct (payload_bit received k); [|reflexivity]. exfalso. pose proof (proj1 Hbits eq_refl) as X. rewrite V, pow_add, !plus_IZR, mult_IZR in X. simpl (2 ^ 1) in X. nra.
  - replace (IZR v' / 2) with (IZR h) in Hbits by (rewrite V, Z.add_0_r, mult_IZR; lra). rewrite nearest_int in Hbits. apply Hbits. rewrite V, Z.add_0_r, mult_IZR, pow_add. simpl (2 ^ 1). lra.
Qed.

(** ** The hypotheses are met: a mid-grey 128x128 picture, three levels, depth 16, a payload of 12 bytes. *)
Example C112_instance : exists marked frame stored received,
  embed Rops toy_ldpc grey128 (repeat 65%Z 12) (2 ^ (3 + 1)) 3 = Ok marked
  /\ encode toy_ldpc frame (band_capacity 128 3) = Ok stored /\ (0 < length stored)%nat
  /\ extract Rops toy_ldpc marked (2 ^ (3 + 1)) 3 = bind (decode toy_ldpc received (band_capacity 128 3)) data_deserialize
  /\ forall k, (k < 8 * length stored)%nat -> payload_bit received k = negb (payload_bit stored k).
Proof.
  assert (Eser : data_serialize (repeat 65%Z 12) = Ok ([12; 0]%Z ++ repeat 65%Z 12)) by (vm_compute; reflexivity).
  assert (Eenc : exists enc, encode toy_ldpc ([12; 0]%Z ++ repeat 65%Z 12) (band 128 3 * band 128 3 / 8) = Ok enc /\ (0 < length enc <= 32)%nat) by (eexists; split; [vm_compute; reflexivity|]; vm_compute; lia).
  destruct Eenc as (enc & Eenc & Lenc). pose proof grey128_picture as P.
  destruct (embed_run Rops toy_ldpc _ 128 3 (2 ^ (3 + 1)) (repeat 65%Z 12) ([12; 0]%Z ++ repeat 65%Z 12) enc (proj1 P)) as (H & _); [vm_compute; lia|exact Eser|exact Eenc|].
  destruct H as (R & ER & _); [change (band 128 3 * band 128 3 / 8)%nat with 32%nat; exact (proj2 Lenc)|].
  assert (Fl : flat_picture grey128 128 128) by (intros i j Hi Hj; unfold cell, grey128, wit_matrix; cbn [rows]; rewrite nth_error_repeat by exact Hi; now apply nth_error_repeat).
  set (marked := mapv (fun x => f_to_u8 Rops (f_round Rops x)) R) in ER. clearbody marked. exists marked.
  destruct (C112_the_condition_on_the_depth_is_sharp toy_ldpc grey128 128 3 (repeat 65%Z 12) marked 128%Z P Fl eq_refl ER) as (frame & stored & received & E1 & E2 & E3 & _ & _ & E4).
  exists frame, stored, received. split; [exact ER|]. split; [exact E2|]. split; [|split; [exact E3|exact E4]].
    assert (frame = [12; 0]%Z ++ repeat 65%Z 12) by congruence. subst frame. unfold band_capacity in E2. fold (band 128 3) in E2. assert (stored = enc) by congruence. subst stored. apply Lenc.
Qed.

Print Assumptions C112_the_condition_on_the_depth_is_sharp.
