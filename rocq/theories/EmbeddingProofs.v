(** Structure of embed/extract (lib/sia/rust/embedding/src/lib.rs) for any arithmetic, and the numeric core shared by the
    exact and the f64 reading. *)
From Coq Require Import Reals Lra.
From Flocq Require Import Core.
From Verif Require Import Outcome Floats FloatFacts Bits ListFacts IndexArithProofs Codecs CodecProofs WatermarkProofs Encoding EncodingProofs PropsEncoding
  Matrix MatrixFacts Haar HaarProofs HaarReal PropsHaar Stego StegoProofs StegoMarks PropsStego Embedding.
Open Scope nat_scope.

(** A square picture with sides divisible by 2^levels. *)
Definition carrier {A} (m : array2 A) (n levels : nat) : Prop :=
  wf m /\ dim0 m = n /\ dim1 m = n /\ n mod 2 ^ levels = 0 /\ 1 <= levels <= 30 /\ (Z.of_nat (n * n) < 2 ^ 53)%Z.

Definition band (n levels : nat) : nat := n / 2 ^ levels.

Lemma carrier_band {A} (m : array2 A) n levels : carrier m n levels ->
  band n levels <= n /\ representable (band n levels) (band n levels) /\ divisible n n levels /\ n = band n levels * 2 ^ levels.
Proof.
  intros (_ & _ & _ & H & HL & Hr). unfold band. pose proof (div_pow_le n levels) as Hle. repeat split; try assumption.
  - unfold representable. eapply Z.le_lt_trans; [|exact Hr]. apply Nat2Z.inj_le. nia.
  - rewrite (Nat.div_mod n (2 ^ levels)) at 1 by (pose proof (pow2_pos levels); lia). lia.
Qed.

Lemma ll_side_ok n levels : levels <= 30 -> ll_side n levels = Ok (band n levels).
Proof. intros H. unfold ll_side. rewrite (proj2 (Nat.leb_gt 31 levels)) by lia. reflexivity. Qed.

Lemma get_code_for_encode_some cap : 9 <= cap -> exists c, get_code_for_encode cap = Some c.
Proof.
  intros H. unfold get_code_for_encode.
  destruct (9 <=? Z.of_nat cap)%Z eqn:E1, (Z.of_nat cap <=? 64)%Z eqn:E2; cbn [andb]; eauto; try (apply Z.leb_gt in E1; lia).
  destruct (65 <=? Z.of_nat cap)%Z eqn:E3, (Z.of_nat cap <=? 128)%Z eqn:E4; cbn [andb]; eauto; try (apply Z.leb_gt in E3; apply Z.leb_gt in E2; lia).
  destruct (129 <=? Z.of_nat cap)%Z eqn:E5, (Z.of_nat cap <=? 256)%Z eqn:E6; cbn [andb]; eauto; try (apply Z.leb_gt in E5; apply Z.leb_gt in E4; lia).
  destruct (257 <=? Z.of_nat cap)%Z eqn:E7, (Z.of_nat cap <=? 1024)%Z eqn:E8; cbn [andb]; eauto; try (apply Z.leb_gt in E7; apply Z.leb_gt in E6; lia).
  destruct (1025 <=? Z.of_nat cap)%Z eqn:E9; eauto. apply Z.leb_gt in E9; apply Z.leb_gt in E8; lia.
Qed.
Lemma get_code_for_encode_none cap : cap < 9 -> get_code_for_encode cap = None.
Proof.
  intros H. unfold get_code_for_encode.
  rewrite (proj2 (Z.leb_gt 9 _)), (proj2 (Z.leb_gt 65 _)), (proj2 (Z.leb_gt 129 _)), (proj2 (Z.leb_gt 257 _)), (proj2 (Z.leb_gt 1025 _)) by lia.
  reflexivity.
Qed.
Lemma get_domain_capacity_ok s : representable s s -> 9 <= s * s / 8 -> get_domain_capacity s s = Ok (s * s / 8).
Proof.
  intros Hr H. unfold get_domain_capacity. rewrite capacity_eq by exact Hr. destruct (get_code_for_encode_some _ H) as (c & ->). reflexivity.
Qed.
Lemma get_domain_capacity_small w h : representable w h -> w * h / 8 < 9 -> get_domain_capacity w h = Panic MinCapacity.
Proof.
  intros Hr H. unfold get_domain_capacity. rewrite capacity_eq by exact Hr. rewrite get_code_for_encode_none by exact H. reflexivity.
Qed.

Lemma get_mapv {A F} (O : FOps F) (f : A -> F) (m : array2 A) i j d : wf m -> i < dim0 m -> j < dim1 m ->
  get O (mapv f m) i j = f (match cell m i j with Some v => v | None => d end).
Proof. intros Hwf Hi Hj. unfold get. rewrite cell_mapv. destruct (cell_bounds m i j Hwf Hi Hj) as (v & ->). reflexivity. Qed.

Section Generic.
Context {F : Type} (O : FOps F) (K : ldpc).

(** The coefficient at (i, j) after writing [enc]. *)
Definition marked_coefficient (depth : F) (s : nat) (enc : list Z) (C : nat -> nat -> F) (i j : nat) : F :=
  if (i <? s) && (j <? s) && (s * i + j <? 8 * length enc) then mark O depth (payload_bit enc (s * i + j)) (C i j) else C i j.

Lemma embed_run m n levels depth payload ser enc : carrier m n levels ->
  let s := band n levels in
  9 <= s * s / 8 -> data_serialize payload = Ok ser -> encode K ser (s * s / 8) = Ok enc ->
  (length enc <= s * s / 8 ->
   exists R, embed O K m payload depth levels = Ok (mapv (fun x => f_to_u8 O (f_round O x)) R)
    /\ wf R /\ dim0 R = n /\ dim1 R = n
    /\ forall i j, i < n -> j < n -> get O R i j =
         transform O true n n levels (marked_coefficient depth s enc (transform O false n n levels (get O (mapv (f_of_Z O) m)))) i j)
  /\ (s * s / 8 < length enc -> embed O K m payload depth levels = Panic NoCapacity).
Proof.
  intros Hc s H9 Hser Henc. destruct (carrier_band m n levels Hc) as (Hs & Hrep & Hdiv & Hn). fold s in Hs, Hrep, Hn.
  destruct Hc as (Hwf & E0 & E1 & Hmod & HL & Hr).
  assert (Hwf' : wf (mapv (f_of_Z O) m)) by now apply mapv_wf.
  destruct (dwt_2d_ok O false levels (mapv (f_of_Z O) m) Hwf') as (C & EC & WC & A0 & A1 & GC); [cbn [mapv dim0 dim1]; rewrite E0, E1; exact Hdiv|lia|].
  cbn [mapv dim0 dim1] in A0, A1, GC. rewrite E0, E1 in *.
  assert (Hdom : in_domain s C) by (split; [exact WC|]; rewrite A0, A1; split; exact Hs).
  unfold embed. rewrite EC. cbn [bind]. rewrite E0, E1, !ll_side_ok by lia. fold s. cbn [bind].
  rewrite get_domain_capacity_ok by assumption. cbn [bind]. rewrite Hser. cbn [bind]. rewrite Henc. cbn [bind]. split.
  - intros Hlen. destruct (write_ok O depth s C enc Hrep Hdom Hlen) as (C' & EW & (WC' & _ & _) & B0 & B1 & GC').
    rewrite EW. cbn [bind]. rewrite A0 in B0. rewrite A1 in B1.
    destruct (dwt_2d_ok O true levels C' WC') as (R & ER & WR & R0 & R1 & GR); [rewrite B0, B1; exact Hdiv|lia|].
    rewrite ER. cbn [bind]. rewrite B0 in R0. rewrite B1 in R1. exists R. repeat split; try assumption; try apply WR.
    intros i j Hi Hj. rewrite GR, B0, B1. apply transform_ext; [exact Hdiv|]. clear i j Hi Hj. intros i j.
    unfold marked_coefficient. rewrite <- GC. unfold get. rewrite GC'. unfold written. rewrite bits_of_bytes_length, Nat.add_0_l, Nat.sub_0_r.
    destruct (Nat.ltb_spec i s) as [Hi|Hi]; [|reflexivity]. destruct (Nat.ltb_spec j s) as [Hj|Hj]; [|reflexivity]. cbn [andb].
    rewrite (proj2 (Nat.leb_le 0 _)) by lia. cbn [andb].
    destruct (s * i + j <? 8 * length enc); [|reflexivity]. rewrite nth_bits.
    destruct (cell_bounds C i j WC ltac:(lia) ltac:(lia)) as (v & ->). reflexivity.
  - intros Hlen. rewrite write_capacity by assumption. reflexivity.
Qed.

Lemma extract_run m n levels depth : carrier m n levels ->
  let s := band n levels in 9 <= s * s / 8 ->
  exists C, in_domain s C /\ dim0 C = n /\ dim1 C = n
    /\ (forall i j, get O C i j = transform O false n n levels (get O (mapv (f_of_Z O) m)) i j)
    /\ extract O K m depth levels = (bs <- read O C s s depth ;; d <- decode K bs (s * s / 8) ;; data_deserialize d).
Proof.
  intros Hc s H9. destruct (carrier_band m n levels Hc) as (Hs & Hrep & Hdiv & Hn). fold s in Hs, Hrep, Hn.
  destruct Hc as (Hwf & E0 & E1 & Hmod & HL & Hr).
  assert (Hwf' : wf (mapv (f_of_Z O) m)) by now apply mapv_wf.
  destruct (dwt_2d_ok O false levels (mapv (f_of_Z O) m) Hwf') as (C & EC & WC & A0 & A1 & GC); [cbn [mapv dim0 dim1]; rewrite E0, E1; exact Hdiv|lia|].
  cbn [mapv dim0 dim1] in A0, A1, GC. rewrite E0, E1 in *.
  exists C. split; [split; [exact WC|rewrite A0, A1; auto]|]. split; [exact A0|]. split; [exact A1|]. split; [exact GC|].
  unfold extract. rewrite EC. cbn [bind]. rewrite E0, E1, !ll_side_ok by lia. fold s. cbn [bind].
  destruct (read O C s s depth); cbn [bind]; try reflexivity.
  rewrite get_domain_capacity_ok by assumption. reflexivity.
Qed.

(** If the cells of the received picture carry the bits of [enc], the decoder gets [enc] and a tail. *)
Lemma extract_bits m n levels depth enc : carrier m n levels ->
  let s := band n levels in let cap := s * s / 8 in
  9 <= cap -> bytes enc -> length enc <= cap ->
  (forall C, in_domain s C -> dim0 C = n -> dim1 C = n -> (forall i j, get O C i j = transform O false n n levels (get O (mapv (f_of_Z O) m)) i j) ->
     forall k, k < 8 * length enc -> cell_bit O depth s C k = payload_bit enc k) ->
  exists tail, bytes tail /\ length tail = cap - length enc /\
    extract O K m depth levels = (bind (decode K (enc ++ tail) cap) data_deserialize).
Proof.
  intros Hc s cap H9 Benc Lenc Hbits. destruct (extract_run m n levels depth Hc H9) as (C & Hdom & C0 & C1 & GC & EX). fold s in Hdom, EX. fold cap in EX.
  destruct (carrier_band m n levels Hc) as (_ & Hrep & _). fold s in Hrep.
  pose proof (read_prefix O depth s C enc Hrep Hdom Benc Lenc ltac:(intros o Ho; rewrite nth_bits; now apply Hbits)) as Hrd.
  fold cap in Hrd. set (tail := map _ _) in Hrd. exists tail.
  split; [apply (read_bytes O depth s C _ Hrep Hdom) in Hrd; apply Forall_app in Hrd; apply Hrd|].
  split; [unfold tail; rewrite map_length, seq_length; reflexivity|]. rewrite EX, Hrd. reflexivity.
Qed.

(** If the cells of the received picture carry the bits of the encoded frame, the payload comes out. *)
Lemma extract_payload m n levels depth payload : carrier m n levels -> ldpc_shape K -> ldpc_decodes K ->
  let s := band n levels in let cap := s * s / 8 in
  coded cap -> cap mod codeword_size cap = 0 -> bytes payload -> (1 <= Z.of_nat (length payload) <= 65533)%Z ->
  ((length payload + 4) + message_size cap - 1) / message_size cap * codeword_size cap <= cap ->
  exists ser enc, data_serialize payload = Ok ser /\ encode K ser cap = Ok enc /\ length enc <= cap /\ bytes enc /\ 9 <= cap
   /\ length enc = ((length payload + 4) + message_size cap - 1) / message_size cap * codeword_size cap
   /\ ((forall C, in_domain s C -> dim0 C = n -> dim1 C = n -> (forall i j, get O C i j = transform O false n n levels (get O (mapv (f_of_Z O) m)) i j) ->
         forall k, k < 8 * length enc -> cell_bit O depth s C k = payload_bit enc k) ->
       extract O K m depth levels = Ok payload).
Proof.
  intros Hc Hsh Hdec s cap Hcod Hmod Hb Hlen Hfit.
  destruct (data_roundtrip payload [] ltac:(lia)) as (ser & Eser & Lser & Hrt). rewrite app_nil_r in Hrt.
  assert (Hbser : bytes ser).
  { rewrite data_serialize_ok in Eser by lia. assert (E : ser = u16_to_le (Z.of_nat (length payload)) ++ payload) by congruence.
    rewrite E. apply Forall_app. split; [apply le_bytes_bytes|exact Hb]. }
  destruct (C17_encoded_size K Hsh cap Hcod) as (Henc & _). destruct (Henc ser Hbser) as (enc & Eenc & Benc & Lenc).
  assert (H9 : 9 <= cap) by (unfold coded in Hcod; lia).
  assert (Lenc' : length enc = ((length payload + 4) + message_size cap - 1) / message_size cap * codeword_size cap).
  { rewrite Lenc, Lser. do 2 f_equal. lia. }
  exists ser, enc. repeat split; try assumption; try lia.
  intros Hbits. destruct (extract_bits m n levels depth enc Hc H9 Benc ltac:(fold s; fold cap; lia) Hbits) as (tail & Btail & Ltl & EX).
  fold s in Ltl, EX. fold cap in Ltl, EX. rewrite EX.
  assert (Hcw : codeword_size cap <> 0).
  { intros E0. destruct (code_cases cap) as [(_ & c & _ & En & _)|(N & _)]; [|contradiction]. pose proof (n_pos c). lia. }
  assert (Ltail : length tail mod codeword_size cap = 0).
  { rewrite Ltl, Lenc'. apply Nat.mod_divides in Hmod as (q & Hq); [|exact Hcw].
    set (p := (length payload + 4 + message_size cap - 1) / message_size cap) in *.
    rewrite Hq at 1. replace (codeword_size cap * q - p * codeword_size cap) with ((q - p) * codeword_size cap) by nia. apply Nat.mod_mul. exact Hcw. }
  destruct (C14_encode_decode_roundtrip K Hsh Hdec cap ser tail Hcod Hbser Btail) as (out & Eo & Ed); [lia|exact Ltail|].
  assert (out = enc) by congruence. subst out. rewrite Ed. cbn [bind]. exact Hrt.
Qed.
End Generic.

(** ** numeric core *)
Open Scope R_scope.

Lemma clamp_close (y : R) (k : Z) (sg : R) : 0 <= sg -> - sg <= y <= 255 + sg -> Rabs (IZR (clamp 0 255 k) - y) <= Rabs (IZR k - y) + sg.
Proof.
  intros Hs Hy. unfold clamp. destruct (Z.le_gt_cases k 0) as [H|H].
  - rewrite Z.min_r, Z.max_l by lia. apply IZR_le in H. unfold Rabs. repeat destruct (Rcase_abs _); lra.
  - destruct (Z.le_gt_cases k 255) as [H2|H2].
    + rewrite Z.min_r, Z.max_r by lia. lra.
    + rewrite Z.min_l, Z.max_r by lia. apply Z.lt_gt, Z.gt_lt in H2. apply IZR_lt in H2. unfold Rabs. repeat destruct (Rcase_abs _); lra.
Qed.

Lemma pixel_close (x y e sg : R) : Rabs (x - y) <= e -> 0 <= sg -> - sg <= y <= 255 + sg ->
  Rabs (IZR (clamp 0 255 (nearest x)) - y) <= / 2 + e + sg.
Proof.
  intros H Hs Hy. eapply Rle_trans; [apply clamp_close; eassumption|]. pose proof (nearest_half x) as Hn.
  replace (IZR (nearest x) - y) with (- (x - IZR (nearest x)) + (x - y)) by ring.
  pose proof (Rabs_triang (- (x - IZR (nearest x))) (x - y)) as Ht. rewrite Rabs_Ropp in Ht. lra.
Qed.

(** Moving each pixel of block (i, j) by 2^-L D(i, j) up to [e] moves the low-pass coefficient by D(i, j) up to 2^L e. *)
Lemma block_shift n L (M N D : nat -> nat -> R) e : divisible n n L ->
  (forall i j, (i < n)%nat -> (j < n)%nat -> Rabs (N i j - (M i j + (/ 2) ^ L * D (i / 2 ^ L)%nat (j / 2 ^ L)%nat)) <= e) ->
  forall i j, (i < n / 2 ^ L)%nat -> (j < n / 2 ^ L)%nat ->
  Rabs (transR false n n L N i j - (transR false n n L M i j + D i j)) <= 2 ^ L * e.
Proof.
  intros Hdiv H i j Hi Hj. rewrite !trans_LL by assumption.
  assert (Hpow : INR (2 ^ L) = 2 ^ L) by (rewrite pow_INR; reflexivity).
  assert (H2L : 2 ^ L <> 0) by (apply pow_nonzero; lra).
  assert (Hp : (0 < 2 ^ L)%nat) by apply pow2_pos.
  assert (Hlt : forall k q, (k < n / 2 ^ L)%nat -> (q < 2 ^ L)%nat -> (2 ^ L * k + q < n)%nat).
  { intros k q Hk Hq. pose proof (Nat.mul_div_le n (2 ^ L)). nia. }
  assert (ED : D i j = (/ 2) ^ L * blocksum (2 ^ L) (fun i j => (/ 2) ^ L * D (i / 2 ^ L)%nat (j / 2 ^ L)%nat) i j).
  { assert (G : blocksum (2 ^ L) (fun i j => (/ 2) ^ L * D (i / 2 ^ L)%nat (j / 2 ^ L)%nat) i j = INR (2 ^ L) * (INR (2 ^ L) * ((/ 2) ^ L * D i j))).
    { unfold blocksum. rewrite <- sumn_const. apply sumn_ext. intros a Ha. rewrite <- sumn_const. apply sumn_ext. intros b Hb.
      rewrite !place_div by assumption. reflexivity. }
    rewrite G, Hpow, pow_inv. field. exact H2L. }
  replace ((/ 2) ^ L * blocksum (2 ^ L) N i j - ((/ 2) ^ L * blocksum (2 ^ L) M i j + D i j))
    with ((/ 2) ^ L * blocksum (2 ^ L) (fun i j => N i j - (M i j + (/ 2) ^ L * D (i / 2 ^ L)%nat (j / 2 ^ L)%nat)) i j).
  - rewrite Rabs_mult, Rabs_pos_eq by (apply pow_le; lra).
    apply Rle_trans with ((/ 2) ^ L * (INR (2 ^ L) * (INR (2 ^ L) * e))).
    + apply Rmult_le_compat_l; [apply pow_le; lra|]. unfold blocksum. apply sumn_bound. intros a Ha. apply sumn_bound. intros b Hb.
      apply H; apply Hlt; assumption.
    + rewrite Hpow, pow_inv. right. field. exact H2L.
  - assert (G : blocksum (2 ^ L) N i j =
      blocksum (2 ^ L) (fun i j => N i j - (M i j + (/ 2) ^ L * D (i / 2 ^ L)%nat (j / 2 ^ L)%nat)) i j
      + (blocksum (2 ^ L) M i j + blocksum (2 ^ L) (fun i j => (/ 2) ^ L * D (i / 2 ^ L)%nat (j / 2 ^ L)%nat) i j)).
    { unfold blocksum. rewrite <- !sumn_add. apply sumn_ext. intros a Ha. rewrite <- !sumn_add. apply sumn_ext. intros b Hb. ring. }
    rewrite ED, G. ring.
Qed.
