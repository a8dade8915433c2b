(** Properties C14-C18: the error-correcting encoding (lib/sia/rust/encoding/src/lib.rs), relative to the laws [ldpc_shape] and
    [ldpc_decodes] of the third-party LDPC coder (EncodingProofs.v). *)
From Verif Require Import Outcome Bits ListFacts Codecs CodecProofs WatermarkProofs Encoding EncodingProofs Toy.
Open Scope Z_scope.

(** Capacities (in bytes) for which the data is error-corrected. *)
Definition coded (cap : nat) : Prop :=
  (cap = 16 \/ cap = 32 \/ cap = 64 \/ cap = 128 \/ cap = 256 \/ cap = 512)%nat \/ 1024 <= Z.of_nat cap.
(** Codeword and message sizes in bytes at such a capacity. *)
Definition codeword_size (cap : nat) : nat :=
  if 1024 <=? Z.of_nat cap then Z.to_nat 1024
  else if Nat.eqb cap 128 then 64%nat else if Nat.eqb cap 512 then 256%nat else cap.
Definition message_size (cap : nat) : nat := Nat.div2 (codeword_size cap).

Lemma code_cases cap :
  (coded cap /\ exists c, get_code_by_codeword_length cap = Some c /\ n_bytes c = codeword_size cap /\ k_bytes c = message_size cap)
  \/ (~ coded cap /\ get_code_by_codeword_length cap = None).
Proof.
  unfold coded, message_size, codeword_size, get_code_by_codeword_length.
  destruct (1024 <=? Z.of_nat cap) eqn:E; bools.
  - left. split; [right; exact E|]. exists TM8192.
    repeat match goal with |- context [?x =? ?y] => destruct (x =? y) eqn:?; bools; [lia|] end.
    cbn [orb]. destruct (8192 <=? Z.of_nat cap * 8) eqn:?; bools; [|lia]. repeat split; reflexivity.
  - destruct (Nat.eq_dec cap 16) as [->|]; [left; split; [lia|exists TC128; repeat split; reflexivity]|].
    destruct (Nat.eq_dec cap 32) as [->|]; [left; split; [lia|exists TC256; repeat split; reflexivity]|].
    destruct (Nat.eq_dec cap 64) as [->|]; [left; split; [lia|exists TC512; repeat split; reflexivity]|].
    destruct (Nat.eq_dec cap 128) as [->|]; [left; split; [lia|exists TC512; repeat split; reflexivity]|].
    destruct (Nat.eq_dec cap 256) as [->|]; [left; split; [lia|exists TM2048; repeat split; reflexivity]|].
    destruct (Nat.eq_dec cap 512) as [->|]; [left; split; [lia|exists TM2048; repeat split; reflexivity]|].
    right. split; [lia|].
    repeat match goal with |- context [?x =? ?y] => destruct (x =? y) eqn:?; bools; [lia|] end.
    cbn [orb]. destruct (8192 <=? Z.of_nat cap * 8) eqn:?; bools; [lia|reflexivity].
Qed.

(** *** C14 *)
Theorem C14_encode_decode_roundtrip : forall L, ldpc_shape L -> ldpc_decodes L ->
  forall cap input tail, coded cap -> bytes input -> bytes tail ->
  Z.of_nat (length input) <= 65535 -> (length tail mod codeword_size cap = 0)%nat ->
  exists out, encode L input cap = Ok out /\ decode L (out ++ tail) cap = Ok input.
Proof.
  intros L Hs Hd cap input tail Hc Hi Ht Hl Hm.
  destruct (code_cases cap) as [(_ & c & E & En & Ek)|(N & _)]; [|contradiction].
  rewrite <- En in Hm.
  destruct (roundtrip_general L input cap c tail Hs Hd Hi Ht E Hm) as (out & H1 & H2).
  exists out. split; [exact H1|]. rewrite H2. f_equal.
  rewrite Z.mod_small, Nat2Z.id by lia. apply firstn_all.
Qed.
Example C14_witness :
  exists out, encode toy_ldpc [1;2;3;4;5;6;7;8;9] 16 = Ok out /\ length out = 32%nat /\
              decode toy_ldpc (out ++ repeat 7 16) 16 = Ok [1;2;3;4;5;6;7;8;9].
Proof. eexists. split; [vm_compute; reflexivity|]. split; vm_compute; reflexivity. Qed.

(** *** C15 *)
(** At a capacity without a code, decoding adds two bytes to every input, and the payload parser behind it never
    returns the payload that was framed and encoded, whatever follows in the carrier; for payloads of at most 253 bytes
    it panics. *)
Theorem C15_uncoded_never_roundtrips : forall L cap, ~ coded cap ->
  (forall input, exists out, encode L input cap = Ok out /\ decode L out cap = Ok out /\ length out = (2 + length input)%nat)
  /\ (forall payload framed rest, data_serialize payload = Ok framed ->
        exists out dec, encode L framed cap = Ok out /\ decode L (out ++ rest) cap = Ok dec /\ data_deserialize dec <> Ok payload)
  /\ (forall payload framed, (length payload <= 253)%nat -> data_serialize payload = Ok framed ->
        exists out dec, encode L framed cap = Ok out /\ decode L out cap = Ok dec /\ data_deserialize dec = Panic SliceRange).
Proof.
  intros L cap N. destruct (code_cases cap) as [(Y & _)|(_ & E)]; [contradiction|].
  split; [|split].
  - intros input. rewrite uncoded_encode by exact E. eexists; split; [reflexivity|].
    split; [apply uncoded_decode; exact E|]. rewrite app_length. reflexivity.
  - intros. now apply uncoded_never.
  - intros payload framed Hl Hs. rewrite uncoded_encode by exact E. eexists; eexists; split; [reflexivity|].
    split; [apply uncoded_decode; exact E|].
    rewrite data_serialize_ok in Hs by lia.
    assert (Ef : framed = u16_to_le (Z.of_nat (length payload)) ++ payload) by congruence. clear Hs.
    assert (Hfl : length framed = (2 + length payload)%nat) by (rewrite Ef, app_length; unfold u16_to_le; rewrite le_bytes_length; reflexivity).
    rewrite Hfl. unfold be16. cbn [app].
    rewrite (Z.mod_small (Z.of_nat (2 + length payload))) by lia.
    rewrite data_deserialize_eq by (try (unfold byte; apply Z.mod_pos_bound; lia); apply len_pos_nonnil; lia).
    rewrite (Z.div_small (Z.of_nat (2 + length payload))) by lia.
    rewrite (Z.mod_small (Z.of_nat (2 + length payload)) 256) by lia.
    rewrite (proj2 (Nat.leb_gt _ _)) by (rewrite Hfl; rewrite Z.mod_0_l by lia; lia). reflexivity.
Qed.
(** 72 bytes: the capacity of a 192 x 192 image at three levels. *)
Example C15_witness : ~ coded 72 /\ decode toy_ldpc [0; 5; 3; 0; 1; 2; 3] 72 = Ok [0; 5; 3; 0; 1; 2; 3].
Proof. split; [unfold coded; lia|vm_compute; reflexivity]. Qed.

(** *** C16 *)
Theorem C16_length_header_wraps : forall L, ldpc_shape L -> ldpc_decodes L ->
  forall cap input, coded cap -> bytes input ->
  exists out, encode L input cap = Ok out /\
    decode L out cap = Ok (firstn (Z.to_nat (Z.of_nat (length input) mod 65536)) input).
Proof.
  intros L Hs Hd cap input Hc Hi.
  destruct (code_cases cap) as [(_ & c & E & En & Ek)|(N & _)]; [|contradiction].
  destruct (roundtrip_general L input cap c [] Hs Hd Hi (Forall_nil _) E) as (out & H1 & H2).
  - apply Nat.mod_0_l. pose proof (n_pos c). lia.
  - exists out. rewrite app_nil_r in H2. split; assumption.
Qed.
Corollary C16_65536_bytes_decode_to_nothing : forall L, ldpc_shape L -> ldpc_decodes L ->
  forall cap input, coded cap -> bytes input -> Z.of_nat (length input) = 65536 ->
  exists out, encode L input cap = Ok out /\ decode L out cap = Ok [].
Proof.
  intros L Hs Hd cap input Hc Hi Hl. destruct (C16_length_header_wraps L Hs Hd cap input Hc Hi) as (out & H1 & H2).
  exists out. split; [exact H1|]. rewrite H2, Hl. reflexivity.
Qed.
Example C16_witness : exists input, bytes input /\ Z.of_nat (length input) = 65536 /\ coded 16.
Proof.
  exists (repeat 1 (Z.to_nat 65536)). split; [|split].
  - apply Forall_forall. intros x Hx. apply repeat_spec in Hx. subst; unfold byte; lia.
  - rewrite repeat_length. lia.
  - unfold coded. lia.
Qed.

(** *** C17 *)
Theorem C17_encoded_size : forall L, ldpc_shape L -> forall cap, coded cap ->
  (forall input, bytes input ->
     exists out, encode L input cap = Ok out /\ bytes out
       /\ length out = (((length input + 2) + message_size cap - 1) / message_size cap * codeword_size cap)%nat)
  /\ (forall received, (length received mod codeword_size cap <> 0)%nat -> exists r, decode L received cap = Panic r).
Proof.
  intros L Hs cap Hc. destruct (code_cases cap) as [(_ & c & E & En & Ek)|(N & _)]; [|contradiction].
  rewrite <- En, <- Ek. split.
  - intros input Hi. destruct (encode_length L input cap c Hs Hi E _ (encode_ok L input cap c Hi E)) as (H1 & H2).
    eexists. split; [apply encode_ok; eassumption|]. split; [exact H2|exact H1].
  - intros received Hr. now apply decode_ragged with c.
Qed.
(** A full read of a domain whose capacity is not a whole number of codewords always panics: from 1024 bytes on, every
    capacity that is not a multiple of 1024. *)
Theorem C17_unreadable_capacities : forall L received,
  1024 < Z.of_nat (length received) -> Z.of_nat (length received) mod 1024 <> 0 ->
  exists r, decode L received (length received) = Panic r.
Proof.
  intros L received H1 H2.
  destruct (code_cases (length received)) as [(_ & c & E & En & Ek)|(N & _)]; [|unfold coded in N; lia].
  apply decode_ragged with c; [exact E|]. rewrite En. unfold codeword_size. rewrite leb_t by lia.
  intros H. apply H2. replace 1024 with (Z.of_nat (Z.to_nat 1024)) by lia.
  rewrite <- Nat2Z.inj_mod, H. reflexivity.
Qed.
Example C17_witness : message_size 512 = 128%nat /\ codeword_size 512 = 256%nat /\ coded 512 /\
  (exists out, encode toy_ldpc (repeat 9 86) 128 = Ok out /\ length out = 192%nat).
Proof. repeat split; try reflexivity; [unfold coded; lia|]. eexists. split; vm_compute; reflexivity. Qed.

(** *** C18 *)
(** [received_like L cap sent received]: the received bytes split into codeword-sized pieces, and from each piece the
    decoder recovers the message it would recover from the piece that was sent. *)
Definition received_like (L : ldpc) (cap : nat) (sent received : list Z) : Prop :=
  exists c, get_code_by_codeword_length cap = Some c /\
  Forall2 (fun s r => length r = codeword_size cap
              /\ (message_size cap <= length (ldpc_decode_bf L c r))%nat
              /\ firstn (message_size cap) (ldpc_decode_bf L c r) = firstn (message_size cap) (ldpc_decode_bf L c s))
    (chunks (codeword_size cap) sent) (chunks (codeword_size cap) received).

Theorem C18_correctable_errors : forall L, ldpc_shape L -> ldpc_decodes L ->
  forall cap input sent received tail, coded cap -> bytes input -> bytes tail ->
  Z.of_nat (length input) <= 65535 -> (length tail mod codeword_size cap = 0)%nat ->
  encode L input cap = Ok sent -> received_like L cap sent received ->
  decode L (received ++ tail) cap = Ok input.
Proof.
  intros L Hs Hd cap input sent received tail Hc Hi Ht Hl Hm He (c & E & Hr).
  destruct (code_cases cap) as [(_ & c' & E' & En & Ek)|(N & _)]; [|contradiction].
  assert (c' = c) by congruence. subst c'. rewrite <- En, <- Ek in *.
  rewrite (encode_ok L input cap c Hi E) in He.
  assert (Es : sent = concat (map (ldpc_copy_encode L c) (words_of c input))) by congruence. clear He. subst sent.
  pose proof (words_of_props c input Hi) as Hw. destruct Hs as (Hs1 & Hs2).
  rewrite chunks_concat in Hr.
  2: apply n_pos.
  2:{ apply Forall_map. eapply Forall_impl; [|exact Hw]. intros w (H1 & H2). apply (Hs1 c w H1 H2). }
  rewrite <- (concat_chunks (n_bytes c) received (n_pos c)).
  set (rs := chunks (n_bytes c) received) in *. clearbody rs.
  rewrite (decode_received L input cap c rs tail Hi E); try assumption.
  - f_equal. rewrite Z.mod_small, Nat2Z.id by lia. apply firstn_all.
  - revert rs Hr. induction Hw as [|w t (H1 & H2) _ IH]; intros rs Hr; inversion Hr as [|? r ? ? (R1 & R2 & R3) Hr']; subst; constructor.
    + split; [exact R1|]. split; [exact R2|]. rewrite R3. apply Hd; assumption.
    + apply IH; assumption.
  - intros r Hin. pose proof (chunks_full (n_bytes c) tail (n_pos c) Hm) as Hf.
    pose proof (Forall_chunks _ (n_bytes c) _ (n_pos c) Ht) as HB. rewrite Forall_forall in *.
    apply Hs2; [apply HB; exact Hin|apply Hf; exact Hin].
Qed.
(** With the toy code every error in the second half of a codeword is correctable. *)
Example C18_witness : exists sent received,
  encode toy_ldpc [1;2;3;4;5;6;7;8;9] 16 = Ok sent /\ received <> sent /\ received_like toy_ldpc 16 sent received
  /\ decode toy_ldpc received 16 = Ok [1;2;3;4;5;6;7;8;9].
Proof.
  eexists. exists ([0;9;1;2;3;4;5;6] ++ repeat 66 8 ++ [7;8;9;0;0;0;0;0] ++ repeat 77 8).
  split; [vm_compute; reflexivity|]. split; [discriminate|]. split; [|vm_compute; reflexivity].
  exists TC128. split; [reflexivity|]. vm_compute chunks.
  repeat constructor; cbn; try lia.
Qed.

Print Assumptions C14_encode_decode_roundtrip.
Print Assumptions C15_uncoded_never_roundtrips.
Print Assumptions C16_length_header_wraps.
Print Assumptions C16_65536_bytes_decode_to_nothing.
Print Assumptions C17_encoded_size.
Print Assumptions C17_unreadable_capacities.
Print Assumptions C18_correctable_errors.
