(** Proofs about the watermark record codec and the payload frame (Codecs.v). *)
From Verif Require Import Outcome Floats Bits IndexArith IndexArithProofs ListFacts Quantization Codecs CodecProofs.
Open Scope Z_scope.

Definition fits (w : Watermark) : Prop :=
  (length (perturbation_vector w) <= 255 /\ length (signature w) <= 255 /\ length (string_as_bytes (text w)) <= 255)%nat.

Definition header (w : Watermark) : list Z :=
  [Z.of_nat (length (perturbation_vector w)); Z.of_nat (length (signature w));
   Z.of_nat (length (string_as_bytes (text w)))].

Lemma serialize_ok pad w : fits w ->
  watermark_serialize pad w =
  Ok (header w ++ raw_bytes pad (perturbation_vector w) ++ signature w ++ string_as_bytes (text w)).
Proof.
  intros (H1 & H2 & H3). unfold watermark_serialize.
  rewrite (proj2 (Nat.ltb_ge _ _)) by exact H1. rewrite (proj2 (Nat.ltb_ge _ _)) by exact H2.
  rewrite (proj2 (Nat.ltb_ge _ _)) by exact H3.
  rewrite perturbation_vector_as_bytes_ok by lia. cbn [bind]. rewrite !Z.mod_small by lia. reflexivity.
Qed.

Lemma serialize_toolong pad w : ~ fits w -> watermark_serialize pad w = Panic TooLong.
Proof.
  intros H. unfold fits in H. unfold watermark_serialize.
  destruct (Nat.ltb 255 (length (perturbation_vector w))) eqn:E1; [reflexivity|].
  destruct (Nat.ltb 255 (length (signature w))) eqn:E2; [reflexivity|].
  destruct (Nat.ltb 255 (length (string_as_bytes (text w)))) eqn:E3; [reflexivity|].
  apply Nat.ltb_ge in E1, E2, E3. exfalso; apply H. lia.
Qed.

(** The layout of an accepted input. *)
Definition watermark_layout (w : Watermark) (bs : list Z) : Prop :=
  exists pb rest,
    bs = header w ++ pb ++ signature w ++ string_as_bytes (text w) ++ rest /\
    length pb = ((length (perturbation_vector w) + 7) / 8)%nat /\
    firstn (length (perturbation_vector w)) (bits_of_bytes pb) = perturbation_vector w /\
    Forall scalar (text w) /\ fits w.

Lemma ceil8 (n : nat) : (n <= 255)%nat -> f64_ceil_div n 8 = ((n + 7) / 8)%nat.
Proof. intros H. rewrite f64_ceil_div_correct by lia. f_equal. lia. Qed.

Lemma deserialize_layout w bs : watermark_layout w bs -> watermark_deserialize bs = Ok w.
Proof.
  intros (pb & rest & -> & Hpb & Hbits & Hsc & (H1 & H2 & H3)).
  unfold watermark_deserialize, header. cbn [app length nth_error unwrap bind].
  rewrite (proj2 (Nat.ltb_ge _ 3)) by lia.
  rewrite !Nat2Z.id, ceil8 by exact H1. rewrite <- Hpb.
  set (hd := [Z.of_nat (length (perturbation_vector w)); Z.of_nat (length (signature w));
              Z.of_nat (length (string_as_bytes (text w)))]).
  set (tb := string_as_bytes (text w)) in *.
  assert (E1 : slice (hd ++ pb ++ signature w ++ tb ++ rest) 3 (3 + length pb) = Ok pb).
  { change 3%nat with (length hd). apply slice_app. }
  assert (E2 : slice (hd ++ pb ++ signature w ++ tb ++ rest) (3 + length pb) (3 + length pb + length (signature w)) = Ok (signature w)).
  { replace (3 + length pb)%nat with (length (hd ++ pb)) by (rewrite app_length; reflexivity).
    rewrite (app_assoc hd pb). apply slice_app. }
  assert (E3 : slice (hd ++ pb ++ signature w ++ tb ++ rest) (3 + length pb + length (signature w))
                 (3 + length pb + length (signature w) + length tb) = Ok tb).
  { replace (3 + length pb + length (signature w))%nat with (length (hd ++ pb ++ signature w)) by (rewrite !app_length; cbn [hd length]; lia).
    replace (hd ++ pb ++ signature w ++ tb ++ rest) with ((hd ++ pb ++ signature w) ++ tb ++ rest) by (rewrite <- !app_assoc; reflexivity).
    apply slice_app. }
  change (Z.of_nat (length (perturbation_vector w)) :: Z.of_nat (length (signature w)) :: Z.of_nat (length tb)
          :: pb ++ signature w ++ tb ++ rest) with (hd ++ pb ++ signature w ++ tb ++ rest).
  rewrite E1. cbn [bind]. rewrite E2. cbn [bind]. rewrite E3. cbn [bind].
  rewrite perturbation_vector_from_bytes_eq, Hbits.
  unfold tb. rewrite utf8_roundtrip by exact Hsc. destruct w; reflexivity.
Qed.

Lemma deserialize_inv w bs : bytes bs -> watermark_deserialize bs = Ok w -> watermark_layout w bs.
Proof.
  intros Hbs H. unfold watermark_deserialize in H.
  destruct (Nat.ltb (length bs) 3) eqn:E0; [discriminate|]. apply Nat.ltb_ge in E0.
  destruct bs as [|p0 [|s0 [|t0 bs']]]; cbn [length] in E0; try lia. clear E0.
  cbn [nth_error unwrap bind] in H.
  inversion Hbs as [|? ? Hp0 Hbs1]; subst. inversion Hbs1 as [|? ? Hs0 Hbs2]; subst. inversion Hbs2 as [|? ? Ht0 Hbs3]; subst.
  unfold byte in Hp0, Hs0, Ht0.
  rewrite ceil8 in H by lia.
  set (np := Z.to_nat p0) in *. set (ns := Z.to_nat s0) in *. set (nt := Z.to_nat t0) in *.
  set (cp := ((np + 7) / 8)%nat) in *.
  apply bind_ok in H as (pb & Hpb & H). apply slice_ok in Hpb as (Hpl & Hpb).
  apply bind_ok in H as (sb & Hsb & H). apply slice_ok in Hsb as (Hsl & Hsb).
  apply bind_ok in H as (tb & Htb & H). apply slice_ok in Htb as (Htl & Htb).
  destruct (string_from_utf8 tb) as [t|] eqn:Eu; [|discriminate]. injection H as <-.
  cbn [length] in Hpl, Hsl, Htl.
  replace (3 + cp - 3)%nat with cp in Hpb by lia.
  replace (3 + cp + ns - (3 + cp))%nat with ns in Hsb by lia.
  replace (3 + cp + ns + nt - (3 + cp + ns))%nat with nt in Htb by lia.
  change (skipn 3 (p0 :: s0 :: t0 :: bs')) with bs' in Hpb.
  change (skipn (3 + cp) (p0 :: s0 :: t0 :: bs')) with (skipn cp bs') in Hsb.
  change (skipn (3 + cp + ns) (p0 :: s0 :: t0 :: bs')) with (skipn (cp + ns) bs') in Htb.
  assert (Lpb : length pb = cp) by (subst pb; rewrite firstn_length; lia).
  assert (Lsb : length sb = ns) by (subst sb; rewrite firstn_length, skipn_length; lia).
  assert (Ltb : length tb = nt) by (subst tb; rewrite firstn_length, skipn_length; lia).
  assert (Hall : bs' = pb ++ sb ++ tb ++ skipn (cp + ns + nt) bs').
  { rewrite <- (firstn_skipn cp bs') at 1. rewrite <- Hpb. f_equal.
    rewrite <- (firstn_skipn ns (skipn cp bs')) at 1. rewrite <- Hsb. f_equal.
    rewrite skipn_skipn. rewrite (Nat.add_comm ns cp).
    rewrite <- (firstn_skipn nt (skipn (cp + ns) bs')) at 1. rewrite <- Htb. f_equal.
    rewrite skipn_skipn. f_equal. lia. }
  assert (Btb : bytes tb) by (subst tb; apply bytes_firstn, bytes_skipn; exact Hbs3).
  destruct (string_from_utf8_sound tb t Btb Eu) as (Hsc & Htbe).
  assert (Hbl : length (firstn np (bits_of_bytes pb)) = np).
  { rewrite firstn_length, bits_of_bytes_length, Lpb. unfold cp.
    pose proof (Nat.div_mod (np + 7) 8 ltac:(lia)). pose proof (Nat.mod_upper_bound (np + 7) 8 ltac:(lia)). lia. }
  exists pb, (skipn (cp + ns + nt) bs'). cbn [header perturbation_vector signature text] in *.
  unfold header, fits. cbn [perturbation_vector signature text].
  rewrite perturbation_vector_from_bytes_eq, Hbl, Lsb, Htbe, Ltb.
  repeat split; try lia.
  - cbn [app]. subst np ns nt. rewrite !Z2Nat.id by lia. do 3 f_equal. exact Hall.
  - exact Hsc.
Qed.

Lemma deserialize_not_outside bs : watermark_deserialize bs <> Outside.
Proof.
  unfold watermark_deserialize.
  destruct (Nat.ltb (length bs) 3); [discriminate|].
  destruct (nth_error bs 0); [|discriminate]. destruct (nth_error bs 1); [|discriminate].
  destruct (nth_error bs 2); [|discriminate]. cbn [unwrap bind].
  repeat match goal with |- context [slice ?l ?a ?b] =>
    destruct (slice_cases l a b) as [(_ & ->)|(_ & ->)]; cbn [bind]; [|discriminate] end.
  destruct (string_from_utf8 _); discriminate.
Qed.

(** ** payload frame *)
Lemma data_serialize_ok d : Z.of_nat (length d) <= 65535 ->
  data_serialize d = Ok (u16_to_le (Z.of_nat (length d)) ++ d).
Proof.
  intros H. unfold data_serialize.
  destruct (65535 <? Z.of_nat (length d)) eqn:E; [apply Z.ltb_lt in E; lia|].
  rewrite Z.mod_small by lia. unfold vec_u16_to_bytes. cbn [flat_map]. rewrite app_nil_r. reflexivity.
Qed.

Lemma data_serialize_long d : 65535 < Z.of_nat (length d) -> data_serialize d = Panic TooLong.
Proof.
  intros H. unfold data_serialize. rewrite (proj2 (Z.ltb_lt _ _)) by lia. reflexivity.
Qed.

Lemma data_deserialize_eq b0 b1 rest : byte b0 -> byte b1 -> rest <> [] ->
  data_deserialize (b0 :: b1 :: rest) =
  if Nat.leb (Z.to_nat (b0 + 256 * b1)) (length rest) then Ok (firstn (Z.to_nat (b0 + 256 * b1)) rest) else Panic SliceRange.
Proof.
  intros H0 H1 Hr. unfold data_deserialize.
  assert (0 < length rest)%nat by (destruct rest; [congruence|cbn; lia]).
  rewrite (proj2 (Nat.ltb_ge _ 3)) by (cbn [length]; lia).
  change (slice (b0 :: b1 :: rest) 0 2) with (slice (([] : list Z) ++ [b0; b1] ++ rest) (length (@nil Z)) (length (@nil Z) + length [b0; b1])).
  rewrite slice_app. cbn [bind].
  change (vec_u16_from_bytes [b0; b1]) with (Ok [u16_from_le [b0; b1]]). cbn [bind nth_error unwrap].
  change (u16_from_le [b0; b1]) with (b0 + 256 * (b1 + 256 * 0)).
  replace (b0 + 256 * (b1 + 256 * 0)) with (b0 + 256 * b1) by lia.
  unfold slice. cbn [length]. set (n := Z.to_nat (b0 + 256 * b1)).
  rewrite (proj2 (Nat.leb_le 2 (2 + n))) by lia. cbn [andb].
  change (Nat.leb (2 + n) (S (S (length rest)))) with (Nat.leb n (length rest)).
  replace (2 + n - 2)%nat with n by lia. reflexivity.
Qed.

Lemma data_roundtrip d rest : 1 <= Z.of_nat (length d) <= 65535 ->
  exists s, data_serialize d = Ok s /\ length s = (2 + length d)%nat /\ data_deserialize (s ++ rest) = Ok d.
Proof.
  intros H. rewrite data_serialize_ok by lia. eexists; split; [reflexivity|].
  unfold u16_to_le. rewrite Z.mod_small by lia. cbn [le_bytes].
  split; [cbn [app length]; lia|]. cbn [app].
  set (n := Z.of_nat (length d)) in *.
  assert (H0 : byte (n mod 256)) by (unfold byte; apply Z.mod_pos_bound; lia).
  assert (E : n / 256 mod 256 = n / 256) by (apply Z.mod_small; split; [apply Z.div_pos; lia|apply Z.div_lt_upper_bound; lia]).
  assert (H1 : byte (n / 256 mod 256)) by (unfold byte; apply Z.mod_pos_bound; lia).
  rewrite data_deserialize_eq; [|exact H0|exact H1|apply len_pos_nonnil; rewrite app_length; lia].
  rewrite E. replace (n mod 256 + 256 * (n / 256)) with n by (rewrite (Z.div_mod n 256) at 1 by lia; lia).
  unfold n. rewrite Nat2Z.id, app_length, (proj2 (Nat.leb_le _ _)) by lia.
  rewrite firstn_app, firstn_all, Nat.sub_diag, firstn_O, app_nil_r. reflexivity.
Qed.
