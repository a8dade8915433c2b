(** Properties C06-C13 and C56: byte codecs and index arithmetic.  Statements only use the modelled API functions and
    the vocabulary defined right here or in Bits.v. *)
From Coq Require Import String.
From Verif Require Import Outcome Floats Bits IndexArith IndexArithProofs ListFacts Quantization Codecs CodecProofs WatermarkProofs.
Open Scope Z_scope.

(** *** C56 *)
(** f64 quotients rounded down / up are the integer quotients. *)
Theorem C56_index_arithmetic_exact : forall a b : nat,
  Z.of_nat a < 2 ^ 53 -> 0 < Z.of_nat b <= 2 ^ 53 ->
  f64_floor_div a b = (a / b)%nat /\ f64_ceil_div a b = ((a + b - 1) / b)%nat.
Proof. intros a b Ha Hb. split; [now apply f64_floor_div_correct|now apply f64_ceil_div_correct]. Qed.

(** The bound is sharp: beyond 2^53 the f64 quotient can be wrong. *)
Theorem C56_bound_is_sharp :
  exists a b : Z, 0 < a /\ 0 < b /\
    f_to_usize Bops (f_floor Bops (f_div Bops (b_of_Z a) (b_of_Z b))) <> a / b.
Proof. exists (2 ^ 53 + 1), 1. vm_compute. repeat split; discriminate. Qed.

Example C56_witness : f64_floor_div 4095 8 = 511%nat /\ f64_ceil_div 33 8 = 5%nat.
Proof. split; vm_compute; reflexivity. Qed.

(** *** C06 *)
Lemma bits_nth l : forall i, nth i (bits_of_bytes l) false = Z.testbit (nth (i / 8) l 0) (Z.of_nat (i mod 8)).
Proof.
  induction l as [|b t IH]; intros i.
  - change (bits_of_bytes []) with (@nil bool). destruct (i / 8)%nat, i; cbn [nth]; rewrite ?Z.bits_0; reflexivity.
  - change (bits_of_bytes (b :: t)) with (byte_bits b ++ bits_of_bytes t).
    destruct (le_lt_dec 8 i) as [H8|H8].
    + rewrite app_nth2 by exact H8. change (Datatypes.length (byte_bits b)) with 8%nat. rewrite IH.
      replace i with ((i - 8) + 1 * 8)%nat at 3 4 by lia. rewrite Nat.div_add, Nat.mod_add by lia.
      rewrite Nat.add_1_r. reflexivity.
    + rewrite app_nth1 by exact H8. rewrite Nat.div_small, Nat.mod_small by exact H8. cbn [nth].
      do 8 (destruct i as [|i]; [reflexivity|]). lia.
Qed.

Theorem C06_perturbation_bytes_roundtrip : forall pad v,
  List.length pad = 8%nat -> Z.of_nat (List.length v) < 2 ^ 53 ->
  exists bs, perturbation_vector_as_bytes pad v = Ok bs
    /\ List.length bs = ((List.length v + 7) / 8)%nat
    /\ bytes bs
    /\ (forall rest, perturbation_vector_from_bytes (bs ++ rest) (List.length v) = v)
    /\ (forall i, (i < List.length v)%nat -> nth i v false = Z.testbit (nth (i / 8) bs 0) (Z.of_nat (i mod 8))).
Proof.
  intros pad v Hp Hl. exists (raw_bytes pad v).
  assert (Hfrom : forall rest, perturbation_vector_from_bytes (raw_bytes pad v ++ rest) (List.length v) = v).
  { intros rest. rewrite perturbation_vector_from_bytes_eq, bits_of_bytes_app.
    destruct (bits_of_bytes_raw pad v Hp) as (r & -> & _).
    rewrite <- app_assoc, firstn_app, firstn_all, Nat.sub_diag, firstn_O, app_nil_r. reflexivity. }
  repeat split.
  - now apply perturbation_vector_as_bytes_ok.
  - apply raw_bytes_length.
  - now apply raw_bytes_bytes.
  - apply Hfrom.
  - intros i Hi. rewrite <- bits_nth. destruct (bits_of_bytes_raw pad v Hp) as (r & -> & _).
    now rewrite app_nth1.
Qed.

Example C06_witness : perturbation_vector_as_bytes (repeat true 8) [true;false;true;false;false;false;false;false;true]
  = Ok [5; 255].
Proof. vm_compute. reflexivity. Qed.

(** *** C07, C08, C09 *)
Theorem C07_watermark_roundtrip : forall pad w rest,
  List.length pad = 8%nat -> Forall scalar (text w) ->
  (List.length (perturbation_vector w) <= 255)%nat -> (List.length (signature w) <= 255)%nat ->
  (List.length (string_as_bytes (text w)) <= 255)%nat ->
  exists bs, watermark_serialize pad w = Ok bs /\ watermark_deserialize (bs ++ rest) = Ok w.
Proof.
  intros pad w rest Hp Ht H1 H2 H3. assert (Hf : fits w) by (repeat split; assumption).
  rewrite serialize_ok by exact Hf. eexists; split; [reflexivity|].
  apply deserialize_layout. exists (raw_bytes pad (perturbation_vector w)), rest.
  split; [rewrite <- !app_assoc; reflexivity|].
  split; [apply raw_bytes_length|].
  split; [|split; [exact Ht|exact Hf]].
  rewrite <- perturbation_vector_from_bytes_eq. now apply pack_roundtrip.
Qed.

Theorem C08_watermark_serialize_domain : forall pad w,
  let p := List.length (perturbation_vector w) in
  let s := List.length (signature w) in
  let t := List.length (string_as_bytes (text w)) in
  ((255 < p \/ 255 < s \/ 255 < t)%nat /\ watermark_serialize pad w = Panic TooLong)
  \/ ((p <= 255 /\ s <= 255 /\ t <= 255)%nat /\
      exists bs, watermark_serialize pad w = Ok bs
        /\ List.length bs = (3 + (p + 7) / 8 + s + t)%nat
        /\ firstn 3 bs = [Z.of_nat p; Z.of_nat s; Z.of_nat t]).
Proof.
  intros pad w p s t.
  destruct (le_lt_dec p 255), (le_lt_dec s 255), (le_lt_dec t 255);
    try (left; split; [tauto|apply serialize_toolong; unfold fits; fold p s t; lia]).
  right. split; [auto|]. rewrite serialize_ok by (repeat split; assumption).
  eexists; split; [reflexivity|]. split; [|reflexivity].
  rewrite !app_length, raw_bytes_length. cbn [header List.length]. fold p s t. lia.
Qed.

Theorem C09_watermark_parser_exact : forall bs, bytes bs ->
  (forall w, watermark_deserialize bs = Ok w <->
     exists pb rest,
       bs = [Z.of_nat (List.length (perturbation_vector w)); Z.of_nat (List.length (signature w));
             Z.of_nat (List.length (string_as_bytes (text w)))]
            ++ pb ++ signature w ++ string_as_bytes (text w) ++ rest
       /\ List.length pb = ((List.length (perturbation_vector w) + 7) / 8)%nat
       /\ firstn (List.length (perturbation_vector w)) (bits_of_bytes pb) = perturbation_vector w
       /\ Forall scalar (text w)
       /\ (List.length (perturbation_vector w) <= 255 /\ List.length (signature w) <= 255
           /\ List.length (string_as_bytes (text w)) <= 255)%nat)
  /\ ((exists w, watermark_deserialize bs = Ok w) \/ (exists r, watermark_deserialize bs = Panic r)).
Proof.
  intros bs Hb. split.
  - intros w. split; [now apply deserialize_inv|apply deserialize_layout].
  - pose proof (deserialize_not_outside bs). destruct (watermark_deserialize bs); eauto. congruence.
Qed.

(** Re-serialising a parsed watermark gives the consumed prefix, up to the unused bits of the last perturbation byte. *)
Theorem C09_reserialise : forall bs w, bytes bs -> watermark_deserialize bs = Ok w ->
  exists pad out rest, List.length pad = 8%nat /\ watermark_serialize pad w = Ok out /\ bs = out ++ rest.
Proof.
  intros bs w Hb H. destruct (deserialize_inv w bs Hb H) as (pb & rest & E & Hl & Hbits & Hsc & Hf).
  assert (Bpb : bytes pb).
  { rewrite E in Hb. unfold bytes in *. rewrite !Forall_app in Hb. tauto. }
  set (n := List.length (perturbation_vector w)) in *.
  (* the dead bits are the tail of the last byte *)
  set (pad := firstn 8 (skipn n (bits_of_bytes pb) ++ repeat false 8)).
  exists pad. rewrite serialize_ok by exact Hf.
  exists (header w ++ raw_bytes pad (perturbation_vector w) ++ signature w ++ string_as_bytes (text w)), rest.
  split; [unfold pad; rewrite firstn_length, app_length, repeat_length; lia|]. split; [reflexivity|].
  rewrite E. rewrite <- !app_assoc. unfold header. f_equal. f_equal.
  rewrite <- (raw_bytes_bits_of_bytes zero_pad pb Bpb) at 1.
  rewrite <- (firstn_skipn n (bits_of_bytes pb)) at 1. rewrite Hbits.
  assert (Hrest : (List.length (skipn n (bits_of_bytes pb)) < 8)%nat /\
                  (List.length (skipn n (bits_of_bytes pb)) + n = 8 * ((n + 7) / 8))%nat).
  { rewrite skipn_length, bits_of_bytes_length, Hl.
    pose proof (Nat.div_mod (n + 7) 8 ltac:(lia)). pose proof (Nat.mod_upper_bound (n + 7) 8 ltac:(lia)). lia. }
  unfold pad. clear pad. clear - Hrest. revert Hrest.
  generalize (skipn n (bits_of_bytes pb)) as r. intros r (Hr1 & Hr2). subst n.
  (* chunk by chunk *)
  revert Hr2. generalize (perturbation_vector w) as v. intros v.
  induction v as [|v Hv IH] using (chunks_ind 8 ltac:(lia)); intros Hr2.
  - cbn in Hr2. destruct r; [reflexivity|cbn in Hr2; lia].
  - assert (Hpos : (0 < List.length v)%nat) by (destruct v; [congruence|cbn; lia]).
    destruct (le_lt_dec 8 (List.length v)) as [H8|H8].
    + unfold raw_bytes. rewrite (chunks_step 8 v) by (try assumption; lia). cbn [map].
      rewrite <- (firstn_skipn 8 v) at 1. rewrite <- app_assoc, chunks_app_full by (rewrite ?firstn_length; lia).
      cbn [map]. f_equal.
      * rewrite firstn_length. replace (8 - Nat.min 8 (List.length v))%nat with 0%nat by lia. rewrite !firstn_O. reflexivity.
      * apply IH. rewrite skipn_length.
        replace (List.length v + 7)%nat with (List.length v - 8 + 7 + 1 * 8)%nat in Hr2 by lia.
        rewrite Nat.div_add in Hr2 by lia. lia.
    + assert (E8 : ((List.length v + 7) / 8 = 1)%nat) by (symmetry; apply (Nat.div_unique _ _ 1 (List.length v - 1)); lia).
      rewrite E8 in Hr2. unfold raw_bytes.
      rewrite (chunks_short 8 v), (chunks_short 8 (v ++ r)); try (apply len_pos_nonnil); rewrite ?app_length; try lia.
      cbn [map]. f_equal. f_equal. rewrite app_length. replace (8 - (List.length v + List.length r))%nat with 0%nat by lia.
      rewrite firstn_O, app_nil_r. f_equal.
      rewrite firstn_firstn, firstn_app.
      replace (Nat.min (8 - List.length v) 8) with (List.length r) by lia.
      rewrite firstn_all, Nat.sub_diag, firstn_O, app_nil_r. reflexivity.
Qed.

Definition C07_sample : Watermark := mkWatermark [true;false;true;true;false;false;true;false;true] [7; 200; 255] [72; 233; 8364; 128512].
Example C07_witness : exists bs, watermark_serialize zero_pad C07_sample = Ok bs /\
  watermark_deserialize (bs ++ [1;2;3]) = Ok C07_sample /\ watermark_deserialize (firstn 10 bs) = Panic SliceRange.
Proof. eexists. split; [vm_compute; reflexivity|split; vm_compute; reflexivity]. Qed.

(** *** C10 *)
Theorem C10_payload_frame : 
  (forall d rest, 1 <= Z.of_nat (List.length d) <= 65535 ->
     exists s, data_serialize d = Ok s /\ List.length s = (2 + List.length d)%nat /\ data_deserialize (s ++ rest) = Ok d)
  /\ (forall d, 65535 < Z.of_nat (List.length d) -> data_serialize d = Panic TooLong)
  /\ data_serialize [] = Ok [0; 0]
  /\ (exists r, data_deserialize [0; 0] = Panic r).
Proof.
  split; [|split; [|split]].
  - intros d rest H. now apply data_roundtrip.
  - intros d H. now apply data_serialize_long.
  - reflexivity.
  - eexists; reflexivity.
Qed.
Example C10_witness : data_deserialize [3; 0; 9; 8; 7; 6] = Ok [9; 8; 7] /\ data_deserialize [3; 1; 9; 8; 7; 6] = Panic SliceRange.
Proof. split; vm_compute; reflexivity. Qed.

(** *** C11 *)
Lemma le_bytes_nth n : forall u k, (k < n)%nat -> nth k (le_bytes n u) 0 = u / 256 ^ Z.of_nat k mod 256.
Proof.
  induction n as [|n IH]; intros u k Hk; [lia|]. cbn [le_bytes]. destruct k as [|k].
  - cbn [nth]. change (256 ^ Z.of_nat 0) with 1. rewrite Z.div_1_r. reflexivity.
  - cbn [nth]. rewrite IH by lia. replace (Z.of_nat (S k)) with (1 + Z.of_nat k) by lia.
    rewrite Z.pow_add_r by lia. change (256 ^ 1) with 256. rewrite Z.div_div by lia. reflexivity.
Qed.

Lemma mod_pow_div x m k : (k < m)%nat -> (x mod 256 ^ Z.of_nat m) / 256 ^ Z.of_nat k mod 256 = x / 256 ^ Z.of_nat k mod 256.
Proof.
  intros H. assert (Hp : 0 < 256 ^ Z.of_nat k) by (apply Z.pow_pos_nonneg; lia).
  set (A := 256 ^ Z.of_nat k) in *.
  replace (Z.of_nat m) with (Z.of_nat k + (1 + Z.of_nat (m - k - 1))) by lia.
  rewrite Z.pow_add_r, Z.pow_add_r by lia. fold A. change (256 ^ 1) with 256.
  set (B := 256 ^ Z.of_nat (m - k - 1)). assert (HB : 0 < B) by (apply Z.pow_pos_nonneg; lia).
  rewrite Z.rem_mul_r by lia.
  rewrite (Z.mul_comm A ((x / A) mod (256 * B))), Z.div_add by lia.
  rewrite (Z.div_small (x mod A)) by (apply Z.mod_pos_bound; lia). rewrite Z.add_0_l.
  rewrite Z.rem_mul_r by lia. rewrite (Z.mul_comm 256 (_ mod B)), Z.mod_add by lia. apply Z.mod_mod; lia.
Qed.

Lemma flat_map_nth (enc : Z -> list Z) n v : (forall x, List.length (enc x) = n) ->
  forall i k, (i < List.length v)%nat -> (k < n)%nat -> nth (n * i + k) (flat_map enc v) 0 = nth k (enc (nth i v 0)) 0.
Proof.
  intros He. induction v as [|x t IH]; intros i k Hi Hk; [cbn in Hi; lia|].
  cbn [flat_map]. destruct i as [|i].
  - rewrite Nat.mul_0_r. cbn [Nat.add nth]. apply app_nth1. rewrite He. exact Hk.
  - rewrite app_nth2 by (rewrite He; lia). rewrite He. replace (n * S i + k - n)%nat with (n * i + k)%nat by lia.
    cbn [nth]. apply IH; [cbn in Hi; lia|exact Hk].
Qed.

(** i64: -2^63 <= x < 2^63; byte k of an encoding is (floor(x / 256^k)) mod 256: little-endian two's complement. *)
Theorem C11_integer_bytes :
  (forall v, Forall (fun x => - 2 ^ 63 <= x < 2 ^ 63) v ->
     vec_i64_from_bytes (vec_i64_to_bytes v) = Ok v
     /\ List.length (vec_i64_to_bytes v) = (8 * List.length v)%nat
     /\ (forall i k, (i < List.length v)%nat -> (k < 8)%nat ->
           nth (8 * i + k) (vec_i64_to_bytes v) 0 = nth i v 0 / 256 ^ Z.of_nat k mod 256))
  /\ (forall v, Forall (fun x => 0 <= x < 65536) v ->
     vec_u16_from_bytes (vec_u16_to_bytes v) = Ok v
     /\ List.length (vec_u16_to_bytes v) = (2 * List.length v)%nat
     /\ (forall i k, (i < List.length v)%nat -> (k < 2)%nat ->
           nth (2 * i + k) (vec_u16_to_bytes v) 0 = nth i v 0 / 256 ^ Z.of_nat k mod 256))
  /\ (forall v w, Forall (fun x => - 2 ^ 63 <= x < 2 ^ 63) v -> Forall (fun x => - 2 ^ 63 <= x < 2 ^ 63) w ->
       vec_i64_to_bytes v = vec_i64_to_bytes w -> v = w)
  /\ (forall l, (List.length l mod 8 <> 0)%nat -> vec_i64_from_bytes l = Panic UnwrapErr)
  /\ (forall l, (List.length l mod 2 <> 0)%nat -> vec_u16_from_bytes l = Panic UnwrapErr)
  /\ (forall l, bytes l -> (List.length l mod 8 = 0)%nat ->
       exists v, vec_i64_from_bytes l = Ok v /\ Forall (fun x => - 2 ^ 63 <= x < 2 ^ 63) v /\ vec_i64_to_bytes v = l).
Proof.
  assert (Hi : forall v, Forall (fun x => - 2 ^ 63 <= x < 2 ^ 63) v -> Forall is_i64 v).
  { intros v. apply Forall_impl. unfold is_i64, i64_min, i64_max. intros; lia. }
  split; [|split; [|split; [|split; [|split]]]].
  - intros v Hv. split; [apply vec_i64_roundtrip; auto|split; [apply vec_i64_to_bytes_length|]].
    intros i k H1 H2. unfold vec_i64_to_bytes. rewrite (flat_map_nth i64_to_le 8) by (intros; try apply le_bytes_length; assumption).
    unfold i64_to_le. rewrite le_bytes_nth by exact H2. change (2 ^ 64) with (256 ^ Z.of_nat 8). now apply mod_pow_div.
  - intros v Hv. split; [apply vec_u16_roundtrip; exact Hv|split; [apply vec_u16_to_bytes_length|]].
    intros i k H1 H2. unfold vec_u16_to_bytes. rewrite (flat_map_nth u16_to_le 2) by (intros; try apply le_bytes_length; assumption).
    unfold u16_to_le. rewrite le_bytes_nth by exact H2. change (2 ^ 16) with (256 ^ Z.of_nat 2). now apply mod_pow_div.
  - intros v w Hv Hw. apply vec_i64_to_bytes_inj; auto.
  - intros l Hl. apply vec_ragged; [lia|exact Hl].
  - intros l Hl. apply vec_ragged; [lia|exact Hl].
  - intros l Hb Hl. exists (map i64_from_le (chunks 8 l)).
    pose proof (chunks_full 8 l ltac:(lia) Hl) as Hf. pose proof (concat_chunks 8 l ltac:(lia)) as Hc.
    assert (HB : Forall bytes (chunks 8 l)).
    { unfold bytes in *. rewrite <- Hc in Hb. apply Forall_concat in Hb. exact Hb. }
    split; [apply vec_complete; [lia|exact Hl]|]. split.
    + apply Forall_map. rewrite Forall_forall in *. intros c Hin.
      pose proof (i64_from_le_is_i64 c (HB c Hin) (Hf c Hin)) as H. unfold is_i64, i64_min, i64_max in H. lia.
    + unfold vec_i64_to_bytes. rewrite flat_map_concat_map, map_map. rewrite <- Hc at 2. f_equal.
      rewrite <- (map_id (chunks 8 l)) at 2. apply map_ext_in. intros c Hin.
      rewrite Forall_forall in *. pose proof (le_value_range c (HB c Hin)) as Hr.
      specialize (Hf c Hin). rewrite Hf in Hr. change (256 ^ Z.of_nat 8) with (2 ^ 64) in Hr.
      unfold i64_to_le, i64_from_le. rewrite <- Hf.
      replace (((if le_value c <? 2 ^ 63 then le_value c else le_value c - 2 ^ 64)) mod 2 ^ 64) with (le_value c).
      * apply le_bytes_value. exact (HB c Hin).
      * destruct (le_value c <? 2 ^ 63); [symmetry; apply Z.mod_small; lia|].
        rewrite <- (Z.mod_add (le_value c - 2 ^ 64) 1 (2 ^ 64)), Z.mod_small by lia. lia.
Qed.
Example C11_witness : vec_i64_to_bytes [-2; 258] = [254;255;255;255;255;255;255;255; 2;1;0;0;0;0;0;0]
  /\ vec_i64_from_bytes [254;255;255;255;255;255;255;255; 2;1;0;0;0;0;0;0] = Ok [-2; 258].
Proof. split; vm_compute; reflexivity. Qed.

(** *** C12 *)
(** [hex_denotes c v]: the character with code c is a hexadecimal digit of value v. *)
Definition hex_denotes (c v : Z) : Prop :=
  (48 <= c <= 57 /\ v = c - 48) \/ (97 <= c <= 102 /\ v = c - 97 + 10) \/ (65 <= c <= 70 /\ v = c - 65 + 10).
(** A pair of characters accepted for the byte b: two hex digits, or '+' and one hex digit. *)
Definition pair_denotes (p : Z * Z) (b : Z) : Prop :=
  (fst p = 43 /\ hex_denotes (snd p) b) \/
  (exists h l, hex_denotes (fst p) h /\ hex_denotes (snd p) l /\ b = 16 * h + l).
Definition flat_pairs (ps : list (Z * Z)) : list Z := flat_map (fun p => [fst p; snd p]) ps.

Lemma hex_digit_denotes c v : hex_digit c = Some v <-> hex_denotes c v.
Proof.
  unfold hex_digit, hex_denotes.
  destruct ((48 <=? c) && (c <=? 57))%bool eqn:E1;
  [|destruct ((97 <=? c) && (c <=? 102))%bool eqn:E2;
  [|destruct ((65 <=? c) && (c <=? 70))%bool eqn:E3]];
  rewrite ?andb_true_iff, ?andb_false_iff, ?Z.leb_le, ?Z.leb_gt in *.
  - split; [intros [= <-]; lia|]. intros H. f_equal. lia.
  - split; [intros [= <-]; lia|]. intros H. f_equal. lia.
  - split; [intros [= <-]; lia|]. intros H. f_equal. lia.
  - split; [discriminate|]. intros H. lia.
Qed.

Lemma u8_from_hex2_denotes c1 c2 b : u8_from_hex2 c1 c2 = Some b <-> pair_denotes (c1, c2) b.
Proof.
  unfold u8_from_hex2, pair_denotes. cbn [fst snd]. destruct (c1 =? 43) eqn:E.
  - apply Z.eqb_eq in E. subst c1. rewrite hex_digit_denotes. split; [intros H; left; split; [reflexivity|exact H]|].
    intros [[_ H]|(h & l & H & _)]; [exact H|]. unfold hex_denotes in H. lia.
  - apply Z.eqb_neq in E. split.
    + intros H. right. destruct (hex_digit c1) as [h|] eqn:E1; [|discriminate].
      destruct (hex_digit c2) as [l|] eqn:E2; [|discriminate]. injection H as <-.
      exists h, l. rewrite <- !hex_digit_denotes. auto.
    + intros [[H _]|(h & l & H1 & H2 & ->)]; [congruence|].
      rewrite <- hex_digit_denotes in H1, H2. rewrite H1, H2. reflexivity.
Qed.

Lemma pair_denotes_not_cont p b : pair_denotes p b -> is_cont (fst p) = false.
Proof.
  unfold pair_denotes, hex_denotes, is_cont. intros H.
  destruct (128 <=? fst p) eqn:E; [apply Z.leb_le in E|reflexivity].
  destruct H as [[H _]|(h & l & H & _)]; lia.
Qed.

Theorem C12_hex_codec :
  (forall b, bytes b -> decode_hex (encode_hex b) = Ok (Some b))
  /\ (forall b, bytes b -> List.length (encode_hex b) = (2 * List.length b)%nat
       /\ Forall (fun c => 48 <= c <= 57 \/ 97 <= c <= 102) (encode_hex b))
  /\ (forall s b, decode_hex s = Ok (Some b) <-> exists ps, s = flat_pairs ps /\ Forall2 pair_denotes ps b)
  /\ (forall s, Nat.odd (List.length s) = true -> forall b, decode_hex s <> Ok (Some b))
  /\ (forall s, decode_hex s <> Outside).
Proof.
  assert (Hiff : forall s b, decode_hex s = Ok (Some b) <-> exists ps, s = flat_pairs ps /\ Forall2 pair_denotes ps b).
  { intros s b. split.
    - revert b. induction s as [s IH] using (well_founded_induction (well_founded_ltof _ (@List.length Z))).
      unfold ltof in IH. intros b H. destruct s as [|c1 [|c2 s]].
      + injection H as <-. exists []. split; [reflexivity|constructor].
      + discriminate.
      + cbn [decode_hex] in H. destruct (is_cont c1); [discriminate|].
        destruct (match s with [] => false | c3 :: _ => is_cont c3 end); [discriminate|].
        destruct (u8_from_hex2 c1 c2) as [x|] eqn:E; [|discriminate].
        apply bind_ok in H as (r & Hr & H). destruct r as [r|]; [|discriminate]. injection H as <-.
        apply IH in Hr as (ps & -> & Hps); [|cbn; lia].
        exists ((c1, c2) :: ps). split; [reflexivity|]. constructor; [now apply u8_from_hex2_denotes|exact Hps].
    - intros (ps & -> & H). induction H as [|[c1 c2] x ps b Hp Hps IH]; [reflexivity|].
      change (flat_pairs ((c1, c2) :: ps)) with (c1 :: c2 :: flat_pairs ps). cbn [decode_hex].
      rewrite (pair_denotes_not_cont _ _ Hp : is_cont c1 = false).
      assert (Hc : match flat_pairs ps with [] => false | c3 :: _ => is_cont c3 end = false).
      { inversion Hps as [|[d1 d2] ? ? ? Hd]; subst; [reflexivity|]. exact (pair_denotes_not_cont _ _ Hd). }
      rewrite Hc. rewrite (proj2 (u8_from_hex2_denotes c1 c2 x) Hp), IH. reflexivity. }
  split; [|split; [|split; [|split]]].
  - apply decode_encode_hex.
  - intros b Hb. split; [apply encode_hex_length|exact (encode_hex_lower b Hb)].
  - exact Hiff.
  - intros s Ho b H. apply Hiff in H as (ps & -> & _).
    assert (E : List.length (flat_pairs ps) = (2 * List.length ps)%nat).
    { clear. unfold flat_pairs. induction ps as [|p t IH]; cbn [flat_map app List.length]; [reflexivity|]. rewrite IH; lia. }
    rewrite E in Ho. rewrite Nat.odd_mul in Ho. discriminate.
  - intros s. induction s as [s IH] using (well_founded_induction (well_founded_ltof _ (@List.length Z))).
    unfold ltof in IH. destruct s as [|c1 [|c2 s]]; try discriminate. cbn [decode_hex].
    destruct (is_cont c1); [discriminate|].
    destruct (match s with [] => false | c3 :: _ => is_cont c3 end); [discriminate|].
    destruct (u8_from_hex2 c1 c2); [|discriminate].
    specialize (IH s ltac:(cbn; lia)). destruct (decode_hex s); [discriminate|discriminate|congruence].
Qed.

(** "+f" is accepted as the byte 15 although encode_hex never produces it. *)
Example C12_witness : decode_hex [43; 102] = Ok (Some [15]) /\ decode_hex [70; 102] = Ok (Some [255])
  /\ decode_hex [102] = Panic SliceRange /\ decode_hex [103; 48] = Ok None.
Proof. repeat split; vm_compute; reflexivity. Qed.

(** *** C13 *)
Theorem C13_utf8_roundtrip :
  (forall s, Forall scalar s -> bytes (string_as_bytes s) /\ string_from_utf8 (string_as_bytes s) = Some s)
  /\ (forall l s, bytes l -> string_from_utf8 l = Some s -> Forall scalar s /\ string_as_bytes s = l).
Proof.
  split.
  - intros s Hs. split; [now apply string_as_bytes_bytes|now apply utf8_roundtrip].
  - intros l s. apply string_from_utf8_sound.
Qed.
Example C13_witness : string_from_utf8 [226; 130; 172; 240; 159; 152; 128] = Some [8364; 128512]
  /\ string_from_utf8 [192; 128] = None /\ string_from_utf8 [237; 160; 128] = None.
Proof. repeat split; vm_compute; reflexivity. Qed.

Print Assumptions C56_index_arithmetic_exact.
Print Assumptions C06_perturbation_bytes_roundtrip.
Print Assumptions C07_watermark_roundtrip.
Print Assumptions C08_watermark_serialize_domain.
Print Assumptions C09_watermark_parser_exact.
Print Assumptions C09_reserialise.
Print Assumptions C10_payload_frame.
Print Assumptions C11_integer_bytes.
Print Assumptions C12_hex_codec.
Print Assumptions C13_utf8_roundtrip.
