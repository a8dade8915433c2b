(** Proofs about the byte codecs of Codecs.v and the bit packing of Quantization.v. *)
From Verif Require Import Outcome Floats Bits IndexArith IndexArithProofs ListFacts Quantization Codecs.
Open Scope Z_scope.

(** ** slices *)
Lemma slice_app {A} (a b c : list A) : slice (a ++ b ++ c) (length a) (length a + length b) = Ok b.
Proof.
  unfold slice. rewrite !app_length.
  rewrite (proj2 (Nat.leb_le _ _)) by lia. rewrite (proj2 (Nat.leb_le _ _)) by lia.
  cbn [andb]. f_equal. rewrite skipn_app, skipn_all, Nat.sub_diag, skipn_O, app_nil_l.
  replace (length a + length b - length a)%nat with (length b) by lia.
  rewrite firstn_app, Nat.sub_diag, firstn_O, app_nil_r. apply firstn_all.
Qed.

Lemma slice_ok {A} (l : list A) a b x :
  slice l a b = Ok x <-> (a <= b <= length l)%nat /\ x = firstn (b - a) (skipn a l).
Proof.
  unfold slice. destruct (Nat.leb a b) eqn:E1, (Nat.leb b (length l)) eqn:E2; cbn [andb];
    repeat match goal with H : Nat.leb _ _ = true |- _ => apply Nat.leb_le in H
                         | H : Nat.leb _ _ = false |- _ => apply Nat.leb_gt in H end;
    split; intros H; try discriminate; try lia.
  - injection H as <-. split; [lia|reflexivity].
  - destruct H as (_ & ->). reflexivity.
Qed.

Lemma slice_cases {A} (l : list A) a b :
  ((a <= b <= length l)%nat /\ slice l a b = Ok (firstn (b - a) (skipn a l))) \/
  (~ (a <= b <= length l)%nat /\ slice l a b = Panic SliceRange).
Proof.
  unfold slice. destruct (Nat.leb a b) eqn:E1, (Nat.leb b (length l)) eqn:E2; cbn [andb];
    repeat match goal with H : Nat.leb _ _ = true |- _ => apply Nat.leb_le in H
                         | H : Nat.leb _ _ = false |- _ => apply Nat.leb_gt in H end;
    [left|right|right|right]; split; try reflexivity; lia.
Qed.

(** ** bit packing *)
Lemma pvfb_inner n bits : forall st i, (length st = i)%nat -> (i <= n)%nat ->
  fold_left (pvfb_bit n) bits (st, i) =
  (st ++ firstn (n - i) bits, Nat.min n (i + length bits)).
Proof.
  induction bits as [|b t IH]; intros st i Hi Hn; cbn [fold_left].
  - rewrite firstn_nil, app_nil_r. f_equal. cbn [length]. lia.
  - unfold pvfb_bit at 2. cbn [fst snd]. destruct (Nat.ltb i n) eqn:E.
    + apply Nat.ltb_lt in E. rewrite IH by (rewrite ?app_length; cbn [length]; lia).
      replace (n - i)%nat with (S (n - S i)) by lia. cbn [firstn length].
      unfold funty_as_bool. rewrite negb_involutive, <- app_assoc. cbn [app]. f_equal. lia.
    + apply Nat.ltb_ge in E. rewrite IH by lia. replace (n - i)%nat with 0%nat by lia. cbn [firstn length].
      f_equal. lia.
Qed.

Lemma pvfb_outer n bs : forall st i, (length st = i)%nat -> (i <= n)%nat ->
  fold_left (fun s b => fold_left (pvfb_bit n) (byte_bits b) s) bs (st, i) =
  (st ++ firstn (n - i) (bits_of_bytes bs), Nat.min n (i + length (bits_of_bytes bs))).
Proof.
  induction bs as [|b t IH]; intros st i Hi Hn; cbn [fold_left].
  - cbn. rewrite firstn_nil, app_nil_r. f_equal. lia.
  - rewrite pvfb_inner by assumption. change (length (byte_bits b)) with 8%nat.
    rewrite IH by (rewrite ?app_length, ?firstn_length; cbn [byte_bits length]; lia).
    change (bits_of_bytes (b :: t)) with (byte_bits b ++ bits_of_bytes t).
    rewrite app_length, firstn_app, app_assoc. change (length (byte_bits b)) with 8%nat.
    f_equal; [|lia]. f_equal.
    destruct (le_lt_dec n (i + 8)) as [H|H].
    + replace (n - Nat.min n (i + 8))%nat with 0%nat by lia. replace (n - i - 8)%nat with 0%nat by lia. reflexivity.
    + replace (n - Nat.min n (i + 8))%nat with (n - i - 8)%nat by lia. reflexivity.
Qed.

Lemma perturbation_vector_from_bytes_eq bs n :
  perturbation_vector_from_bytes bs n = firstn n (bits_of_bytes bs).
Proof.
  unfold perturbation_vector_from_bytes. rewrite pvfb_outer by (cbn; lia). cbn [fst app]. rewrite Nat.sub_0_r. reflexivity.
Qed.

Lemma perturbation_vector_as_bytes_ok pad v : Z.of_nat (length v) < 2 ^ 53 ->
  perturbation_vector_as_bytes pad v = Ok (raw_bytes pad v).
Proof.
  intros H. unfold perturbation_vector_as_bytes.
  rewrite f64_ceil_div_correct by lia. rewrite raw_bytes_length.
  replace (length v + 8 - 1)%nat with (length v + 7)%nat by lia. rewrite Nat.eqb_refl. reflexivity.
Qed.

Lemma pack_roundtrip pad v : length pad = 8%nat ->
  perturbation_vector_from_bytes (raw_bytes pad v) (length v) = v.
Proof.
  intros Hp. rewrite perturbation_vector_from_bytes_eq.
  destruct (bits_of_bytes_raw pad v Hp) as (rest & -> & _).
  rewrite firstn_app, firstn_all, Nat.sub_diag, firstn_O, app_nil_r. reflexivity.
Qed.

(** ** integers *)
Lemma le_bytes_length n u : length (le_bytes n u) = n.
Proof. revert u; induction n as [|n IH]; intros u; simpl; [reflexivity|]. rewrite IH; reflexivity. Qed.

Lemma le_bytes_bytes n u : bytes (le_bytes n u).
Proof.
  revert u; induction n as [|n IH]; intros u; simpl; constructor.
  - unfold byte. apply Z.mod_pos_bound; lia.
  - apply IH.
Qed.

Lemma le_value_bytes n u : 0 <= u < 256 ^ Z.of_nat n -> le_value (le_bytes n u) = u.
Proof.
  revert u; induction n as [|n IH]; intros u Hu.
  - simpl in *. lia.
  - cbn [le_bytes le_value]. rewrite IH.
    + rewrite (Z.div_mod u 256) at 3 by lia. lia.
    + replace (Z.of_nat (S n)) with (Z.of_nat n + 1) in Hu by lia.
      rewrite Z.pow_add_r in Hu by lia. change (256 ^ 1) with 256 in Hu.
      split; [apply Z.div_pos; lia|]. apply Z.div_lt_upper_bound; lia.
Qed.

Lemma le_value_range l : bytes l -> 0 <= le_value l < 256 ^ Z.of_nat (length l).
Proof.
  induction 1 as [|b t Hb Ht IH]; [simpl; lia|].
  cbn [le_value length]. replace (Z.of_nat (S (length t))) with (Z.of_nat (length t) + 1) by lia.
  rewrite Z.pow_add_r by lia. change (256 ^ 1) with 256. unfold byte in Hb. lia.
Qed.

Lemma le_bytes_value l : bytes l -> le_bytes (length l) (le_value l) = l.
Proof.
  induction 1 as [|b t Hb Ht IH]; [reflexivity|].
  unfold byte in Hb. cbn [length le_bytes le_value].
  rewrite (Z.mul_comm 256), Z.mod_add, Z.mod_small, Z.div_add, Z.div_small by lia.
  rewrite Z.add_0_l, IH. reflexivity.
Qed.

Definition is_i64 (x : Z) : Prop := i64_min <= x <= i64_max.
Definition is_u16 (x : Z) : Prop := 0 <= x < 65536.

Lemma i64_le_roundtrip x : is_i64 x -> i64_from_le (i64_to_le x) = x.
Proof.
  unfold is_i64, i64_min, i64_max, i64_from_le, i64_to_le. intros H.
  rewrite le_value_bytes by (change (256 ^ Z.of_nat 8) with (2 ^ 64); apply Z.mod_pos_bound; lia).
  destruct (Z_lt_le_dec x 0).
  - rewrite <- (Z.mod_add x 1 (2 ^ 64)), Z.mod_small by lia.
    destruct (x + 1 * 2 ^ 64 <? 2 ^ 63) eqn:E; [apply Z.ltb_lt in E|apply Z.ltb_ge in E]; lia.
  - rewrite Z.mod_small by lia. destruct (x <? 2 ^ 63) eqn:E; [|apply Z.ltb_ge in E]; lia.
Qed.

Lemma i64_from_le_is_i64 l : bytes l -> length l = 8%nat -> is_i64 (i64_from_le l).
Proof.
  intros Hb Hl. pose proof (le_value_range l Hb) as H. rewrite Hl in H. change (256 ^ Z.of_nat 8) with (2 ^ 64) in H.
  unfold is_i64, i64_from_le, i64_min, i64_max.
  destruct (le_value l <? 2 ^ 63) eqn:E; [apply Z.ltb_lt in E|apply Z.ltb_ge in E]; lia.
Qed.

Lemma u16_le_roundtrip x : is_u16 x -> u16_from_le (u16_to_le x) = x.
Proof.
  unfold is_u16, u16_from_le, u16_to_le. intros H. rewrite Z.mod_small by lia.
  apply le_value_bytes. change (256 ^ Z.of_nat 2) with 65536. lia.
Qed.

Lemma vec_from_bytes_flat {A} n (enc : Z -> list Z) (dec : list Z -> A) (g : Z -> A) v :
  (0 < n)%nat -> (forall x, length (enc x) = n) -> (forall x, In x v -> dec (enc x) = g x) ->
  mapM (fun c => if Nat.eqb (length c) n then Ok (dec c) else Panic UnwrapErr) (chunks n (flat_map enc v)) = Ok (map g v).
Proof.
  intros Hn Hl Hd. rewrite flat_map_concat_map, chunks_concat.
  - rewrite mapM_map. apply mapM_ok_map. intros a Ha. rewrite Hl, Nat.eqb_refl, Hd by assumption. reflexivity.
  - assumption.
  - apply Forall_map, Forall_forall. intros; apply Hl.
Qed.

Lemma vec_i64_roundtrip v : Forall is_i64 v -> vec_i64_from_bytes (vec_i64_to_bytes v) = Ok v.
Proof.
  intros H. unfold vec_i64_from_bytes, vec_i64_to_bytes.
  rewrite (vec_from_bytes_flat 8 i64_to_le i64_from_le (fun x => x)).
  - now rewrite map_id.
  - lia.
  - intros; apply le_bytes_length.
  - intros x Hx. apply i64_le_roundtrip. rewrite Forall_forall in H. now apply H.
Qed.

Lemma vec_u16_roundtrip v : Forall is_u16 v -> vec_u16_from_bytes (vec_u16_to_bytes v) = Ok v.
Proof.
  intros H. unfold vec_u16_from_bytes, vec_u16_to_bytes.
  rewrite (vec_from_bytes_flat 2 u16_to_le u16_from_le (fun x => x)).
  - now rewrite map_id.
  - lia.
  - intros; apply le_bytes_length.
  - intros x Hx. apply u16_le_roundtrip. rewrite Forall_forall in H. now apply H.
Qed.

Lemma vec_i64_to_bytes_length v : length (vec_i64_to_bytes v) = (8 * length v)%nat.
Proof. unfold vec_i64_to_bytes. induction v as [|a t IH]; cbn [flat_map length]; [reflexivity|]. rewrite app_length, IH. unfold i64_to_le. rewrite le_bytes_length. lia. Qed.
Lemma vec_u16_to_bytes_length v : length (vec_u16_to_bytes v) = (2 * length v)%nat.
Proof. unfold vec_u16_to_bytes. induction v as [|a t IH]; cbn [flat_map length]; [reflexivity|]. rewrite app_length, IH. unfold u16_to_le. rewrite le_bytes_length. lia. Qed.

Lemma vec_i64_to_bytes_inj v w : Forall is_i64 v -> Forall is_i64 w -> vec_i64_to_bytes v = vec_i64_to_bytes w -> v = w.
Proof.
  intros Hv Hw E. apply vec_i64_roundtrip in Hv, Hw. rewrite E in Hv. congruence.
Qed.

Lemma vec_ragged n {A} (dec : list Z -> A) l : (0 < n)%nat -> (length l mod n <> 0)%nat ->
  mapM (fun c => if Nat.eqb (length c) n then Ok (dec c) else Panic UnwrapErr) (chunks n l) = Panic UnwrapErr.
Proof.
  intros Hn Hm. pose proof (chunks_ragged n l Hn Hm) as H. clear Hm.
  induction (chunks n l) as [|c t IH]; [exfalso; apply H; constructor|].
  cbn [mapM]. destruct (Nat.eqb (length c) n) eqn:E; [|reflexivity].
  apply Nat.eqb_eq in E. cbn [bind]. rewrite IH; [reflexivity|]. intros Ht; apply H; constructor; assumption.
Qed.

Lemma vec_complete n {A} (dec : list Z -> A) l : (0 < n)%nat -> (length l mod n = 0)%nat ->
  mapM (fun c => if Nat.eqb (length c) n then Ok (dec c) else Panic UnwrapErr) (chunks n l) = Ok (map dec (chunks n l)).
Proof.
  intros Hn Hm. apply mapM_ok_map. intros c Hc. pose proof (chunks_full n l Hn Hm) as H.
  rewrite Forall_forall in H. rewrite (H c Hc), Nat.eqb_refl. reflexivity.
Qed.

(** ** hexadecimal *)
Lemma hex_digit_char d : 0 <= d < 16 -> hex_digit (hex_char d) = Some d.
Proof.
  intros H. assert (Hd : In d [0;1;2;3;4;5;6;7;8;9;10;11;12;13;14;15]).
  { assert (d = 0 \/ d = 1 \/ d = 2 \/ d = 3 \/ d = 4 \/ d = 5 \/ d = 6 \/ d = 7 \/ d = 8 \/ d = 9 \/ d = 10 \/ d = 11
            \/ d = 12 \/ d = 13 \/ d = 14 \/ d = 15) by lia. cbn [In]. intuition. }
  cbn [In] in Hd. repeat (destruct Hd as [<-|Hd]; [reflexivity|]). destruct Hd.
Qed.

Definition lower_hex (c : Z) : Prop := 48 <= c <= 57 \/ 97 <= c <= 102.

Lemma hex_char_lower d : 0 <= d < 16 -> lower_hex (hex_char d).
Proof. unfold lower_hex, hex_char. intros H. destruct (d <? 10) eqn:E; [apply Z.ltb_lt in E|apply Z.ltb_ge in E]; lia. Qed.

Lemma not_cont_lower c : lower_hex c -> is_cont c = false.
Proof. unfold lower_hex, is_cont. intros H. destruct (128 <=? c) eqn:E; [apply Z.leb_le in E; lia|reflexivity]. Qed.

Lemma encode_hex_length b : length (encode_hex b) = (2 * length b)%nat.
Proof. unfold encode_hex. induction b as [|x t IH]; cbn [flat_map length app]; [reflexivity|]. rewrite IH; lia. Qed.

Lemma byte_nibbles b : byte b -> 0 <= b / 16 < 16 /\ 0 <= b mod 16 < 16.
Proof. unfold byte; intros H. Z.to_euclidean_division_equations. lia. Qed.

Lemma encode_hex_lower b : bytes b -> Forall lower_hex (encode_hex b).
Proof.
  unfold encode_hex. induction 1 as [|x t Hx Ht IH]; cbn [flat_map app]; [constructor|].
  destruct (byte_nibbles x Hx). constructor; [now apply hex_char_lower|]. constructor; [now apply hex_char_lower|exact IH].
Qed.

Lemma decode_encode_hex b : bytes b -> decode_hex (encode_hex b) = Ok (Some b).
Proof.
  induction 1 as [|x t Hx Ht IH]; [reflexivity|].
  destruct (byte_nibbles x Hx) as (H1 & H2).
  change (encode_hex (x :: t)) with (hex_char (x / 16) :: hex_char (x mod 16) :: encode_hex t).
  cbn [decode_hex]. rewrite (not_cont_lower _ (hex_char_lower _ H1)).
  assert (Hc : match encode_hex t with c3 :: _ => is_cont c3 | [] => false end = false).
  { pose proof (encode_hex_lower t Ht) as Hl. destruct (encode_hex t); [reflexivity|]. inversion Hl; subst.
    now apply not_cont_lower. }
  rewrite Hc. unfold u8_from_hex2.
  assert (Hne : hex_char (x / 16) =? 43 = false).
  { pose proof (hex_char_lower _ H1) as H. unfold lower_hex in H. apply Z.eqb_neq. lia. }
  rewrite Hne, !hex_digit_char by assumption. rewrite IH. cbn [bind option_map].
  do 3 f_equal. rewrite (Z.div_mod x 16) at 3 by lia. reflexivity.
Qed.

(** ** UTF-8 *)
Ltac bools := repeat match goal with
  | H : (_ && _)%bool = true |- _ => apply andb_true_iff in H; destruct H
  | H : (_ <=? _) = true |- _ => apply Z.leb_le in H
  | H : (_ <=? _) = false |- _ => apply Z.leb_gt in H
  | H : (_ <? _) = true |- _ => apply Z.ltb_lt in H
  | H : (_ <? _) = false |- _ => apply Z.ltb_ge in H
  | H : (_ =? _) = true |- _ => apply Z.eqb_eq in H
  | H : (_ =? _) = false |- _ => apply Z.eqb_neq in H
  end.
Lemma andb_ranges a b : (a = true /\ b = true) -> (a && b)%bool = true.
Proof. intros (-> & ->); reflexivity. Qed.

Lemma leb_t a b : a <= b -> (a <=? b) = true. Proof. apply Z.leb_le. Qed.
Lemma ltb_t a b : a < b -> (a <? b) = true. Proof. apply Z.ltb_lt. Qed.
Lemma leb_f a b : b < a -> (a <=? b) = false. Proof. apply Z.leb_gt. Qed.
Lemma ltb_f a b : b <= a -> (a <? b) = false. Proof. apply Z.ltb_ge. Qed.

Lemma is_cont_range b : 128 <= b < 192 -> is_cont b = true.
Proof. intros H. unfold is_cont. rewrite leb_t, ltb_t by lia. reflexivity. Qed.

Lemma utf8_decode1_encode1 c rest : scalar c ->
  utf8_decode1 (utf8_encode1 c ++ rest) = Some (c, length (utf8_encode1 c)).
Proof.
  unfold scalar. intros Hc. unfold utf8_encode1.
  destruct (c <? 128) eqn:E1; bools.
  { cbn [app utf8_decode1 length]. rewrite ltb_t by lia. reflexivity. }
  destruct (c <? 2048) eqn:E2; bools.
  { assert (2 <= c / 64 <= 31 /\ 0 <= c mod 64 < 64 /\ c = 64 * (c / 64) + c mod 64)
      by (Z.to_euclidean_division_equations; lia).
    cbn [app utf8_decode1 length]. rewrite ltb_f, leb_t, leb_t by lia. cbn [andb].
    rewrite is_cont_range by lia. f_equal; f_equal; lia. }
  destruct (c <? 65536) eqn:E3; bools.
  { assert (Hx : 0 <= c / 4096 <= 15 /\ 0 <= c / 64 mod 64 < 64 /\ 0 <= c mod 64 < 64 /\
            c = 4096 * (c / 4096) + 64 * (c / 64 mod 64) + c mod 64)
      by (Z.to_euclidean_division_equations; lia).
    cbn [app utf8_decode1 length]. rewrite ltb_f by lia.
    rewrite (leb_t 194) by lia. rewrite (leb_f _ 223) by lia. rewrite leb_t, leb_t by lia. cbn [andb].
    rewrite (is_cont_range (128 + c mod 64)) by lia.
    set (b := 128 + c / 64 mod 64).
    assert (Hb : (if 224 + c / 4096 =? 224 then (160 <=? b) && (b <=? 191)
             else if 224 + c / 4096 =? 237 then (128 <=? b) && (b <=? 159)
             else is_cont b)%bool = true).
    { subst b. destruct (224 + c / 4096 =? 224) eqn:F1; bools; [rewrite !leb_t by lia; reflexivity|].
      destruct (224 + c / 4096 =? 237) eqn:F2; bools; [rewrite !leb_t by lia; reflexivity|].
      apply is_cont_range; lia. }
    rewrite Hb. cbn [andb]. subst b. f_equal; f_equal; lia. }
  assert (Hx : 0 <= c / 262144 <= 4 /\ 0 <= c / 4096 mod 64 < 64 /\ 0 <= c / 64 mod 64 < 64 /\ 0 <= c mod 64 < 64 /\
          c = 262144 * (c / 262144) + 4096 * (c / 4096 mod 64) + 64 * (c / 64 mod 64) + c mod 64)
    by (Z.to_euclidean_division_equations; lia).
  cbn [app utf8_decode1 length]. rewrite ltb_f by lia.
  rewrite (leb_t 194) by lia. rewrite (leb_f _ 223) by lia. rewrite (leb_t 224) by lia. rewrite (leb_f _ 239) by lia.
  cbn [andb]. rewrite (leb_t 240) by lia. rewrite (leb_t _ 244) by lia. cbn [andb].
  rewrite (is_cont_range (128 + c mod 64)) by lia. rewrite (is_cont_range (128 + c / 64 mod 64)) by lia.
  set (b := 128 + c / 4096 mod 64).
  assert (Hb : (if 240 + c / 262144 =? 240 then (144 <=? b) && (b <=? 191)
             else if 240 + c / 262144 =? 244 then (128 <=? b) && (b <=? 143)
             else is_cont b)%bool = true).
  { subst b. destruct (240 + c / 262144 =? 240) eqn:F1; bools; [rewrite !leb_t by lia; reflexivity|].
    destruct (240 + c / 262144 =? 244) eqn:F2; bools; [rewrite !leb_t by lia; reflexivity|].
    apply is_cont_range; lia. }
  rewrite Hb. cbn [andb]. subst b. f_equal; f_equal; lia.
Qed.

Lemma utf8_encode1_length c : (1 <= length (utf8_encode1 c) <= 4)%nat.
Proof. unfold utf8_encode1. destruct (c <? 128), (c <? 2048), (c <? 65536); cbn; lia. Qed.

Lemma string_as_bytes_length s : (length s <= length (string_as_bytes s))%nat.
Proof.
  unfold string_as_bytes. induction s as [|c t IH]; cbn [flat_map length]; [lia|].
  rewrite app_length. pose proof (utf8_encode1_length c). lia.
Qed.

Lemma utf8_decode_fuel_encode s : Forall scalar s -> forall fuel, (length s <= fuel)%nat ->
  utf8_decode_fuel fuel (string_as_bytes s) = Some s.
Proof.
  induction 1 as [|c t Hc Ht IH]; intros fuel Hf; [destruct fuel; reflexivity|].
  destruct fuel as [|fuel]; [cbn in Hf; lia|].
  change (string_as_bytes (c :: t)) with (utf8_encode1 c ++ string_as_bytes t).
  assert (Hne : utf8_encode1 c ++ string_as_bytes t <> []).
  { apply len_pos_nonnil. rewrite app_length. pose proof (utf8_encode1_length c). lia. }
  pose proof (utf8_decode1_encode1 c (string_as_bytes t) Hc) as Hd.
  remember (utf8_encode1 c ++ string_as_bytes t) as l eqn:El.
  destruct l as [|x l']; [congruence|].
  cbn [utf8_decode_fuel]. rewrite Hd. rewrite El.
  rewrite skipn_app, skipn_all, Nat.sub_diag, skipn_O, app_nil_l.
  rewrite IH by (cbn in Hf; lia). reflexivity.
Qed.

Lemma utf8_roundtrip s : Forall scalar s -> string_from_utf8 (string_as_bytes s) = Some s.
Proof. intros H. apply utf8_decode_fuel_encode; [assumption|apply string_as_bytes_length]. Qed.

Lemma utf8_decode1_sound l c n : bytes l -> utf8_decode1 l = Some (c, n) ->
  scalar c /\ utf8_encode1 c = firstn n l /\ n = length (utf8_encode1 c) /\ (n <= length l)%nat.
Proof.
  intros Hl H. unfold utf8_decode1 in H. destruct l as [|a t]; [discriminate|].
  inversion Hl as [|? ? Ha Ht]; subst. unfold byte in Ha.
  destruct (a <? 128) eqn:E0; bools.
  { injection H as <- <-. unfold utf8_encode1. rewrite ltb_t by lia. unfold scalar. cbn. repeat split; try lia. }
  destruct ((194 <=? a) && (a <=? 223))%bool eqn:E1; bools.
  { destruct t as [|b t]; [discriminate|]. unfold is_cont in H.
    destruct ((128 <=? b) && (b <? 192))%bool eqn:Eb; [|discriminate]. injection H as <- <-. bools.
    unfold utf8_encode1. rewrite ltb_f, ltb_t by lia. unfold scalar. cbn [firstn length].
    split; [lia|]. split; [|split; [reflexivity|lia]].
    f_equal; [|f_equal]; Z.to_euclidean_division_equations; lia. }
  destruct ((224 <=? a) && (a <=? 239))%bool eqn:E2; bools.
  { destruct t as [|b [|d t]]; [discriminate|discriminate|]. unfold is_cont in H.
    match type of H with (if (?x && _)%bool then _ else _) = _ => destruct x eqn:Eb end; [|discriminate].
    destruct ((128 <=? d) && (d <? 192))%bool eqn:Ed; [|discriminate]. cbn [andb] in H. injection H as <- <-.
    assert (Hb : 128 <= b < 192 /\ (a = 224 -> 160 <= b) /\ (a = 237 -> b <= 159)).
    { destruct (a =? 224) eqn:F1; bools; [lia|]. destruct (a =? 237) eqn:F2; bools; lia. }
    clear Eb. bools.
    assert (Hc : 2048 <= (a - 224) * 4096 + (b - 128) * 64 + (d - 128) < 65536) by lia.
    unfold utf8_encode1. rewrite ltb_f, ltb_f, ltb_t by lia. cbn [firstn length].
    split; [unfold scalar; lia|]. split; [|split; [reflexivity|lia]].
    f_equal; [|f_equal; [|f_equal]]; Z.to_euclidean_division_equations; lia. }
  destruct ((240 <=? a) && (a <=? 244))%bool eqn:E3; bools; [|discriminate].
  destruct t as [|b [|d [|e t]]]; [discriminate|discriminate|discriminate|]. unfold is_cont in H.
  match type of H with (if (?x && _ && _)%bool then _ else _) = _ => destruct x eqn:Eb end; [|discriminate].
  destruct ((128 <=? d) && (d <? 192))%bool eqn:Ed; [|discriminate].
  destruct ((128 <=? e) && (e <? 192))%bool eqn:Ee; [|discriminate]. cbn [andb] in H. injection H as <- <-.
  assert (Hb : 128 <= b < 192 /\ (a = 240 -> 144 <= b) /\ (a = 244 -> b <= 143)).
  { destruct (a =? 240) eqn:F1; bools; [lia|]. destruct (a =? 244) eqn:F2; bools; lia. }
  clear Eb. bools.
  assert (Hc : 65536 <= (a - 240) * 262144 + (b - 128) * 4096 + (d - 128) * 64 + (e - 128) < 1114112) by lia.
  unfold utf8_encode1. rewrite ltb_f, ltb_f, ltb_f by lia. cbn [firstn length].
  split; [unfold scalar; lia|]. split; [|split; [reflexivity|lia]].
  f_equal; [|f_equal; [|f_equal; [|f_equal]]]; Z.to_euclidean_division_equations; lia.
Qed.

Lemma bytes_skipn n l : bytes l -> bytes (skipn n l).
Proof. intros H. unfold bytes in *. rewrite <- (firstn_skipn n l) in H. apply Forall_app in H. apply H. Qed.
Lemma bytes_firstn n l : bytes l -> bytes (firstn n l).
Proof. intros H. unfold bytes in *. rewrite <- (firstn_skipn n l) in H. apply Forall_app in H. apply H. Qed.

Lemma utf8_decode_fuel_sound fuel : forall l s, bytes l -> utf8_decode_fuel fuel l = Some s ->
  Forall scalar s /\ string_as_bytes s = l.
Proof.
  induction fuel as [|fuel IH]; intros l s Hl H.
  - destruct l; [|discriminate]. injection H as <-. split; [constructor|reflexivity].
  - destruct l as [|a t]; [injection H as <-; split; [constructor|reflexivity]|].
    cbn [utf8_decode_fuel] in H. destruct (utf8_decode1 (a :: t)) as [[c n]|] eqn:E; [|discriminate].
    destruct (utf8_decode1_sound _ _ _ Hl E) as (Hc & He & Hn & Hle).
    destruct (utf8_decode_fuel fuel (skipn n (a :: t))) as [s'|] eqn:E2; [|discriminate]. injection H as <-.
    destruct (IH _ _ (bytes_skipn n _ Hl) E2) as (Hs & Hb).
    split; [constructor; assumption|].
    change (string_as_bytes (c :: s')) with (utf8_encode1 c ++ string_as_bytes s').
    rewrite He, Hb. apply firstn_skipn.
Qed.

Lemma string_from_utf8_sound l s : bytes l -> string_from_utf8 l = Some s ->
  Forall scalar s /\ string_as_bytes s = l.
Proof. apply utf8_decode_fuel_sound. Qed.

Lemma utf8_encode1_bytes c : scalar c -> bytes (utf8_encode1 c).
Proof.
  unfold scalar, bytes, utf8_encode1, byte. intros H.
  destruct (c <? 128) eqn:E1; bools; [repeat constructor; lia|].
  destruct (c <? 2048) eqn:E2; bools; [repeat constructor; Z.to_euclidean_division_equations; lia|].
  destruct (c <? 65536) eqn:E3; bools; repeat constructor; Z.to_euclidean_division_equations; lia.
Qed.
Lemma string_as_bytes_bytes s : Forall scalar s -> bytes (string_as_bytes s).
Proof.
  induction 1 as [|c t Hc Ht IH]; [constructor|].
  change (string_as_bytes (c :: t)) with (utf8_encode1 c ++ string_as_bytes t).
  apply Forall_app. split; [now apply utf8_encode1_bytes|exact IH].
Qed.
