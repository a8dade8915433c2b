(** Property C89: damaged blocks are repaired by the error-correcting code.  This file: the byte level, and a small single-error-correcting code
    with the sizes of the real ones that meets the hypothesis. *)
From Verif Require Import Outcome Bits ListFacts Codecs CodecProofs WatermarkProofs Encoding EncodingProofs Toy PropsEncoding PropsStego.
Open Scope nat_scope.

(** ** Specification vocabulary *)
(** Two byte strings of the same length that agree in every bit, except possibly at the listed positions. *)
Definition agree_except (bad : list nat) (a b : list Z) : Prop :=
  length a = length b /\ forall k, k < 8 * length a -> ~ In k bad -> payload_bit a k = payload_bit b k.
(** The coder repairs any [e] wrong bits in a codeword. *)
Definition corrects (L : ldpc) (e : nat) : Prop :=
  forall c m r bad, bytes m -> length m = k_bytes c -> bytes r -> length bad <= e -> agree_except bad (ldpc_copy_encode L c m) r ->
    firstn (k_bytes c) (ldpc_decode_bf L c r) = m.
(** Of the listed positions, at most [e] fall into any one group of [size] consecutive positions. *)
Definition at_most_per_group (e size : nat) (bad : list nat) : Prop := forall w, length (filter (fun k => k / size =? w) bad) <= e.

(** ** Helpers *)
Lemma payload_bit_app a b k : payload_bit (a ++ b) k = if k <? 8 * length a then payload_bit a k else payload_bit b (k - 8 * length a).
Proof.
  rewrite <- !nth_bits, bits_of_bytes_app. rewrite <- bits_of_bytes_length. destruct (Nat.ltb_spec k (length (bits_of_bytes a))).
  - now rewrite app_nth1.
  - now rewrite app_nth2.
Qed.
Lemma bytes_ext a b : bytes a -> bytes b -> length a = length b -> (forall k, k < 8 * length a -> payload_bit a k = payload_bit b k) -> a = b.
Proof.
  intros Ha Hb Hl H. rewrite <- (raw_bytes_bits_of_bytes zero_pad a Ha), <- (raw_bytes_bits_of_bytes zero_pad b Hb). f_equal.
  apply nth_ext with (d := false) (d' := false); rewrite !bits_of_bytes_length; [lia|]. intros k Hk. rewrite !nth_bits. auto.
Qed.

Lemma corrects_decodes L e : ldpc_shape L -> corrects L e -> ldpc_decodes L.
Proof.
  intros (Hs & _) Hc c m Hm Hl. destruct (Hs c m Hm Hl) as (_ & B). apply (Hc c m _ [] Hm Hl B); [apply Nat.le_0_l|]. split; auto.
Qed.

Lemma received_words L c e : ldpc_shape L -> corrects L e -> forall ws, Forall (fun w => bytes w /\ length w = k_bytes c) ws ->
  forall off bad received, bytes received -> length received = length (concat (map (ldpc_copy_encode L c) ws)) ->
  (forall k, k < 8 * length received -> ~ In (off * (8 * n_bytes c) + k) bad -> payload_bit (concat (map (ldpc_copy_encode L c) ws)) k = payload_bit received k) ->
  at_most_per_group e (8 * n_bytes c) bad ->
  Forall2 (fun s r => length r = n_bytes c /\ (k_bytes c <= length (ldpc_decode_bf L c r))
      /\ firstn (k_bytes c) (ldpc_decode_bf L c r) = firstn (k_bytes c) (ldpc_decode_bf L c s))
    (map (ldpc_copy_encode L c) ws) (chunks (n_bytes c) received).
Proof.
  intros Hs Hc ws Hw. pose proof (corrects_decodes L e Hs Hc) as Hd. destruct Hs as (Hs1 & Hs2). pose proof (n_pos c) as Hn.
  induction Hw as [|w t (H1 & H2) _ IH]; intros off bad received Br Lr Hag Hsp.
  - cbn in *. destruct received; [constructor|discriminate].
  - cbn [map concat] in *. destruct (Hs1 c w H1 H2) as (Lw & Bw). rewrite app_length, Lw in Lr.
    assert (Hne : received <> []) by (apply len_pos_nonnil; lia). rewrite (chunks_step _ received Hn Hne).
    assert (Lf : length (firstn (n_bytes c) received) = n_bytes c) by (rewrite firstn_length; lia).
    assert (Bf : bytes (firstn (n_bytes c) received) /\ bytes (skipn (n_bytes c) received)) by (apply Forall_app; rewrite firstn_skipn; exact Br).
    destruct Bf as (Bf & Bk). assert (Lk : length (skipn (n_bytes c) received) = length (concat (map (ldpc_copy_encode L c) t))) by (rewrite skipn_length; lia).
    assert (Bits : forall k, k < 8 * length received -> payload_bit received k = if k <? 8 * n_bytes c then payload_bit (firstn (n_bytes c) received) k else payload_bit (skipn (n_bytes c) received) (k - 8 * n_bytes c)).
    { intros k _. rewrite <- (firstn_skipn (n_bytes c) received) at 1. rewrite payload_bit_app, Lf. reflexivity. }
    constructor.
    + split; [exact Lf|]. split; [now apply Hs2|]. rewrite (Hd c w H1 H2).
      apply (Hc c w _ (map (fun k => k - off * (8 * n_bytes c)) (filter (fun k => k / (8 * n_bytes c) =? off) bad)) H1 H2 Bf); [rewrite map_length; apply Hsp|].
      split; [now rewrite Lf|]. rewrite Lw. intros k Hk Hin. specialize (Hag k ltac:(lia)). rewrite payload_bit_app, Bits, Lw in Hag by lia.
      rewrite (proj2 (Nat.ltb_lt _ _) Hk) in Hag. apply Hag. intros Hb. apply Hin. apply in_map_iff. exists (off * (8 * n_bytes c) + k). split; [lia|].
      apply filter_In. split; [exact Hb|]. apply Nat.eqb_eq. rewrite Nat.add_comm, Nat.div_add, Nat.div_small by lia. reflexivity.
    + apply (IH (S off) bad); try assumption. intros k Hk Hin. specialize (Hag (8 * n_bytes c + k) ltac:(lia)). rewrite payload_bit_app, Bits, Lw in Hag by lia.
      destruct (Nat.ltb_spec (8 * n_bytes c + k) (8 * n_bytes c)); [lia|]. replace (8 * n_bytes c + k - 8 * n_bytes c) with k in Hag by lia. apply Hag.
      intros Hb. apply Hin. replace (S off * (8 * n_bytes c) + k) with (off * (8 * n_bytes c) + (8 * n_bytes c + k)) by lia. exact Hb.
Qed.

(** *** C89 *)
Theorem C89_wrong_bits_are_repaired : forall L e, ldpc_shape L -> corrects L e ->
  forall cap input sent received tail bad, coded cap -> bytes input -> bytes received -> bytes tail ->
  (Z.of_nat (length input) <= 65535)%Z -> length tail mod codeword_size cap = 0 ->
  encode L input cap = Ok sent -> agree_except bad sent received -> at_most_per_group e (8 * codeword_size cap) bad ->
  decode L (received ++ tail) cap = Ok input.
Proof.
  intros L e Hs Hc cap input sent received tail bad Hcod Hi Hrb Ht Hl Hm He (Ha & Hag) Hsp.
  apply (C18_correctable_errors L Hs (corrects_decodes L e Hs Hc) cap input sent received tail Hcod Hi Ht Hl Hm He).
  destruct (code_cases cap) as [(_ & c & E & En & Ek)|(N & _)]; [|contradiction]. exists c. split; [exact E|]. rewrite <- En, <- Ek in *.
  rewrite (encode_ok L input cap c Hi E) in He. assert (Es : sent = concat (map (ldpc_copy_encode L c) (words_of c input))) by congruence. clear He. subst sent.
  pose proof (words_of_props c input Hi) as Hw. pose proof Hs as (Hs1 & _).
  rewrite (chunks_concat (n_bytes c) (map (ldpc_copy_encode L c) (words_of c input))).
  - apply (received_words L c e Hs Hc _ Hw 0 bad received Hrb (eq_sym Ha)); [|exact Hsp]. intros k Hk Hin. apply Hag; [lia|exact Hin].
  - apply n_pos.
  - apply Forall_map. eapply Forall_impl; [|exact Hw]. intros w (H1 & H2). apply (Hs1 c w H1 H2).
Qed.

(** ** A coder that repairs one wrong bit per codeword: the message, and twice the exclusive or of the numbers of its one bits. *)
Fixpoint place_sum (i : Z) (bits : list bool) : Z :=
  match bits with [] => 0%Z | b :: t => Z.lxor (if b then i else 0%Z) (place_sum (i + 1) t) end.
Definition check_bytes (m : list Z) : list Z := let x := place_sum 1 (bits_of_bytes m) in [(x / 256)%Z; (x mod 256)%Z].
Definition repair_decode (c : code) (r : list Z) : list Z :=
  let m := firstn (k_bytes c) r in let a := firstn 2 (skipn (k_bytes c) r) in let b := firstn 2 (skipn (k_bytes c + 2) r) in
  if list_eq_dec Z.eq_dec a b
  then let d := Z.lxor (place_sum 1 (bits_of_bytes m)) (256 * nth 0 a 0 + nth 1 a 0)%Z in
       raw_bytes zero_pad (map (fun j => xorb (nth j (bits_of_bytes m) false) (Z.of_nat j + 1 =? d)%Z) (seq 0 (8 * k_bytes c)))
  else m.
Definition repairing_ldpc : ldpc := {|
  ldpc_copy_encode := fun _ m => m ++ (check_bytes m ++ (check_bytes m ++ repeat 0%Z (length m - 4)));
  ldpc_decode_bf := repair_decode
|}.

Lemma lxor_small a b : (0 <= a < 65536 -> 0 <= b < 65536 -> 0 <= Z.lxor a b < 65536)%Z.
Proof.
  intros Ha Hb. split; [apply Z.lxor_nonneg; lia|]. destruct (Z.eq_dec (Z.lxor a b) 0) as [->|N]; [lia|].
  assert (0 <= Z.lxor a b)%Z by (apply Z.lxor_nonneg; lia).
  change 65536%Z with (2 ^ 16)%Z. apply Z.log2_lt_pow2; [lia|]. eapply Z.le_lt_trans; [apply Z.log2_lxor; lia|].
  assert (L : forall x, (0 <= x < 65536 -> Z.log2 x < 16)%Z). { intros x Hx. destruct (Z.eq_dec x 0) as [->|]; [reflexivity|]. apply Z.log2_lt_pow2; lia. }
  apply Z.max_lub_lt; apply L; assumption.
Qed.
Lemma place_sum_range bits : forall i, (0 <= i)%Z -> (i + Z.of_nat (length bits) <= 65536)%Z -> (0 <= place_sum i bits < 65536)%Z.
Proof.
  induction bits as [|b t IH]; intros i Hi Hl; cbn [place_sum length] in *; [lia|]. apply lxor_small; [destruct b; lia|]. apply IH; lia.
Qed.
Lemma place_sum_diff : forall a b i j, length a = length b -> j < length a -> nth j a false <> nth j b false ->
  (forall k, k <> j -> nth k a false = nth k b false) -> place_sum i b = Z.lxor (place_sum i a) (i + Z.of_nat j).
Proof.
  induction a as [|x a IH]; intros [|y b] i j Hl Hj Hd Hs; cbn [length] in *; try lia. cbn [place_sum]. destruct j as [|j].
  - cbn in Hd. assert (a = b). { apply nth_ext with (d := false) (d' := false); [lia|]. intros k _. apply (Hs (S k)). lia. }
    subst b. rewrite Z.add_0_r. destruct x, y; try congruence.
    + rewrite Z.lxor_0_l, (Z.lxor_comm i), Z.lxor_assoc, Z.lxor_nilpotent, Z.lxor_0_r. reflexivity.
    + rewrite Z.lxor_0_l, Z.lxor_comm. reflexivity.
  - assert (x = y) by (apply (Hs 0); lia). subst y. rewrite (IH b (i + 1)%Z j); [|lia|lia|exact Hd|intros k Hk; apply (Hs (S k)); lia].
    rewrite Z.lxor_assoc. do 2 f_equal. lia.
Qed.
Lemma check_value m : length m <= 512 -> (256 * nth 0 (check_bytes m) 0 + nth 1 (check_bytes m) 0 = place_sum 1 (bits_of_bytes m))%Z.
Proof. intros _. cbn [check_bytes nth]. pose proof (Z.div_mod (place_sum 1 (bits_of_bytes m)) 256). lia. Qed.
Lemma check_ok m : length m <= 512 -> bytes (check_bytes m).
Proof.
  intros H. assert (R : (0 <= place_sum 1 (bits_of_bytes m) < 65536)%Z) by (apply place_sum_range; [lia|rewrite bits_of_bytes_length; lia]).
  unfold check_bytes. repeat constructor; unfold byte.
  - Z.to_euclidean_division_equations. lia.
  - Z.to_euclidean_division_equations. lia.
  - apply Z.mod_pos_bound. lia.
  - apply Z.mod_pos_bound. lia.
Qed.
Lemma k_le c : 8 <= k_bytes c <= 512. Proof. destruct c; cbn; lia. Qed.
Lemma n_is_2k c : n_bytes c = 2 * k_bytes c. Proof. destruct c; reflexivity. Qed.

Lemma repairing_shape : ldpc_shape repairing_ldpc.
Proof.
  split.
  - intros c m Hm Hl. cbn [repairing_ldpc ldpc_copy_encode]. pose proof (k_le c). split.
    + rewrite !app_length, repeat_length, n_is_2k. unfold check_bytes. cbn [length]. lia.
    + apply Forall_app. split; [exact Hm|]. apply Forall_app. split; [apply check_ok; lia|]. apply Forall_app. split; [apply check_ok; lia|apply bytes_repeat0].
  - intros c r _ Hl. cbn [repairing_ldpc ldpc_decode_bf]. unfold repair_decode. pose proof (k_le c). rewrite n_is_2k in Hl. destruct (list_eq_dec _ _ _).
    + cbv zeta. rewrite raw_bytes_length, map_length, seq_length. apply Nat.div_le_lower_bound; lia.
    + rewrite firstn_length. lia.
Qed.

(** What the decoder returns when the two copies agree on the check value of [m]: [m], if the message part has at most one wrong bit. *)
Lemma repair_flips m m' : bytes m -> bytes m' -> length m = length m' -> length m <= 512 ->
  (m' = m \/ exists j, j < 8 * length m /\ payload_bit m j <> payload_bit m' j /\ forall k, k < 8 * length m -> k <> j -> payload_bit m k = payload_bit m' k) ->
  raw_bytes zero_pad (map (fun j => xorb (nth j (bits_of_bytes m') false) (Z.of_nat j + 1 =? Z.lxor (place_sum 1 (bits_of_bytes m')) (place_sum 1 (bits_of_bytes m)))%Z) (seq 0 (8 * length m))) = m.
Proof.
  intros Bm Bm' Hl Hk H. transitivity (raw_bytes zero_pad (bits_of_bytes m)); [f_equal|now apply raw_bytes_bits_of_bytes].
  apply nth_ext with (d := xorb (nth 0 (bits_of_bytes m') false) (Z.of_nat 0 + 1 =? Z.lxor (place_sum 1 (bits_of_bytes m')) (place_sum 1 (bits_of_bytes m)))%Z) (d' := false).
  { rewrite map_length, seq_length, bits_of_bytes_length. reflexivity. }
  rewrite map_length, seq_length. intros k Hkk. rewrite (map_nth (fun j => xorb (nth j (bits_of_bytes m') false) (Z.of_nat j + 1 =? Z.lxor (place_sum 1 (bits_of_bytes m')) (place_sum 1 (bits_of_bytes m)))%Z)).
  rewrite seq_nth by exact Hkk. cbn [Nat.add]. destruct H as [-> |(j & Hj & Hd & Hs)].
  - rewrite Z.lxor_nilpotent. destruct (Z.eqb_spec (Z.of_nat k + 1) 0); [lia|]. apply xorb_false_r.
  - assert (P : place_sum 1 (bits_of_bytes m') = Z.lxor (place_sum 1 (bits_of_bytes m)) (1 + Z.of_nat j)).
    { apply place_sum_diff; rewrite ?bits_of_bytes_length; [lia|exact Hj|rewrite !nth_bits; exact Hd|]. intros k' Hk'. rewrite !nth_bits.
      destruct (le_lt_dec (8 * length m) k') as [G|G]; [|now apply Hs]. unfold payload_bit. rewrite !nth_overflow; [reflexivity| |]; apply Nat.div_le_lower_bound; lia. }
    rewrite P, (Z.lxor_comm _ (1 + Z.of_nat j)), Z.lxor_assoc, Z.lxor_nilpotent, Z.lxor_0_r. rewrite !nth_bits.
    destruct (Nat.eq_dec k j) as [->|Nk].
    + destruct (Z.eqb_spec (Z.of_nat j + 1) (1 + Z.of_nat j)); [|lia]. destruct (payload_bit m j), (payload_bit m' j); try reflexivity; congruence.
    + destruct (Z.eqb_spec (Z.of_nat k + 1) (1 + Z.of_nat j)); [lia|]. rewrite xorb_false_r. symmetry. now apply Hs.
Qed.

Lemma piece bad (s r : list Z) lo len : agree_except bad s r -> bytes s -> bytes r -> lo + len <= length s ->
  (forall k, 8 * lo <= k < 8 * (lo + len) -> ~ In k bad) -> firstn len (skipn lo r) = firstn len (skipn lo s).
Proof.
  intros (Hl & Ha) Bs Br Hr Hin. symmetry. assert (Bp : forall l : list Z, bytes l -> bytes (firstn len (skipn lo l))).
  { intros l Bl. rewrite <- (firstn_skipn lo l) in Bl. apply Forall_app in Bl as (_ & Bl). rewrite <- (firstn_skipn len (skipn lo l)) in Bl. apply Forall_app in Bl. tauto. }
  apply bytes_ext; auto; rewrite !firstn_length, !skipn_length; [lia|]. rewrite Nat.min_l by lia. intros k Hk.
  assert (X : forall l : list Z, length l = length s -> payload_bit l (8 * lo + k) = payload_bit (firstn len (skipn lo l)) k).
  { intros l E. rewrite <- (firstn_skipn lo l) at 1. rewrite payload_bit_app, firstn_length, Nat.min_l by lia.
    destruct (Nat.ltb_spec (8 * lo + k) (8 * lo)); [lia|]. replace (8 * lo + k - 8 * lo) with k by lia.
    rewrite <- (firstn_skipn len (skipn lo l)) at 1. rewrite payload_bit_app, firstn_length, skipn_length, Nat.min_l by lia.
    now rewrite (proj2 (Nat.ltb_lt _ _) Hk). }
  rewrite <- !X by auto. apply Ha; [lia|]. apply Hin. lia.
Qed.

Theorem repairing_corrects : corrects repairing_ldpc 1.
Proof.
  intros c m r bad Bm Lm Br Hb Hag. cbn [repairing_ldpc ldpc_copy_encode ldpc_decode_bf] in *. pose proof (k_le c) as Hk.
  set (s := m ++ (check_bytes m ++ (check_bytes m ++ repeat 0%Z (length m - 4)))) in *.
  assert (Ls : length s = 2 * k_bytes c) by (unfold s; rewrite !app_length, repeat_length; unfold check_bytes; cbn [length]; lia).
  assert (Bs : bytes s) by (apply Forall_app; split; [exact Bm|]; apply Forall_app; split; [apply check_ok; lia|]; apply Forall_app; split; [apply check_ok; lia|apply bytes_repeat0]).
  assert (S0 : firstn (k_bytes c) (skipn 0 s) = m) by (cbn [skipn]; unfold s; rewrite <- Lm, firstn_app, Nat.sub_diag, firstn_O, app_nil_r; apply firstn_all).
  assert (S1 : firstn 2 (skipn (k_bytes c) s) = check_bytes m) by (unfold s; rewrite <- Lm, skipn_app, skipn_all, Nat.sub_diag; reflexivity).
  assert (S2 : firstn 2 (skipn (k_bytes c + 2) s) = check_bytes m).
  { unfold s. rewrite skipn_app, skipn_all2 by lia. replace (k_bytes c + 2 - length m) with 2 by lia. reflexivity. }
  assert (Lr : length r = 2 * k_bytes c) by (rewrite <- Ls; symmetry; apply Hag).
  assert (Lm' : length (firstn (k_bytes c) r) = length m) by (rewrite firstn_length; lia).
  assert (Bm' : bytes (firstn (k_bytes c) r)) by (rewrite <- (firstn_skipn (k_bytes c) r) in Br; apply Forall_app in Br; tauto).
  assert (Main : (firstn (k_bytes c) r = m /\ (firstn 2 (skipn (k_bytes c) r) = check_bytes m \/ firstn 2 (skipn (k_bytes c + 2) r) = check_bytes m))
    \/ (firstn 2 (skipn (k_bytes c) r) = check_bytes m /\ firstn 2 (skipn (k_bytes c + 2) r) = check_bytes m
        /\ exists j, j < 8 * length m /\ forall k, k < 8 * length m -> k <> j -> payload_bit m k = payload_bit (firstn (k_bytes c) r) k)).
  { assert (Hj : exists j, forall k, In k bad -> k = j).
    { destruct bad as [|j [|j' t]]; [exists 0; intros k []|exists j; intros k [ <- |[]]; reflexivity|cbn in Hb; lia]. }
    destruct Hj as (j & Hj). destruct (le_lt_dec (8 * k_bytes c) j) as [G|G].
    - left. split.
      + rewrite <- S0. change (firstn (k_bytes c) r) with (firstn (k_bytes c) (skipn 0 r)). apply (piece bad); try assumption; [lia|]. intros k Hkk Hin. apply Hj in Hin. lia.
      + destruct (le_lt_dec (8 * (k_bytes c + 2)) j) as [G2|G2]; [left; rewrite <- S1|right; rewrite <- S2]; apply (piece bad); try assumption; try lia; intros k Hkk Hin; apply Hj in Hin; lia.
    - right. split; [rewrite <- S1; apply (piece bad); try assumption; [lia|intros k Hkk Hin; apply Hj in Hin; lia]|].
      split; [rewrite <- S2; apply (piece bad); try assumption; [lia|intros k Hkk Hin; apply Hj in Hin; lia]|]. exists j. split; [lia|].
      intros k Hk1 Hk2. destruct Hag as (_ & Hag). specialize (Hag k ltac:(lia) ltac:(intros Hin; apply Hj in Hin; lia)).
      rewrite <- (firstn_skipn (k_bytes c) r), payload_bit_app, Lm', (proj2 (Nat.ltb_lt _ _) Hk1) in Hag.
      unfold s in Hag. rewrite payload_bit_app, (proj2 (Nat.ltb_lt _ _) Hk1) in Hag. exact Hag. }
  assert (Fin : forall m' : list Z, m' = m -> firstn (k_bytes c) m' = m) by (intros m' ->; rewrite <- Lm; apply firstn_all).
  apply Fin. unfold repair_decode. cbv zeta. destruct (list_eq_dec Z.eq_dec (firstn 2 (skipn (k_bytes c) r)) (firstn 2 (skipn (k_bytes c + 2) r))) as [Eab|Nab].
  - assert (Ea : firstn 2 (skipn (k_bytes c) r) = check_bytes m) by (destruct Main as [(_ & [|])|(? & _)]; congruence). rewrite Ea, check_value, <- Lm by lia.
    rewrite Lm. set (m' := firstn (k_bytes c) r) in *. rewrite <- Lm. apply repair_flips; try assumption; [auto|lia|].
    destruct Main as [(-> & _)|(_ & _ & j & Hj & Hs)]; [now left|]. destruct (Bool.bool_dec (payload_bit m j) (payload_bit m' j)) as [Eb|Nb].
    + left. symmetry. apply bytes_ext; auto. intros k Hk1. destruct (Nat.eq_dec k j) as [->|]; [exact Eb|now apply Hs].
    + right. exists j. auto.
  - destruct Main as [(H & _)|(H1 & H2 & _)]; [exact H|]. congruence.
Qed.

(** The concrete case: two codewords, one wrong bit in each, a tail of a whole codeword. *)
Example C89_instance : exists sent received,
  encode repairing_ldpc [1;2;3;4;5;6;7;8;9]%Z 16 = Ok sent /\ received <> sent /\ agree_except [9; 128] sent received
  /\ at_most_per_group 1 (8 * codeword_size 16) [9; 128]
  /\ decode repairing_ldpc (received ++ repeat 255%Z 16) 16 = Ok [1;2;3;4;5;6;7;8;9]%Z.
Proof.
  exists [0;9;1;2;3;4;5;6;0;37;0;37;0;0;0;0;7;8;9;0;0;0;0;0;0;9;0;9;0;0;0;0]%Z, [0;11;1;2;3;4;5;6;0;37;0;37;0;0;0;0;6;8;9;0;0;0;0;0;0;9;0;9;0;0;0;0]%Z.
  split; [vm_compute; reflexivity|]. split; [discriminate|]. split; [|split; [|vm_compute; reflexivity]].
  - split; [reflexivity|]. cbn [length]. intros k Hk Hin.
    assert (A : forallb (fun k => Nat.eqb k 9 || Nat.eqb k 128 || Bool.eqb (payload_bit [0;9;1;2;3;4;5;6;0;37;0;37;0;0;0;0;7;8;9;0;0;0;0;0;0;9;0;9;0;0;0;0]%Z k)
      (payload_bit [0;11;1;2;3;4;5;6;0;37;0;37;0;0;0;0;6;8;9;0;0;0;0;0;0;9;0;9;0;0;0;0]%Z k)) (seq 0 256) = true) by (vm_compute; reflexivity).
    rewrite forallb_forall in A. specialize (A k ltac:(apply in_seq; lia)). cbn [In] in Hin. apply Bool.orb_prop in A as [A|A]; [apply Bool.orb_prop in A as [A|A]; apply Nat.eqb_eq in A; exfalso; apply Hin; subst k; auto|].
    exact (Bool.eqb_prop _ _ A).
  - intros w. change (8 * codeword_size 16) with 128. change (9 / 128) with 0. cbn [filter]. change (9 / 128) with 0. change (128 / 128) with 1. destruct w as [|[|w]]; cbn; lia.
Qed.

Print Assumptions C89_wrong_bits_are_repaired.
