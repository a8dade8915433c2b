(** C21, C22, C26, continued: what the reader returns behind the payload, and negative depths in binary64
    (lib/sia/rust/embedding/src/io/steganography.rs). *)
From Coq Require Import Reals Lra.
From Flocq Require Import Core BinarySingleNaN.
From Verif Require Import Outcome Floats FloatFacts Bits ListFacts IndexArith IndexArithProofs Matrix MatrixFacts Stego StegoProofs
  QuantFloat StegoMarks PropsStego.
Open Scope nat_scope.

(** *** Any arithmetic, any depth: the bytes behind the payload are those that were read there before writing. *)
Theorem C21_bytes_behind_the_payload_are_kept : forall (F : Type) (O : FOps F) depth n m payload m' before,
  square_domain m n -> write O m n n payload depth = Ok m' -> read O m n n depth = Ok before ->
  exists after, read O m' n n depth = Ok after /\ length after = length before
    /\ skipn (length payload) after = skipn (length payload) before.
Proof.
  intros F O depth n m payload m' before Hsd E Eb.
  destruct (write_square O depth n m payload m' Hsd E) as (Hsd' & _ & _ & Hl).
  destruct (sd_in m n Hsd) as (Hd & Hr). destruct (sd_in m' n Hsd') as (Hd' & _).
  destruct (write_ok O depth n m payload Hr Hd Hl) as (m'' & E' & _ & _ & _ & C). assert (m'' = m') by congruence. subst m''.
  rewrite read_ok in Eb by assumption. assert (Hb : before = map (byte_at O depth n m) (seq 0 (n * n / 8))) by congruence. subst before.
  eexists. split; [apply read_ok; assumption|]. rewrite !map_length, !seq_length. split; [reflexivity|].
  rewrite !skipn_map. replace (n * n / 8) with (length payload + (n * n / 8 - length payload)) by lia.
  rewrite seq_app, skipn_app, skipn_all2, seq_length, Nat.sub_diag by (rewrite seq_length; lia). cbn [app skipn].
  apply map_ext_in. intros k Hk. apply in_seq in Hk. unfold byte_at. f_equal. apply map_ext_in. intros o Ho. apply in_seq in Ho.
  pose proof (Nat.mul_div_le (n * n) 8 ltac:(lia)). assert (Hn : 0 < n) by nia.
  unfold cell_bit, cell_at. rewrite C, written_at by lia. rewrite bits_of_bytes_length, (proj2 (Nat.ltb_ge _ _)) by lia.
  unfold cell_at. reflexivity.
Qed.

Lemma prefix_and_rest (payload rest after before : list Z) : after = payload ++ rest ->
  skipn (length payload) after = skipn (length payload) before -> after = payload ++ skipn (length payload) before.
Proof. intros -> H. rewrite <- H, skipn_app, skipn_all, Nat.sub_diag. reflexivity. Qed.

(** Reading after writing, completely: the payload and then the bytes read there before. *)
Theorem C21_reading_after_writing : forall depth n m payload,
  (0 < depth)%R -> square_domain m n -> bytes payload -> length payload <= n * n / 8 ->
  exists m' before, read Rops m n n depth = Ok before /\ write Rops m n n payload depth = Ok m'
    /\ read Rops m' n n depth = Ok (payload ++ skipn (length payload) before).
Proof.
  intros depth n m payload Hd Hsd Hb Hl. destruct (C21_written_bytes_are_read_back depth n m payload Hd Hsd Hb Hl) as (m' & rest & E & R & _).
  destruct (C24_capacity_check_is_exact _ Rops depth n m payload Hsd) as (_ & _ & before & Eb & _).
  destruct (C21_bytes_behind_the_payload_are_kept _ Rops depth n m payload m' before Hsd E Eb) as (after & Ea & _ & Hs).
  exists m', before. split; [exact Eb|]. split; [exact E|]. rewrite Ea. f_equal. apply (prefix_and_rest payload rest); [congruence|exact Hs].
Qed.
Theorem C22_f64_reading_after_writing : forall (depth : b64) n m payload,
  fin depth -> (bpow radix2 (-500) <= toR depth <= bpow radix2 500)%R ->
  square_domain m n -> bytes payload -> length payload <= n * n / 8 ->
  ordinary_coefficients n depth m (8 * length payload) ->
  exists m' before, read Bops m n n depth = Ok before /\ write Bops m n n payload depth = Ok m'
    /\ read Bops m' n n depth = Ok (payload ++ skipn (length payload) before).
Proof.
  intros depth n m payload Fd Hd Hsd Hb Hl Ho. destruct (C22_f64_written_bytes_are_read_back depth n m payload Fd Hd Hsd Hb Hl Ho) as (m' & rest & E & R & _).
  destruct (C24_capacity_check_is_exact _ Bops depth n m payload Hsd) as (_ & _ & before & Eb & _).
  destruct (C21_bytes_behind_the_payload_are_kept _ Bops depth n m payload m' before Hsd E Eb) as (after & Ea & _ & Hs).
  exists m', before. split; [exact Eb|]. split; [exact E|]. rewrite Ea. f_equal. apply (prefix_and_rest payload rest); [congruence|exact Hs].
Qed.
Theorem C26_reading_after_writing_with_negative_depth : forall depth n m payload,
  (depth < 0)%R -> square_domain m n -> bytes payload -> length payload <= n * n / 8 ->
  exists m' before, read Rops m n n depth = Ok before /\ write Rops m n n payload depth = Ok m'
    /\ read Rops m' n n depth = Ok (map (fun b => 255 - b)%Z payload ++ skipn (length payload) before).
Proof.
  intros depth n m payload Hd Hsd Hb Hl. destruct (C26_negative_depth_inverts_every_bit depth n m payload Hd Hsd Hb Hl) as (m' & rest & E & R).
  destruct (C24_capacity_check_is_exact _ Rops depth n m payload Hsd) as (_ & _ & before & Eb & _).
  destruct (C21_bytes_behind_the_payload_are_kept _ Rops depth n m payload m' before Hsd E Eb) as (after & Ea & _ & Hs).
  exists m', before. split; [exact Eb|]. split; [exact E|]. rewrite Ea. f_equal.
  pose proof (map_length (fun b => 255 - b)%Z payload) as Lc. rewrite <- Lc in Hs |- *. apply (prefix_and_rest _ rest); [congruence|exact Hs].
Qed.

(** *** C26 in binary64 *)
Lemma nearest_opp x : Znearest (Z.leb 0) (- x) = (- Znearest (Z.leb 0) x)%Z.
Proof.
  rewrite Znearest_opp. f_equal. unfold Znearest. destruct (Rcompare _ _); try reflexivity.
  assert (E : negb (0 <=? - (Zfloor x + 1))%Z = (0 <=? Zfloor x)%Z).
  { destruct (Z.leb_spec 0 (- (Zfloor x + 1))), (Z.leb_spec 0 (Zfloor x)); cbn [negb]; try reflexivity; lia. }
  rewrite E. reflexivity.
Qed.
Lemma rnd_neg x : (rnd (- x) = - rnd x)%R.
Proof. unfold rnd. apply round_NE_opp. Qed.

Section Negative.
Context (d : b64) (Fd : fin d) (Hd : ordinary_step (- toR d)).
Let s : b64 := Bopp d.
Let Fs : fin s. Proof. unfold s. etransitivity; [apply is_finite_Bopp|exact Fd]. Qed.
Let Vs : toR s = (- toR d)%R. Proof. apply B2R_Bopp. Qed.
Let Hs : ordinary_step (toR s). Proof. rewrite Vs. exact Hd. Qed.
Let HS : (0 < toR s)%R := S_pos s Hs.

Lemma neg_ratio c : (c / toR d = - (c / toR s))%R.
Proof. rewrite Vs. assert (toR d <> 0)%R by (rewrite Vs in HS; lra). field. assumption. Qed.

Lemma quotients c : fin c -> (Rabs (toR c) <= bpow radix2 42 * toR s)%R ->
  exists q, (Rabs q <= bpow radix2 42)%R /\ fin (f_div Bops c s) /\ toR (f_div Bops c s) = q /\ fin (f_div Bops c d) /\ toR (f_div Bops c d) = (- q)%R.
Proof.
  intros Fc Hc. pose proof (quot_le s Hs _ 42 ltac:(lia) Hc) as Hq.
  destruct (b_div_ok c s Fc) as (F1 & V1); [lra|apply small_le with 42%Z; [lia|exact Hq]|].
  destruct (b_div_ok c d Fc) as (F2 & V2); [rewrite Vs in HS; lra|rewrite neg_ratio; apply small_le with 42%Z; [lia|rewrite Rabs_Ropp; exact Hq]|].
  exists (rnd (toR c / toR s)). split.
  - apply Rabs_le. apply Rabs_le_inv in Hq. assert (G : rnd (bpow radix2 42) = bpow radix2 42) by (apply rnd_generic, generic_format_bpow; unfold FLT_exp; cbv; discriminate).
    split; [rewrite <- G, <- rnd_neg|rewrite <- G]; apply rnd_le; lra.
  - split; [exact F1|]. split; [exact V1|]. split; [exact F2|]. rewrite V2, neg_ratio. apply rnd_neg.
Qed.
Lemma nearest_le q : (Rabs q <= bpow radix2 42 -> Rabs (IZR (Znearest (Z.leb 0) q)) <= bpow radix2 43)%R.
Proof.
  intros H. pose proof (Znearest_half (Z.leb 0) q) as Hh. apply Rabs_le_inv in H. apply Rabs_le_inv in Hh. apply Rabs_le. simpl bpow in *. lra.
Qed.

(** a mark made with the negative depth is the mark of the complement with its absolute value *)
Lemma mark_negative b c : fin c -> (Rabs (toR c) <= bpow radix2 42 * toR s)%R ->
  fin (mark Bops d b c) /\ toR (mark Bops d b c) = toR (mark Bops s (negb b) c).
Proof.
  intros Fc Hc. destruct (quotients c Fc Hc) as (q & Hq & F1 & V1 & F2 & V2).
  destruct (b_round_ok _ F1) as (G1 & W1). destruct (b_round_ok _ F2) as (G2 & W2). rewrite V1 in W1. rewrite V2, nearest_opp, opp_IZR in W2.
  pose proof (nearest_le q Hq) as Hr. set (r := IZR (Znearest (Z.leb 0) q)) in *.
  unfold mark. change (f_dyadic Bops) with b_dyadic. destruct (b_quarter b) as (Fb & Vb). destruct (b_quarter (negb b)) as (Fn & Vn).
  set (qb := if b then b_dyadic 1 (-2) else b_dyadic (-1) (-2)) in *. set (qn := if negb b then b_dyadic 1 (-2) else b_dyadic (-1) (-2)) in *.
  assert (Vbn : toR qb = (- toR qn)%R) by (rewrite Vb, Vn; destruct b; cbn [negb]; lra).
  assert (Hqn : (Rabs (r + toR qn) <= bpow radix2 44)%R) by (rewrite Vn; apply Rabs_le_inv in Hr; apply Rabs_le; simpl bpow in *; destruct b; cbn [negb]; lra).
  assert (Hy : (Rabs (rnd (r + toR qn)) <= bpow radix2 44)%R).
  { apply Rabs_le. apply Rabs_le_inv in Hqn. assert (G : rnd (bpow radix2 44) = bpow radix2 44) by (apply rnd_generic, generic_format_bpow; unfold FLT_exp; cbv; discriminate).
    split; [rewrite <- G, <- rnd_neg|rewrite <- G]; apply rnd_le; lra. }
  destruct (b_add_ok _ qn G1 Fn) as (A1 & U1); [rewrite W1; apply small_le with 44%Z; [lia|exact Hqn]|].
  destruct (b_add_ok _ qb G2 Fb) as (A2 & U2).
  { rewrite W2, Vbn. apply small_le with 44%Z; [lia|]. replace (- r + - toR qn)%R with (- (r + toR qn))%R by ring. rewrite Rabs_Ropp. exact Hqn. }
  rewrite W1 in U1. rewrite W2, Vbn in U2. replace (- r + - toR qn)%R with (- (r + toR qn))%R in U2 by ring. rewrite rnd_neg in U2.
  set (y := rnd (r + toR qn)) in *.
  assert (Hsy : small (toR s * y)).
  { apply (small_S s Hs) with 44%Z; [lia|]. rewrite Rabs_mult, (Rabs_pos_eq (toR s)), Rmult_comm by lra. apply Rmult_le_compat_r; [lra|exact Hy]. }
  assert (Edy : (toR d * - y = toR s * y)%R) by (rewrite Vs; ring).
  destruct (b_mul_ok s _ Fs A1) as (M1 & T1); [rewrite U1; exact Hsy|].
  destruct (b_mul_ok d _ Fd A2) as (M2 & T2); [rewrite U2, Edy; exact Hsy|].
  split; [exact M2|]. rewrite T2, T1, U1, U2, Edy. reflexivity.
Qed.

Lemma bit_of_negative v : fin v -> (Rabs (toR v) <= bpow radix2 42 * toR s)%R -> bit_of Bops d v = bit_of Bops s v.
Proof.
  intros Fv Hv. destruct (quotients v Fv Hv) as (q & Hq & F1 & V1 & F2 & V2).
  destruct (b_round_ok _ F1) as (G1 & W1). destruct (b_round_ok _ F2) as (G2 & W2). rewrite V1 in W1. rewrite V2, nearest_opp, opp_IZR in W2.
  pose proof (nearest_le q Hq) as Hr. set (r := IZR (Znearest (Z.leb 0) q)) in *.
  assert (Hsr : (Rabs (toR s * r) <= bpow radix2 43 * toR s)%R).
  { rewrite Rabs_mult, (Rabs_pos_eq (toR s)), Rmult_comm by lra. apply Rmult_le_compat_r; [lra|exact Hr]. }
  assert (Edr : (toR d * - r = toR s * r)%R) by (rewrite Vs; ring).
  destruct (b_mul_ok s _ Fs G1) as (M1 & T1); [rewrite W1; apply (small_S s Hs) with 43%Z; [lia|exact Hsr]|].
  destruct (b_mul_ok d _ Fd G2) as (M2 & T2); [rewrite W2, Edr; apply (small_S s Hs) with 43%Z; [lia|exact Hsr]|].
  rewrite W1 in T1. rewrite W2, Edr in T2.
  assert (HP : (Rabs (rnd (toR s * r)) <= bpow radix2 44 * toR s)%R).
  { replace (rnd (toR s * r)) with ((rnd (toR s * r) - toR s * r) + toR s * r)%R by ring. eapply Rle_trans; [apply Rabs_triang|].
    pose proof (rnd_err (toR s * r)) as He. pose proof (eta_small s Hs) as Ht. unfold u53 in He. simpl bpow in *. lra. }
  assert (Hsub : small (toR v - rnd (toR s * r))).
  { apply (small_S s Hs) with 45%Z; [lia|]. eapply Rle_trans; [apply Rabs_triang|]. rewrite Rabs_Ropp. simpl bpow in *. lra. }
  destruct (b_sub_ok v _ Fv M1) as (S1 & X1); [rewrite T1; exact Hsub|]. destruct (b_sub_ok v _ Fv M2) as (S2 & X2); [rewrite T2; exact Hsub|].
  unfold bit_of. change (f_of_Z Bops) with b_of_Z. destruct (b_of_Z_ok 0) as (F0 & V0); [lia|].
  rewrite (b_ge_ok _ _ S1 F0), (b_ge_ok _ _ S2 F0), X1, X2, T1, T2. reflexivity.
Qed.

(** With a negative depth the bit read from a marked coefficient is the complement of the bit written. *)
Lemma negative_mark_inverts b c : fin c -> (Rabs (toR c) <= bpow radix2 40 * toR s)%R -> bit_of Bops d (mark Bops d b c) = negb b.
Proof.
  intros Fc Hc. destruct (mark_negative b c Fc) as (Fm & Vm); [eapply Rle_trans; [exact Hc|]; apply Rmult_le_compat_r; [lra|]; apply bpow_le; lia|].
  destruct (mark_float s Fs Hs (negb b) c Fc Hc) as (r & Hr & _ & M1 & M2). rewrite <- Vm in M1.
  rewrite bit_of_negative; [|exact Fm|].
  - apply (bit_of_float s Fs Hs r); [exact Fm|lia|]. simpl bpow in M1 |- *. lra.
  - apply Rabs_le. apply Rabs_le_inv in M1. apply Rabs_le_inv in M2. apply Rabs_le_inv in Hc. simpl bpow in *. lra.
Qed.
End Negative.

Lemma complement_bit payload k : bytes payload -> k < 8 * length payload ->
  payload_bit (map (fun b => 255 - b)%Z payload) k = negb (payload_bit payload k).
Proof.
  intros Hb Hk. unfold payload_bit. assert (Hk8 : k / 8 < length payload) by (apply Nat.div_lt_upper_bound; lia).
  rewrite (nth_indep (map _ payload) 0%Z (255 - 0)%Z) by (rewrite map_length; exact Hk8).
  rewrite (map_nth (fun b => 255 - b)%Z). pose proof (Nat.mod_upper_bound k 8 ltac:(lia)) as Hm.
  assert (Hby : byte (nth (k / 8) payload 0%Z)) by (unfold bytes in Hb; rewrite Forall_forall in Hb; apply Hb, nth_In, Hk8).
  revert Hby. generalize (nth (k / 8) payload 0%Z) as b. intros b Hby.
  assert (Hneg : (255 - b = Z.lnot b mod 2 ^ 8)%Z) by (unfold Z.lnot, byte in *; change (2 ^ 8)%Z with 256%Z; Z.to_euclidean_division_equations; lia).
  rewrite Hneg, Z.mod_pow2_bits_low by lia. rewrite Z.lnot_spec by lia. reflexivity.
Qed.

(** As compiled: depths between -2^500 and -2^-500, coefficients of at most 2^40 times the absolute depth. *)
Theorem C26_f64_negative_depth_inverts_every_bit : forall (depth : b64) n m payload,
  fin depth -> (- bpow radix2 500 <= toR depth <= - bpow radix2 (-500))%R ->
  square_domain m n -> bytes payload -> length payload <= n * n / 8 ->
  (forall k, k < 8 * length payload -> exists c, value_at m (cell_of_bit n k) = Some c /\ fin c /\ (Rabs (toR c) <= bpow radix2 40 * Rabs (toR depth))%R) ->
  exists m' before, read Bops m n n depth = Ok before /\ write Bops m n n payload depth = Ok m'
    /\ read Bops m' n n depth = Ok (map (fun b => 255 - b)%Z payload ++ skipn (length payload) before).
Proof.
  intros depth n m payload Fd Hd Hsd Hb Hl Hord. destruct (sd_in m n Hsd) as (Hdm & Hr).
  destruct (write_ok Bops depth n m payload Hr Hdm Hl) as (m' & E & _ & _ & _ & C).
  destruct (write_square Bops depth n m payload m' Hsd E) as (Hsd' & _). destruct (sd_in m' n Hsd') as (Hdm' & _).
  destruct (C24_capacity_check_is_exact _ Bops depth n m payload Hsd) as (_ & _ & before & Eb & _).
  destruct (C21_bytes_behind_the_payload_are_kept _ Bops depth n m payload m' before Hsd E Eb) as (after & Ea & _ & Hs).
  exists m', before. split; [exact Eb|]. split; [exact E|].
  set (comp := map (fun b => 255 - b)%Z payload). assert (Lc : length comp = length payload) by apply map_length.
  assert (Hos : ordinary_step (- toR depth)) by (split; lra).
  assert (P : read Bops m' n n depth = Ok (comp ++ map (byte_at Bops depth n m') (seq (length comp) (n * n / 8 - length comp)))).
  { apply (read_prefix Bops depth n m' comp Hr Hdm'); [|rewrite Lc; exact Hl|].
    - apply Forall_map. eapply Forall_impl; [|exact Hb]. unfold byte. intros; lia.
    - rewrite Lc. intros k Hk. rewrite nth_bits. unfold comp. rewrite complement_bit by assumption.
      destruct (Hord k Hk) as (c & Vc & Fc & Hc). unfold value_at, cell_of_bit in Vc. cbn [fst snd] in Vc.
      pose proof (Nat.mul_div_le (n * n) 8 ltac:(lia)). assert (Hn : 0 < n) by nia.
      unfold cell_bit, cell_at. rewrite C, written_at by lia. rewrite bits_of_bytes_length, (proj2 (Nat.ltb_lt _ _) Hk). unfold cell_at. rewrite Vc. cbn [option_map]. rewrite nth_bits.
      apply (negative_mark_inverts depth Fd Hos); [exact Fc|]. rewrite (Rabs_left1 (toR depth)) in Hc by (pose proof (bpow_gt_0 radix2 (-500)); lra).
      eapply Rle_trans; [exact Hc|]. right. f_equal. symmetry. apply B2R_Bopp. }
  rewrite Ea. f_equal. rewrite <- Lc in Hs |- *. eapply prefix_and_rest; [|exact Hs]. rewrite P in Ea. symmetry. injection Ea as Ea. exact Ea.
Qed.

(** *** Witness: a depth of -100 and coefficients of 1020 *)
Example C26_f64_witness : exists m' before,
  read Bops (wit_matrix (b_of_Z 1020) 8 8) 4 4 (b_of_Z (-100)) = Ok before
  /\ write Bops (wit_matrix (b_of_Z 1020) 8 8) 4 4 [165]%Z (b_of_Z (-100)) = Ok m'
  /\ read Bops m' 4 4 (b_of_Z (-100)) = Ok (90%Z :: skipn 1 before).
Proof.
  destruct (b_of_Z_ok (-100)) as (F1 & V1); [lia|]. destruct (b_of_Z_ok 1020) as (F2 & V2); [lia|].
  apply (C26_f64_negative_depth_inverts_every_bit (b_of_Z (-100)) 4 (wit_matrix (b_of_Z 1020) 8 8) [165]%Z F1).
  - rewrite V1. split.
    + apply Rle_trans with (- bpow radix2 7)%R; [apply Ropp_le_contravar, bpow_le; lia|simpl; lra].
    + apply Rle_trans with (- bpow radix2 0)%R; [simpl; lra|apply Ropp_le_contravar, bpow_le; lia].
  - apply wit_square.
  - repeat constructor; unfold byte; lia.
  - cbn; lia.
  - intros k Hk. cbn [length] in Hk. exists (b_of_Z 1020). split; [|split; [exact F2|]].
    + unfold value_at, cell_of_bit, cell. cbn [fst snd wit_matrix rows].
      assert (H1 : k / 4 < 8) by (apply Nat.div_lt_upper_bound; lia). pose proof (Nat.mod_upper_bound k 4 ltac:(lia)).
      rewrite nth_error_repeat by exact H1. apply nth_error_repeat. lia.
    + rewrite V1, V2. simpl bpow. rewrite Rabs_pos_eq, Rabs_left by lra. lra.
Qed.

Print Assumptions C21_bytes_behind_the_payload_are_kept.
Print Assumptions C21_reading_after_writing.
Print Assumptions C22_f64_reading_after_writing.
Print Assumptions C26_reading_after_writing_with_negative_depth.
Print Assumptions C26_f64_negative_depth_inverts_every_bit.
