(** Properties C19-C26: writing a payload into the coefficient domain and reading it back
    (lib/sia/rust/embedding/src/io/steganography.rs, io/mod.rs). *)
From Coq Require Import Reals Lra.
From Flocq Require Import Core BinarySingleNaN.
From Verif Require Import Outcome Floats FloatFacts Bits ListFacts IndexArith IndexArithProofs Matrix MatrixFacts Stego StegoProofs
  QuantFloat StegoMarks.
Open Scope nat_scope.

Lemma nth_firstn {A} (l : list A) k i d : i < k -> nth i (firstn k l) d = nth i l d.
Proof.
  revert k l; induction i as [|i IH]; intros [|k] [|x t] H; try lia; try reflexivity. cbn [firstn nth]. apply IH. lia.
Qed.

Lemma Rminus_self (x : R) : (x - x = 0)%R. Proof. ring. Qed.

(** ** Specification vocabulary *)

(** Bit [k] of a byte string, least significant bit of each byte first. *)
Definition payload_bit (payload : list Z) (k : nat) : bool := Z.testbit (nth (k / 8) payload 0%Z) (Z.of_nat (k mod 8)).

Lemma nth_bits l : forall k, nth k (bits_of_bytes l) false = payload_bit l k.
Proof.
  induction l as [|b t IH]; intros k.
  - unfold payload_bit. destruct (k / 8); cbn [nth bits_of_bytes flat_map]; rewrite Z.bits_0; destruct k; reflexivity.
  - change (bits_of_bytes (b :: t)) with (byte_bits b ++ bits_of_bytes t).
    destruct (le_lt_dec 8 k) as [H|H].
    + rewrite app_nth2 by exact H. change (length (byte_bits b)) with 8. rewrite IH. unfold payload_bit.
      replace k with (k - 8 + 1 * 8) at 3 4 by lia. rewrite Nat.div_add, Nat.mod_add by lia.
      replace ((k - 8) / 8 + 1) with (S ((k - 8) / 8)) by lia. reflexivity.
    + rewrite app_nth1 by exact H. unfold payload_bit. rewrite Nat.div_small, Nat.mod_small by exact H. cbn [nth].
      do 8 (destruct k as [|k]; [reflexivity|]). lia.
Qed.

(** The coefficient domain is the top-left n x n part of a well-formed matrix, with n*n below 2^53. *)
Definition square_domain {A} (m : array2 A) (n : nat) : Prop :=
  wf m /\ n <= dim0 m /\ n <= dim1 m /\ (Z.of_nat (n * n) < 2 ^ 53)%Z.

(** Cell used by bit [k] of the payload. *)
Definition cell_of_bit (n k : nat) : nat * nat := (k / n, k mod n).
Definition value_at {A} (m : array2 A) (p : nat * nat) : option A := cell m (fst p) (snd p).

Lemma sd_in {F} (m : array2 F) n : square_domain m n -> in_domain n m /\ representable n n.
Proof. intros (H1 & H2 & H3 & H4). split; [split; [exact H1|split; assumption]|exact H4]. Qed.

(** *** C19 *)

(** k |-> cell is a bijection from {0..n*n-1} to the cells of the domain. *)
Theorem C19_placement_is_bijective : forall n,
  (forall k, k < n * n -> fst (cell_of_bit n k) < n /\ snd (cell_of_bit n k) < n)
  /\ (forall k k', k < n * n -> k' < n * n -> cell_of_bit n k = cell_of_bit n k' -> k = k')
  /\ (forall i j, i < n -> j < n -> exists k, k < n * n /\ cell_of_bit n k = (i, j)).
Proof.
  intros n. split; [|split].
  - intros k Hk. apply (place_lt n k); [nia|exact Hk].
  - intros k k' Hk Hk' E. unfold cell_of_bit in E. injection E as E1 E2.
    rewrite <- (place_inv n k), <- (place_inv n k') by nia. congruence.
  - intros i j Hi Hj. exists (n * i + j). split; [nia|]. unfold cell_of_bit. rewrite place_div, place_mod by exact Hj. reflexivity.
Qed.

(** Writing touches exactly those cells: bit k of the payload only decides the new value of its own cell (which is a
    function of the bit and of the old value of that cell), every other cell keeps its value; and the reader's bit k is a
    function of the value of the same cell. *)
Theorem C19_square_cells_written_and_read : forall (F : Type) (O : FOps F) depth n m payload,
  square_domain m n -> length payload <= n * n / 8 ->
  exists m' out, write O m n n payload depth = Ok m' /\ read O m' n n depth = Ok out
    /\ (forall k, k < n * n -> exists v,
          value_at m (cell_of_bit n k) = Some v /\
          value_at m' (cell_of_bit n k) =
            Some (if k <? 8 * length payload then mark O depth (payload_bit payload k) v else v))
    /\ (forall i j, ~ (i < n /\ j < n) -> cell m' i j = cell m i j)
    /\ (forall k, k < 8 * (n * n / 8) -> exists v',
          value_at m' (cell_of_bit n k) = Some v' /\ payload_bit out k = bit_of O depth v').
Proof.
  intros F O depth n m payload Hsd Hl. destruct (sd_in m n Hsd) as (Hd & Hr).
  destruct (write_ok O depth n m payload Hr Hd Hl) as (m' & E & Hd' & E0 & E1 & C).
  pose proof (read_ok O depth n m' Hr Hd') as Er. destruct (read_bits O depth n m' _ Hr Hd' Er) as (Lr & Br).
  exists m'. eexists. split; [exact E|]. split; [exact Er|]. split; [|split].
  - intros k Hk. assert (Hn : 0 < n) by nia. destruct (place_lt n k Hn Hk) as (H1 & H2). destruct Hd as (Hwf & D0 & D1).
    destruct (cell_bounds m (k / n) (k mod n) Hwf ltac:(lia) ltac:(lia)) as (v & Hv).
    exists v. unfold value_at, cell_of_bit. cbn [fst snd]. split; [exact Hv|].
    rewrite C, written_at by assumption. unfold cell_at. rewrite Hv, bits_of_bytes_length, nth_bits. destruct (k <? 8 * length payload); reflexivity.
  - intros i j Hij. rewrite C. unfold written. destruct (Nat.ltb_spec i n), (Nat.ltb_spec j n); try reflexivity. tauto.
  - intros k Hk. pose proof (Nat.mul_div_le (n * n) 8 ltac:(lia)). assert (Hk' : k < n * n) by lia. assert (Hn : 0 < n) by nia.
    destruct (place_lt n k Hn Hk') as (H1 & H2). destruct Hd' as (Hwf & D0 & D1).
    destruct (cell_bounds m' (k / n) (k mod n) Hwf ltac:(lia) ltac:(lia)) as (v & Hv).
    exists v. unfold value_at, cell_of_bit. cbn [fst snd]. split; [exact Hv|].
    rewrite <- nth_bits, Br by (rewrite Lr; exact Hk). unfold cell_bit, cell_at. rewrite Hv. reflexivity.
Qed.

(** Fewer rows than columns: bits 0 and [rows] go to the same cell, for the writer and for the reader. *)
Theorem C19_wide_domain_collides : forall (F : Type) (O : FOps F) depth rows cols m b,
  (Z.of_nat (rows * cols) < 2 ^ 53)%Z -> 0 < rows < cols -> wf m -> rows <= dim0 m -> cols <= dim1 m ->
  exists v, cell m 0 0 = Some v
    /\ write_bit O rows cols depth (m, 0) b = Ok (set_cell m 0 0 (mark O depth b v), 1)
    /\ write_bit O rows cols depth (m, rows) b = Ok (set_cell m 0 0 (mark O depth b v), S rows)
    /\ read_bit O m rows cols depth 0 = read_bit O m rows cols depth rows.
Proof.
  intros F O depth w h m b Hr Hwh Hwf H0 H1.
  destruct (cell_bounds m 0 0 Hwf ltac:(lia) ltac:(lia)) as (v & Hv).
  exists v. split; [exact Hv|].
  assert (C0 : get_column_and_row 0 w h = (0, 0)).
  { rewrite column_row by (try exact Hr; nia). rewrite Nat.mod_small, Nat.div_small by lia. reflexivity. }
  assert (Cw : get_column_and_row w w h = (0, 0)).
  { rewrite column_row by (try exact Hr; nia). rewrite Nat.mod_same, Nat.div_small by lia. reflexivity. }
  unfold write_bit, read_bit. rewrite C0, Cw, view_get_cell, (proj2 (Nat.ltb_lt 0 w)), (proj2 (Nat.ltb_lt 0 h)) by lia.
  cbn [andb]. rewrite Hv. cbn [unwrap bind]. auto.
Qed.

Lemma write_bit_tall {F} (O : FOps F) depth w h m b : representable w h -> 0 < h < w ->
  write_bit O w h depth (m, h) b = Panic UnwrapNone.
Proof.
  intros Hr Hwh. unfold write_bit. rewrite column_row by (try assumption; nia).
  rewrite Nat.mod_small, Nat.div_same by lia. rewrite view_get_cell, (Nat.ltb_irrefl h), andb_false_r. reflexivity.
Qed.

Lemma write_bit_state {F} (O : FOps F) depth w h st b st' : write_bit O w h depth st b = Ok st' -> snd st' = S (snd st).
Proof.
  destruct st as (m, o). unfold write_bit. destruct (get_column_and_row o w h) as (c, r). intros H. apply bind_ok in H as (x & _ & H).
  assert (E : st' = (set_cell m r c (mark O depth b x), S o)) by congruence. rewrite E. reflexivity.
Qed.
Lemma write_bits_state {F} (O : FOps F) depth w h bs : forall st st', foldM (write_bit O w h depth) bs st = Ok st' ->
  snd st' = snd st + length bs.
Proof.
  induction bs as [|b t IH]; intros st st' H; cbn [foldM] in H.
  - assert (E : st' = st) by congruence. subst. cbn [length]. lia.
  - apply bind_ok in H as (s1 & H1 & H2). apply write_bit_state in H1. apply IH in H2. cbn [length]. lia.
Qed.
Lemma write_bit_no_outside {F} (O : FOps F) depth w h st b : write_bit O w h depth st b <> Outside.
Proof. destruct st as (m, o). unfold write_bit. destruct (get_column_and_row o w h) as (c, r). destruct (view_get _ _ _ _ _); discriminate. Qed.

(** More rows than columns: the writer panics at the bit number [cols] (if not before). *)
Theorem C19_tall_domain_panics_at_bit_cols : forall (F : Type) (O : FOps F) depth rows cols m b,
  (Z.of_nat (rows * cols) < 2 ^ 53)%Z -> 0 < cols < rows ->
  write_bit O rows cols depth (m, cols) b = Panic UnwrapNone.
Proof. intros. apply write_bit_tall; assumption. Qed.

(** *** C20 *)
Theorem C20_tall_domain_panics : forall (F : Type) (O : FOps F) depth rows cols m payload,
  (Z.of_nat (rows * cols) < 2 ^ 53)%Z -> cols < rows -> cols < 8 * length payload ->
  is_panic (write O m rows cols payload depth) = true.
Proof.
  intros F O depth w h m payload Hr Hwh Hl. unfold write.
  destruct (get_capacity w h <? length payload) eqn:Ec; [reflexivity|].
  assert (Hh : 0 < h).
  { destruct h; [|lia]. rewrite capacity_eq in Ec by exact Hr. rewrite Nat.mul_0_r in Ec. change (0 / 8) with 0 in Ec.
    apply Nat.ltb_ge in Ec. lia. }
  rewrite <- (firstn_skipn h (bits_of_bytes payload)), foldM_app.
  destruct (foldM (write_bit O w h depth) (firstn h (bits_of_bytes payload)) (m, 0)) as [(m1, o1)|r|] eqn:E1; cbn [bind]; [|reflexivity|].
  - pose proof (write_bits_state O depth w h _ _ _ E1) as Ho. cbn [snd] in Ho.
    rewrite firstn_length, bits_of_bytes_length in Ho. assert (Ho1 : o1 = h) by lia. rewrite Ho1. clear Ho Ho1 E1.
    destruct (skipn h (bits_of_bytes payload)) as [|b t] eqn:Es.
    + assert (Hx := skipn_length h (bits_of_bytes payload)). rewrite Es, bits_of_bytes_length in Hx. cbn [length] in Hx. lia.
    + cbn [foldM]. rewrite write_bit_tall by (try assumption; lia). reflexivity.
  - exfalso. clear - E1. revert E1. generalize (firstn h (bits_of_bytes payload)), (m, 0). intros bs.
    induction bs as [|b t IH]; intros st E1; cbn [foldM] in E1; [discriminate|].
    destruct (write_bit O w h depth st b) eqn:E; cbn [bind] in E1; [eapply IH; exact E1|discriminate|].
    eapply write_bit_no_outside; exact E.
Qed.

(** Writing to a wide domain succeeds, but a payload whose bits 0 and [rows] differ is never read back, whatever the
    arithmetic, the coefficients and the depth. *)
Theorem C20_wide_domain_loses_data : forall (F : Type) (O : FOps F) depth rows cols m payload,
  (Z.of_nat (rows * cols) < 2 ^ 53)%Z -> 0 < rows < cols -> wf m -> rows <= dim0 m -> cols <= dim1 m ->
  rows < 8 * length payload -> length payload <= rows * cols / 8 ->
  payload_bit payload 0 <> payload_bit payload rows ->
  exists m' out, write O m rows cols payload depth = Ok m' /\ read O m' rows cols depth = Ok out
    /\ firstn (length payload) out <> payload.
Proof.
  intros F O depth w h m payload Hr Hwh Hwf H0 H1 Hlw Hl Hdiff.
  pose proof (Nat.mul_div_le (w * h) 8 ltac:(lia)) as Hcap.
  assert (Hwr : forall bs m o, wf m -> w <= dim0 m -> h <= dim1 m -> o + length bs <= w * h ->
    exists m', foldM (write_bit O w h depth) bs (m, o) = Ok (m', o + length bs) /\ wf m' /\ w <= dim0 m' /\ h <= dim1 m').
  { clear - Hr Hwh. induction bs as [|b t IH]; intros m o Hwf H0 H1 Hlen.
    - exists m. cbn [length foldM]. rewrite Nat.add_0_r. auto.
    - cbn [length] in Hlen. cbn [foldM]. unfold write_bit at 1. rewrite column_row by (try exact Hr; lia).
      assert (Hrow : o / h < w) by (apply Nat.div_lt_upper_bound; lia).
      assert (Hcol : o mod w < h) by (pose proof (Nat.mod_upper_bound o w ltac:(lia)); lia).
      rewrite view_get_cell, (proj2 (Nat.ltb_lt _ _) Hrow), (proj2 (Nat.ltb_lt _ _) Hcol). cbn [andb].
      destruct (cell_bounds m (o / h) (o mod w) Hwf ltac:(lia) ltac:(lia)) as (v & ->). cbn [unwrap bind].
      destruct (IH (set_cell m (o / h) (o mod w) (mark O depth b v)) (S o)) as (m' & E & R);
        [now apply set_cell_wf|exact H0|exact H1|lia|].
      exists m'. rewrite E. split; [do 2 f_equal; cbn [length]; lia|exact R]. }
  destruct (Hwr (bits_of_bytes payload) m 0 Hwf H0 H1) as (m' & E & Hwf' & H0' & H1').
  { rewrite bits_of_bytes_length. lia. }
  assert (Hrd : forall o, o < w * h -> exists b, read_bit O m' w h depth o = Ok b).
  { intros o Ho. unfold read_bit. rewrite column_row by (try exact Hr; lia).
    assert (Hrow : o / h < w) by (apply Nat.div_lt_upper_bound; lia).
    assert (Hcol : o mod w < h) by (pose proof (Nat.mod_upper_bound o w ltac:(lia)); lia).
    rewrite view_get_cell, (proj2 (Nat.ltb_lt _ _) Hrow), (proj2 (Nat.ltb_lt _ _) Hcol). cbn [andb].
    destruct (cell_bounds m' (o / h) (o mod w) Hwf' ltac:(lia) ltac:(lia)) as (v & ->). eauto. }
  set (bit o := match read_bit O m' w h depth o with Ok b => b | _ => false end).
  assert (Hrd' : forall o, o < w * h -> read_bit O m' w h depth o = Ok (bit o)).
  { intros o Ho. unfold bit. destruct (Hrd o Ho) as (b & ->). reflexivity. }
  assert (Hread : read O m' w h depth = Ok (map (fun k => bits_value (map bit (seq (8 * k) 8))) (seq 0 (w * h / 8)))).
  { unfold read. rewrite capacity_eq by exact Hr. apply mapM_ok_map. intros k Hk. apply in_seq in Hk.
    unfold read_next. rewrite (mapM_ok_map _ bit).
    - cbn [bind]. f_equal. apply Z.mod_small.
      exact (bits_value_byte (map bit (seq (8 * k) 8)) ltac:(rewrite map_length, seq_length; lia)).
    - intros o Ho. apply in_seq in Ho. apply Hrd'. lia. }
  eexists. eexists. split; [|split; [exact Hread|]].
  - unfold write. rewrite capacity_eq, (proj2 (Nat.ltb_ge _ _)), E by assumption. reflexivity.
  - intros Eq. apply Hdiff.
    assert (Hbit : forall k, k < 8 * length payload -> payload_bit payload k = bit k).
    { intros k Hk. rewrite <- Eq. unfold payload_bit.
      assert (Hk8 : k / 8 < length payload) by (apply Nat.div_lt_upper_bound; lia).
      set (out := map (fun k => bits_value (map bit (seq (8 * k) 8))) (seq 0 (w * h / 8))).
      assert (Hout : nth (k / 8) (firstn (length payload) out) 0%Z = bits_value (map bit (seq (8 * (k / 8)) 8))).
      { assert (Hlo : length out = w * h / 8) by (unfold out; now rewrite map_length, seq_length).
        transitivity (nth (k / 8) out 0%Z).
        - apply nth_firstn. exact Hk8.
        - unfold out. rewrite (nth_indep _ 0%Z (bits_value (map bit (seq (8 * 0) 8)))) by (rewrite map_length, seq_length; lia).
          rewrite (map_nth (fun k => bits_value (map bit (seq (8 * k) 8)))), seq_nth by lia. reflexivity. }
      rewrite Hout.
      assert (Hbb : byte_bits (bits_value (map bit (seq (8 * (k / 8)) 8))) = map bit (seq (8 * (k / 8)) 8))
        by (apply byte_bits_bits_value; now rewrite map_length, seq_length).
      pose proof (Nat.mod_upper_bound k 8 ltac:(lia)) as Hm.
      transitivity (nth (k mod 8) (byte_bits (bits_value (map bit (seq (8 * (k / 8)) 8)))) false).
      - generalize dependent (k mod 8). intros j Hj. generalize (bits_value (map bit (seq (8 * (k / 8)) 8))) as v. intros v.
        do 8 (destruct j as [|j]; [reflexivity|]). lia.
      - rewrite Hbb, (nth_indep _ false (bit 0)) by (rewrite map_length, seq_length; lia).
        rewrite map_nth, seq_nth by lia. f_equal. pose proof (Nat.div_mod k 8). lia. }
    rewrite (Hbit 0), (Hbit w) by lia. unfold bit.
    destruct (C19_wide_domain_collides F O depth w h m' false Hr Hwh Hwf' H0' H1') as (v & _ & _ & _ & ->). reflexivity.
Qed.

(** *** C21, C25, C26: exact arithmetic *)

Definition within {A} (P : A -> A -> Prop) (n bits : nat) (m m' : array2 A) : Prop :=
  forall k, k < bits -> exists c c', value_at m (cell_of_bit n k) = Some c /\ value_at m' (cell_of_bit n k) = Some c' /\ P c c'.

Lemma noisy_read_real depth n m payload m' m2 :
  square_domain m n -> bytes payload -> length payload <= n * n / 8 -> (depth <> 0)%R ->
  write Rops m n n payload depth = Ok m' -> square_domain m2 n ->
  within (fun c c2 => Rabs (c2 - c) < Rabs depth / 4)%R n (8 * length payload) m' m2 ->
  forall k, k < 8 * length payload ->
    cell_bit Rops depth n m2 k = (if Rlt_bool 0 depth then payload_bit payload k else negb (payload_bit payload k)).
Proof.
  intros Hsd Hb Hl Hd E Hsd2 Hn k Hk.
  destruct (sd_in m n Hsd) as (Hdm & Hr). destruct (sd_in m2 n Hsd2) as (Hdm2 & _).
  destruct (write_ok Rops depth n m payload Hr Hdm Hl) as (m'' & E' & Hd' & _ & _ & C).
  assert (m'' = m') by congruence. subst m''.
  pose proof (Nat.mul_div_le (n * n) 8 ltac:(lia)). assert (Hkn : k < n * n) by lia. assert (Hn0 : 0 < n) by nia.
  destruct (Hn k Hk) as (c & c2 & V & V2 & Hc).
  unfold value_at, cell_of_bit in V, V2. cbn [fst snd] in V, V2.
  rewrite C, written_at in V by assumption. rewrite bits_of_bytes_length, (proj2 (Nat.ltb_lt _ _) Hk) in V.
  destruct (cell_at n m k) as [v|]; [|discriminate]. cbn [option_map] in V. rewrite nth_bits in V.
  assert (Ec : c = mark Rops depth (payload_bit payload k) v) by congruence.
  unfold cell_bit, cell_at. rewrite V2. rewrite Ec, mark_real in Hc.
  apply (bit_of_real depth (nearest (v / depth))); assumption.
Qed.

Theorem C25_noise_below_quarter_depth : forall depth n m payload m2,
  (0 < depth)%R -> square_domain m n -> square_domain m2 n -> bytes payload -> length payload <= n * n / 8 ->
  exists m', write Rops m n n payload depth = Ok m' /\
    (within (fun c c2 => Rabs (c2 - c) < depth / 4)%R n (8 * length payload) m' m2 ->
     exists rest, read Rops m2 n n depth = Ok (payload ++ rest) /\ length rest = n * n / 8 - length payload).
Proof.
  intros depth n m payload m2 Hd Hsd Hsd2 Hb Hl.
  destruct (sd_in m n Hsd) as (Hdm & Hr). destruct (sd_in m2 n Hsd2) as (Hdm2 & _).
  destruct (write_ok Rops depth n m payload Hr Hdm Hl) as (m' & E & _).
  exists m'. split; [exact E|]. intros Hn. eexists. split.
  - apply (read_prefix Rops depth n m2 payload Hr Hdm2 Hb Hl). intros k Hk.
    rewrite (noisy_read_real depth n m payload m' m2); try assumption; [|lra|].
    + rewrite Rlt_bool_true by exact Hd. symmetry. apply nth_bits.
    + rewrite Rabs_pos_eq by lra. exact Hn.
  - rewrite map_length, seq_length. reflexivity.
Qed.

Lemma write_square {F} (O : FOps F) depth n m payload m' : square_domain m n -> write O m n n payload depth = Ok m' ->
  square_domain m' n /\ dim0 m' = dim0 m /\ dim1 m' = dim1 m /\ length payload <= n * n / 8.
Proof.
  intros Hsd E. destruct (sd_in m n Hsd) as (Hd & Hr).
  destruct (le_lt_dec (length payload) (n * n / 8)) as [Hl|Hl].
  - destruct (write_ok O depth n m payload Hr Hd Hl) as (m'' & E' & (Hw & H0 & H1) & E0 & E1 & _).
    assert (m'' = m') by congruence. subst m''. repeat split; try assumption; apply Hw.
  - rewrite write_capacity in E by assumption. discriminate.
Qed.

Lemma within_refl n m k : square_domain m n -> k <= n * n -> within (fun c c2 => c2 = c) n k m (m : array2 R).
Proof.
  intros (Hwf & H0 & H1 & Hr) Hk o Ho. assert (Hn : 0 < n) by nia. destruct (place_lt n o Hn ltac:(lia)) as (P1 & P2).
  destruct (cell_bounds m (o / n) (o mod n) Hwf ltac:(lia) ltac:(lia)) as (v & Hv). exists v, v. auto.
Qed.

Theorem C21_written_bytes_are_read_back : forall depth n m payload,
  (0 < depth)%R -> square_domain m n -> bytes payload -> length payload <= n * n / 8 ->
  exists m' rest, write Rops m n n payload depth = Ok m'
    /\ read Rops m' n n depth = Ok (payload ++ rest) /\ length rest = n * n / 8 - length payload.
Proof.
  intros depth n m payload Hd Hsd Hb Hl.
  destruct (sd_in m n Hsd) as (Hdm & Hr).
  destruct (write_ok Rops depth n m payload Hr Hdm Hl) as (m' & E & _).
  destruct (write_square Rops depth n m payload m' Hsd E) as (Hsd' & _).
  destruct (C25_noise_below_quarter_depth depth n m payload m' Hd Hsd Hsd' Hb Hl) as (m'' & E' & H).
  assert (m'' = m') by congruence. subst m''.
  destruct H as (rest & H1 & H2).
  - pose proof (Nat.mul_div_le (n * n) 8 ltac:(lia)). intros k Hk.
    destruct (within_refl n m' (8 * length payload) Hsd' ltac:(lia) k Hk) as (c & c2 & V & V2 & Ec).
    exists c, c2. split; [exact V|]. split; [exact V2|]. rewrite Ec. rewrite Rminus_self, Rabs_R0. lra.
  - exists m', rest. auto.
Qed.

Theorem C26_negative_depth_inverts_every_bit : forall depth n m payload,
  (depth < 0)%R -> square_domain m n -> bytes payload -> length payload <= n * n / 8 ->
  exists m' rest, write Rops m n n payload depth = Ok m'
    /\ read Rops m' n n depth = Ok (map (fun b => 255 - b)%Z payload ++ rest).
Proof.
  intros depth n m payload Hd Hsd Hb Hl.
  destruct (sd_in m n Hsd) as (Hdm & Hr).
  destruct (write_ok Rops depth n m payload Hr Hdm Hl) as (m' & E & _).
  destruct (write_square Rops depth n m payload m' Hsd E) as (Hsd' & _). destruct (sd_in m' n Hsd') as (Hdm' & _).
  exists m'. eexists. split; [exact E|].
  apply (read_prefix Rops depth n m'); try assumption; [|rewrite map_length; exact Hl|].
  - apply Forall_map. eapply Forall_impl; [|exact Hb]. unfold byte. intros; lia.
  - rewrite map_length. intros k Hk. rewrite (noisy_read_real depth n m payload m' m'); try assumption; [|lra|].
    + rewrite Rlt_bool_false by lra. rewrite nth_bits. unfold payload_bit.
      assert (Hk8 : k / 8 < length payload) by (apply Nat.div_lt_upper_bound; lia).
      rewrite (nth_indep (map _ payload) 0%Z (255 - 0)%Z) by (rewrite map_length; exact Hk8).
      rewrite (map_nth (fun b => 255 - b)%Z).
      pose proof (Nat.mod_upper_bound k 8 ltac:(lia)) as Hm.
      assert (Hby : byte (nth (k / 8) payload 0%Z)).
      { unfold bytes in Hb. rewrite Forall_forall in Hb. apply Hb, nth_In, Hk8. }
      revert Hby. generalize (nth (k / 8) payload 0%Z) as b. intros b Hby.
      assert (Hneg : (255 - b = Z.lnot b mod 2 ^ 8)%Z).
      { unfold Z.lnot, byte in *. change (2 ^ 8)%Z with 256%Z. Z.to_euclidean_division_equations. lia. }
      rewrite Hneg, Z.mod_pow2_bits_low by lia. rewrite Z.lnot_spec by lia. reflexivity.
    + pose proof (Nat.mul_div_le (n * n) 8 ltac:(lia)). intros o Ho.
      destruct (within_refl n m' (8 * length payload) Hsd' ltac:(lia) o Ho) as (c & c2 & V & V2 & Ec).
      exists c, c2. split; [exact V|]. split; [exact V2|]. rewrite Ec, Rminus_self, Rabs_R0.
      assert (0 < Rabs depth)%R by (apply Rabs_pos_lt; lra). lra.
Qed.

(** *** C22, C25 in binary64.
    The depth lies between 2^-500 and 2^500 and the coefficients are at most 2^40 depths. *)
Definition ordinary_coefficients (n : nat) (depth : b64) (m : array2 b64) (k : nat) : Prop :=
  forall o, o < k -> exists c, value_at m (cell_of_bit n o) = Some c /\ fin c /\ (Rabs (toR c) <= bpow radix2 40 * toR depth)%R.

Theorem C25_f64_noise_below_quarter_depth : forall (depth : b64) n m payload m2,
  fin depth -> (bpow radix2 (-500) <= toR depth <= bpow radix2 500)%R ->
  square_domain m n -> square_domain m2 n -> bytes payload -> length payload <= n * n / 8 ->
  ordinary_coefficients n depth m (8 * length payload) ->
  exists m', write Bops m n n payload depth = Ok m' /\
    (within (fun c c2 => fin c2 /\ Rabs (toR c2 - toR c) <= (/ 4 - bpow radix2 (-9)) * toR depth)%R n (8 * length payload) m' m2 ->
     exists rest, read Bops m2 n n depth = Ok (payload ++ rest) /\ length rest = n * n / 8 - length payload).
Proof.
  intros depth n m payload m2 Fd Hd Hsd Hsd2 Hb Hl Hord.
  destruct (sd_in m n Hsd) as (Hdm & Hr). destruct (sd_in m2 n Hsd2) as (Hdm2 & _).
  destruct (write_ok Bops depth n m payload Hr Hdm Hl) as (m' & E & Hd' & _ & _ & C).
  exists m'. split; [exact E|]. intros Hn. eexists. split; [|rewrite map_length, seq_length; reflexivity].
  apply (read_prefix Bops depth n m2 payload Hr Hdm2 Hb Hl). intros k Hk. rewrite nth_bits.
  pose proof (Nat.mul_div_le (n * n) 8 ltac:(lia)). assert (Hkn : k < n * n) by lia. assert (Hn0 : 0 < n) by nia.
  destruct (Hn k Hk) as (c & c2 & V & V2 & Fc2 & Hc). destruct (Hord k Hk) as (v & Vv & Fv & Hv).
  unfold value_at, cell_of_bit in V, V2, Vv. cbn [fst snd] in V, V2, Vv.
  rewrite C, written_at in V by assumption. rewrite bits_of_bytes_length, (proj2 (Nat.ltb_lt _ _) Hk) in V.
  unfold cell_at in V. rewrite Vv in V. cbn [option_map] in V. rewrite nth_bits in V.
  assert (Ec : c = mark Bops depth (payload_bit payload k) v) by congruence.
  unfold cell_bit, cell_at. rewrite V2.
  destruct (mark_float depth Fd Hd (payload_bit payload k) v Fv Hv) as (r & Hrr & Fm & M1 & M2). rewrite <- Ec in M1.
  apply (bit_of_float depth Fd Hd r); [exact Fc2|lia|].
  pose proof (S_pos depth Hd). simpl bpow in M1, Hc |- *.
  replace (toR c2 - toR depth * (IZR r + quarter (payload_bit payload k)))%R
    with ((toR c2 - toR c) + (toR c - toR depth * (IZR r + quarter (payload_bit payload k))))%R by ring.
  eapply Rle_trans; [apply Rabs_triang|]. lra.
Qed.

Theorem C22_f64_written_bytes_are_read_back : forall (depth : b64) n m payload,
  fin depth -> (bpow radix2 (-500) <= toR depth <= bpow radix2 500)%R ->
  square_domain m n -> bytes payload -> length payload <= n * n / 8 ->
  ordinary_coefficients n depth m (8 * length payload) ->
  exists m' rest, write Bops m n n payload depth = Ok m'
    /\ read Bops m' n n depth = Ok (payload ++ rest) /\ length rest = n * n / 8 - length payload.
Proof.
  intros depth n m payload Fd Hd Hsd Hb Hl Hord.
  destruct (sd_in m n Hsd) as (Hdm & Hr).
  destruct (write_ok Bops depth n m payload Hr Hdm Hl) as (m' & E & _ & _ & _ & C).
  destruct (write_square Bops depth n m payload m' Hsd E) as (Hsd' & _).
  destruct (C25_f64_noise_below_quarter_depth depth n m payload m' Fd Hd Hsd Hsd' Hb Hl Hord) as (m'' & E' & H).
  assert (m'' = m') by congruence. subst m''.
  destruct H as (rest & H1 & H2); [|exists m', rest; auto].
  pose proof (Nat.mul_div_le (n * n) 8 ltac:(lia)). intros k Hk. assert (Hn0 : 0 < n) by nia.
  destruct (Hord k Hk) as (v & Vv & Fv & Hv). unfold value_at, cell_of_bit in Vv. cbn [fst snd] in Vv.
  exists (mark Bops depth (payload_bit payload k) v), (mark Bops depth (payload_bit payload k) v).
  unfold value_at, cell_of_bit. cbn [fst snd].
  assert (V : cell m' (k / n) (k mod n) = Some (mark Bops depth (payload_bit payload k) v)).
  { rewrite C, written_at by lia. rewrite bits_of_bytes_length, (proj2 (Nat.ltb_lt _ _) Hk). unfold cell_at. rewrite Vv, nth_bits. reflexivity. }
  split; [exact V|]. split; [exact V|].
  destruct (mark_float depth Fd Hd (payload_bit payload k) v Fv Hv) as (r & Hrr & Fm & M1 & M2).
  split; [exact Fm|]. rewrite Rminus_self, Rabs_R0. pose proof (S_pos depth Hd). simpl bpow. lra.
Qed.

(** *** C23 *)
Theorem C23_write_moves_used_cells_by_at_most_3_4_depth : forall depth n m payload m',
  (0 < depth)%R -> square_domain m n -> write Rops m n n payload depth = Ok m' ->
  wf m' /\ dim0 m' = dim0 m /\ dim1 m' = dim1 m /\
  forall i j, i < dim0 m -> j < dim1 m -> exists c c', cell m i j = Some c /\ cell m' i j = Some c' /\
    (if (i <? n) && (j <? n) && (n * i + j <? 8 * length payload) then Rabs (c' - c) <= 3 / 4 * depth else c' = c)%R.
Proof.
  intros depth n m payload m' Hd Hsd E.
  destruct (write_square Rops depth n m payload m' Hsd E) as (Hsd' & E0 & E1 & Hl).
  destruct (sd_in m n Hsd) as (Hdm & Hr).
  destruct (write_ok Rops depth n m payload Hr Hdm Hl) as (m'' & E' & Hd' & _ & _ & C).
  assert (m'' = m') by congruence. subst m''. split; [apply Hd'|]. split; [exact E0|]. split; [exact E1|].
  intros i j Hi Hj. destruct Hdm as (Hwf & _). destruct (cell_bounds m i j Hwf Hi Hj) as (c & Hc).
  exists c. rewrite C. unfold written. rewrite bits_of_bytes_length, Hc, Nat.add_0_l, Nat.sub_0_r.
  cbn [Nat.leb]. rewrite andb_true_r.
  destruct ((i <? n) && (j <? n) && (n * i + j <? 8 * length payload)).
  - eexists. split; [reflexivity|]. split; [reflexivity|].
    eapply Rle_trans; [apply mark_real_err; lra|]. rewrite Rabs_pos_eq by lra. lra.
  - exists c. auto.
Qed.

Theorem C23_f64_write_moves_used_cells_by_at_most_3_4_depth : forall (depth : b64) n m payload m',
  fin depth -> (bpow radix2 (-500) <= toR depth <= bpow radix2 500)%R -> square_domain m n ->
  ordinary_coefficients n depth m (8 * length payload) ->
  write Bops m n n payload depth = Ok m' ->
  wf m' /\ dim0 m' = dim0 m /\ dim1 m' = dim1 m /\
  forall i j, i < dim0 m -> j < dim1 m -> exists c c', cell m i j = Some c /\ cell m' i j = Some c' /\
    (if (i <? n) && (j <? n) && (n * i + j <? 8 * length payload)
     then fin c' /\ Rabs (toR c' - toR c) <= (3 / 4 + bpow radix2 (-11)) * toR depth else c' = c)%R.
Proof.
  intros depth n m payload m' Fd Hd Hsd Hord E.
  destruct (write_square Bops depth n m payload m' Hsd E) as (Hsd' & E0 & E1 & Hl).
  destruct (sd_in m n Hsd) as (Hdm & Hr).
  destruct (write_ok Bops depth n m payload Hr Hdm Hl) as (m'' & E' & Hd' & _ & _ & C).
  assert (m'' = m') by congruence. subst m''. split; [apply Hd'|]. split; [exact E0|]. split; [exact E1|].
  intros i j Hi Hj. destruct Hdm as (Hwf & _). destruct (cell_bounds m i j Hwf Hi Hj) as (c & Hc).
  exists c. rewrite C. unfold written. rewrite bits_of_bytes_length, Hc, Nat.add_0_l, Nat.sub_0_r.
  cbn [Nat.leb]. rewrite andb_true_r.
  destruct ((i <? n) && (j <? n) && (n * i + j <? 8 * length payload)) eqn:Eu.
  - eexists. split; [reflexivity|]. split; [reflexivity|].
    apply andb_true_iff in Eu as (Eu & E3). apply andb_true_iff in Eu as (E4 & E5). apply Nat.ltb_lt in E3, E4, E5.
    destruct (Hord _ E3) as (v & Vv & Fv & Hv). unfold value_at, cell_of_bit in Vv. cbn [fst snd] in Vv.
    rewrite place_div, place_mod, Hc in Vv by exact E5. assert (v = c) by congruence. subst v.
    destruct (mark_float depth Fd Hd (nth (n * i + j) (bits_of_bytes payload) false) c Fv Hv) as (r & Hrr & Fm & M1 & M2).
    split; [exact Fm|].
    match goal with |- (Rabs (?a - ?b) <= _)%R => match type of M1 with (Rabs (_ - ?x) <= _)%R =>
      replace (a - b)%R with ((a - x) + (x - b))%R by ring end end.
    eapply Rle_trans; [apply Rabs_triang|]. simpl bpow in *. lra.
  - exists c. auto.
Qed.

(** *** C24 *)
Theorem C24_capacity_check_is_exact : forall (F : Type) (O : FOps F) depth n m payload, square_domain m n ->
  (length payload <= n * n / 8 -> exists m', write O m n n payload depth = Ok m')
  /\ (n * n / 8 < length payload -> write O m n n payload depth = Panic NoCapacity)
  /\ exists out, read O m n n depth = Ok out /\ length out = n * n / 8 /\ bytes out.
Proof.
  intros F O depth n m payload Hsd. destruct (sd_in m n Hsd) as (Hd & Hr). split; [|split].
  - intros Hl. destruct (write_ok O depth n m payload Hr Hd Hl) as (m' & E & _). eauto.
  - intros Hl. now apply write_capacity.
  - eexists. split; [apply read_ok; assumption|]. split; [now rewrite map_length, seq_length|].
    eapply read_bytes; [exact Hr|exact Hd|]. apply read_ok; assumption.
Qed.

(** ** Witnesses: the hypotheses are met by non-trivial cases *)
Definition wit_matrix {A} (x : A) (a b : nat) : array2 A := mkArray2 a b (repeat (repeat x b) a).
Lemma wit_wf {A} (x : A) a b : wf (wit_matrix x a b).
Proof.
  split; [apply repeat_length|]. apply Forall_forall. intros r Hr. apply repeat_spec in Hr. subst r. apply repeat_length.
Qed.
Lemma wit_square {A} (x : A) : square_domain (wit_matrix x 8 8) 4.
Proof. split; [apply wit_wf|]. cbn [wit_matrix dim0 dim1]. repeat split; try lia. Qed.

Example C21_witness : exists depth n (m : array2 R) payload,
  (0 < depth)%R /\ square_domain m n /\ bytes payload /\ length payload <= n * n / 8 /\ payload = [165; 90]%Z.
Proof.
  exists 10%R, 4, (wit_matrix 123%R 8 8), [165; 90]%Z. split; [lra|]. split; [apply wit_square|].
  split; [repeat constructor; unfold byte; lia|]. split; [cbn; lia|reflexivity].
Qed.

Example C22_witness : exists (depth : b64) n m payload,
  fin depth /\ (bpow radix2 (-500) <= toR depth <= bpow radix2 500)%R /\
  square_domain m n /\ bytes payload /\ length payload <= n * n / 8 /\ payload <> [] /\
  ordinary_coefficients n depth m (8 * length payload).
Proof.
  exists (b_of_Z 100), 4, (wit_matrix (b_of_Z 1020) 8 8), [165; 90]%Z.
  destruct (b_of_Z_ok 100) as (F1 & V1); [lia|]. destruct (b_of_Z_ok 1020) as (F2 & V2); [lia|].
  split; [exact F1|]. split.
  { rewrite V1. split.
    - apply Rle_trans with (bpow radix2 0); [apply bpow_le; lia|simpl; lra].
    - apply Rle_trans with (bpow radix2 7); [simpl; lra|apply bpow_le; lia]. }
  split; [apply wit_square|]. split; [repeat constructor; unfold byte; lia|]. split; [cbn; lia|]. split; [discriminate|].
  intros o Ho. cbn [length] in Ho. exists (b_of_Z 1020). split; [|split; [exact F2|]].
  - unfold value_at, cell_of_bit, cell. cbn [fst snd wit_matrix rows].
    assert (H1 : o / 4 < 8) by (apply Nat.div_lt_upper_bound; lia). pose proof (Nat.mod_upper_bound o 4 ltac:(lia)).
    rewrite nth_error_repeat by exact H1. apply nth_error_repeat. lia.
  - rewrite V1, V2. simpl bpow. rewrite Rabs_pos_eq by lra. lra.
Qed.

(** A wide 2 x 8 domain: payload bytes [1; 0] have bit 0 set and bit 2 clear. *)
Example C20_wide_witness : exists m' out,
  write Bops (wit_matrix (b_of_Z 1020) 8 8) 2 8 [1; 0]%Z (b_of_Z 100) = Ok m' /\
  read Bops m' 2 8 (b_of_Z 100) = Ok out /\ firstn 2 out <> [1; 0]%Z.
Proof.
  destruct (C20_wide_domain_loses_data _ Bops (b_of_Z 100) 2 8 (wit_matrix (b_of_Z 1020) 8 8) [1; 0]%Z) as (m' & out & H).
  - cbn; lia. - lia. - apply wit_wf. - cbn; lia. - cbn; lia. - cbn; lia. - cbn; lia. - discriminate.
  - exists m', out. exact H.
Qed.

Print Assumptions C19_placement_is_bijective.
Print Assumptions C19_square_cells_written_and_read.
Print Assumptions C19_wide_domain_collides.
Print Assumptions C19_tall_domain_panics_at_bit_cols.
Print Assumptions C20_tall_domain_panics.
Print Assumptions C20_wide_domain_loses_data.
Print Assumptions C21_written_bytes_are_read_back.
Print Assumptions C22_f64_written_bytes_are_read_back.
Print Assumptions C23_write_moves_used_cells_by_at_most_3_4_depth.
Print Assumptions C23_f64_write_moves_used_cells_by_at_most_3_4_depth.
Print Assumptions C24_capacity_check_is_exact.
Print Assumptions C25_noise_below_quarter_depth.
Print Assumptions C25_f64_noise_below_quarter_depth.
Print Assumptions C26_negative_depth_inverts_every_bit.
