(** Placement, writing and reading of bits in the coefficient matrix, for any arithmetic. *)
From Verif Require Import Outcome Floats Bits ListFacts IndexArith IndexArithProofs Matrix MatrixFacts Stego.
Open Scope nat_scope.

(** The number of cells is exactly representable in f64. *)
Definition representable (w h : nat) : Prop := (Z.of_nat (w * h) < 2 ^ 53)%Z.

Lemma pow53_pos : (8 < 2 ^ 53)%Z. Proof. reflexivity. Qed.

Lemma capacity_eq w h : representable w h -> get_capacity w h = w * h / 8.
Proof. intros H. apply f64_floor_div_correct; [exact H|]. pose proof pow53_pos. lia. Qed.

Lemma column_row o w h : 0 < w -> 0 < h -> representable w h -> o < w * h ->
  get_column_and_row o w h = (o mod w, o / h).
Proof.
  intros Hw Hh Hr Ho. unfold get_column_and_row. f_equal. apply f64_floor_div_correct; unfold representable in Hr; nia.
Qed.

Lemma place_square n i j : i < n -> j < n -> n * i + j < n * n.
Proof. nia. Qed.
Lemma place_div n i j : j < n -> (n * i + j) / n = i.
Proof. intros. symmetry. apply Nat.div_unique with j; lia. Qed.
Lemma place_mod n i j : j < n -> (n * i + j) mod n = j.
Proof. intros. symmetry. apply Nat.mod_unique with i; lia. Qed.
Lemma place_inv n o : 0 < n -> n * (o / n) + o mod n = o.
Proof. intros. symmetry. apply Nat.div_mod. lia. Qed.
Lemma place_lt n o : 0 < n -> o < n * n -> o / n < n /\ o mod n < n.
Proof. intros. split; [apply Nat.div_lt_upper_bound; lia|apply Nat.mod_upper_bound; lia]. Qed.

Section Generic.
Context {F : Type} (O : FOps F) (depth : F) (n : nat).

Definition in_domain (m : array2 F) : Prop := wf m /\ n <= dim0 m /\ n <= dim1 m.

(** Bit [k] of the payload lands on cell (k / n, k mod n). *)
Definition cell_at (m : array2 F) (o : nat) : option F := cell m (o / n) (o mod n).

Definition written (m : array2 F) (o : nat) (bs : list bool) (i j : nat) : option F :=
  if (i <? n) && (j <? n) && (o <=? n * i + j) && (n * i + j <? o + length bs)
  then option_map (mark O depth (nth (n * i + j - o) bs false)) (cell m i j)
  else cell m i j.

Lemma write_bits_ok bs : forall m o, representable n n -> in_domain m -> o + length bs <= n * n ->
  exists m', foldM (write_bit O n n depth) bs (m, o) = Ok (m', o + length bs)
    /\ in_domain m' /\ dim0 m' = dim0 m /\ dim1 m' = dim1 m /\ forall i j, cell m' i j = written m o bs i j.
Proof.
  induction bs as [|b t IH]; intros m o Hrep Hm Hlen.
  - exists m. rewrite Nat.add_0_r. split; [reflexivity|]. split; [exact Hm|]. split; [reflexivity|]. split; [reflexivity|].
    intros i j. unfold written. cbn [length]. rewrite Nat.add_0_r.
    destruct (Nat.leb_spec o (n * i + j)), (Nat.ltb_spec (n * i + j) o); rewrite ?andb_false_r; try reflexivity. lia.
  - cbn [length] in Hlen. assert (Hn : 0 < n) by nia.
    assert (Ho : o < n * n) by lia. destruct (place_lt n o Hn Ho) as (Hd & Hmo).
    cbn [foldM]. unfold write_bit at 1. rewrite column_row by (try assumption; lia).
    destruct Hm as (Hwf & H0 & H1).
    destruct (cell_bounds m (o / n) (o mod n) Hwf ltac:(lia) ltac:(lia)) as (c & Hc).
    rewrite view_get_cell. rewrite (proj2 (Nat.ltb_lt _ _) Hd), (proj2 (Nat.ltb_lt _ _) Hmo). cbn [andb]. rewrite Hc. cbn [unwrap bind].
    set (m1 := set_cell m (o / n) (o mod n) (mark O depth b c)).
    assert (Hm1 : in_domain m1) by (split; [now apply set_cell_wf|split; assumption]).
    destruct (IH m1 (S o) Hrep Hm1 ltac:(lia)) as (m' & E & D & Ed0 & Ed1 & C).
    exists m'. rewrite E. split; [do 2 f_equal; cbn [length]; lia|]. split; [exact D|]. split; [exact Ed0|]. split; [exact Ed1|].
    intros i j. rewrite C. unfold written. cbn [length].
    assert (Hcm1 : cell m1 i j = if Nat.eqb (o / n) i && Nat.eqb (o mod n) j then Some (mark O depth b c) else cell m i j).
    { unfold m1. rewrite cell_set_cell, Hc. reflexivity. }
    destruct ((i <? n) && (j <? n)) eqn:Eij.
    + apply andb_true_iff in Eij as (Ei & Ej). apply Nat.ltb_lt in Ei, Ej. cbn [andb].
      destruct (Nat.eq_dec (n * i + j) o) as [Eo|No].
      * assert (o / n = i /\ o mod n = j) as (<- & <-).
        { rewrite <- Eo. rewrite place_div, place_mod by exact Ej. auto. }
        rewrite Eo, Nat.leb_refl, (proj2 (Nat.ltb_lt o (o + S (length t)))) by lia.
        rewrite (proj2 (Nat.leb_gt (S o) o)) by lia. cbn [andb]. rewrite Hcm1, !Nat.eqb_refl, Nat.sub_diag, Hc. reflexivity.
      * rewrite Hcm1.
        assert (Hne : Nat.eqb (o / n) i && Nat.eqb (o mod n) j = false).
        { apply not_true_is_false. intros Hx. apply andb_true_iff in Hx as (X1 & X2). apply Nat.eqb_eq in X1, X2. subst i j.
          apply No. apply place_inv. exact Hn. }
        rewrite Hne.
        destruct (Nat.leb_spec (S o) (n * i + j)), (Nat.leb_spec o (n * i + j)); try lia; cbn [andb]; [|reflexivity].
        replace (S o + length t) with (o + S (length t)) by lia.
        destruct (n * i + j <? o + S (length t)); [|reflexivity].
        replace (n * i + j - o) with (S (n * i + j - S o)) by lia. reflexivity.
    + cbn [andb]. rewrite Hcm1.
      assert (Hne : Nat.eqb (o / n) i && Nat.eqb (o mod n) j = false).
      { apply not_true_is_false. intros Hx. apply andb_true_iff in Hx as (X1 & X2). apply Nat.eqb_eq in X1, X2. subst i j.
        rewrite (proj2 (Nat.ltb_lt _ _) Hd), (proj2 (Nat.ltb_lt _ _) Hmo) in Eij. discriminate. }
      rewrite Hne. reflexivity.
Qed.

Lemma write_ok m bs : representable n n -> in_domain m -> length bs <= n * n / 8 ->
  exists m', write O m n n bs depth = Ok m' /\ in_domain m' /\ dim0 m' = dim0 m /\ dim1 m' = dim1 m
    /\ forall i j, cell m' i j = written m 0 (bits_of_bytes bs) i j.
Proof.
  intros Hrep Hm Hl. unfold write. rewrite capacity_eq by exact Hrep.
  rewrite (proj2 (Nat.ltb_ge _ _)) by exact Hl.
  destruct (write_bits_ok (bits_of_bytes bs) m 0 Hrep Hm) as (m' & E & H).
  - rewrite bits_of_bytes_length. pose proof (Nat.mul_div_le (n * n) 8). lia.
  - exists m'. rewrite E. split; [reflexivity|exact H].
Qed.

Lemma write_capacity m bs : representable n n -> n * n / 8 < length bs -> write O m n n bs depth = Panic NoCapacity.
Proof. intros Hrep Hl. unfold write. rewrite capacity_eq, (proj2 (Nat.ltb_lt _ _)) by assumption. reflexivity. Qed.

Lemma written_at m bs o : 0 < n -> o < n * n ->
  written m 0 bs (o / n) (o mod n) =
  if o <? length bs then option_map (mark O depth (nth o bs false)) (cell_at m o) else cell_at m o.
Proof.
  intros Hn Ho. unfold written. destruct (place_lt n o Hn Ho) as (H1 & H2).
  rewrite (proj2 (Nat.ltb_lt _ _) H1), (proj2 (Nat.ltb_lt _ _) H2), place_inv by exact Hn. cbn [andb].
  rewrite Nat.add_0_l, Nat.sub_0_r, (proj2 (Nat.leb_le 0 o)) by lia. reflexivity.
Qed.

(** ** reading *)
Definition cell_bit (m : array2 F) (o : nat) : bool :=
  match cell_at m o with Some c => bit_of O depth c | None => false end.

Lemma read_bit_ok m o : representable n n -> in_domain m -> o < n * n -> read_bit O m n n depth o = Ok (cell_bit m o).
Proof.
  intros Hrep (Hwf & H0 & H1) Ho. assert (Hn : 0 < n) by nia. destruct (place_lt n o Hn Ho) as (Hd & Hmo).
  unfold read_bit. rewrite column_row by (try assumption; lia).
  rewrite view_get_cell, (proj2 (Nat.ltb_lt _ _) Hd), (proj2 (Nat.ltb_lt _ _) Hmo). cbn [andb].
  unfold cell_bit, cell_at.
  destruct (cell_bounds m (o / n) (o mod n) Hwf ltac:(lia) ltac:(lia)) as (c & ->). reflexivity.
Qed.

Definition byte_at (m : array2 F) (k : nat) : Z := bits_value (map (cell_bit m) (seq (8 * k) 8)).

Lemma read_ok m : representable n n -> in_domain m ->
  read O m n n depth = Ok (map (byte_at m) (seq 0 (n * n / 8))).
Proof.
  intros Hrep Hm. unfold read. rewrite capacity_eq by exact Hrep. apply mapM_ok_map. intros k Hk.
  apply in_seq in Hk. pose proof (Nat.mul_div_le (n * n) 8).
  unfold read_next. rewrite (mapM_ok_map _ (cell_bit m)).
  - cbn [bind]. f_equal. fold (byte_at m k). apply Z.mod_small.
    pose proof (bits_value_byte (map (cell_bit m) (seq (8 * k) 8)) ltac:(rewrite map_length, seq_length; lia)) as Hb.
    exact Hb.
  - intros o Ho. apply in_seq in Ho. apply read_bit_ok; try assumption. lia.
Qed.

Lemma read_bytes m l : representable n n -> in_domain m -> read O m n n depth = Ok l -> bytes l.
Proof.
  intros Hrep Hm E. rewrite read_ok in E by assumption. assert (El : l = map (byte_at m) (seq 0 (n * n / 8))) by congruence.
  subst l. apply Forall_forall. intros b Hb. apply in_map_iff in Hb as (k & <- & _). unfold byte_at.
  apply bits_value_byte. rewrite map_length, seq_length. lia.
Qed.

(** If the cells carry the bits of [bs], the reader returns [bs] first. *)
Lemma read_prefix m bs : representable n n -> in_domain m -> bytes bs -> length bs <= n * n / 8 ->
  (forall o, o < 8 * length bs -> cell_bit m o = nth o (bits_of_bytes bs) false) ->
  read O m n n depth = Ok (bs ++ map (byte_at m) (seq (length bs) (n * n / 8 - length bs))).
Proof.
  intros Hrep Hm Hb Hl H. rewrite read_ok by assumption. f_equal.
  replace (n * n / 8) with (length bs + (n * n / 8 - length bs)) at 1 by lia.
  rewrite seq_app, map_app. f_equal. rewrite Nat.add_0_l || idtac.
  clear Hl.
  assert (G : forall bs k, bytes bs ->
     (forall o, o < 8 * length bs -> cell_bit m (8 * k + o) = nth o (bits_of_bytes bs) false) ->
     map (byte_at m) (seq k (length bs)) = bs).
  { clear. induction bs as [|b t IH]; intros k Hb H; [reflexivity|]. cbn [length seq map]. inversion Hb as [|? ? Hb1 Hb2]; subst.
    f_equal.
    - unfold byte_at. rewrite <- (byte_bits_value b) by exact Hb1. f_equal.
      cbn [length] in H. cbn [seq map].
      rewrite <- (Nat.add_0_r (8 * k)) at 1. rewrite (H 0) by lia.
      replace (S (8 * k)) with (8 * k + 1) by lia. rewrite (H 1) by lia.
      replace (S (8 * k + 1)) with (8 * k + 2) by lia. rewrite (H 2) by lia.
      replace (S (8 * k + 2)) with (8 * k + 3) by lia. rewrite (H 3) by lia.
      replace (S (8 * k + 3)) with (8 * k + 4) by lia. rewrite (H 4) by lia.
      replace (S (8 * k + 4)) with (8 * k + 5) by lia. rewrite (H 5) by lia.
      replace (S (8 * k + 5)) with (8 * k + 6) by lia. rewrite (H 6) by lia.
      replace (S (8 * k + 6)) with (8 * k + 7) by lia. rewrite (H 7) by lia.
      reflexivity.
    - apply IH; [exact Hb2|]. intros o Ho. replace (8 * S k + o) with (8 * k + (8 + o)) by lia.
      rewrite H by (cbn [length]; lia). reflexivity. }
  apply G; [exact Hb|]. intros o Ho. rewrite Nat.mul_0_r. apply H. exact Ho.
Qed.

(** The bits of the bytes the reader returns are the bits of the cells, in placement order. *)
Lemma read_bits m l : representable n n -> in_domain m -> read O m n n depth = Ok l ->
  length l = n * n / 8 /\ forall o, o < 8 * length l -> nth o (bits_of_bytes l) false = cell_bit m o.
Proof.
  intros Hrep Hm E. rewrite read_ok in E by assumption.
  assert (El : l = map (byte_at m) (seq 0 (n * n / 8))) by congruence. subst l.
  split; [now rewrite map_length, seq_length|]. rewrite map_length, seq_length.
  generalize (n * n / 8) as len. intros len.
  assert (G : forall len k o, o < 8 * len -> nth o (bits_of_bytes (map (byte_at m) (seq k len))) false = cell_bit m (8 * k + o)).
  { clear. induction len as [|len IH]; intros k o Ho; [lia|]. cbn [seq map].
    change (bits_of_bytes (?x :: ?y)) with (byte_bits x ++ bits_of_bytes y).
    assert (Hbb : byte_bits (byte_at m k) = map (cell_bit m) (seq (8 * k) 8)).
    { apply byte_bits_bits_value. now rewrite map_length, seq_length. }
    rewrite Hbb. destruct (le_lt_dec 8 o) as [Hge|Hlt].
    - rewrite app_nth2; rewrite map_length, seq_length; [|lia]. rewrite IH by lia. f_equal. lia.
    - rewrite app_nth1 by (rewrite map_length, seq_length; lia).
      rewrite (nth_indep _ false (cell_bit m 0)) by (rewrite map_length, seq_length; lia).
      rewrite map_nth, seq_nth by lia. reflexivity. }
  intros o Ho. rewrite G by exact Ho. reflexivity.
Qed.
End Generic.
