(** C97: the bit writer and the bit reader as objects (lib/sia/rust/embedding/src/io/steganography.rs).  C98: the code tables
    (lib/sia/rust/encoding/src/lib.rs:18-49). *)
From Coq Require Import Reals Lra.
From Flocq Require Import Core BinarySingleNaN.
From Verif Require Import Outcome Floats FloatFacts Bits ListFacts IndexArith IndexArithProofs Matrix MatrixFacts Stego StegoProofs
  QuantFloat StegoMarks PropsStego Encoding Embedding WriterObject.
Open Scope nat_scope.

(** ** Specification: a tape.  A writer is used by a history of calls; each call puts some bits at consecutive positions. *)
Inductive call :=
| Append (payload : list Z)                 (* `write(payload)` *)
| ByteAt (byte : Z) (position : nat).       (* `write_byte_at(byte, position)`; the position counts bits *)

Definition written_bytes (c : call) : list Z := match c with Append p => p | ByteAt b _ => [b] end.
(** Where a call starts, and where it leaves the writer. *)
Definition starts (c : call) (at_ : nat) : nat := match c with Append _ => at_ | ByteAt _ p => p end.
Definition ends (c : call) (at_ : nat) : nat := starts c at_ + 8 * length (written_bytes c).
Definition position_after (calls : list call) : nat := fold_left (fun at_ c => ends c at_) calls 0.

(** What the tape holds at position [k] after a history: the bit of the last call that covered [k], if any did. *)
Definition put (k : nat) (c : call) (at_ : nat) (old : option bool) : option bool :=
  if (starts c at_ <=? k) && (k <? ends c at_) then Some (payload_bit (written_bytes c) (k - starts c at_)) else old.
Fixpoint tape_from (k : nat) (calls : list call) (at_ : nat) (old : option bool) : option bool :=
  match calls with [] => old | c :: t => tape_from k t (ends c at_) (put k c at_ old) end.
Definition tape (calls : list call) (k : nat) : option bool := tape_from k calls 0 None.

(** A call that fits an n x n domain: not longer than the capacity, and it ends inside. *)
Definition fits (n : nat) (c : call) (at_ : nat) : Prop := length (written_bytes c) <= n * n / 8 /\ ends c at_ <= n * n.
Fixpoint all_fit_from (n : nat) (calls : list call) (at_ : nat) : Prop :=
  match calls with [] => True | c :: t => fits n c at_ /\ all_fit_from n t (ends c at_) end.
Definition all_fit (n : nat) (calls : list call) : Prop := all_fit_from n calls 0.

(** ** The program *)
Section Run.
Context {F : Type} (O : FOps F).
Definition perform (n : nat) (depth : F) (st : @writer F) (c : call) : outcome (@writer F) :=
  match c with
  | Append p => writer_write O n n depth st p
  | ByteAt b p => writer_write_byte_at O n n depth st b p
  end.
(** A fresh writer on [m], the calls in order, then `close`. *)
Definition history (n : nat) (depth : F) (m : array2 F) (calls : list call) : outcome (@writer F) :=
  st <- foldM (perform n depth) calls (writer_new m) ;; Ok (writer_close st).

Lemma history_run n depth m calls : history n depth m calls = foldM (perform n depth) calls (m, 0).
Proof. unfold history, writer_new, writer_close. destruct (foldM _ _ _) as [[? ?]| |]; reflexivity. Qed.

Lemma perform_eq n depth m at_ c : perform n depth (m, at_) c = writer_write O n n depth (m, starts c at_) (written_bytes c).
Proof. destruct c; reflexivity. Qed.

(** Values of the cells after the calls: every covering call re-marks the cell. *)
Fixpoint cell_after (depth : F) (k : nat) (calls : list call) (at_ : nat) (v : F) : F :=
  match calls with
  | [] => v
  | c :: t => cell_after depth k t (ends c at_)
      (match put k c at_ None with Some b => mark O depth b v | None => v end)
  end.

Context (depth : F) (n : nat).

Lemma perform_ok m at_ c : representable n n -> in_domain n m -> fits n c at_ ->
  exists m', perform n depth (m, at_) c = Ok (m', ends c at_) /\ in_domain n m' /\ dim0 m' = dim0 m /\ dim1 m' = dim1 m
    /\ (forall k, k < n * n -> cell m' (k / n) (k mod n) =
          option_map (fun v => match put k c at_ None with Some b => mark O depth b v | None => v end) (cell m (k / n) (k mod n)))
    /\ (forall i j, ~ (i < n /\ j < n) -> cell m' i j = cell m i j).
Proof.
  intros Hr Hm (Hl & He). rewrite perform_eq. unfold writer_write. rewrite capacity_eq, (proj2 (Nat.ltb_ge _ _)) by assumption.
  unfold ends in He.
  destruct (write_bits_ok O depth n (bits_of_bytes (written_bytes c)) m (starts c at_) Hr Hm) as (m' & E & D & E0 & E1 & C).
  { rewrite bits_of_bytes_length. exact He. }
  exists m'. rewrite E, bits_of_bytes_length. split; [reflexivity|]. split; [exact D|]. split; [exact E0|]. split; [exact E1|]. split.
  - intros k Hk. assert (Hn : 0 < n) by nia. rewrite C. unfold written. destruct (place_lt n k Hn Hk) as (P1 & P2).
    rewrite (proj2 (Nat.ltb_lt _ _) P1), (proj2 (Nat.ltb_lt _ _) P2), place_inv, bits_of_bytes_length by exact Hn. cbn [andb].
    unfold put, ends. destruct ((starts c at_ <=? k) && (k <? _)); [rewrite nth_bits|]; destruct (cell m _ _); reflexivity.
  - intros i j Hij. rewrite C. unfold written. destruct (Nat.ltb_spec i n), (Nat.ltb_spec j n); try reflexivity. tauto.
Qed.

Lemma run_ok calls : forall m at_, representable n n -> in_domain n m -> all_fit_from n calls at_ ->
  exists m', foldM (perform n depth) calls (m, at_) = Ok (m', fold_left (fun a c => ends c a) calls at_)
    /\ in_domain n m' /\ dim0 m' = dim0 m /\ dim1 m' = dim1 m
    /\ (forall k, k < n * n -> cell m' (k / n) (k mod n) = option_map (cell_after depth k calls at_) (cell m (k / n) (k mod n)))
    /\ (forall i j, ~ (i < n /\ j < n) -> cell m' i j = cell m i j).
Proof.
  induction calls as [|c t IH]; intros m at_ Hr Hm Hf.
  - exists m. split; [reflexivity|]. split; [exact Hm|]. repeat split; try reflexivity.
    intros k Hk. cbn [cell_after]. destruct (cell m _ _); reflexivity.
  - cbn [all_fit_from] in Hf. destruct Hf as (Hc & Ht).
    destruct (perform_ok m at_ c Hr Hm Hc) as (m1 & E & D & E0 & E1 & C & X).
    destruct (IH m1 (ends c at_) Hr D Ht) as (m' & E' & D' & E0' & E1' & C' & X').
    exists m'. cbn [foldM fold_left]. rewrite E. cbn [bind]. split; [exact E'|]. split; [exact D'|].
    split; [congruence|]. split; [congruence|]. split.
    + intros k Hk. rewrite C', C by exact Hk. cbn [cell_after]. destruct (cell m _ _); reflexivity.
    + intros i j Hij. rewrite X', X by exact Hij. reflexivity.
Qed.

Lemma write_bits_panics bs : forall m o, representable n n -> in_domain n m -> o <= n * n -> n * n < o + length bs -> (Z.of_nat o < 2 ^ 53)%Z ->
  foldM (write_bit O n n depth) bs (m, o) = Panic UnwrapNone.
Proof.
  induction bs as [|b t IH]; intros m o Hr Hm Ho Hl H53; [cbn [length] in Hl; lia|].
  cbn [foldM]. destruct (Nat.eq_dec o (n * n)) as [->|No].
  - unfold write_bit at 1. unfold get_column_and_row.
    assert (V : forall cc, view_get m n n (f64_floor_div (n * n) n) cc = None).
    { intros cc. unfold view_get. destruct (Nat.eq_dec n 0) as [E0|N0].
      - rewrite E0. destruct (f64_floor_div _ _); reflexivity.
      - rewrite f64_floor_div_correct by (unfold representable in Hr; nia).
        rewrite Nat.div_mul by exact N0. rewrite Nat.ltb_irrefl. reflexivity. }
    rewrite V. reflexivity.
  - destruct (write_bits_ok O depth n [b] m o Hr Hm ltac:(cbn [length]; lia)) as (m1 & E & D & _ & _ & _).
    cbn [foldM] in E. destruct (write_bit O n n depth (m, o) b) as [st| |] eqn:Ew; cbn [bind] in E; try discriminate E.
    assert (st = (m1, o + 1)) by (cbn [length] in E; congruence). subst st. cbn [bind].
    apply IH; try assumption; cbn [length] in Hl; try lia. unfold representable in Hr. lia.
Qed.

(** A byte position beyond the domain: the row is at least n. *)
Lemma write_bits_beyond b t m o : representable n n -> n * n <= o -> (Z.of_nat o < 2 ^ 53)%Z ->
  foldM (write_bit O n n depth) (b :: t) (m, o) = Panic UnwrapNone.
Proof.
  intros Hr Ho H53. cbn [foldM]. unfold write_bit at 1. unfold get_column_and_row.
  assert (V : forall cc, view_get m n n (f64_floor_div o n) cc = None).
  { intros cc. unfold view_get. destruct (Nat.eq_dec n 0) as [E0|N0].
    - rewrite E0. destruct (f64_floor_div _ _); reflexivity.
    - rewrite f64_floor_div_correct by (unfold representable in Hr; nia).
      assert (n <= o / n) by (apply Nat.div_le_lower_bound; lia).
      rewrite (proj2 (Nat.ltb_ge _ _)) by assumption. reflexivity. }
  rewrite V. reflexivity.
Qed.

(** The first call that does not fit panics, and in which way. *)
Lemma perform_panics m at_ c : representable n n -> in_domain n m -> (Z.of_nat (starts c at_) < 2 ^ 53)%Z -> ~ fits n c at_ ->
  written_bytes c <> [] ->
  perform n depth (m, at_) c = Panic (if n * n / 8 <? length (written_bytes c) then NoCapacity else UnwrapNone).
Proof.
  intros Hr Hm H53 Hf Hne. rewrite perform_eq. unfold writer_write. rewrite capacity_eq by exact Hr.
  destruct (Nat.ltb_spec (n * n / 8) (length (written_bytes c))) as [H|H]; [reflexivity|].
  assert (He : n * n < starts c at_ + 8 * length (written_bytes c)).
  { destruct (le_lt_dec (starts c at_ + 8 * length (written_bytes c)) (n * n)); [|assumption]. exfalso. apply Hf. split; assumption. }
  destruct (le_lt_dec (starts c at_) (n * n)) as [Hs|Hs].
  - apply write_bits_panics; try assumption. rewrite bits_of_bytes_length. exact He.
  - destruct (bits_of_bytes (written_bytes c)) as [|b t] eqn:Eb.
    + pose proof (bits_of_bytes_length (written_bytes c)) as L. rewrite Eb in L. destruct (written_bytes c); [contradiction|]. cbn [length] in L. lia.
    + apply write_bits_beyond; [exact Hr|lia|exact H53].
Qed.
End Run.

(** *** C97, any arithmetic: a history runs through iff every call fits, touches exactly the positions of its calls, and the
    first call that does not fit panics. *)
Theorem C97_when_a_history_runs_through : forall (F : Type) (O : FOps F) depth n m before c after,
  square_domain m n -> all_fit n before -> written_bytes c <> [] -> (Z.of_nat (starts c (position_after before)) < 2 ^ 53)%Z ->
  ~ fits n c (position_after before) ->
  history O n depth m (before ++ c :: after)
  = Panic (if n * n / 8 <? length (written_bytes c) then NoCapacity else UnwrapNone).
Proof.
  intros F O depth n m before c after Hsd Hf Hne H53 Hc. destruct (sd_in m n Hsd) as (Hd & Hr). rewrite history_run.
  destruct (run_ok O depth n before m 0 Hr Hd Hf) as (m1 & E & D & _).
  assert (G : forall l1 l2 st, foldM (perform O n depth) (l1 ++ l2) st = (st' <- foldM (perform O n depth) l1 st ;; foldM (perform O n depth) l2 st')).
  { clear. induction l1 as [|a t IH]; intros l2 st; [reflexivity|]. cbn [app foldM]. destruct (perform O n depth st a); cbn [bind]; [apply IH|reflexivity|reflexivity]. }
  rewrite G, E. cbn [bind foldM]. fold (position_after before).
  rewrite (perform_panics O depth n m1 _ c Hr D H53 Hc Hne). reflexivity.
Qed.

Theorem C97_untouched_positions : forall (F : Type) (O : FOps F) depth n m calls,
  square_domain m n -> all_fit n calls ->
  exists m', history O n depth m calls = Ok (m', position_after calls) /\ square_domain m' n
    /\ dim0 m' = dim0 m /\ dim1 m' = dim1 m
    /\ (forall k, k < n * n -> tape calls k = None -> value_at m' (cell_of_bit n k) = value_at m (cell_of_bit n k))
    /\ (forall i j, ~ (i < n /\ j < n) -> cell m' i j = cell m i j).
Proof.
  intros F O depth n m calls Hsd Hf. destruct (sd_in m n Hsd) as (Hd & Hr). rewrite history_run.
  destruct (run_ok O depth n calls m 0 Hr Hd Hf) as (m' & E & (W & D0 & D1) & E0 & E1 & C & X).
  exists m'. split; [exact E|]. split; [split; [exact W|split; [exact D0|split; [exact D1|exact Hr]]]|].
  split; [exact E0|]. split; [exact E1|]. split; [|exact X].
  intros k Hk Ht. unfold value_at, cell_of_bit. cbn [fst snd]. rewrite C by exact Hk.
  assert (G : forall calls at_ old, tape_from k calls at_ old = None -> old = None /\ forall v, cell_after O depth k calls at_ v = v).
  { clear. induction calls as [|c t IH]; intros at_ old H; [split; [exact H|reflexivity]|]. cbn [tape_from] in H. cbn [cell_after].
    destruct (IH _ _ H) as (P & Q). unfold put in P |- *. destruct ((starts c at_ <=? k) && (k <? ends c at_)); [discriminate P|].
    split; [exact P|exact Q]. }
  destruct (G calls 0 None Ht) as (_ & Q). destruct (cell m (k / n) (k mod n)) as [v|]; [|reflexivity]. cbn [option_map]. now rewrite Q.
Qed.

(** An arithmetic in which marks can be read, and can be marked again: values that satisfy [J] can be marked, the result again
    satisfies [J] and shows the bit. *)
Lemma cell_after_bit {F} (O : FOps F) depth k (J I : F -> Prop) :
  (forall v, J v -> I v) ->
  (forall b v, I v -> I (mark O depth b v) /\ bit_of O depth (mark O depth b v) = b) ->
  forall calls at_ old v, I v -> (forall b, old = Some b -> bit_of O depth v = b) ->
    I (cell_after O depth k calls at_ v)
    /\ (forall b, tape_from k calls at_ old = Some b -> bit_of O depth (cell_after O depth k calls at_ v) = b).
Proof.
  intros HJ HI. induction calls as [|c t IH]; intros at_ old v Hv Hold; [split; [exact Hv|exact Hold]|].
  cbn [cell_after tape_from]. unfold put. destruct ((starts c at_ <=? k) && (k <? ends c at_)).
  - destruct (HI (payload_bit (written_bytes c) (k - starts c at_)) v Hv) as (I1 & I2). apply IH; [exact I1|].
    intros b Hb. congruence.
  - apply IH; assumption.
Qed.

(** What the reader returns after a history: the tape where something was written, the old bits elsewhere. *)
Definition reads_the_tape (n : nat) (calls : list call) (before after : list Z) : Prop :=
  length before = n * n / 8 /\ length after = n * n / 8 /\ bytes after
  /\ forall k, k < 8 * (n * n / 8) -> payload_bit after k = match tape calls k with Some b => b | None => payload_bit before k end.

Lemma history_read {F} (O : FOps F) depth n m calls (I : F -> Prop) : square_domain m n -> all_fit n calls ->
  (forall k c, k < n * n -> tape calls k <> None -> value_at m (cell_of_bit n k) = Some c -> I c) ->
  (forall b v, I v -> I (mark O depth b v) /\ bit_of O depth (mark O depth b v) = b) ->
  exists m' before after, read O m n n depth = Ok before /\ history O n depth m calls = Ok (m', position_after calls)
    /\ read O m' n n depth = Ok after /\ reads_the_tape n calls before after.
Proof.
  intros Hsd Hf HI HM. destruct (sd_in m n Hsd) as (Hd & Hr). rewrite history_run.
  destruct (run_ok O depth n calls m 0 Hr Hd Hf) as (m' & E & D & E0 & E1 & C & X).
  pose proof (read_ok O depth n m Hr Hd) as R0. pose proof (read_ok O depth n m' Hr D) as R1.
  destruct (read_bits O depth n m _ Hr Hd R0) as (L0 & B0). destruct (read_bits O depth n m' _ Hr D R1) as (L1 & B1).
  exists m'. eexists. eexists. split; [exact R0|]. split; [exact E|]. split; [exact R1|].
  split; [exact L0|]. split; [exact L1|]. split; [apply (read_bytes O depth n m'); assumption|].
  intros k Hk. rewrite <- !nth_bits. rewrite B0 by (rewrite L0; exact Hk). rewrite B1 by (rewrite L1; exact Hk).
  pose proof (Nat.mul_div_le (n * n) 8 ltac:(lia)). assert (Hkn : k < n * n) by lia. assert (Hn : 0 < n) by nia.
  destruct (place_lt n k Hn Hkn) as (P1 & P2). destruct Hd as (Hwf & Q0 & Q1).
  destruct (cell_bounds m (k / n) (k mod n) Hwf ltac:(lia) ltac:(lia)) as (v & Hv).
  unfold cell_bit, cell_at. rewrite C, Hv by exact Hkn. cbn [option_map].
  destruct (tape calls k) as [b|] eqn:Et.
  - assert (Iv : I v). { apply (HI k v Hkn); [congruence|]. unfold value_at, cell_of_bit. exact Hv. }
    destruct (cell_after_bit O depth k I I ltac:(auto) HM calls 0 None v Iv ltac:(discriminate)) as (_ & G). apply G. exact Et.
  - assert (G : forall calls at_ old, tape_from k calls at_ old = None -> old = None /\ cell_after O depth k calls at_ v = v).
    { clear. induction calls as [|c t IH]; intros at_ old H; [split; [exact H|reflexivity]|]. cbn [tape_from] in H. cbn [cell_after].
      destruct (IH _ _ H) as (P & Q). unfold put in P |- *. destruct ((starts c at_ <=? k) && (k <? ends c at_)); [discriminate P|].
      split; [exact P|exact Q]. }
    destruct (G calls 0 None Et) as (_ & ->). reflexivity.
Qed.

Theorem C97_the_last_write_counts : forall depth n m calls, (0 < depth)%R -> square_domain m n -> all_fit n calls ->
  exists m' before after, read Rops m n n depth = Ok before /\ history Rops n depth m calls = Ok (m', position_after calls)
    /\ read Rops m' n n depth = Ok after /\ reads_the_tape n calls before after.
Proof.
  intros depth n m calls Hd Hsd Hf. apply (history_read Rops depth n m calls (fun _ => True)); try assumption; [auto|].
  intros b v _. split; [exact I|]. rewrite (bit_of_real depth (nearest (v / depth)) b) by
    (try lra; rewrite mark_real; rewrite Rminus_self, Rabs_R0; rewrite (Rabs_pos_eq depth) by lra; lra).
  rewrite Rlt_bool_true by exact Hd. reflexivity.
Qed.

(** In binary64, for depths of ordinary magnitude and coefficients of at most 2^39 depths at the positions written to, however
    often each position is written. *)
Section F64.
Context (s : b64) (Fs : fin s) (Hs : ordinary_step (toR s)).

(** A coefficient that may have been marked before: its nearest multiple of the depth is fixed. *)
Definition markable (v : b64) : Prop :=
  fin v /\ ((Rabs (toR v) <= bpow radix2 39 * toR s)%R
            \/ exists r b, (Z.abs r <= 2 ^ 39 + 1)%Z /\ (Rabs (toR v - toR s * (IZR r + quarter b)) <= bpow radix2 (-12) * toR s)%R).

Lemma quarter_small b : (Rabs (quarter b) <= / 4)%R.
Proof. unfold quarter. destruct b; apply Rabs_le; lra. Qed.

Lemma markable_again b v : markable v -> markable (mark Bops s b v) /\ bit_of Bops s (mark Bops s b v) = b.
Proof.
  intros (Fv & Hv). pose proof (S_pos s Hs) as HD. set (D := toR s) in *.
  assert (G : exists r, (Z.abs r <= 2 ^ 39 + 1)%Z /\ fin (mark Bops s b v)
            /\ (Rabs (toR (mark Bops s b v) - D * (IZR r + quarter b)) <= bpow radix2 (-12) * D)%R).
  { destruct Hv as [Hv|(r & b0 & Hr & Hv)].
    - destruct (mark_float_nearest s Fs Hs 39 b v ltac:(lia) Fv Hv) as (r & H1 & H2 & H3 & _). exists r. split; [exact H1|]. split; [exact H2|].
      eapply Rle_trans; [exact H3|]. apply Rmult_le_compat_r; [lra|]. apply bpow_le. lia.
    - pose proof (quarter_small b0) as Hq. apply Rabs_le_inv in Hq.
      assert (Hx : (Rabs (toR v / D - (IZR r + quarter b0)) <= bpow radix2 (-12))%R).
      { replace (toR v / D - (IZR r + quarter b0))%R with ((toR v - D * (IZR r + quarter b0)) / D)%R by (field; lra).
        unfold Rdiv. rewrite Rabs_mult, (Rabs_pos_eq (/ D)) by (left; now apply Rinv_0_lt_compat).
        apply Rmult_le_reg_r with D; [exact HD|]. rewrite Rmult_assoc, Rinv_l, Rmult_1_r by lra. exact Hv. }
      assert (HR : (Rabs (IZR r) <= 549755813889)%R).
      { rewrite <- abs_IZR. apply (IZR_le _ (2 ^ 39 + 1)). exact Hr. }
      simpl bpow in Hx. apply Rabs_le_inv in Hx. apply Rabs_le_inv in HR.
      assert (Hb : (Rabs (toR v) <= bpow radix2 40 * D)%R).
      { replace (toR v) with (toR v / D * D)%R by (field; lra). rewrite Rabs_mult, (Rabs_pos_eq D) by lra.
        apply Rmult_le_compat_r; [lra|]. simpl bpow. apply Rabs_le. lra. }
      destruct (mark_float_nearest s Fs Hs 40 b v ltac:(lia) Fv Hb) as (r' & H1 & H2 & H3 & _ & H5). fold D in H3, H5.
      simpl bpow in H5. apply Rabs_le_inv in H5.
      assert (r' = r).
      { assert (A : (IZR (r' - r) < 1)%R) by (rewrite minus_IZR; lra). assert (B : (-1 < IZR (r' - r))%R) by (rewrite minus_IZR; lra).
        apply lt_IZR in A. apply lt_IZR in B. lia. }
      subst r'. exists r. split; [exact Hr|]. split; [exact H2|]. exact H3. }
  destruct G as (r & Hr & Fm & Hm). split.
  - split; [exact Fm|]. right. exists r, b. split; assumption.
  - apply (bit_of_float s Fs Hs r); [exact Fm|lia|]. fold D. eapply Rle_trans; [exact Hm|]. apply Rmult_le_compat_r; [lra|].
    simpl bpow. lra.
Qed.
End F64.

Theorem C97_f64_the_last_write_counts : forall (depth : b64) n m calls,
  fin depth -> (bpow radix2 (-500) <= toR depth <= bpow radix2 500)%R -> square_domain m n -> all_fit n calls ->
  (forall k c, k < n * n -> tape calls k <> None -> value_at m (cell_of_bit n k) = Some c ->
     fin c /\ (Rabs (toR c) <= bpow radix2 39 * toR depth)%R) ->
  exists m' before after, read Bops m n n depth = Ok before /\ history Bops n depth m calls = Ok (m', position_after calls)
    /\ read Bops m' n n depth = Ok after /\ reads_the_tape n calls before after.
Proof.
  intros depth n m calls Fd Hd Hsd Hf Hc. apply (history_read Bops depth n m calls (markable depth)); try assumption.
  - intros k c Hk Ht Hv. destruct (Hc k c Hk Ht Hv) as (F1 & F2). split; [exact F1|left; exact F2].
  - intros b v Hv. apply (markable_again depth Fd Hd b v Hv).
Qed.

(** *** Writing in pieces: the same as writing everything at once while it fits; beyond, the capacity check (which looks at each
    piece only) does not notice, and the panic is another one. *)
Theorem C97_writing_in_pieces : forall (F : Type) (O : FOps F) depth n m pieces,
  square_domain m n -> Forall (fun p => length p <= n * n / 8) pieces ->
  let payload := concat pieces in
  history O n depth m (map Append pieces)
  = (if n * n / 8 <? length payload then Panic UnwrapNone
     else m' <- write O m n n payload depth ;; Ok (m', 8 * length payload)).
Proof.
  intros F O depth n m pieces Hsd HF payload. destruct (sd_in m n Hsd) as (Hd & Hr). rewrite history_run.
  assert (G : forall pieces st, Forall (fun p => length p <= n * n / 8) pieces ->
      foldM (perform O n depth) (map Append pieces) st = foldM (write_bit O n n depth) (bits_of_bytes (concat pieces)) st).
  { clear - Hr. induction pieces as [|p t IH]; intros st H; [reflexivity|]. inversion H as [|? ? Hp Ht]; subst.
    cbn [map foldM concat]. rewrite bits_of_bytes_app.
    assert (A : forall l1 l2 st, foldM (write_bit O n n depth) (l1 ++ l2) st
              = (st' <- foldM (write_bit O n n depth) l1 st ;; foldM (write_bit O n n depth) l2 st')).
    { clear. induction l1 as [|a t IH]; intros l2 st; [reflexivity|]. cbn [app foldM].
      destruct (write_bit O n n depth st a); cbn [bind]; [apply IH|reflexivity|reflexivity]. }
    rewrite A. unfold perform at 1, writer_write. rewrite capacity_eq, (proj2 (Nat.ltb_ge _ _)) by assumption.
    destruct (foldM _ (bits_of_bytes p) st); cbn [bind]; [apply IH; exact Ht|reflexivity|reflexivity]. }
  rewrite G by exact HF. fold payload. pose proof (Nat.div_mod (n * n) 8 ltac:(lia)). pose proof (Nat.mod_upper_bound (n * n) 8 ltac:(lia)).
  destruct (Nat.ltb_spec (n * n / 8) (length payload)) as [H1|H1].
  - apply write_bits_panics; try assumption; [lia|rewrite bits_of_bytes_length; lia|reflexivity].
  - unfold write. rewrite capacity_eq, (proj2 (Nat.ltb_ge _ _)) by assumption.
    destruct (write_bits_ok O depth n (bits_of_bytes payload) m 0 Hr Hd ltac:(rewrite bits_of_bytes_length; lia)) as (m' & E & _).
    rewrite E, bits_of_bytes_length. reflexivity.
Qed.

(** Replacing one byte of a payload already written (the header the comments in `close` speak of). *)
Theorem C97_replacing_a_byte : forall depth n m front byte byte' back, (0 < depth)%R -> square_domain m n ->
  bytes (front ++ byte :: back) -> (0 <= byte' < 256)%Z -> length (front ++ byte :: back) <= n * n / 8 ->
  exists m' before, read Rops m n n depth = Ok before
    /\ history Rops n depth m [Append (front ++ byte :: back); ByteAt byte' (8 * length front)] = Ok (m', 8 * length front + 8)
    /\ read Rops m' n n depth = Ok (front ++ byte' :: back ++ skipn (length (front ++ byte :: back)) before).
Proof.
  intros depth n m front byte byte' back Hd Hsd Hb Hb' Hl.
  set (calls := [Append (front ++ byte :: back); ByteAt byte' (8 * length front)]).
  pose proof (Nat.mul_div_le (n * n) 8 ltac:(lia)) as H8. pose proof (app_length front (byte :: back)) as La. cbn [length] in La.
  assert (Hf : all_fit n calls).
  { unfold all_fit, calls, all_fit_from, fits, ends, starts, written_bytes. cbn [length]. lia. }
  destruct (C97_the_last_write_counts depth n m calls Hd Hsd Hf) as (m' & before & after & R0 & E & R1 & (L0 & L1 & Ba & T)).
  exists m', before. split; [exact R0|]. split.
  { rewrite E. do 2 f_equal. }
  rewrite R1. f_equal. set (want := front ++ byte' :: back ++ skipn (length (front ++ byte :: back)) before).
  assert (Bb : bytes before) by (apply (read_bytes Rops depth n m); [apply (sd_in m n Hsd)|apply (sd_in m n Hsd)|exact R0]).
  assert (Lw : length want = n * n / 8).
  { unfold want. rewrite app_length. cbn [length]. rewrite app_length, skipn_length. lia. }
  assert (Bw : bytes want).
  { unfold want, bytes in *. apply Forall_app in Hb as (B1 & B2). inversion B2; subst. apply Forall_app. split; [assumption|].
    constructor; [exact Hb'|]. apply Forall_app. split; [assumption|]. rewrite <- (firstn_skipn (length (front ++ byte :: back)) before) in Bb.
    apply Forall_app in Bb. apply Bb. }
  rewrite <- (raw_bytes_bits_of_bytes zero_pad after Ba), <- (raw_bytes_bits_of_bytes zero_pad want Bw). f_equal.
  apply (nth_ext _ _ false false); [now rewrite !bits_of_bytes_length, L1, Lw|]. intros k Hk. rewrite bits_of_bytes_length, L1 in Hk.
  rewrite !nth_bits, T by exact Hk. unfold tape, calls. cbn [tape_from]. unfold put, ends, starts, written_bytes. cbn [length].
  pose proof (Nat.div_mod k 8 ltac:(lia)) as Ek. pose proof (Nat.mod_upper_bound k 8 ltac:(lia)) as Mk.
  destruct (le_lt_dec (8 * length front) k) as [A1|A1]; [destruct (le_lt_dec (8 * length front + 8) k) as [A2|A2]|].
  - rewrite (proj2 (Nat.ltb_ge k (8 * length front + 8 * 1))) by lia. rewrite andb_false_r.
    unfold payload_bit. destruct (le_lt_dec (8 * length (front ++ byte :: back)) k) as [A3|A3].
    + rewrite (proj2 (Nat.ltb_ge k (0 + 8 * length (front ++ byte :: back)))) by lia. rewrite andb_false_r.
      f_equal. unfold want. rewrite app_nth2 by lia. replace (k / 8 - length front) with (S (k / 8 - length front - 1)) by lia. cbn [nth].
      rewrite app_nth2 by lia. rewrite <- (firstn_skipn (length (front ++ byte :: back)) before) at 1.
      rewrite app_nth2; rewrite firstn_length, L0, Nat.min_l by lia; [|lia]. f_equal. lia.
    + rewrite (proj2 (Nat.ltb_lt k (0 + 8 * length (front ++ byte :: back)))) by lia. rewrite (proj2 (Nat.leb_le 0 k)) by lia. cbn [andb].
      rewrite Nat.sub_0_r. f_equal. unfold want. rewrite !app_nth2 by lia.
      replace (k / 8 - length front) with (S (k / 8 - length front - 1)) by lia. cbn [nth].
      rewrite app_nth1 by lia. reflexivity.
  - rewrite (proj2 (Nat.ltb_lt k (8 * length front + 8 * 1))) by lia. rewrite (proj2 (Nat.leb_le _ k)) by lia. cbn [andb].
    unfold payload_bit, want. rewrite app_nth2 by lia. replace (k / 8) with (length front) by lia. rewrite Nat.sub_diag.
    replace ((k - 8 * length front) / 8) with 0 by (symmetry; apply Nat.div_small; lia). cbn [nth]. do 2 f_equal.
    rewrite (Nat.mod_small (k - 8 * length front)) by lia. lia.
  - rewrite (proj2 (Nat.leb_gt (8 * length front) k)) by lia. cbn [andb].
    rewrite (proj2 (Nat.ltb_lt k (0 + 8 * length (front ++ byte :: back)))) by lia. rewrite (proj2 (Nat.leb_le 0 k)) by lia. cbn [andb].
    rewrite Nat.sub_0_r. unfold payload_bit, want. f_equal. rewrite !app_nth1 by lia. reflexivity.
Qed.

(** *** A reader can be used once. *)
Theorem C97_a_reader_reads_once : forall (F : Type) (O : FOps F) depth n m, square_domain m n ->
  exists out, read O m n n depth = Ok out /\ reader_read O m n n depth 0 = Ok (out, 8 * (n * n / 8))
    /\ reader_read O m n n depth (8 * (n * n / 8)) = (if n * n / 8 =? 0 then Ok ([], 0) else Panic OutOfBounds).
Proof.
  intros F O depth n m Hsd. destruct (sd_in m n Hsd) as (Hd & Hr).
  pose proof (read_ok O depth n m Hr Hd) as R0. eexists. split; [exact R0|]. unfold reader_read. rewrite capacity_eq by exact Hr.
  pose proof (Nat.div_mod (n * n) 8 ltac:(lia)) as Hn. pose proof (Nat.mod_upper_bound (n * n) 8 ltac:(lia)) as Hm8.
  split.
  - assert (G : forall c k, 8 * (k + c) <= n * n -> reader_loop O m n n depth c (8 * k) = Ok (map (byte_at O depth n m) (seq k c), 8 * (k + c))).
    { induction c as [|c IH]; intros k Hk; [now rewrite Nat.add_0_r|]. cbn [reader_loop]. unfold reader_read_next.
      rewrite (mapM_ok_map _ (cell_bit O depth n m)); [|intros o Ho; apply in_seq in Ho; apply read_bit_ok; try assumption; lia].
      cbn [bind]. replace (8 * k + 8) with (8 * S k) by lia. rewrite IH by lia. cbn [bind seq map]. f_equal. f_equal; [f_equal|lia].
      apply Z.mod_small.
      exact (bits_value_byte (map (cell_bit O depth n m) (seq (8 * k) 8)) ltac:(rewrite map_length, seq_length; lia)). }
    pose proof (G (n * n / 8) 0 ltac:(lia)) as G0. rewrite Nat.mul_0_r, Nat.add_0_l in G0. exact G0.
  - destruct (Nat.eqb_spec (n * n / 8) 0) as [E|N]; [rewrite E; reflexivity|].
    destruct (n * n / 8) as [|c] eqn:Ec; [contradiction|]. cbn [reader_loop]. unfold reader_read_next.
    assert (P : mapM (read_bit O m n n depth) (seq (8 * S c) 8) = Panic OutOfBounds).
    { assert (Q : forall len o, o <= n * n < o + len -> mapM (read_bit O m n n depth) (seq o len) = Panic OutOfBounds).
      { induction len as [|len IH]; intros o Ho; [lia|]. cbn [seq mapM]. destruct (Nat.eq_dec o (n * n)) as [->|No].
        - unfold read_bit at 1. unfold get_column_and_row. rewrite f64_floor_div_correct by (unfold representable in Hr; nia).
          rewrite Nat.div_mul by nia. unfold view_get. rewrite Nat.ltb_irrefl. reflexivity.
        - rewrite read_bit_ok by (try assumption; lia). cbn [bind]. rewrite IH by lia. reflexivity. }
      apply Q. lia. }
    rewrite P. reflexivity.
Qed.

(** *** C98: the three code tables.  A code with word size n and message size k (bytes). *)
Definition codes : list code := [TC128; TC256; TC512; TM2048; TM8192].

Definition word_size (c : code) : Z := match c with TC128 => 16 | TC256 => 32 | TC512 => 64 | TM2048 => 256 | TM8192 => 1024 end.
Lemma n_bytes_Z c : Z.of_nat (n_bytes c) = word_size c.
Proof. destruct c; reflexivity. Qed.
Lemma k_bytes_Z c : (2 * Z.of_nat (k_bytes c) = word_size c)%Z.
Proof. destruct c; reflexivity. Qed.

Theorem C98_code_for_reading : forall bits c,
  get_code_for_decode bits = Some c <->
  8 * n_bytes c <= bits /\ forall c', 8 * n_bytes c' <= bits -> n_bytes c' <= n_bytes c.
Proof.
  intros bits c. unfold get_code_for_decode.
  assert (A : (8 * n_bytes c <= bits /\ forall c', 8 * n_bytes c' <= bits -> n_bytes c' <= n_bytes c)
              <-> (8 * word_size c <= Z.of_nat bits /\ forall c', 8 * word_size c' <= Z.of_nat bits -> word_size c' <= word_size c)%Z).
  { split; intros (H & H'); (split; [pose proof (n_bytes_Z c); lia|]); intros c' X; specialize (H' c'); pose proof (n_bytes_Z c); pose proof (n_bytes_Z c'); lia. }
  rewrite A. clear A. generalize (Z.of_nat bits). intros l.
  destruct (Z.leb_spec 128 l), (Z.leb_spec l 255), (Z.leb_spec 256 l), (Z.leb_spec l 511),
    (Z.leb_spec 512 l), (Z.leb_spec l 2047), (Z.leb_spec 2048 l), (Z.leb_spec l 8191), (Z.leb_spec 8192 l); try lia; cbn [andb];
  (split;
   [intros X; first [discriminate X|assert (Y := f_equal (fun o => match o with Some c => c | None => TC128 end) X); cbv beta iota in Y; subst c;
      split; [cbn [word_size]; lia|intros [] Z; cbn [word_size] in Z |- *; lia]]
   |intros (X1 & X2); pose proof (X2 TC128) as Q1; pose proof (X2 TC256) as Q2; pose proof (X2 TC512) as Q3; pose proof (X2 TM2048) as Q4; pose proof (X2 TM8192) as Q5;
      destruct c; cbn [word_size] in *; try reflexivity; exfalso; lia]).
Qed.

(** The table for messages: a code that holds that many bits, the smallest such, or the largest code if none holds them; none below 9. *)
Theorem C98_code_for_writing : forall bits,
  match get_code_for_encode bits with
  | None => bits < 9
  | Some c => 9 <= bits
      /\ (bits <= 8 * k_bytes c \/ forall c', k_bytes c' <= k_bytes c)
      /\ (forall c', bits <= 8 * k_bytes c' -> k_bytes c <= k_bytes c')
  end.
Proof.
  intros bits.
  assert (K : forall c c', (word_size c <= word_size c')%Z -> k_bytes c <= k_bytes c') by (intros c c'; pose proof (k_bytes_Z c); pose proof (k_bytes_Z c'); lia).
  assert (B : forall c, bits <= 8 * k_bytes c <-> (Z.of_nat bits <= 4 * word_size c)%Z) by (intros c; pose proof (k_bytes_Z c); lia).
  unfold get_code_for_encode.
  destruct (Z.leb_spec 9 (Z.of_nat bits)), (Z.leb_spec (Z.of_nat bits) 64), (Z.leb_spec 65 (Z.of_nat bits)), (Z.leb_spec (Z.of_nat bits) 128),
    (Z.leb_spec 129 (Z.of_nat bits)), (Z.leb_spec (Z.of_nat bits) 256), (Z.leb_spec 257 (Z.of_nat bits)), (Z.leb_spec (Z.of_nat bits) 1024), (Z.leb_spec 1025 (Z.of_nat bits)); try lia; cbn [andb];
  first [lia|split; [lia|split; [first [left; apply B; cbn [word_size]; lia|right; intros c'; apply K; destruct c'; cbn [word_size]; lia]
                      |intros c' X; apply K; apply B in X; destruct c'; cbn [word_size] in X |- *; lia]]].
Qed.

(** The table the encoder and the decoder use agrees with the table for reading wherever it has an entry. *)
Theorem C98_code_of_a_capacity : forall capacity c, get_code_by_codeword_length capacity = Some c -> get_code_for_decode (8 * capacity) = Some c.
Proof.
  intros cap c. unfold get_code_by_codeword_length, get_code_for_decode.
  destruct (Z.eqb_spec (Z.of_nat cap * 8) 128), (Z.eqb_spec (Z.of_nat cap * 8) 256), (Z.eqb_spec (Z.of_nat cap * 8) 512), (Z.eqb_spec (Z.of_nat cap * 8) 1024),
    (Z.eqb_spec (Z.of_nat cap * 8) 2048), (Z.eqb_spec (Z.of_nat cap * 8) 4096), (Z.leb_spec 8192 (Z.of_nat cap * 8)); try lia; cbn [orb]; intros E; try discriminate E;
  rewrite <- E; replace (Z.of_nat (8 * cap)) with (Z.of_nat cap * 8)%Z by lia;
  destruct (Z.leb_spec 128 (Z.of_nat cap * 8)), (Z.leb_spec (Z.of_nat cap * 8) 255), (Z.leb_spec 256 (Z.of_nat cap * 8)), (Z.leb_spec (Z.of_nat cap * 8) 511),
    (Z.leb_spec 512 (Z.of_nat cap * 8)), (Z.leb_spec (Z.of_nat cap * 8) 2047), (Z.leb_spec 2048 (Z.of_nat cap * 8)), (Z.leb_spec (Z.of_nat cap * 8) 8191), (Z.leb_spec 8192 (Z.of_nat cap * 8)); try lia; reflexivity.
Qed.

(** The check of the capacity hands a number of bytes to the table for messages, which counts bits: the check that is meant to
    demand 16 bytes demands 9. *)
Theorem C98_the_minimum_is_nine_bytes : forall width height, (Z.of_nat (width * height) < 2 ^ 53)%Z ->
  (9 <= width * height / 8 -> Embedding.get_domain_capacity width height = Ok (width * height / 8))
  /\ (width * height / 8 < 9 -> Embedding.get_domain_capacity width height = Panic MinCapacity).
Proof.
  intros w h Hr. pose proof (C98_code_for_writing (w * h / 8)) as X. unfold Embedding.get_domain_capacity. rewrite capacity_eq by exact Hr.
  destruct (get_code_for_encode _) as [c|]; split; intros H; try reflexivity; lia.
Qed.

(** ** Instances *)
Example C97_instance :
  let m := wit_matrix 7%R 4 4 in let calls := [Append [5]%Z; Append [200]%Z; ByteAt 9%Z 4] in
  square_domain m 4 /\ all_fit 4 calls /\ map (tape calls) (seq 0 16)
    = map Some [true; false; true; false; true; false; false; true; false; false; false; false; false; false; true; true]
  /\ ~ fits 4 (Append [1]%Z) (position_after [Append [5; 200]%Z]) /\ position_after calls = 12.
Proof.
  cbv zeta. split; [|split; [|split; [|split]]].
  - split; [split; [reflexivity|repeat constructor]|]. cbn [wit_matrix dim0 dim1]. lia.
  - unfold all_fit, all_fit_from, fits, ends, starts, written_bytes. cbn [length]. change (4 * 4 / 8) with 2. lia.
  - vm_compute. reflexivity.
  - intros (H1 & H2). vm_compute in H2. lia.
  - reflexivity.
Qed.
Example C98_instance : get_code_for_encode 128 = Some TC256 /\ get_code_for_decode 1024 = Some TC512 /\ get_code_by_codeword_length 128 = Some TC512
  /\ Embedding.get_domain_capacity 9 8 = Ok 9.
Proof. repeat split; vm_compute; reflexivity. Qed.
