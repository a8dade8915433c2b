(** Property C91: turned, mirrored and transposed pictures show the hidden bits in other places
    (lib/sia/rust/embedding/src/lib.rs: embed, extract). *)
From Coq Require Import Reals Lra.
From Flocq Require Import Core BinarySingleNaN.
From Verif Require Import Outcome Floats FloatFacts Bits ListFacts IndexArithProofs Codecs CodecProofs WatermarkProofs Encoding EncodingProofs PropsEncoding
  Matrix MatrixFacts Haar HaarProofs HaarReal HaarFloat PropsHaar QuantFloat Stego StegoProofs StegoMarks PropsStego Embedding EmbeddingProofs EmbeddingEffect
  PropsEmbedding PropsEmbedding2 PropsEmbedding3 Toy PropsRobust PropsInteger PropsClipping PropsDepth.
Open Scope Z_scope.

(** ** Specification vocabulary *)
(** A quarter turn, a left-right mirroring, a transposition; every symmetry of the square is a sequence of these. *)
Inductive move := QuarterTurn | Mirror | Transpose.
(** Where the content of place (i, j) of a moved square of side [n] comes from. *)
Definition from1 (g : move) (n : nat) (place : nat * nat) : nat * nat :=
  let '(i, j) := place in match g with QuarterTurn => (j, n - 1 - i)%nat | Mirror => (i, n - 1 - j)%nat | Transpose => (j, i) end.
(** After a sequence of moves, the first in the list done first. *)
Definition from (gs : list move) (n : nat) (place : nat * nat) : nat * nat := fold_right (fun g p => from1 g n p) place gs.
(** [received] is [image] after these moves. *)
Definition moved (gs : list move) (n : nat) (image received : array2 Z) : Prop :=
  forall i j, (i < n)%nat -> (j < n)%nat -> let '(x, y) := from gs n (i, j) in cell received i j = cell image x y.
(** Number of the block that block (bi, bj) of the moved picture comes from, [s] blocks to a side. *)
Definition source_block (gs : list move) (s bi bj : nat) : nat := let '(x, y) := from gs s (bi, bj) in (s * x + y)%nat.

(** ** Sums over a square *)
Lemma zsum_split0 n f : zsum (S n) f = f 0%nat + zsum n (fun k => f (S k)).
Proof. induction n; [cbn; lia|]. change (zsum (S (S n)) f) with (zsum (S n) f + f (S n)). rewrite IHn. change (zsum (S n) (fun k => f (S k))) with (zsum n (fun k => f (S k)) + f (S n)). lia. Qed.
Lemma zsum_rev n f : zsum n (fun k => f (n - 1 - k)%nat) = zsum n f.
Proof.
  revert f. induction n; intros f; [reflexivity|]. rewrite zsum_split0. cbn [zsum]. rewrite <- (IHn f). rewrite Z.add_comm. f_equal; [|f_equal; lia].
  apply zsum_ext. intros k Hk. f_equal. lia.
Qed.
Lemma zsum_zsum_plus n f g : zsum n (fun k => f k + g k) = zsum n f + zsum n g.
Proof. induction n; cbn [zsum]; lia. Qed.
Lemma zsum_zero n : zsum n (fun _ => 0) = 0.
Proof. induction n; cbn [zsum]; lia. Qed.
Lemma zsum_swap n m f : zsum n (fun p => zsum m (fun q => f p q)) = zsum m (fun q => zsum n (fun p => f p q)).
Proof. revert f. induction n; intros f; cbn [zsum]; [now rewrite zsum_zero|]. rewrite IHn, <- zsum_zsum_plus. apply zsum_ext. intros; reflexivity. Qed.
Lemma square_move g w (f : nat -> nat -> Z) :
  zsum w (fun p => zsum w (fun q => let '(x, y) := from1 g w (p, q) in f x y)) = zsum w (fun p => zsum w (fun q => f p q)).
Proof.
  destruct g; cbn [from1].
  - rewrite zsum_swap. apply zsum_ext. intros q Hq. exact (zsum_rev w (fun k => f q k)).
  - apply zsum_ext. intros p Hp. exact (zsum_rev w (fun k => f p k)).
  - apply zsum_swap.
Qed.
Lemma square_moves gs w : forall f : nat -> nat -> Z,
  zsum w (fun p => zsum w (fun q => let '(x, y) := from gs w (p, q) in f x y)) = zsum w (fun p => zsum w (fun q => f p q)).
Proof.
  induction gs as [|g gs IH]; intros f; [reflexivity|]. rewrite <- (square_move g w f), <- (IH (fun p q => let '(x, y) := from1 g w (p, q) in f x y)).
  apply zsum_ext. intros p Hp. apply zsum_ext. intros q Hq. unfold from. cbn [fold_right]. fold (from gs w (p, q)). destruct (from gs w (p, q)) as (x, y). reflexivity.
Qed.
Lemma from_lt gs n i j : (i < n)%nat -> (j < n)%nat -> (fst (from gs n (i, j)) < n)%nat /\ (snd (from gs n (i, j)) < n)%nat.
Proof.
  intros Hi Hj. induction gs as [|g gs IH]; [split; assumption|]. unfold from. cbn [fold_right]. fold (from gs n (i, j)). destruct (from gs n (i, j)) as (x, y).
  cbn [fst snd] in IH. destruct g; cbn [from1 fst snd]; lia.
Qed.
Lemma from_blocks gs w s bi bj p q : (bi < s)%nat -> (bj < s)%nat -> (p < w)%nat -> (q < w)%nat ->
  from gs (w * s) (w * bi + p, w * bj + q)%nat
  = (w * fst (from gs s (bi, bj)) + fst (from gs w (p, q)), w * snd (from gs s (bi, bj)) + snd (from gs w (p, q)))%nat.
Proof.
  intros Hi Hj Hp Hq. induction gs as [|g gs IH]; [reflexivity|].
  destruct (from_lt gs s bi bj Hi Hj) as (A1 & A2). destruct (from_lt gs w p q Hp Hq) as (B1 & B2).
  unfold from at 1 2 3 4 5. cbn [fold_right]. fold (from gs (w * s) (w * bi + p, w * bj + q)%nat) (from gs s (bi, bj)) (from gs w (p, q)). rewrite IH.
  destruct (from gs s (bi, bj)) as (x, y). destruct (from gs w (p, q)) as (u, v). cbn [fst snd] in *.
  assert (M : forall a b, (a < s)%nat -> (b < w)%nat -> (w * s - 1 - (w * a + b) = w * (s - 1 - a) + (w - 1 - b))%nat) by (intros a b Ha Hb; nia).
  destruct g; cbn [from1 fst snd]; rewrite ?M by assumption; reflexivity.
Qed.

Lemma moved_block gs image received n L : picture image n L -> moved gs n image received ->
  forall bi bj, (bi < n / 2 ^ L)%nat -> (bj < n / 2 ^ L)%nat ->
  block_total received L bi bj = block_total image L (fst (from gs (n / 2 ^ L) (bi, bj))) (snd (from gs (n / 2 ^ L) (bi, bj))).
Proof.
  intros (Hc & _) Hm bi bj Hi Hj. set (s := (n / 2 ^ L)%nat) in *. set (w := (2 ^ L)%nat) in *.
  assert (En : n = (w * s)%nat).
  { assert (Hd : (n mod w = 0)%nat) by apply Hc. assert (w <> 0)%nat by (unfold w; apply Nat.pow_nonzero; lia). pose proof (Nat.div_mod n w ltac:(lia)). unfold s. lia. }
  unfold block_total. fold w. destruct (from gs s (bi, bj)) as (x, y) eqn:Ef. cbn [fst snd].
  rewrite <- (square_moves gs w (fun p q => pixel image (w * x + p) (w * y + q))).
  apply zsum_ext. intros p Hp. apply zsum_ext. intros q Hq.
  assert (P1 : (w * bi + p < n)%nat) by nia. assert (P2 : (w * bj + q < n)%nat) by nia.
  specialize (Hm _ _ P1 P2). rewrite En, (from_blocks gs w s bi bj p q Hi Hj Hp Hq), Ef in Hm. cbn [fst snd] in Hm.
  destruct (from gs w (p, q)) as (u, v). cbn [fst snd] in Hm. unfold pixel. now rewrite Hm.
Qed.

(** *** C91, exact arithmetic: whatever the picture, reading the moved picture gives the bits of the picture itself, taken from the moved blocks. *)
Theorem C91_moved_pictures_show_moved_bits : forall K gs image received n levels depth,
  picture image n levels -> picture received n levels -> moved gs n image received -> (9 <= band_capacity n levels)%nat ->
  exists bytes_read bytes_moved, length bytes_read = band_capacity n levels /\ length bytes_moved = band_capacity n levels /\ bytes bytes_read /\ bytes bytes_moved
    /\ extract Rops K image depth levels = bind (decode K bytes_read (band_capacity n levels)) data_deserialize
    /\ extract Rops K received depth levels = bind (decode K bytes_moved (band_capacity n levels)) data_deserialize
    /\ forall bi bj, let s := (n / 2 ^ levels)%nat in (bi < s)%nat -> (bj < s)%nat ->
       (s * bi + bj < 8 * band_capacity n levels)%nat -> (source_block gs s bi bj < 8 * band_capacity n levels)%nat ->
       payload_bit bytes_moved (s * bi + bj) = payload_bit bytes_read (source_block gs s bi bj).
Proof.
  intros K gs m rc n L depth Hp Hr Hm H9.
  destruct (C61_extraction_in_closed_form K m n L depth Hp H9) as (rb & L1 & B1 & H1 & E1).
  destruct (C61_extraction_in_closed_form K rc n L depth Hr H9) as (mb & L2 & B2 & H2 & E2).
  exists rb, mb. repeat (split; [assumption|]). intros bi bj s Hi Hj K1 K2.
  specialize (H2 _ K1). specialize (H1 _ K2). cbv zeta in H1, H2. fold s in H1, H2.
  pose proof (moved_block gs m rc n L Hp Hm bi bj Hi Hj) as BT. fold s in BT. destruct (from_lt gs s bi bj Hi Hj) as (F1 & F2).
  unfold source_block in *. destruct (from gs s (bi, bj)) as (x, y). cbn [fst snd] in *.
  assert (D : forall a b, (b < s)%nat -> ((s * a + b) / s = a)%nat /\ ((s * a + b) mod s = b)%nat).
  { intros a b Hb. split; [symmetry; apply (Nat.div_unique _ _ _ b); lia|symmetry; apply (Nat.mod_unique _ _ a); lia]. }
  destruct (D bi bj Hj) as (D1 & D2). destruct (D x y F2) as (D3 & D4). rewrite D1, D2 in H2. rewrite D3, D4 in H1. unfold coefficient in H1, H2. rewrite BT in H2.
  destruct (payload_bit mb (s * bi + bj)), (payload_bit rb (s * x + y)); try reflexivity; [symmetry; apply H1, H2; reflexivity|apply H2, H1; reflexivity].
Qed.

(** *** C91, double precision, three levels, whole depth: the same unless a block sum is exactly on the border between two bits. *)
Theorem C91_f64_moved_pictures_show_moved_bits : forall K gs image received n depth, 1 <= depth <= 4096 ->
  picture image n 3 -> picture received n 3 -> moved gs n image received -> (9 <= band_capacity n 3)%nat ->
  exists bytes_read bytes_moved, length bytes_read = band_capacity n 3 /\ length bytes_moved = band_capacity n 3 /\ bytes bytes_read /\ bytes bytes_moved
    /\ extract Bops K image (f_of_Z Bops depth) 3 = bind (decode K bytes_read (band_capacity n 3)) data_deserialize
    /\ extract Bops K received (f_of_Z Bops depth) 3 = bind (decode K bytes_moved (band_capacity n 3)) data_deserialize
    /\ forall bi bj, let s := (n / 8)%nat in (bi < s)%nat -> (bj < s)%nat -> ~ border depth (block_total received 3 bi bj) ->
       (s * bi + bj < 8 * band_capacity n 3)%nat -> (source_block gs s bi bj < 8 * band_capacity n 3)%nat ->
       payload_bit bytes_moved (s * bi + bj) = payload_bit bytes_read (source_block gs s bi bj).
Proof.
  intros K gs m rc n depth HD Hp Hr Hm H9.
  destruct (C86_f64_extraction_in_integers K m n depth HD Hp H9) as (rb & L1 & B1 & H1 & E1).
  destruct (C86_f64_extraction_in_integers K rc n depth HD Hr H9) as (mb & L2 & B2 & H2 & E2).
  exists rb, mb. repeat (split; [assumption|]). intros bi bj s Hi Hj Hb K1 K2.
  specialize (H2 _ K1). specialize (H1 _ K2). cbv zeta in H1, H2. fold s in H1, H2.
  pose proof (moved_block gs m rc n 3 Hp Hm bi bj Hi Hj) as BT. change (n / 2 ^ 3)%nat with s in BT. destruct (from_lt gs s bi bj Hi Hj) as (F1 & F2).
  unfold source_block in *. destruct (from gs s (bi, bj)) as (x, y). cbn [fst snd] in *.
  assert (D : forall a b, (b < s)%nat -> ((s * a + b) / s = a)%nat /\ ((s * a + b) mod s = b)%nat).
  { intros a b Hb'. split; [symmetry; apply (Nat.div_unique _ _ _ b); lia|symmetry; apply (Nat.mod_unique _ _ a); lia]. }
  destruct (D bi bj Hj) as (D1 & D2). destruct (D x y F2) as (D3 & D4). rewrite D1, D2 in H2. rewrite D3, D4 in H1.
  revert H1 H2 Hb BT. generalize (block_total rc 3 bi bj) (block_total m 3 x y). intros T T' H1 H2 Hb ->. rewrite (H2 Hb), (H1 Hb). reflexivity.
Qed.

(** *** C91: a marked picture that is moved (and changed a little) shows the stored bits in moved places. *)
Theorem C91_f64_moved_marked_pictures : forall K gs image n depth payload marked, 1 <= depth <= 4096 ->
  picture image n 3 -> embed Bops K image payload (f_of_Z Bops depth) 3 = Ok marked ->
  exists frame stored, data_serialize payload = Ok frame /\ encode K frame (band_capacity n 3) = Ok stored
    /\ forall turned received, moved gs n marked turned -> picture received n 3 -> exists bytes_read, length bytes_read = band_capacity n 3 /\ bytes bytes_read
       /\ extract Bops K received (f_of_Z Bops depth) 3 = bind (decode K bytes_read (band_capacity n 3)) data_deserialize
       /\ forall bi bj t, let s := (n / 8)%nat in (bi < s)%nat -> (bj < s)%nat -> (s * bi + bj < 8 * band_capacity n 3)%nat -> (source_block gs s bi bj < 8 * length stored)%nat ->
          readable_block depth depth t image (fst (from gs s (bi, bj))) (snd (from gs s (bi, bj))) ->
          Z.abs (block_total received 3 bi bj - block_total turned 3 bi bj) <= t ->
          payload_bit bytes_read (s * bi + bj) = payload_bit stored (source_block gs s bi bj).
Proof.
  intros K gs m n D payload out HD Hp E.
  destruct (embed_inv Bops K m n 3 _ payload out (proj1 Hp) E) as (H9 & ser0 & enc0 & Hser & Henc & Hlen).
  destruct (readable_sum K m n D payload out HD Hp E) as (ser & enc & E1 & E2 & HS).
  assert (Pout : picture out n 3).
  { destruct (b_of_Z_ok D) as (Fd & Vd); [lia|]. change (b_of_Z D) with (f_of_Z Bops D) in *.
    assert (A1 : (1 <= IZR D)%R) by (apply (IZR_le 1); lia). assert (A2 : (IZR D <= 4096)%R) by (apply (IZR_le _ 4096); lia).
    assert (Hd' : (bpow radix2 (- (0)) <= toR (f_of_Z Bops D) <= bpow radix2 20)%R) by (rewrite Vd; simpl bpow; lra).
    destruct (embed_effect_float_gen 0 K m n 3 (f_of_Z Bops D) payload ser0 enc0 ltac:(lia) (proj1 Hp) (proj2 Hp) ltac:(lia) Fd Hd' H9 Hser Henc Hlen) as (out' & Eo & Heff).
    assert (out' = out) by congruence. subst out'. exact (eff_shape _ _ _ _ _ _ _ _ _ Heff). }
  exists ser, enc. split; [exact E1|]. split; [exact E2|].
  intros tn rc Hm Pr. destruct (C86_f64_extraction_in_integers K rc n D HD Pr H9) as (rb & Lb & Bb & Hbits & EX). exists rb. split; [exact Lb|]. split; [exact Bb|]. split; [exact EX|].
  intros bi bj t s Hi Hj Hk Hk' Hw Hn. specialize (Hbits _ Hk). cbv zeta in Hbits. fold s in Hbits.
  pose proof (moved_block gs out tn n 3 Pout Hm bi bj Hi Hj) as BT. change (n / 2 ^ 3)%nat with s in BT. destruct (from_lt gs s bi bj Hi Hj) as (F1 & F2).
  unfold source_block in *. destruct (from gs s (bi, bj)) as (x, y). cbn [fst snd] in *.
  assert (D1 : ((s * bi + bj) / s = bi)%nat) by (symmetry; apply (Nat.div_unique _ _ _ bj); lia). assert (D2 : ((s * bi + bj) mod s = bj)%nat) by (symmetry; apply (Nat.mod_unique _ _ bi); lia).
  rewrite D1, D2 in Hbits. destruct (HS x y D t F1 F2 Hk' Hw) as (r & Hr & _). fold s in Hr.
  revert Hbits Hr Hn BT. generalize (block_total rc 3 bi bj) (block_total tn 3 bi bj) (block_total out 3 x y). intros T T1 T2 Hbits Hr Hn ->.
  destruct (bit_read_near D r (payload_bit enc (s * x + y)) T ltac:(lia) ltac:(lia)) as (X1 & X2). rewrite (Hbits X2). exact X1.
Qed.

(** ** Concrete cases *)
(** Upside down (two quarter turns) the last block comes first; four quarter turns and two mirrorings change nothing. *)
Example C91_half_turn : source_block [QuarterTurn; QuarterTurn] 64 0 0 = 4095%nat /\ source_block [QuarterTurn; QuarterTurn] 64 0 1 = 4094%nat
  /\ source_block [Mirror] 64 0 0 = 63%nat /\ source_block [Transpose] 64 0 1 = 64%nat
  /\ (forall i j, (i < 512)%nat -> (j < 512)%nat -> from [QuarterTurn; QuarterTurn; QuarterTurn; QuarterTurn] 512 (i, j) = (i, j) /\ from [Mirror; Mirror] 512 (i, j) = (i, j)).
Proof. repeat (split; [reflexivity|]). intros i j Hi Hj. cbn [from fold_right from1]. split; f_equal; lia. Qed.
(** A flat marked picture of 128 x 128 that is mirrored meets the hypotheses of the last theorem. *)
Definition mirror128 (a : array2 Z) : array2 Z := mkArray2 (dim0 a) (dim1 a) (map (@rev Z) (rows a)).
Lemma mirror128_moved a : wf a -> dim0 a = 128%nat -> dim1 a = 128%nat -> moved [Mirror] 128 a (mirror128 a).
Proof.
  intros (W1 & W2) D0 D1 i j Hi Hj. cbn [from fold_right from1]. unfold mirror128, cell. cbn [rows dim0 dim1]. rewrite nth_error_map.
  destruct (nth_error (rows a) i) as [r|] eqn:Er; cbn [option_map]; [|reflexivity].
  assert (Lr : length r = 128%nat) by (rewrite Forall_forall in W2; rewrite <- D1; apply W2, (nth_error_In _ _ Er)).
  rewrite (nth_error_nth' (rev r) 0) by (rewrite rev_length; lia). rewrite (nth_error_nth' r 0) by lia. rewrite rev_nth by lia. do 2 f_equal. lia.
Qed.
Lemma mirror128_picture a : picture a 128 3 -> picture (mirror128 a) 128 3.
Proof.
  intros ((W & D0 & D1 & Rest) & H8). assert (W' : wf (mirror128 a)).
  { destruct W as (W1 & W2). split; cbn [mirror128 rows dim0 dim1]; [now rewrite map_length|]. apply Forall_map. eapply Forall_impl; [|exact W2]. intros r Hr. cbv beta. now rewrite rev_length. }
  split; [split; [exact W'|]; split; [exact D0|]; split; [exact D1|exact Rest]|].
  apply image8_cells; [exact W'|]. intros i j v Ev. destruct (cell_some_lt (mirror128 a) 128 3 i j v) as (Hi & Hj); [split; [exact W'|]; split; [exact D0|]; split; [exact D1|exact Rest]|exact Ev|].
  pose proof (mirror128_moved a W D0 D1 i j Hi Hj) as Em. cbn [from fold_right from1] in Em. rewrite Em in Ev. exact (image8_cell a _ _ v H8 Ev).
Qed.
Example C91_instance : exists marked, embed Bops toy_ldpc (wit_matrix 131 128 128) (repeat 65 12) (f_of_Z Bops 100) 3 = Ok marked
  /\ picture (mirror128 marked) 128 3 /\ moved [Mirror] 128 marked (mirror128 marked)
  /\ exists frame stored bytes_read, data_serialize (repeat 65 12) = Ok frame /\ encode toy_ldpc frame 32 = Ok stored
     /\ extract Bops toy_ldpc (mirror128 marked) (f_of_Z Bops 100) 3 = bind (decode toy_ldpc bytes_read 32) data_deserialize
     /\ forall bi bj, (bi < 16)%nat -> (bj < 16)%nat -> (16 * bi + (15 - bj) < 8 * length stored)%nat ->
        payload_bit bytes_read (16 * bi + bj) = payload_bit stored (16 * bi + (15 - bj)).
Proof.
  destruct C30_witness as (H1 & H2 & _ & H4 & H5 & _).
  assert (HB : bytes (repeat 65 12)) by (apply Forall_forall; intros x Hx; apply repeat_spec in Hx; subst x; unfold byte; lia).
  assert (RB : forall t bi bj, t <= 100 -> (bi < 16)%nat -> (bj < 16)%nat -> readable_block 100 100 t (wit_matrix 131 128 128) bi bj).
  { intros t bi bj Ht Hi Hj. apply flat128_readable; try assumption; [change (strongest 100) with 9|]; lia. }
  destruct (C90_f64_reading_at_a_fraction_of_the_depth toy_ldpc H1 H2 (wit_matrix 131 128 128) 128 1 100 (repeat 65 12) 0 ltac:(lia) ltac:(lia) ltac:(lia) eq_refl (flat128_picture 131 ltac:(lia)) H4 HB) as (mk & E & P & _).
  - rewrite repeat_length. lia.
  - rewrite repeat_length. exact H5.
  - intros bi bj Hi Hj _. change (128 / 8)%nat with 16%nat in *. apply RB; [lia|assumption|assumption].
  - change (1 * 100) with 100 in E. exists mk. split; [exact E|]. pose proof (mirror128_picture mk P) as Pm. split; [exact Pm|].
    assert (Hm : moved [Mirror] 128 mk (mirror128 mk)) by (destruct P as ((W & D0 & D1 & _) & _); now apply mirror128_moved). split; [exact Hm|].
    destruct (C91_f64_moved_marked_pictures toy_ldpc [Mirror] (wit_matrix 131 128 128) 128 100 (repeat 65 12) mk ltac:(lia) (flat128_picture 131 ltac:(lia)) E) as (fr & st & E1 & E2 & X).
    destruct (X (mirror128 mk) (mirror128 mk) Hm Pm) as (rb & _ & _ & EX & Hb). exists fr, st, rb. change (band_capacity 128 3) with 32%nat in *. change (128 / 8)%nat with 16%nat in *.
    split; [exact E1|]. split; [exact E2|]. split; [exact EX|]. intros bi bj Hi Hj Hk. cbv zeta in Hb.
    specialize (Hb bi bj 0 Hi Hj ltac:(lia)). change (source_block [Mirror] 16 bi bj) with (16 * bi + (16 - 1 - bj))%nat in Hb. change (16 - 1 - bj)%nat with (15 - bj)%nat in Hb.
    apply Hb; [exact Hk| |rewrite Z.sub_diag; cbn; lia]. cbn [from fold_right from1 fst snd]. apply RB; lia.
Qed.

Print Assumptions C91_moved_pictures_show_moved_bits.
Print Assumptions C91_f64_moved_pictures_show_moved_bits.
Print Assumptions C91_f64_moved_marked_pictures.
