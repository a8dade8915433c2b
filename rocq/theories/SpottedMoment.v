(** The last of eleven features of two pictures of 512 x 512 pixels: a white one with fourteen dark squares, and one whose upper half is dark whatever its blocks are.
    Helpers of property C109; the sums of PowerMoment.v are evaluated by the kernel. *)
From Coq Require Import Reals Lra.
From Flocq Require Import Core.
From Coquelicot Require Import Complex.
From Verif Require Import Outcome Matrix MatrixFacts HaarReal PropsRobust PropsClipping PropsTurn Zernike ZernikeProofs PropsZernike RelError PowerMoment.
Open Scope Z_scope.

(** The picture is divided into 16 x 16 squares of 32 x 32 pixels; these (row, column) are dark. *)
Definition dark_squares : list (nat * nat) :=
  [(0, 2); (0, 13); (1, 0); (1, 15); (2, 0); (2, 15); (12, 0); (12, 15); (14, 1); (14, 14); (15, 0); (15, 1); (15, 14); (15, 15)]%nat.
Definition dark (i j : nat) : bool := existsb (fun '(a, b) => Nat.eqb a i && Nat.eqb b j)%bool dark_squares.

(** Grey levels of the blocks, before and after. *)
Definition before (bi bj : nat) : Z := if dark (bi / 4) (bj / 4) then 13 else 255.
Definition below (bi bj : nat) : Z := if dark (bi / 4) (bj / 4) then 135 else 255.

Definition scale : Z := 2 ^ 28 * 511 ^ 21.
Definition c_before (bi bj : nat) (r i : Z) : Z :=
  r * (before bi bj + 1 * before bi (64 - 1 - bj)%nat + (-1) * (before (64 - 1 - bi)%nat bj + 1 * before (64 - 1 - bi)%nat (64 - 1 - bj)%nat)).
Definition c_fixed_re (bi bj : nat) (r : Z) : Z := r * (below (64 - 1 - bi)%nat bj + below (64 - 1 - bi)%nat (64 - 1 - bj)%nat).
Definition c_fixed_im (bi bj : nat) (i : Z) : Z := i * (below (64 - 1 - bi)%nat bj - below (64 - 1 - bi)%nat (64 - 1 - bj)%nat).
Definition c_re_up (bi bj : nat) (r i : Z) : Z := 254 * Z.max 0 r - c_fixed_re bi bj r.
Definition c_re_down (bi bj : nat) (r i : Z) : Z := 254 * Z.min 0 r - c_fixed_re bi bj r.
Definition c_im_up (bi bj : nat) (r i : Z) : Z := 127 * Z.abs i + c_fixed_im bi bj i.
Definition c_im_down (bi bj : nat) (r i : Z) : Z := - (127 * Z.abs i) + c_fixed_im bi bj i.
Definition on (F : nat -> nat -> Z -> Z -> Z) : nat * nat * Z * Z -> Z := fun '(bi, bj, r, i) => F bi bj r i.
Definition bound : Z := 197 * 4442 * scale / 2200000.
Definition numbers (q : list (nat * nat * Z * Z)) : bool :=
  let m := Z.max (Z.abs (add_up (on c_re_up) q)) (Z.abs (add_up (on c_re_down) q)) in
  let n := Z.max (Z.abs (add_up (on c_im_up) q)) (Z.abs (add_up (on c_im_down) q)) in
  (17 * 4446 * scale <=? 88000 * add_up (on c_before) q) && (m * m + n * n <=? bound * bound).
Lemma numbers_ok : numbers quarter = true.
Proof. vm_compute. reflexivity. Qed.

Lemma bound_ok : 0 <= bound /\ 2200000 * bound <= 197 * 4442 * scale.
Proof. unfold bound. split; [apply Z.div_pos; [vm_compute; discriminate|lia]|]. apply Z.mul_div_le. lia. Qed.
Lemma scale_pos : 0 < scale. Proof. reflexivity. Qed.
Opaque quarter scale bound.

Definition z2 (F : nat -> nat -> Z) : Z := zsum 32 (fun bi => zsum 32 (F bi)).
Lemma z2_quarter (F : nat -> nat -> Z -> Z -> Z) : z2 (fun bi bj => F bi bj (block_re bi bj) (block_im bi bj)) = add_up (on F) quarter.
Proof. exact (zsum_quarter F). Qed.
Lemma z2_le F G : (forall a b, (a < 32)%nat -> (b < 32)%nat -> F a b <= G a b) -> z2 F <= z2 G.
Proof. intros H. apply zsum2_le. exact H. Qed.

Lemma kappa_scale : (kappa * (PI * sqrt 2 * IZR scale) = 22)%R.
Proof.
  pose proof s2_pos as S2. pose proof PI_RGT_0 as HP. unfold kappa. Transparent scale. unfold scale. Opaque scale. rewrite mult_IZR.
  assert (E511 : IZR (511 ^ 21) = (511 ^ 21)%R) by (symmetry; exact (pow_IZR 511 21)). rewrite E511.
  assert (P : ((511 * sqrt 2) ^ 21 = 511 ^ 21 * (1024 * sqrt 2))%R).
  { rewrite Rpow_mult_distr. f_equal. change 21%nat with (2 * 10 + 1)%nat. rewrite pow_add, pow_mult, pow_1. f_equal. replace (sqrt 2 ^ 2)%R with 2%R by (rewrite <- Rsqr_pow2, Rsqr_sqrt; lra). lra. }
  rewrite pow_inv, P by lra. replace (INR 512) with 512%R by (rewrite INR_IZR_INZ; reflexivity). replace (IZR (2 ^ 28)) with (512 ^ 2 * 1024)%R by (simpl; lra).
  assert (H511 : (0 < 511 ^ 21)%R) by (apply pow_lt; lra). field. repeat split; lra.
Qed.
Lemma kappa_pos : (0 < kappa)%R.
Proof.
  pose proof s2_pos as S2. pose proof PI_RGT_0 as HP. unfold kappa. apply Rmult_lt_0_compat; [apply Rdiv_lt_0_compat; [lra|apply Rmult_lt_0_compat; [lra|apply pow_lt; apply lt_0_INR; lia]]|].
  apply pow_lt. apply Rinv_0_lt_compat. lra.
Qed.
Lemma pi_s2 : (4442 / 1000 <= PI * sqrt 2 <= 4446 / 1000)%R.
Proof.
  pose proof PI_bounds as HP. assert (S : (14142 / 10000 <= sqrt 2 <= 14143 / 10000)%R).
  { split; apply Rsqr_incr_0; try apply sqrt_pos; try lra; unfold Rsqr; rewrite sqrt_sqrt by lra; lra. }
  split; nra.
Qed.

(** The white picture with the dark squares: more than 4 1/4. *)
Lemma feature_before A : flat_blocks A before -> (17 / 4 <= Cmod (kappa * IZR (re_sum A), - (kappa * IZR (im_sum A))))%R.
Proof.
  intros H. pose proof numbers_ok as N. unfold numbers in N. cbv zeta in N. apply andb_true_iff in N as (N & _). apply Z.leb_le in N. rewrite <- z2_quarter in N.
  assert (E : re_sum A = z2 (fun bi bj => c_before bi bj (block_re bi bj) (block_im bi bj))) by exact (quarter_re A before H). rewrite <- E in N. clear E.
  apply IZR_le in N. rewrite !mult_IZR in N. pose proof kappa_scale as K. pose proof kappa_pos as KP. pose proof pi_s2 as PS. pose proof (IZR_lt _ _ scale_pos) as SP.
  apply Rle_trans with (kappa * IZR (re_sum A))%R; [|eapply Rle_trans; [apply Rle_abs|]; eapply Rle_trans; [|apply Rmax_Cmod]; apply Rmax_l].
  assert (X : (17 * 4446 * (kappa * IZR scale) <= 88000 * (kappa * IZR (re_sum A)))%R) by (apply Rmult_le_compat_l with (r := kappa) in N; lra).
  assert (Y : (kappa * IZR scale * (PI * sqrt 2) = 22)%R) by (rewrite <- K; ring). set (ks := (kappa * IZR scale)%R) in *.
  assert (Z0 : (22 <= ks * (4446 / 1000))%R) by (rewrite <- Y; apply Rmult_le_compat_l; [unfold ks; apply Rmult_le_pos; lra|lra]). lra.
Qed.

Lemma re_term r v1 v2 w1 w2 : 0 <= v1 <= 127 -> 0 <= v2 <= 127 ->
  254 * Z.min 0 r - r * (w1 + w2) <= r * (v1 + 1 * v2 + (-1) * (w1 + 1 * w2)) <= 254 * Z.max 0 r - r * (w1 + w2).
Proof.
  intros H1 H2. assert (S : 0 <= v1 + v2 <= 254) by lia. set (s := v1 + v2) in *. replace (r * (v1 + 1 * v2 + -1 * (w1 + 1 * w2))) with (r * s - r * (w1 + w2)) by (unfold s; ring).
  clearbody s. clear H1 H2. destruct (Z.le_ge_cases 0 r); [rewrite Z.min_l, Z.max_r by lia|rewrite Z.min_r, Z.max_l by lia]; nia.
Qed.
Lemma im_term r v1 v2 w1 w2 : 0 <= v1 <= 127 -> 0 <= v2 <= 127 ->
  - (127 * Z.abs r) + r * (w1 - w2) <= r * (v1 + (-1) * v2 + 1 * (w1 + (-1) * w2)) <= 127 * Z.abs r + r * (w1 - w2).
Proof.
  intros H1 H2. assert (S : -127 <= v1 - v2 <= 127) by lia. set (s := v1 - v2) in *. replace (r * (v1 + -1 * v2 + 1 * (w1 + -1 * w2))) with (r * s + r * (w1 - w2)) by (unfold s; ring).
  clearbody s. clear H1 H2. destruct (Z.le_ge_cases 0 r); [rewrite Z.abs_eq by lia|rewrite Z.abs_neq by lia]; nia.
Qed.

(** The other one: less than 1.97, whatever the levels of the upper half are, between 0 and 127. *)
Lemma feature_after A v : flat_blocks A v -> (forall bi bj, (bi < 32)%nat -> (bj < 64)%nat -> 0 <= v bi bj <= 127) -> (forall bi bj, (32 <= bi < 64)%nat -> (bj < 64)%nat -> v bi bj = below bi bj) ->
  (Cmod (kappa * IZR (re_sum A), - (kappa * IZR (im_sum A))) <= 197 / 100)%R.
Proof.
  intros H Hup Hlo. pose proof numbers_ok as N. unfold numbers in N. cbv zeta in N. apply andb_true_iff in N as (_ & N). apply Z.leb_le in N. rewrite <- !z2_quarter in N.
  assert (R1 : z2 (fun bi bj => c_re_down bi bj (block_re bi bj) (block_im bi bj)) <= re_sum A <= z2 (fun bi bj => c_re_up bi bj (block_re bi bj) (block_im bi bj))).
  { rewrite (quarter_re A v H). unfold z2. split; apply zsum2_le; intros a b Ha Hb; unfold c_re_down, c_re_up, c_fixed_re; rewrite (Hlo (64 - 1 - a)%nat b), (Hlo (64 - 1 - a)%nat (64 - 1 - b)%nat) by lia;
      apply (re_term (block_re a b) _ _ (below (64 - 1 - a) b) (below (64 - 1 - a) (64 - 1 - b)) (Hup a b Ha ltac:(lia)) (Hup a (64 - 1 - b)%nat Ha ltac:(lia))). }
  assert (I1 : z2 (fun bi bj => c_im_down bi bj (block_re bi bj) (block_im bi bj)) <= im_sum A <= z2 (fun bi bj => c_im_up bi bj (block_re bi bj) (block_im bi bj))).
  { rewrite (quarter_im A v H). unfold z2. split; apply zsum2_le; intros a b Ha Hb; unfold c_im_down, c_im_up, c_fixed_im; rewrite (Hlo (64 - 1 - a)%nat b), (Hlo (64 - 1 - a)%nat (64 - 1 - b)%nat) by lia;
      apply (im_term (block_im a b) _ _ (below (64 - 1 - a) b) (below (64 - 1 - a) (64 - 1 - b)) (Hup a b Ha ltac:(lia)) (Hup a (64 - 1 - b)%nat Ha ltac:(lia))). }
  revert N R1 I1. generalize (z2 (fun bi bj => c_re_down bi bj (block_re bi bj) (block_im bi bj))) (z2 (fun bi bj => c_re_up bi bj (block_re bi bj) (block_im bi bj)))
    (z2 (fun bi bj => c_im_down bi bj (block_re bi bj) (block_im bi bj))) (z2 (fun bi bj => c_im_up bi bj (block_re bi bj) (block_im bi bj))).
  generalize (re_sum A) (im_sum A). clear. intros re im a b c d N R1 I1.
  assert (S : re * re + im * im <= bound * bound).
  { set (m := Z.max (Z.abs b) (Z.abs a)) in *. set (n := Z.max (Z.abs d) (Z.abs c)) in *. assert (X : Z.abs re <= m) by lia. assert (Y : Z.abs im <= n) by lia. clearbody m n. rewrite <- (Z.abs_square re), <- (Z.abs_square im). pose proof (Z.abs_nonneg re). pose proof (Z.abs_nonneg im). apply Z.le_trans with (2 := N). apply Z.add_le_mono; apply Z.mul_le_mono_nonneg; assumption. }
  destruct bound_ok as (B0 & B1). apply IZR_le in S. rewrite plus_IZR, !mult_IZR in S. apply IZR_le in B1. rewrite !mult_IZR in B1. apply (IZR_le 0) in B0.
  pose proof kappa_scale as K. pose proof kappa_pos as KP. pose proof pi_s2 as PS. pose proof (IZR_lt _ _ scale_pos) as SP.
  apply Rle_trans with (kappa * IZR bound)%R.
  - unfold Cmod. cbn [fst snd]. apply Rsqr_incr_0; [|apply sqrt_pos|apply Rmult_le_pos; lra]. rewrite Rsqr_sqrt by (apply Rplus_le_le_0_compat; apply pow2_ge_0). unfold Rsqr.
    assert (0 <= kappa * kappa)%R by (apply Rmult_le_pos; lra). nra.
  - assert (Y : (kappa * IZR scale * (PI * sqrt 2) = 22)%R) by (rewrite <- K; ring). set (ks := (kappa * IZR scale)%R) in *.
    assert (Z0 : (ks * (4442 / 1000) <= 22)%R) by (rewrite <- Y; apply Rmult_le_compat_l; [unfold ks; apply Rmult_le_pos; lra|lra]).
    assert (X : (2200000 * (kappa * IZR bound) <= 197 * 4442 * ks)%R) by (unfold ks; apply Rmult_le_compat_l with (r := kappa) in B1; lra). lra.
Qed.
