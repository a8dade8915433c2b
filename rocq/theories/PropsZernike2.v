(** C66: size and stability of the Zernike features (exact reals, every order). *)
From Coq Require Import Reals Lra Psatz.
From Flocq Require Import Core.
From Coquelicot Require Import Complex.
From Verif Require Import Outcome Floats FloatFacts Matrix MatrixFacts HaarReal Zernike ZernikeProofs ZernikeBound PropsZernike.
Open Scope R_scope.

(** ** vocabulary *)
(** Value of pixel (i, j), as a real number. *)
Definition value_at (image : array2 Z) (i j : nat) : R := match cell image i j with Some p => IZR p | None => 0 end.
(** Mean over all pixels of |after - before - c|. *)
Definition mean_change (before after : array2 Z) (n : nat) (c : R) : R :=
  sum_over n (fun i => sum_over n (fun j => Rabs (value_at after i j - value_at before i j - c))) / INR (n * n).
(** All pixels are bytes. *)
Definition byte_pixels (image : array2 Z) : Prop := forall i j p, cell image i j = Some p -> (0 <= p <= 255)%Z.

(** ** helpers *)
Lemma Cmod_sumn n (x y : nat -> R) : Cmod (sumn n x, sumn n y) <= sumn n (fun k => Cmod (x k, y k)).
Proof.
  induction n as [|n IH]; cbn [sumn]; [change (0, 0) with (RtoC 0); rewrite Cmod_0; lra|].
  change (sumn n x + x n, sumn n y + y n) with ((sumn n x, sumn n y) + (x n, y n))%C.
  eapply Rle_trans; [apply Cmod_triangle|]. lra.
Qed.
Lemma sumn_le n f g : (forall k, (k < n)%nat -> f k <= g k) -> sumn n f <= sumn n g.
Proof. induction n as [|n IH]; intros H; cbn [sumn]; [lra|]. specialize (IH ltac:(intros; apply H; lia)). pose proof (H n ltac:(lia)). lra. Qed.
Lemma dsum_le w h G G' : (forall i j, (i < w)%nat -> (j < h)%nat -> G i j <= G' i j) -> dsum w h G <= dsum w h G'.
Proof. intros H. apply sumn_le. intros i Hi. apply sumn_le. intros j Hj. now apply H. Qed.
Lemma Cmod_dsum w h X Y : Cmod (dsum w h X, dsum w h Y) <= dsum w h (fun i j => Cmod (X i j, Y i j)).
Proof. unfold dsum. eapply Rle_trans; [apply Cmod_sumn|]. apply sumn_le. intros i _. apply Cmod_sumn. Qed.
Lemma dsum_const w h c : dsum w h (fun _ _ => c) = INR (w * h) * c.
Proof. unfold dsum. rewrite (sumn_ext w _ (fun _ => INR h * c)) by (intros; apply sumn_const). rewrite sumn_const, mult_INR. ring. Qed.

Lemma rho_range n i j : (2 <= n)%nat -> (i < n)%nat -> (j < n)%nat -> 0 <= sqrt (coord n i ^ 2 + coord n j ^ 2) <= 1.
Proof.
  intros Hn Hi Hj. pose proof (coord_bound n i Hn Hi) as Bx. pose proof (coord_bound n j Hn Hj) as By. pose proof sqrt2_pos as H2.
  assert (S2 : / sqrt 2 * / sqrt 2 = / 2) by (rewrite <- Rinv_mult, sqrt_sqrt by lra; reflexivity).
  assert (Sq : forall z, Rabs z <= / sqrt 2 -> z ^ 2 <= / 2).
  { intros z Hz. rewrite <- S2. replace (z ^ 2) with (Rabs z * Rabs z) by (rewrite <- Rabs_mult, Rabs_pos_eq; [ring|apply Rle_0_sqr]).
    apply Rmult_le_compat; try apply Rabs_pos; assumption. }
  split; [apply sqrt_pos|]. rewrite <- sqrt_1. apply sqrt_le_1_alt. pose proof (Sq _ Bx). pose proof (Sq _ By). lra.
Qed.
Lemma Cmod_Cscale k z : Cmod (Cscale k z) = Rabs k * Cmod z.
Proof. replace (Cscale k z) with (RtoC k * z)%C by (unfold Cscale, RtoC, Cmult; cbn; f_equal; ring). now rewrite Cmod_mult, Cmod_R. Qed.
Lemma zval_le_1 a b n i j : (b < a)%nat -> (2 <= n)%nat -> (i < n)%nat -> (j < n)%nat -> Cmod (kern a n b i j) <= 1.
Proof.
  intros Hab Hn Hi Hj. unfold kern, zval. pose proof (rho_range n i j Hn Hi Hj) as Hr. set (x := coord n i) in *. set (y := coord n j) in *.
  set (rho := sqrt (x ^ 2 + y ^ 2)) in *. rewrite Cmod_Cscale, Cmod_Cconj.
  pose proof (Rad_le_1 a b rho ltac:(lia) Hr) as HR. destruct (Req_dec rho 0) as [E|E].
  - rewrite E, Rad_0, Rabs_R0 by lia. lra.
  - rewrite cpow_unit; [lra|]. unfold Cmod. cbn [fst snd].
    replace ((x / rho) ^ 2 + (y / rho) ^ 2) with ((x ^ 2 + y ^ 2) / (rho * rho)) by (field; exact E).
    unfold rho. rewrite sqrt_sqrt by nra. unfold Rdiv. rewrite Rinv_r, sqrt_1; [reflexivity|]. intros Z. apply E. unfold rho. now rewrite Z, sqrt_0.
Qed.
Lemma integral_bound a b n P : (b < a)%nat -> (2 <= n)%nat -> Cmod (integral a b n P) <= dsum n n (fun i j => Rabs (P i j)).
Proof.
  intros Hab Hn. unfold integral. eapply Rle_trans; [apply Cmod_dsum|]. apply dsum_le. intros i j Hi Hj.
  change (P i j * fst (kern a n b i j), P i j * snd (kern a n b i j)) with (Cscale (P i j) (kern a n b i j)). rewrite Cmod_Cscale.
  pose proof (zval_le_1 a b n i j Hab Hn Hi Hj). pose proof (Rabs_pos (P i j)). nra.
Qed.
Lemma integral_lin a b n P Q c d : integral a b n (fun i j => c * P i j + d * Q i j) = (Cscale c (integral a b n P) + Cscale d (integral a b n Q))%C.
Proof.
  unfold integral, Cscale, Cplus. cbn [fst snd]. rewrite <- !dsum_lin. f_equal; apply dsum_ext; intros; ring.
Qed.
Lemma integral_one k i n : (i <= k)%nat -> (2 <= n)%nat -> integral (k + i + 1) (k - i) n (fun _ _ => 1) = (0, 0).
Proof.
  intros Hi Hn. pose proof (integral_opp (k + i + 1) (k - i) n (fun _ _ => 1) Hn (odd_index k i Hi) ltac:(lia)) as Ho. cbn beta in Ho.
  destruct (integral _ _ _ _) as (x, y). unfold Cscale in Ho. cbn [fst snd] in Ho.
  assert (Hx : x = -1 * x) by congruence. assert (Hy : y = -1 * y) by congruence. f_equal; lra.
Qed.
Lemma Cmod_sub_le u w : Rabs (Cmod u - Cmod w) <= Cmod (u - w)%C.
Proof.
  apply Rabs_le. split.
  - pose proof (Cmod_triangle (w - u)%C u) as H. replace (w - u + u)%C with w in H by (unfold Cminus; ring).
    replace (w - u)%C with (- (u - w))%C in H by ring. rewrite Cmod_opp in H. lra.
  - pose proof (Cmod_triangle (u - w)%C w) as H. replace (u - w + w)%C with u in H by ring. lra.
Qed.
(** the difference of two moments, up to a constant grey shift *)
Lemma integral_diff k i n P Q c : (i <= k)%nat -> (2 <= n)%nat ->
  Cmod (integral (k + i + 1) (k - i) n Q - integral (k + i + 1) (k - i) n P)%C <= dsum n n (fun x y => Rabs (Q x y - P x y - c)).
Proof.
  intros Hi Hn. set (a := (k + i + 1)%nat). set (b := (k - i)%nat).
  replace (integral a b n Q - integral a b n P)%C with (integral a b n (fun x y => Q x y - P x y - c)).
  { apply integral_bound; unfold a, b; lia. }
  rewrite (integral_ext a b n _ (fun x y => 1 * (1 * Q x y + (-1) * P x y) + (- c) * 1)) by (intros; ring).
  rewrite (integral_lin a b n (fun x y => 1 * Q x y + (-1) * P x y) (fun _ _ => 1)), (integral_lin a b n Q P).
  pose proof (integral_one k i n Hi Hn) as E1. fold a b in E1. rewrite E1.
  generalize (integral a b n P) (integral a b n Q). intros [p1 p2] [q1 q2]. apply injective_projections; cbn; ring.
Qed.
Lemma factor_scale k i n : (i <= k)%nat -> (2 <= n)%nat -> factor (k + i + 1 + (k - i)) n = 2 * INR (S k) / PI / INR (n * n).
Proof.
  intros Hi Hn. unfold factor. replace (k + i + 1 + (k - i))%nat with (2 * k + 1)%nat by lia. rewrite plus_INR, mult_INR, (S_INR k). change (INR 1) with 1. replace (INR 2) with 2 by reflexivity.
  replace (2 * INR k + 1 + 1) with (2 * (INR k + 1)) by ring. reflexivity.
Qed.
Lemma pos_sides n : (2 <= n)%nat -> 0 < INR (n * n). Proof. intros H. apply lt_0_INR. nia. Qed.

(** *** C66 *)
Theorem C66_radial_values_are_bounded : forall gamma order index r,
  (index <= order)%nat -> Nat.even (order - index) = true -> (Z.of_nat order < 2 ^ 64)%Z -> 0 <= r <= 1 ->
  exists value, radial gamma order index r = Ok value /\ Rabs value <= 1.
Proof.
  intros g order index r Hi He Hr Hr1. apply Nat.even_spec in He as (b & Hb).
  assert (Hab : exists a, order = (a + b)%nat /\ index = (a - b)%nat /\ (b <= a)%nat) by (exists (index + b)%nat; lia).
  destruct Hab as (a & A & B & Hab). clear Hi Hb. subst order index. rewrite radial_ok by lia. eexists. split; [reflexivity|]. now apply Rad_le_1.
Qed.

(** Changing the pixels by c plus something of mean absolute value m moves no feature by more than 2 * amount / PI * m. *)
Theorem C66_features_are_stable : forall gamma checks before after n amount c,
  square_image before n -> square_image after n -> amount_ok amount ->
  exists features features', calculate_features gamma checks before MomentsZernike amount = Ok features
    /\ calculate_features gamma checks after MomentsZernike amount = Ok features'
    /\ Forall2 (fun x x' => Rabs (x' - x) <= 2 * INR amount / PI * mean_change before after n c) features features'.
Proof.
  intros g checks A B n amount c (HA & Hn) (HB & _) (Ha1 & Ha2). destruct amount as [|k]; [lia|]. cbn [calculate_features].
  rewrite (features_ok g checks A n k), (features_ok g checks B n k) by (try assumption; lia). eexists _, _. split; [reflexivity|]. split; [reflexivity|].
  assert (H : Forall (fun i => (i <= k)%nat) (seq 0 (S k))) by (apply Forall_forall; intros i Hi; apply in_seq in Hi; lia).
  induction (seq 0 (S k)) as [|i l IH]; cbn [map]; constructor; [|apply IH; now inversion H].
  assert (Hi : (i <= k)%nat) by now inversion H.
  rewrite !feature_integral, factor_scale by assumption. rewrite <- Rmult_minus_distr_l, Rabs_mult.
  pose proof (pos_sides n Hn) as Hp. pose proof PI_RGT_0 as Hpi. pose proof (pos_INR (S k)) as Hk.
  assert (H0 : 0 <= 2 * INR (S k) / PI) by (apply Rmult_le_pos; [lra|left; now apply Rinv_0_lt_compat]).
  rewrite Rabs_pos_eq by (apply Rmult_le_pos; [exact H0|left; now apply Rinv_0_lt_compat]).
  unfold Rdiv at 1. rewrite Rmult_assoc. apply Rmult_le_compat_l; [exact H0|]. unfold mean_change, Rdiv. rewrite Rmult_comm.
  apply Rmult_le_compat_r; [left; now apply Rinv_0_lt_compat|].
  eapply Rle_trans; [apply Cmod_sub_le|]. eapply Rle_trans; [apply (integral_diff k i n (pix A) (pix B) c Hi Hn)|].
  right. rewrite sum_over_sumn. apply sumn_ext. intros x _. rewrite sum_over_sumn. reflexivity.
Qed.

(** The features of a grey picture are at most 255 * amount / PI. *)
Theorem C66_features_are_bounded : forall gamma checks image n amount,
  square_image image n -> byte_pixels image -> amount_ok amount ->
  exists features, calculate_features gamma checks image MomentsZernike amount = Ok features
    /\ Forall (fun x => 0 <= x <= 255 * INR amount / PI) features.
Proof.
  intros g checks A n amount (HA & Hn) Hb (Ha1 & Ha2). destruct amount as [|k]; [lia|]. cbn [calculate_features].
  rewrite (features_ok g checks A n k) by (try assumption; lia). eexists. split; [reflexivity|].
  apply Forall_forall. intros x Hx. apply in_map_iff in Hx as (i & <- & Hi). apply in_seq in Hi.
  rewrite feature_integral, factor_scale by (try assumption; lia).
  pose proof (pos_sides n Hn) as Hp. pose proof PI_RGT_0 as Hpi. pose proof (pos_INR (S k)) as Hk.
  assert (H0 : 0 <= 2 * INR (S k) / PI) by (apply Rmult_le_pos; [lra|left; now apply Rinv_0_lt_compat]).
  assert (H1 : 0 <= 2 * INR (S k) / PI / INR (n * n)) by (apply Rmult_le_pos; [exact H0|left; now apply Rinv_0_lt_compat]).
  split; [apply Rmult_le_pos; [exact H1|apply Cmod_ge_0]|].
  pose proof (integral_diff k i n (fun _ _ => 0) (pix A) (255 / 2) ltac:(lia) Hn) as H.
  assert (E0 : integral (k + i + 1) (k - i) n (fun _ _ => 0) = (0, 0)).
  { rewrite (integral_ext _ _ n _ (fun x y => 0 * 1 + 0 * 1)) by (intros; ring). rewrite (integral_lin _ _ n (fun _ _ => 1) (fun _ _ => 1)), (integral_one k i n) by (try assumption; lia).
    unfold Cscale, Cplus. cbn [fst snd]. f_equal; ring. }
  rewrite E0 in H. replace (integral (k + i + 1) (k - i) n (pix A) - (0, 0))%C with (integral (k + i + 1) (k - i) n (pix A)) in H
    by (destruct (integral _ _ _ _); unfold Cminus, Cplus, Copp; cbn [fst snd]; f_equal; ring).
  assert (H2 : dsum n n (fun x y => Rabs (pix A x y - 0 - 255 / 2)) <= INR (n * n) * (255 / 2)).
  { rewrite <- dsum_const. apply dsum_le. intros x y Hx Hy. unfold pix. destruct (cell A x y) as [p|] eqn:Ep.
    - destruct (Hb x y p Ep) as (P1 & P2). apply IZR_le in P1. apply IZR_le in P2. apply Rabs_le. lra.
    - apply Rabs_le. lra. }
  apply Rle_trans with (2 * INR (S k) / PI / INR (n * n) * (INR (n * n) * (255 / 2))); [apply Rmult_le_compat_l; [exact H1|lra]|].
  right. field. lra.
Qed.

(** ** instances *)
Example C66_instance :
  exists l, calculate_features (fun x => x) true sample MomentsZernike 11 = Ok l /\ Forall (fun x => 0 <= x <= 255 * INR 11 / PI) l.
Proof.
  apply (C66_features_are_bounded _ _ sample 2 11); [apply square2| |unfold amount_ok; lia].
  intros i j p H. destruct (le_lt_dec 2 i) as [Hi|Hi]; [|destruct (le_lt_dec 2 j) as [Hj|Hj]].
  - unfold cell, sample in H. cbn [rows] in H. destruct i as [|[|i]]; try lia. destruct i; discriminate.
  - unfold cell, sample in H. cbn [rows] in H. destruct (lt2 i Hi) as [-> | ->]; cbn in H; destruct j as [|[|j]]; try lia; destruct j; discriminate.
  - unfold cell, sample in H. cbn [rows] in H. destruct (lt2 i Hi) as [-> | ->]; destruct (lt2 j Hj) as [-> | ->]; cbn in H; injection H as <-; lia.
Qed.
(** rotating the 2x2 sample changes each pixel by at most 2; mean absolute change 3/2 *)
Example C66_stability_instance : exists l l', calculate_features (fun x => x) true sample MomentsZernike 3 = Ok l
  /\ calculate_features (fun x => x) true sample_rotated MomentsZernike 3 = Ok l'
  /\ Forall2 (fun x x' => Rabs (x' - x) <= 2 * INR 3 / PI * (3 / 2)) l l'.
Proof.
  replace (3 / 2) with (mean_change sample sample_rotated 2 0).
  - apply C66_features_are_stable; [apply square2|apply square2|unfold amount_ok; lia].
  - unfold mean_change, sum_over, value_at, cell. cbn. rewrite !Rminus_0_r.
    replace (2 - 1) with 1 by ring. replace (4 - 2) with 2 by ring. replace (1 - 3) with (- (2)) by ring. replace (3 - 4) with (- (1)) by ring.
    rewrite !Rabs_Ropp, !Rabs_pos_eq by lra. field.
Qed.
Print Assumptions C66_radial_values_are_bounded.
Print Assumptions C66_features_are_stable.
Print Assumptions C66_features_are_bounded.
