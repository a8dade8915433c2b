(** Proofs about Zernike.v (exact reals). *)
From Coq Require Import Reals Lra Psatz.
From Flocq Require Import Core.
From Coquelicot Require Import Complex.
From Verif Require Import Outcome Floats FloatFacts Matrix MatrixFacts HaarReal Zernike.
Open Scope R_scope.

(** ** factorial *)
Lemma has_fract_int n : has_fract Rops (IZR n) = false.
Proof. unfold has_fract. cbn. rewrite Zfloor_IZR. rewrite !Rle_bool_true by lra. reflexivity. Qed.
Lemma has_fract_not x : x <> IZR (Zfloor x) -> has_fract Rops x = true.
Proof.
  intros H. unfold has_fract. cbn. destruct (Rle_bool_spec (IZR (Zfloor x)) x); [|reflexivity].
  destruct (Rle_bool_spec x (IZR (Zfloor x))); [lra|reflexivity].
Qed.
Lemma round_IZR n : f_round Rops (IZR n) = IZR n.
Proof. cbn. f_equal. apply Znearest_imp. rewrite Rminus_diag_eq by reflexivity. rewrite Rabs_R0. lra. Qed.
Lemma cast_small n : (n = 0 \/ n = 1)%Z <-> (f_to_i64 Rops (IZR n) = 0 \/ f_to_i64 Rops (IZR n) = 1)%Z.
Proof. unfold f_to_i64. cbn. rewrite Ztrunc_IZR. unfold clamp, i64_min, i64_max. lia. Qed.

Lemma factorial_fuel_nat g n : forall fuel, (n < fuel)%nat -> factorial_fuel Rops g fuel (IZR (Z.of_nat n)) = Some (INR (fact n)).
Proof.
  induction n as [|n IH]; intros [|fuel] Hf; try lia; cbn [factorial_fuel]; rewrite has_fract_int, round_IZR.
  - unfold f_to_i64. cbn. now rewrite Ztrunc_IZR.
  - destruct n as [|n].
    + unfold f_to_i64. cbn. rewrite Ztrunc_IZR. cbn. f_equal.
    + assert (E : ((f_to_i64 Rops (IZR (Z.of_nat (S (S n)))) =? 0) || (f_to_i64 Rops (IZR (Z.of_nat (S (S n)))) =? 1))%Z = false).
      { apply orb_false_iff. rewrite !Z.eqb_neq. pose proof (cast_small (Z.of_nat (S (S n)))). lia. }
      rewrite E. cbn [f_sub f_of_Z Rops]. rewrite <- minus_IZR. replace (Z.of_nat (S (S n)) - 1)%Z with (Z.of_nat (S n)) by lia.
      rewrite IH by lia. cbn [option_map f_mul Rops]. f_equal. rewrite <- INR_IZR_INZ, <- mult_INR. f_equal. cbn [fact]. lia.
Qed.
Lemma factorial_fuel_neg g n : (n < 0)%Z -> forall fuel, factorial_fuel Rops g fuel (IZR n) = None.
Proof.
  intros Hn fuel. revert n Hn. induction fuel as [|fuel IH]; intros n Hn; [reflexivity|].
  cbn [factorial_fuel]. rewrite has_fract_int, round_IZR.
  assert (E : ((f_to_i64 Rops (IZR n) =? 0) || (f_to_i64 Rops (IZR n) =? 1))%Z = false).
  { apply orb_false_iff. rewrite !Z.eqb_neq. pose proof (cast_small n). lia. }
  rewrite E. cbn [f_sub f_of_Z Rops]. rewrite <- minus_IZR, IH by lia. reflexivity.
Qed.
Lemma factorial_nat g n : factorial g (INR n) = Ok (INR (fact n)).
Proof.
  unfold factorial. rewrite INR_IZR_INZ, factorial_fuel_nat; [reflexivity|]. rewrite Ztrunc_IZR. lia.
Qed.

(** ** radial polynomial: order a+b, index a-b *)
Definition rcoef (a b s : nat) : R := (-1) ^ s * (INR (fact (a + b - s)) / (INR (fact s) * INR (fact (a - s)) * INR (fact (b - s)))).
Definition Rad (a b : nat) (r : R) : R := sumn (S b) (fun s => rcoef a b s * r ^ (a + b - 2 * s)).

Lemma f_ok g a b s r : (b <= a)%nat -> (s <= b)%nat ->
  f g (a + b) (a - b) s r = Ok (INR (fact (a + b - s)) / (INR (fact s) * INR (fact (a - s)) * INR (fact (b - s))) * r ^ (a + b - 2 * s)).
Proof.
  intros Hab Hs. unfold f.
  rewrite <- minus_INR by lia. rewrite factorial_nat. cbn [bind]. rewrite factorial_nat. cbn [bind].
  replace ((INR (a + b) + INR (a - b)) / 2 - INR s) with (INR (a - s)).
  2:{ rewrite !minus_INR by lia. rewrite plus_INR. lra. }
  replace ((INR (a + b) - INR (a - b)) / 2 - INR s) with (INR (b - s)).
  2:{ rewrite !minus_INR by lia. rewrite plus_INR. lra. }
  rewrite factorial_nat. cbn [bind]. rewrite factorial_nat. cbn [bind]. f_equal. f_equal.
  replace (Z.of_nat (a + b) - 2 * Z.of_nat s)%Z with (Z.of_nat (a + b - 2 * s)) by lia. rewrite <- pow_powerRZ.
  destruct (Req_bool_spec r 0) as [->|_]; [|reflexivity].
  destruct (Req_bool_spec (INR (a + b) - 2 * INR s) 0) as [E|_]; [|reflexivity]. cbn [andb].
  assert (E2 : (a + b = 2 * s)%nat).
  { apply INR_eq. rewrite mult_INR. simpl (INR 2). lra. }
  rewrite E2, Nat.sub_diag. reflexivity.
Qed.

Lemma foldM_sum (h : nat -> outcome R) (g : nat -> R) n : (forall s, (s < n)%nat -> h s = Ok (g s)) ->
  foldM (fun acc s => x <- h s ;; Ok (acc + x)) (seq 0 n) 0 = Ok (sumn n g).
Proof.
  induction n as [|n IH]; intros H; [reflexivity|].
  rewrite seq_S, foldM_app, IH by (intros; apply H; lia). cbn [bind foldM Nat.add]. rewrite H by lia. reflexivity.
Qed.
Lemma foldM_ext {A B} (f g : B -> A -> outcome B) l : (forall s a, In a l -> f s a = g s a) -> forall s, foldM f l s = foldM g l s.
Proof.
  induction l as [|a t IH]; intros H s; [reflexivity|]. cbn [foldM]. rewrite H by (left; reflexivity).
  destruct (g s a); cbn [bind]; try reflexivity. apply IH. intros; apply H; right; assumption.
Qed.

Lemma radial_ok g a b r : (b <= a)%nat -> (Z.of_nat b < 2 ^ 64)%Z -> radial g (a + b) (a - b) r = Ok (Rad a b r).
Proof.
  intros Hab Hb. unfold radial, Rad.
  assert (E : Z.to_nat (f_to_usize Rops (f_floor Rops ((INR (a + b) - INR (a - b)) / 2))) = b).
  { replace ((INR (a + b) - INR (a - b)) / 2) with (IZR (Z.of_nat b)).
    2:{ rewrite <- INR_IZR_INZ, minus_INR, plus_INR by lia. lra. }
    unfold f_to_usize. cbn. rewrite Zfloor_IZR, Ztrunc_IZR. unfold clamp, usize_max. lia. }
  rewrite E. rewrite <- (foldM_sum (fun s => Ok (rcoef a b s * r ^ (a + b - 2 * s)))) by reflexivity.
  apply foldM_ext. intros acc s Hs. apply in_seq in Hs. rewrite f_ok by lia. cbn [bind]. unfold rcoef. do 2 f_equal. ring.
Qed.

(** ** the value at radius 1 *)
(** binomials with C(n,k) = 0 for k > n *)
Fixpoint bin (n k : nat) : R := match n, k with _, O => 1 | O, S _ => 0 | S n', S k' => bin n' k' + bin n' (S k') end.
Lemma bin_0 n : bin n 0 = 1. Proof. destruct n; reflexivity. Qed.
Lemma bin_gt n : forall k, (n < k)%nat -> bin n k = 0.
Proof. induction n as [|n IH]; intros [|k] H; try lia; cbn [bin]; [reflexivity|]. rewrite !IH by lia. lra. Qed.
Lemma bin_nn n : bin n n = 1.
Proof. induction n as [|n IH]; [reflexivity|]. cbn [bin]. rewrite IH, bin_gt by lia. lra. Qed.
Lemma bin_fact n : forall k, (k <= n)%nat -> bin n k * (INR (fact k) * INR (fact (n - k))) = INR (fact n).
Proof.
  induction n as [|n IH]; intros k Hk.
  - replace k with 0%nat by lia. cbn. lra.
  - destruct k as [|k]; [rewrite bin_0; cbn [fact]; rewrite Nat.sub_0_r; cbn [fact Nat.add INR]; rewrite Rmult_1_l; change (INR 1) with 1; lra|].
    cbn [bin]. destruct (Nat.eq_dec k n) as [->|Hne].
    + rewrite bin_nn, bin_gt, Nat.sub_diag by lia. cbn [fact]. change (INR 1) with 1. lra.
    + cbn [Nat.sub]. assert (Hk' : (S k <= n)%nat) by lia.
      pose proof (IH k ltac:(lia)) as H1. pose proof (IH (S k) Hk') as H2.
      replace (n - k)%nat with (S (n - S k)) in * by lia.
      set (d := (n - S k)%nat) in *. assert (En : INR (S n) = INR (S k) + INR (S d)) by (rewrite <- plus_INR; f_equal; unfold d; lia).
      rewrite (fact_simpl n), mult_INR, En.
      transitivity (INR (S k) * (bin n k * (INR (fact k) * INR (fact (S d)))) + INR (S d) * (bin n (S k) * (INR (fact (S k)) * INR (fact d)))).
      * rewrite (fact_simpl k), (fact_simpl d), !mult_INR. ring.
      * rewrite H1, H2. ring.
Qed.

(** finite differences *)
Definition alt (q a b : nat) : R := sumn (S q) (fun s => (-1) ^ s * bin q s * bin (a - s) b).
Lemma sumn_head n (g : nat -> R) : sumn (S n) g = g 0%nat + sumn n (fun k => g (S k)).
Proof. change (S n) with (1 + n)%nat. rewrite sumn_plus. cbn [sumn Nat.add]. lra. Qed.
Lemma sumn_last n (g : nat -> R) : sumn (S n) g = sumn n g + g n. Proof. reflexivity. Qed.
Lemma alt_step q a b : (1 <= a)%nat -> alt (S q) a b = alt q a b - alt q (a - 1) b.
Proof.
  intros Ha. unfold alt at 1. rewrite sumn_head.
  rewrite (sumn_ext (S q) (fun k => (-1) ^ S k * bin (S q) (S k) * bin (a - S k) b)
             (fun k => -1 * ((-1) ^ k * bin q k * bin (a - 1 - k) b) + (-1) ^ S k * bin q (S k) * bin (a - S k) b)).
  2:{ intros k _. cbn [bin pow]. replace (a - 1 - k)%nat with (a - S k)%nat by lia. ring. }
  rewrite sumn_add, sumn_scal. fold (alt q (a - 1) b).
  assert (E : alt q a b = (-1) ^ 0 * bin (S q) 0 * bin (a - 0) b + sumn (S q) (fun k => (-1) ^ S k * bin q (S k) * bin (a - S k) b)).
  { transitivity (sumn (S (S q)) (fun s => (-1) ^ s * bin q s * bin (a - s) b)).
    - rewrite sumn_last. rewrite (bin_gt q (S q)) by lia. unfold alt. ring.
    - rewrite sumn_head. rewrite !bin_0. reflexivity. }
  rewrite E. ring.
Qed.
Lemma alt_value q : forall a b, (q <= a)%nat -> (q <= b)%nat -> alt q a b = bin (a - q) (b - q).
Proof.
  induction q as [|q IH]; intros a b Ha Hb.
  - unfold alt. cbn [sumn pow]. rewrite bin_0, !Nat.sub_0_r. ring.
  - rewrite alt_step, !IH by lia. replace (a - q)%nat with (S (a - S q)) by lia. replace (b - q)%nat with (S (b - S q)) by lia.
    replace (a - 1 - q)%nat with (a - S q)%nat by lia. cbn [bin]. ring.
Qed.

Lemma INR_fact_pos n : 0 < INR (fact n). Proof. apply INR_fact_lt_0. Qed.
Lemma bin_eq n k : (k <= n)%nat -> bin n k = INR (fact n) / (INR (fact k) * INR (fact (n - k))).
Proof.
  intros H. pose proof (INR_fact_pos k). pose proof (INR_fact_pos (n - k)). rewrite <- (bin_fact n k H). field. lra.
Qed.
Lemma Rad_1 a b : (b <= a)%nat -> Rad a b 1 = 1.
Proof.
  intros H. unfold Rad. transitivity (alt b (a + b) b).
  - apply sumn_ext. intros s Hs. rewrite pow1. unfold rcoef. rewrite (bin_eq b s), (bin_eq (a + b - s) b) by lia.
    replace (a + b - s - b)%nat with (a - s)%nat by lia.
    pose proof (INR_fact_pos s). pose proof (INR_fact_pos (a - s)). pose proof (INR_fact_pos (b - s)). pose proof (INR_fact_pos b).
    field. lra.
  - rewrite alt_value, Nat.sub_diag, bin_0 by lia. reflexivity.
Qed.
Lemma Rad_0 a b : (b < a)%nat -> Rad a b 0 = 0.
Proof.
  intros H. unfold Rad. transitivity (sumn (S b) (fun _ => 0)); [|rewrite sumn_const; ring].
  apply sumn_ext. intros s Hs. rewrite pow_i by lia. ring.
Qed.

(** ** coordinates *)
Definition coord (n i : nat) : R := (2 * INR i + 1 - INR n) / (INR n - 1) / sqrt 2.

Lemma INR2 n : (2 <= n)%nat -> 2 <= INR n.
Proof. intros H. replace 2 with (INR 2) by (simpl; lra). now apply le_INR. Qed.
Lemma sqrt2_pos : 0 < sqrt 2. Proof. apply sqrt_lt_R0. lra. Qed.

Lemma coord_eq n i : (2 <= n)%nat -> / sqrt 2 * (1 + INR n - 2 * (INR i + 1)) / (1 - INR n) = coord n i.
Proof. intros H. apply INR2 in H. pose proof sqrt2_pos. unfold coord. field. lra. Qed.
Lemma coord_opp n i : (2 <= n)%nat -> (i < n)%nat -> coord n (n - 1 - i) = - coord n i.
Proof.
  intros H Hi. assert (E : INR (n - 1 - i) = INR n - 1 - INR i) by (rewrite !minus_INR by lia; simpl; lra).
  apply INR2 in H. pose proof sqrt2_pos. unfold coord. rewrite E. field. lra.
Qed.
Lemma coord_bound n i : (2 <= n)%nat -> (i < n)%nat -> Rabs (coord n i) <= / sqrt 2.
Proof.
  intros H Hi. assert (Hi' : INR i <= INR n - 1).
  { replace (INR n - 1) with (INR (n - 1)) by (rewrite minus_INR by lia; simpl; lra). apply le_INR. lia. }
  pose proof (pos_INR i). apply INR2 in H. pose proof sqrt2_pos. unfold coord.
  unfold Rdiv at 1. rewrite Rabs_mult, (Rabs_pos_eq (/ sqrt 2)) by (left; now apply Rinv_0_lt_compat).
  rewrite <- (Rmult_1_l (/ sqrt 2)) at 2. apply Rmult_le_compat_r; [left; now apply Rinv_0_lt_compat|].
  apply Rabs_le. split; [apply Rmult_le_reg_r with (INR n - 1)|apply Rmult_le_reg_r with (INR n - 1)]; try lra;
    unfold Rdiv; rewrite Rmult_assoc, Rinv_l by lra; lra.
Qed.

(** ** angles *)
Fixpoint cpow (z : C) (m : nat) : C := match m with O => (1, 0) | S k => (cpow z k * z)%C end.

Lemma de_moivre m t : (cos (INR m * t), sin (INR m * t)) = cpow (cos t, sin t) m.
Proof.
  induction m as [|m IH]; cbn [cpow].
  - cbn [INR]. now rewrite Rmult_0_l, cos_0, sin_0.
  - rewrite <- IH. unfold Cmult. cbn [fst snd]. rewrite S_INR.
    replace ((INR m + 1) * t) with (INR m * t + t) by ring. rewrite cos_plus, sin_plus. f_equal; ring.
Qed.
Lemma cpow_mult z w m : cpow (z * w)%C m = (cpow z m * cpow w m)%C.
Proof. induction m as [|m IH]; cbn [cpow]; [unfold Cmult; cbn; f_equal; ring|]. rewrite IH. unfold Cmult; cbn [fst snd]; f_equal; ring. Qed.
Lemma cpow_conj z m : cpow (Cconj z) m = Cconj (cpow z m).
Proof. induction m as [|m IH]; cbn [cpow]; [unfold Cconj; cbn; f_equal; ring|]. rewrite IH. unfold Cmult, Cconj; cbn [fst snd]; f_equal; ring. Qed.

Lemma atan2_polar x y : ~ (x = 0 /\ y = 0) ->
  let rho := sqrt (x ^ 2 + y ^ 2) in 0 < rho /\ cos (atan2 y x) = x / rho /\ sin (atan2 y x) = y / rho.
Proof.
  intros H rho.
  assert (Hs : 0 < x ^ 2 + y ^ 2).
  { replace (x ^ 2 + y ^ 2) with (x² + y²) by (unfold Rsqr; ring). pose proof (Rle_0_sqr x). pose proof (Rle_0_sqr y).
    destruct (Req_dec x 0) as [Ex|Hx]; [assert (Hy : y <> 0) by tauto; pose proof (Rsqr_pos_lt y Hy); lra|].
    pose proof (Rsqr_pos_lt x Hx). lra. }
  assert (Hr : 0 < rho) by (apply sqrt_lt_R0; exact Hs).
  split; [exact Hr|].
  assert (Hpos : forall z, z <> 0 -> sqrt (1 + (y / z)²) = sqrt (z ^ 2 + y ^ 2) / Rabs z).
  { intros z Hz. rewrite <- (sqrt_Rsqr (Rabs z)) by apply Rabs_pos. rewrite <- Rsqr_abs. rewrite <- sqrt_div_alt by (now apply Rsqr_pos_lt).
    f_equal. unfold Rsqr. field. exact Hz. }
  unfold atan2. destruct (Rlt_bool_spec 0 x) as [Hx|Hx].
  - rewrite cos_atan, sin_atan, Hpos by lra. rewrite Rabs_pos_eq by lra. fold rho. split; field; lra.
  - destruct (Rlt_bool_spec x 0) as [Hx'|Hx'].
    + assert (E : cos (atan (y / x)) = - (x / rho) /\ sin (atan (y / x)) = - (y / rho)).
      { rewrite cos_atan, sin_atan, Hpos by lra. rewrite Rabs_left by lra. fold rho. split; field; lra. }
      destruct E as (E1 & E2). destruct (Rle_bool_spec 0 y) as [Hy|Hy].
      * rewrite neg_cos, neg_sin, E1, E2. split; ring.
      * unfold Rminus. rewrite cos_plus, sin_plus, cos_neg, sin_neg, cos_PI, sin_PI, E1, E2. split; ring.
    + assert (x = 0) by lra. assert (Hy : y <> 0) by tauto. subst x.
      assert (Er : rho = Rabs y) by (unfold rho; rewrite pow_i, Rplus_0_l by lia; replace (y ^ 2) with (y²) by (unfold Rsqr; ring); apply sqrt_Rsqr_abs).
      rewrite Er. destruct (Rlt_bool_spec 0 y) as [H1|H1].
      * rewrite cos_PI2, sin_PI2, Rabs_pos_eq by lra. split; field; lra.
      * rewrite Rlt_bool_true by lra. rewrite cos_neg, sin_neg, cos_PI2, sin_PI2, Rabs_left by lra. split; field; lra.
Qed.

(** ** one element *)
(** [zval a b x y]: conjugate of the Zernike function of order a+b, index a-b at the point (x, y). *)
Definition zval (a b : nat) (x y : R) : C :=
  let rho := sqrt (x ^ 2 + y ^ 2) in
  Cscale (Rad a b rho) (Cconj (cpow (x / rho, y / rho) (a - b))).

Lemma Cexp_I m t : Cexp (Cscale t (Cscale (INR m) I)) = (cos (INR m * t), sin (INR m * t)).
Proof.
  unfold Cexp, Cscale, I. cbn [fst snd]. rewrite !Rmult_0_r, exp_0, !Rmult_1_l, Rmult_1_r, (Rmult_comm t). reflexivity.
Qed.

Lemma element_ok g a b n i j : (b < a)%nat -> (Z.of_nat b < 2 ^ 64)%Z -> (2 <= n)%nat -> (i < n)%nat -> (j < n)%nat ->
  zernike_element g (a + b) (a - b) n (i * n + j) = Ok (zval a b (coord n i) (coord n j)).
Proof.
  intros Hab Hb Hn Hi Hj. unfold zernike_element.
  replace (Nat.modulo (i * n + j) n) with j by (rewrite Nat.add_comm, Nat.mod_add, Nat.mod_small by lia; reflexivity).
  replace (IZR (Zfloor (INR (i * n + j) / INR n))) with (INR i).
  2:{ rewrite INR_IZR_INZ. f_equal. symmetry. apply Zfloor_imp. pose proof (INR2 n Hn).
      assert (Hj' : INR j <= INR n - 1) by (replace (INR n - 1) with (INR (n - 1)) by (rewrite minus_INR by lia; simpl; lra); apply le_INR; lia).
      pose proof (pos_INR j). rewrite plus_INR, mult_INR, plus_IZR, <- INR_IZR_INZ.
      split; [apply Rmult_le_reg_r with (INR n)|apply Rmult_lt_reg_r with (INR n)]; try lra; unfold Rdiv; rewrite Rmult_assoc, Rinv_l by lra; lra. }
  rewrite plus_INR. change (INR 1) with 1. unfold to_polar. rewrite !coord_eq by exact Hn.
  set (x := coord n i). set (y := coord n j). unfold v.
  destruct (Req_bool_spec x 0) as [Ex|Ex]; destruct (Req_bool_spec y 0) as [Ey|Ey]; cbn [andb].
  1:{ rewrite radial_ok by lia. cbn [bind]. rewrite Rad_0 by lia. unfold zval. rewrite Ex, Ey.
      replace (sqrt (0 ^ 2 + 0 ^ 2)) with 0 by (rewrite !pow_i, Rplus_0_l, sqrt_0 by lia; reflexivity). rewrite Rad_0 by lia.
      unfold Cscale, Cconj. cbn [fst snd]. rewrite !Rmult_0_l, Ropp_0. reflexivity. }
  all: destruct (atan2_polar x y ltac:(tauto)) as (Hr & Ec & Es); rewrite radial_ok by lia; cbn [bind];
    unfold zval; rewrite Cexp_I, de_moivre, Ec, Es; unfold Cscale, Cconj; cbn [fst snd]; do 2 f_equal; ring.
Qed.

(** *** symmetries of an element *)
Lemma rho_swap x y : sqrt (y ^ 2 + x ^ 2) = sqrt (x ^ 2 + y ^ 2). Proof. f_equal. ring. Qed.

Lemma zval_opp a b x y : Nat.odd (a - b) = true -> zval a b (- x) (- y) = Cscale (-1) (zval a b x y).
Proof.
  intros Ho. unfold zval. replace ((- x) ^ 2 + (- y) ^ 2) with (x ^ 2 + y ^ 2) by ring. set (rho := sqrt _).
  replace (- x / rho, - y / rho) with (Cmult (-1, 0) (x / rho, y / rho)) by (unfold Cmult; cbn; f_equal; unfold Rdiv; ring).
  rewrite cpow_mult.
  assert (E : forall m, cpow (-1, 0) (S (2 * m)) = (-1, 0)).
  { induction m as [|m IH]; [unfold cpow, Cmult; cbn; f_equal; ring|]. replace (2 * S m)%nat with (S (S (2 * m))) by lia.
    cbn [cpow] in IH |- *. rewrite IH. unfold Cmult; cbn [fst snd]; f_equal; ring. }
  apply Nat.odd_spec in Ho as (m & ->). rewrite Nat.add_1_r, E. unfold Cscale, Cconj, Cmult. cbn [fst snd]. f_equal; ring.
Qed.
(** turning by 90 degrees *)
Lemma zval_rot a b x y : zval a b (- y) x = (Cconj (cpow (0, 1) (a - b)) * zval a b x y)%C.
Proof.
  unfold zval. replace ((- y) ^ 2 + x ^ 2) with (x ^ 2 + y ^ 2) by ring. set (rho := sqrt _).
  replace (- y / rho, x / rho) with (Cmult (0, 1) (x / rho, y / rho)) by (unfold Cmult; cbn; f_equal; unfold Rdiv; ring).
  rewrite cpow_mult. unfold Cscale, Cconj, Cmult. cbn [fst snd]. f_equal; ring.
Qed.
Lemma zval_mirror a b x y : zval a b x (- y) = Cconj (zval a b x y).
Proof.
  unfold zval. replace (x ^ 2 + (- y) ^ 2) with (x ^ 2 + y ^ 2) by ring. set (rho := sqrt _).
  replace (x / rho, - y / rho) with (Cconj (x / rho, y / rho)) by (unfold Cconj; cbn; f_equal; unfold Rdiv; ring).
  rewrite cpow_conj. unfold Cscale, Cconj. cbn [fst snd]. f_equal; ring.
Qed.
Lemma cpow_unit z m : Cmod z = 1 -> Cmod (cpow z m) = 1.
Proof.
  intros H. induction m as [|m IH]; cbn [cpow]; [unfold Cmod; cbn; replace (1 * (1 * 1) + 0 * (0 * 1)) with 1 by ring; apply sqrt_1|].
  rewrite Cmod_mult, IH, H. ring.
Qed.

(** ** moments *)
Definition pix (image : array2 Z) (i j : nat) : R := match cell image i j with Some p => IZR p | None => 0 end.
Definition dsum (w h : nat) (G : nat -> nat -> R) : R := sumn w (fun i => sumn h (G i)).

Lemma element_total g a b n i : (b <= a)%nat -> (Z.of_nat b < 2 ^ 64)%Z -> exists z, zernike_element g (a + b) (a - b) n i = Ok z.
Proof.
  intros Hab Hb. unfold zernike_element. destruct (to_polar _ _ n) as (r, t). unfold v. rewrite radial_ok by assumption. cbn [bind]. eauto.
Qed.
Lemma matrix_total g a b n : (b <= a)%nat -> (Z.of_nat b < 2 ^ 64)%Z ->
  exists m, zernike_matrix g (a + b) (a - b) n = Ok m /\ length m = (n * n)%nat /\
    (forall i, (i < n * n)%nat -> exists z, zernike_element g (a + b) (a - b) n i = Ok z /\ nth_error m i = Some z).
Proof.
  intros Hab Hb. unfold zernike_matrix.
  set (h := fun i => match zernike_element g (a + b) (a - b) n i with Ok z => z | _ => (0, 0) end).
  rewrite (mapM_ok_map _ h).
  2:{ intros i _. destruct (element_total g a b n i Hab Hb) as (z & E). unfold h. now rewrite E. }
  exists (map h (seq 0 (n * n))). split; [reflexivity|]. split; [now rewrite map_length, seq_length|].
  intros i Hi. destruct (element_total g a b n i Hab Hb) as (z & E). exists z. split; [exact E|].
  rewrite nth_error_map, (nth_error_nth' _ 0%nat) by (rewrite seq_length; exact Hi). rewrite seq_nth by exact Hi. cbn [option_map Nat.add].
  unfold h. now rewrite E.
Qed.

Definition integrand (matrix : list C) (accumulator : C) (p : nat * Z) : outcome C :=
  zernike_multiplier <- unwrap (nth_error matrix (fst p)) ;;
  Ok (accumulator + Cscale (IZR (snd p)) zernike_multiplier)%C.

Lemma integral_ok matrix (G : nat -> C) l : forall k acc, (forall p, (p < length l)%nat -> nth_error matrix (k + p) = Some (G (k + p)%nat)) ->
  foldM (integrand matrix) (combine (seq k (length l)) l) acc =
  Ok (fst acc + sumn (length l) (fun p => IZR (nth p l 0%Z) * fst (G (k + p)%nat)),
      snd acc + sumn (length l) (fun p => IZR (nth p l 0%Z) * snd (G (k + p)%nat))).
Proof.
  induction l as [|x t IH]; intros k acc H; [cbn; f_equal; destruct acc; cbn; f_equal; ring|].
  cbn [length seq combine foldM]. unfold integrand at 1. cbn [fst snd].
  rewrite <- (Nat.add_0_r k) at 1. rewrite (H 0%nat) by (cbn [length]; lia). cbn [unwrap bind].
  rewrite IH.
  2:{ intros p Hp. replace (S k + p)%nat with (k + S p)%nat by lia. apply H. cbn [length]; lia. }
  rewrite (sumn_head (length t) (fun p => IZR (nth p (x :: t) 0%Z) * fst (G (k + p)%nat))),
    (sumn_head (length t) (fun p => IZR (nth p (x :: t) 0%Z) * snd (G (k + p)%nat))).
  cbn [nth]. rewrite !Nat.add_0_r. unfold Cplus, Cscale. cbn [fst snd].
  rewrite (sumn_ext _ (fun p => IZR (nth p t 0%Z) * fst (G (S k + p)%nat)) (fun p => IZR (nth p t 0%Z) * fst (G (k + S p)%nat)))
    by (intros; do 3 f_equal; lia).
  rewrite (sumn_ext _ (fun p => IZR (nth p t 0%Z) * snd (G (S k + p)%nat)) (fun p => IZR (nth p t 0%Z) * snd (G (k + S p)%nat)))
    by (intros; do 3 f_equal; lia).
  do 2 f_equal; ring.
Qed.
Lemma integral_panics matrix l : forall k acc, (length matrix < k + length l)%nat -> (k <= length matrix)%nat ->
  foldM (integrand matrix) (combine (seq k (length l)) l) acc = Panic UnwrapNone.
Proof.
  induction l as [|x t IH]; intros k acc H Hk; [cbn in H; lia|]. cbn [length seq combine foldM] in *. unfold integrand at 1. cbn [fst snd].
  destruct (nth_error matrix k) as [z|] eqn:E; [|reflexivity]. cbn [unwrap bind].
  assert (k < length matrix)%nat by (apply nth_error_Some; congruence). apply IH; lia.
Qed.

Lemma sumn_mul n m G : sumn (n * m) G = dsum n m (fun i j => G (i * m + j)%nat).
Proof.
  unfold dsum. induction n as [|n IH]; [reflexivity|]. rewrite Nat.mul_succ_l, sumn_plus, IH. reflexivity.
Qed.
Lemma raw_nth (image : array2 Z) i j : wf image -> (i < dim0 image)%nat -> (j < dim1 image)%nat ->
  IZR (nth (i * dim1 image + j) (into_raw_vec image) 0%Z) = pix image i j.
Proof.
  intros (H0 & H1) Hi Hj. unfold pix, cell, into_raw_vec. revert i Hi. rewrite <- H0. generalize (rows image) H1. clear H0 H1.
  intros l Hl. induction Hl as [|r t Hr Ht IH]; intros i Hi; [cbn in Hi; lia|]. cbn [concat]. destruct i as [|i].
  - cbn [Nat.mul Nat.add nth_error]. rewrite app_nth1 by lia. rewrite (nth_error_nth' r 0%Z) by lia. reflexivity.
  - rewrite app_nth2 by lia. replace (S i * dim1 image + j - length r)%nat with (i * dim1 image + j)%nat by lia.
    cbn [nth_error]. apply IH. cbn in Hi; lia.
Qed.

Definition square (image : array2 Z) (n : nat) : Prop := wf image /\ dim0 image = n /\ dim1 image = n.

(** The moment of order a+b and index a-b of an n x n image. *)
Definition kern (a n : nat) (b : nat) (i j : nat) : C := zval a b (coord n i) (coord n j).
Definition factor (order n : nat) : R := (INR order + 1) / PI / INR (n * n).
Definition moment (a b n : nat) (P : nat -> nat -> R) : C :=
  Cscale (factor (a + b) n) (dsum n n (fun i j => P i j * fst (kern a n b i j)), dsum n n (fun i j => P i j * snd (kern a n b i j))).

Lemma dsum_ext w h G G' : (forall i j, (i < w)%nat -> (j < h)%nat -> G i j = G' i j) -> dsum w h G = dsum w h G'.
Proof. intros H. unfold dsum. apply sumn_ext. intros i Hi. apply sumn_ext. intros j Hj. now apply H. Qed.

Lemma moment_ok g a b n image : (b < a)%nat -> (Z.of_nat b < 2 ^ 64)%Z -> (2 <= n)%nat -> square image n ->
  calculate_zernike_image_moment g (a + b) (a - b) image = Ok (moment a b n (pix image)).
Proof.
  intros Hab Hb Hn (Hwf & E0 & E1). unfold calculate_zernike_image_moment. rewrite E0, E1.
  destruct (matrix_total g a b n ltac:(lia) Hb) as (m & Em & Lm & Hm). rewrite Em. cbn [bind].
  pose proof (into_raw_vec_length image Hwf) as Hlen. rewrite E0, E1 in Hlen.
  set (G := fun p => kern a n b (p / n) (p mod n)).
  assert (HG : forall p, (p < n * n)%nat -> nth_error m p = Some (G p)).
  { intros p Hp. destruct (Hm p Hp) as (z & Ez & Enz). rewrite Enz. f_equal. unfold G, kern.
    pose proof (element_ok g a b n (p / n) (p mod n) Hab Hb Hn) as E.
    assert (Hd : (p / n < n)%nat) by (apply Nat.div_lt_upper_bound; lia). assert (Hd2 : (p mod n < n)%nat) by (apply Nat.mod_upper_bound; lia).
    replace (p / n * n + p mod n)%nat with p in E by (rewrite Nat.mul_comm; apply Nat.div_mod; lia).
    specialize (E Hd Hd2). rewrite E in Ez. congruence. }
  change (fun accumulator p => _) with (integrand m). rewrite (integral_ok m G).
  2:{ intros p Hp. cbn [Nat.add]. apply HG. lia. }
  cbn [bind fst snd]. rewrite !Rplus_0_l, Hlen, !sumn_mul. unfold moment, factor. f_equal.
  assert (HG2 : forall i j, (i < n)%nat -> (j < n)%nat -> G (i * n + j)%nat = kern a n b i j).
  { intros i j Hi Hj. unfold G. rewrite Nat.div_add_l, (Nat.div_small j), Nat.add_0_r by lia.
    rewrite (Nat.add_comm (i * n)), Nat.mod_add, Nat.mod_small by lia. reflexivity. }
  assert (HP : forall sel : C -> R, dsum n n (fun i j => IZR (nth (i * n + j) (into_raw_vec image) 0%Z) * sel (G (0 + (i * n + j))%nat))
                = dsum n n (fun i j => pix image i j * sel (kern a n b i j))).
  { intros sel. apply dsum_ext. intros i j Hi Hj. cbn [Nat.add]. rewrite HG2 by assumption.
    rewrite <- (raw_nth image i j) by (try assumption; lia). now rewrite E1. }
  rewrite (HP fst), (HP snd).
  unfold Cscale. cbn [fst snd]. f_equal; unfold Rdiv; ring.
Qed.

Lemma moment_total g a b image : (b <= a)%nat -> (Z.of_nat b < 2 ^ 64)%Z -> wf image -> (dim1 image <= dim0 image)%nat ->
  exists z, calculate_zernike_image_moment g (a + b) (a - b) image = Ok z.
Proof.
  intros Hab Hb Hwf Hd. unfold calculate_zernike_image_moment.
  destruct (matrix_total g a b (dim0 image) Hab Hb) as (m & Em & Lm & Hm). rewrite Em. cbn [bind].
  change (fun accumulator p => _) with (integrand m).
  rewrite (integral_ok m (fun p => nth p m (0, 0))); [cbn [bind]; eauto|].
  intros p Hp. cbn [Nat.add]. apply nth_error_nth'. rewrite Lm. rewrite into_raw_vec_length in Hp by exact Hwf. nia.
Qed.
Lemma moment_panics g a b image : (b <= a)%nat -> (Z.of_nat b < 2 ^ 64)%Z -> wf image -> (0 < dim0 image < dim1 image)%nat ->
  calculate_zernike_image_moment g (a + b) (a - b) image = Panic UnwrapNone.
Proof.
  intros Hab Hb Hwf Hd. unfold calculate_zernike_image_moment.
  destruct (matrix_total g a b (dim0 image) Hab Hb) as (m & Em & Lm & Hm). rewrite Em. cbn [bind].
  change (fun accumulator p => _) with (integrand m). rewrite integral_panics; [reflexivity| |lia].
  rewrite Lm, into_raw_vec_length by exact Hwf. nia.
Qed.

(** ** features *)
Lemma indices_odd k : moments_indices (1 + 2 * k) = map (fun i => 1 + 2 * i)%nat (seq 0 (S k)).
Proof.
  unfold moments_indices. replace ((1 + 2 * k) mod 2)%nat with 1%nat by (rewrite (Nat.mul_comm 2), Nat.mod_add by lia; reflexivity).
  cbn [Nat.eqb]. replace (1 + 2 * k - 1)%nat with (k * 2)%nat by lia. rewrite Nat.div_mul by lia. now rewrite Nat.add_1_r.
Qed.

(** [feature_ab k i]: the feature of index 2i+1 has a = k+i+1 and b = k-i. *)
Lemma ab_sum k i : (i <= k)%nat -> (1 + 2 * k = (k + i + 1) + (k - i))%nat /\ (1 + 2 * i = (k + i + 1) - (k - i))%nat.
Proof. lia. Qed.

Definition feature (k i n : nat) (P : nat -> nat -> R) : R := Cmod (moment (k + i + 1) (k - i) n P).

Lemma features_ok g checks image n k : (2 <= n)%nat -> square image n -> (Z.of_nat k < 2 ^ 64)%Z ->
  zernike_features g checks image (S k) = Ok (map (fun i => feature k i n (pix image)) (seq 0 (S k))).
Proof.
  intros Hn Hsq Hk. unfold zernike_features. cbn [get_order_by_features_amount bind]. rewrite indices_odd.
  rewrite (mapM_ok_map _ (fun index => feature k (index / 2) n (pix image))).
  - rewrite map_map. f_equal. apply map_ext. intros i. f_equal.
    symmetry. apply (Nat.div_unique _ 2 i 1); lia.
  - intros index Hin. apply in_map_iff in Hin as (i & <- & Hi). apply in_seq in Hi.
    replace ((1 + 2 * i) / 2)%nat with i by (apply (Nat.div_unique _ 2 i 1); lia).
    destruct (ab_sum k i ltac:(lia)) as (-> & ->). rewrite (moment_ok g _ _ n) by (try assumption; lia). reflexivity.
Qed.
Lemma features_total g checks image k : wf image -> (dim1 image <= dim0 image)%nat -> (Z.of_nat k < 2 ^ 64)%Z ->
  exists l, zernike_features g checks image (S k) = Ok l /\ length l = S k.
Proof.
  intros Hwf Hd Hk. unfold zernike_features. cbn [get_order_by_features_amount bind]. rewrite indices_odd.
  set (h := fun index => match calculate_zernike_image_moment g (1 + 2 * k) index image with Ok m => Cmod m | _ => 0 end).
  rewrite (mapM_ok_map _ h).
  - eexists. split; [reflexivity|]. now rewrite !map_length, seq_length.
  - intros index Hin. apply in_map_iff in Hin as (i & <- & Hi). apply in_seq in Hi. unfold h.
    destruct (moment_total g (k + i + 1) (k - i) image) as (z & E); [lia|lia|exact Hwf|exact Hd|].
    destruct (ab_sum k i ltac:(lia)) as (-> & ->). rewrite E. reflexivity.
Qed.
Lemma features_panic g checks image k : wf image -> (0 < dim0 image < dim1 image)%nat -> (Z.of_nat k < 2 ^ 64)%Z ->
  zernike_features g checks image (S k) = Panic UnwrapNone.
Proof.
  intros Hwf Hd Hk. unfold zernike_features. cbn [get_order_by_features_amount bind]. rewrite indices_odd. cbn [seq map mapM].
  destruct (ab_sum k 0 ltac:(lia)) as (Ea & Eb). rewrite Ea, Eb. rewrite moment_panics by (try assumption; lia). reflexivity.
Qed.
