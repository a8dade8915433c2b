(** The Zernike radial polynomials are bounded by 1 on the unit interval, for every order.
    The coefficient of x^a y^b in (c x + s y)^a (- s x + c y)^b, with c = cos t and s = sin t, is the radial polynomial at c;
    the rotation preserves the apolar norm sum_k k! (n-k)! p_k^2. *)
From Coq Require Import Reals Lra Psatz.
From Coquelicot Require Import Coquelicot.
From Verif Require Import HaarReal ZernikeProofs.
Open Scope R_scope.

(** ** polynomials in x, y: coefficient of x^k *)
Definition prev (p : nat -> R) (k : nat) : R := match k with O => 0 | S j => p j end.
Definition mulL (alpha beta : R) (p : nat -> R) (k : nat) : R := alpha * prev p k + beta * p k.
Definition one0 (k : nat) : R := match k with O => 1 | _ => 0 end.
Fixpoint powL (alpha beta : R) (m : nat) (p : nat -> R) : nat -> R :=
  match m with O => p | S m' => mulL alpha beta (powL alpha beta m' p) end.
Definition rot (a b : nat) (c s : R) : nat -> R := powL (- s) c b (powL c s a one0).
(** the derivation y d/dx - x d/dy on forms of degree n *)
Definition dL (n : nat) (p : nat -> R) (k : nat) : R := (INR k + 1) * p (S k) - (INR n - INR k + 1) * prev p k.

Lemma dL_mul n alpha beta p k : dL (S n) (mulL alpha beta p) k = mulL (- beta) alpha p k + mulL alpha beta (dL n p) k.
Proof.
  unfold dL, mulL. destruct k as [|[|k]]; cbn [prev]; rewrite ?S_INR; cbn [INR]; ring.
Qed.

(** degree: no coefficient beyond x^n *)
Lemma powL_deg alpha beta m p d : (forall k, (d < k)%nat -> p k = 0) -> forall k, (m + d < k)%nat -> powL alpha beta m p k = 0.
Proof.
  intros H. induction m as [|m IH]; intros k Hk; cbn [powL]; [apply H; lia|].
  unfold mulL. destruct k as [|k]; [lia|]. cbn [prev]. rewrite !IH by lia. ring.
Qed.
Lemma rot_deg a b c s k : (a + b < k)%nat -> rot a b c s k = 0.
Proof.
  intros H. apply (powL_deg _ _ b _ a); [|lia]. intros j Hj. apply (powL_deg _ _ a _ 0); [|lia]. intros [|i] Hi; [lia|reflexivity].
Qed.

(** ** the derivative of the rotated form *)
Lemma der_ext (g h : R -> R) (t l : R) : (forall u, g u = h u) -> is_derive g t l -> is_derive h t l.
Proof. intros H. apply is_derive_ext. exact H. Qed.
Lemma pow1_derive m t k : is_derive (fun t => powL (cos t) (sin t) m one0 k) t (dL m (powL (cos t) (sin t) m one0) k).
Proof.
  revert k. induction m as [|m IH]; intros k.
  - cbn [powL]. replace (dL 0 one0 k) with 0; [apply (is_derive_const (one0 k) t)|].
    unfold dL. destruct k as [|[|k]]; cbn [prev one0]; cbn [INR]; ring.
  - cbn [powL]. rewrite dL_mul.
    unfold mulL. destruct k as [|k]; cbn [prev].
    + apply (der_ext (fun t => sin t * powL (cos t) (sin t) m one0 0)); [intros u; ring|].
      replace (_ + _) with (cos t * powL (cos t) (sin t) m one0 0 + sin t * dL m (powL (cos t) (sin t) m one0) 0) by ring.
      apply (is_derive_mult (fun t => sin t) (fun t => powL (cos t) (sin t) m one0 0) t); [apply is_derive_sin|apply IH|intros; apply Rmult_comm].
    + replace (- sin t * powL (cos t) (sin t) m one0 k + cos t * powL (cos t) (sin t) m one0 (S k) +
         (cos t * dL m (powL (cos t) (sin t) m one0) k + sin t * dL m (powL (cos t) (sin t) m one0) (S k)))
       with ((- sin t * powL (cos t) (sin t) m one0 k + cos t * dL m (powL (cos t) (sin t) m one0) k)
           + (cos t * powL (cos t) (sin t) m one0 (S k) + sin t * dL m (powL (cos t) (sin t) m one0) (S k))) by ring.
      apply (is_derive_plus (fun t => cos t * powL (cos t) (sin t) m one0 k) (fun t => sin t * powL (cos t) (sin t) m one0 (S k)) t).
      * apply (is_derive_mult (fun t => cos t) (fun t => powL (cos t) (sin t) m one0 k) t); [apply is_derive_cos|apply IH|intros; apply Rmult_comm].
      * apply (is_derive_mult (fun t => sin t) (fun t => powL (cos t) (sin t) m one0 (S k)) t); [apply is_derive_sin|apply IH|intros; apply Rmult_comm].
Qed.
Lemma rot_derive a b t k : is_derive (fun t => rot a b (cos t) (sin t) k) t (dL (a + b) (rot a b (cos t) (sin t)) k).
Proof.
  unfold rot. revert k. induction b as [|m IH]; intros k.
  - cbn [powL]. rewrite Nat.add_0_r. apply pow1_derive.
  - cbn [powL]. rewrite Nat.add_succ_r, dL_mul. set (p t := powL (- sin t) (cos t) m (powL (cos t) (sin t) a one0)) in *.
    change (forall k, is_derive (fun t => p t k) t (dL (a + m) (p t) k)) in IH. fold (p t).
    change (is_derive (fun u => mulL (- sin u) (cos u) (p u) k) t (mulL (- cos t) (- sin t) (p t) k + mulL (- sin t) (cos t) (dL (a + m) (p t)) k)).
    assert (Dms : is_derive (fun t => - sin t) t (- cos t)).
    { apply (is_derive_opp (fun t => sin t) t (cos t)). apply is_derive_sin. }
    unfold mulL. destruct k as [|k]; cbn [prev].
    + apply (der_ext (fun t => cos t * p t 0%nat)); [intros u; ring|].
      replace (_ + _) with (- sin t * p t 0%nat + cos t * dL (a + m) (p t) 0) by ring.
      apply (is_derive_mult (fun t => cos t) (fun t => p t 0%nat) t); [apply is_derive_cos|apply IH|intros; apply Rmult_comm].
    + replace (- cos t * p t k + - sin t * p t (S k) + (- sin t * dL (a + m) (p t) k + cos t * dL (a + m) (p t) (S k)))
       with ((- cos t * p t k + - sin t * dL (a + m) (p t) k) + (- sin t * p t (S k) + cos t * dL (a + m) (p t) (S k))) by ring.
      apply (is_derive_plus (fun t => - sin t * p t k) (fun t => cos t * p t (S k)) t).
      * apply (is_derive_mult (fun t => - sin t) (fun t => p t k) t); [exact Dms|apply IH|intros; apply Rmult_comm].
      * apply (is_derive_mult (fun t => cos t) (fun t => p t (S k)) t); [apply is_derive_cos|apply IH|intros; apply Rmult_comm].
Qed.

(** ** the apolar norm *)
Definition wt (n k : nat) : R := INR (fact k) * INR (fact (n - k)).
Definition nrm (n : nat) (p : nat -> R) : R := sumn (S n) (fun k => wt n k * (p k * p k)).
Lemma sumn_derive n (g : nat -> R -> R) (g' : nat -> R) t : (forall k, (k < n)%nat -> is_derive (g k) t (g' k)) ->
  is_derive (fun t => sumn n (fun k => g k t)) t (sumn n g').
Proof.
  induction n as [|n IH]; intros H; cbn [sumn]; [apply (is_derive_const 0 t)|].
  apply (is_derive_plus (fun t => sumn n (fun k => g k t)) (g n) t); [apply IH; intros; apply H; lia|apply H; lia].
Qed.
Lemma nrm_dL n p : p (S n) = 0 -> sumn (S n) (fun k => wt n k * (2 * (p k * dL n p k))) = 0.
Proof.
  intros Hp.
  assert (E : forall k, (k < S n)%nat -> wt n k * (2 * (p k * dL n p k)) =
     2 * (INR (fact (S k)) * INR (fact (n - k)) * p k * p (S k)) + -2 * (match k with O => 0 | S j => INR (fact (S j)) * INR (fact (n - j)) * p j * p (S j) end)).
  { intros k Hk. unfold wt, dL. rewrite (fact_simpl k), mult_INR, S_INR. destruct k as [|j]; cbn [prev]; [ring|].
    replace (INR (fact (n - j))) with ((INR n - INR (S j) + 1) * INR (fact (n - S j))); [ring|].
    replace (n - j)%nat with (S (n - S j)) by lia. rewrite fact_simpl, mult_INR. f_equal. rewrite (S_INR (n - S j)), minus_INR by lia. ring. }
  rewrite (sumn_ext _ _ _ E), sumn_add, !sumn_scal.
  rewrite (sumn_last n (fun k => INR (fact (S k)) * INR (fact (n - k)) * p k * p (S k))), Hp.
  rewrite (sumn_head n (fun k => match k with O => 0 | S j => INR (fact (S j)) * INR (fact (n - j)) * p j * p (S j) end)). ring.
Qed.
Lemma nrm_derive a b t : is_derive (fun t => nrm (a + b) (rot a b (cos t) (sin t))) t 0.
Proof.
  unfold nrm. rewrite <- (nrm_dL (a + b) (rot a b (cos t) (sin t))) by (apply rot_deg; lia).
  apply sumn_derive. intros k _.
  replace (wt (a + b) k * (2 * (rot a b (cos t) (sin t) k * dL (a + b) (rot a b (cos t) (sin t)) k)))
    with (wt (a + b) k * (dL (a + b) (rot a b (cos t) (sin t)) k * rot a b (cos t) (sin t) k + rot a b (cos t) (sin t) k * dL (a + b) (rot a b (cos t) (sin t)) k)) by ring.
  apply (is_derive_scal (fun t => rot a b (cos t) (sin t) k * rot a b (cos t) (sin t) k) t (wt (a + b) k)).
  apply (is_derive_mult (fun t => rot a b (cos t) (sin t) k) (fun t => rot a b (cos t) (sin t) k) t); [apply rot_derive|apply rot_derive|intros; apply Rmult_comm].
Qed.
Lemma nrm_const a b t : nrm (a + b) (rot a b (cos t) (sin t)) = nrm (a + b) (rot a b 1 0).
Proof.
  assert (E0 : nrm (a + b) (rot a b 1 0) = nrm (a + b) (rot a b (cos 0) (sin 0))) by (rewrite cos_0, sin_0; reflexivity). rewrite E0.
  destruct (MVT_gen (fun t => nrm (a + b) (rot a b (cos t) (sin t))) 0 t (fun _ => 0)) as (c & _ & H).
  - intros x _. apply nrm_derive.
  - intros x _. apply derivable_continuous_pt. exists 0. apply is_derive_Reals. apply nrm_derive.
  - lra.
Qed.

(** ** coefficients of the rotated form *)
Lemma powL_one alpha beta m : forall k, powL alpha beta m one0 k = bin m k * alpha ^ k * beta ^ (m - k).
Proof.
  induction m as [|m IH]; intros k; cbn [powL].
  - destruct k; cbn; ring.
  - unfold mulL. destruct k as [|k]; cbn [prev]; rewrite !IH.
    + rewrite !bin_0, !Nat.sub_0_r. cbn [pow]. ring.
    + cbn [bin Nat.sub pow]. destruct (le_lt_dec (S k) m) as [H|H].
      * replace (m - k)%nat with (S (m - S k)) by lia. cbn [pow]. ring.
      * rewrite (bin_gt m (S k)) by lia. ring.
Qed.
Definition at_ (p : nat -> R) (k j : nat) : R := if (j <=? k)%nat then p (k - j)%nat else 0.
Lemma powL_conv alpha beta m p : forall k, powL alpha beta m p k = sumn (S m) (fun j => bin m j * alpha ^ j * beta ^ (m - j) * at_ p k j).
Proof.
  induction m as [|m IH]; intros k; cbn [powL].
  - cbn [sumn bin pow Nat.sub]. unfold at_. cbn. rewrite Nat.sub_0_r. ring.
  - unfold mulL. rewrite IH.
    assert (E1 : prev (powL alpha beta m p) k = sumn (S m) (fun j => bin m j * alpha ^ j * beta ^ (m - j) * at_ p k (S j))).
    { destruct k as [|k]; cbn [prev].
      - transitivity (sumn (S m) (fun _ => 0)); [rewrite sumn_const; ring|]. apply sumn_ext. intros j _. unfold at_. cbn. ring.
      - rewrite IH. apply sumn_ext. intros j _. unfold at_. cbn. reflexivity. }
    rewrite E1. rewrite (sumn_head (S m) (fun j => bin (S m) j * alpha ^ j * beta ^ (S m - j) * at_ p k j)).
    rewrite (sumn_ext (S m) (fun k0 => bin (S m) (S k0) * alpha ^ S k0 * beta ^ (S m - S k0) * at_ p k (S k0))
      (fun j => alpha * (bin m j * alpha ^ j * beta ^ (m - j) * at_ p k (S j)) + bin m (S j) * alpha ^ S j * beta ^ (m - j) * at_ p k (S j))).
    2:{ intros j _. cbn [bin pow Nat.sub]. ring. }
    rewrite sumn_add, !sumn_scal. rewrite (sumn_head m (fun j => bin m j * alpha ^ j * beta ^ (m - j) * at_ p k j)).
    rewrite (sumn_last m (fun j => bin m (S j) * alpha ^ S j * beta ^ (m - j) * at_ p k (S j))). rewrite (bin_gt m (S m)) by lia. rewrite !bin_0. cbn [pow]. rewrite !Nat.sub_0_r. cbn [pow].
    rewrite (sumn_ext m (fun k0 => bin m (S k0) * (alpha * alpha ^ k0) * beta ^ (m - k0) * at_ p k (S k0))
       (fun j => beta * (bin m (S j) * (alpha * alpha ^ j) * beta ^ (m - S j) * at_ p k (S j)))).
    2:{ intros j Hj. replace (m - j)%nat with (S (m - S j)) by lia. cbn [pow]. ring. }
    rewrite sumn_scal. ring.
Qed.
Lemma bin_sym n k : (k <= n)%nat -> bin n (n - k) = bin n k.
Proof. intros H. rewrite !bin_eq by lia. replace (n - (n - k))%nat with k by lia. field. split; apply Rgt_not_eq; apply INR_fact_pos. Qed.

(** the sum in c^2 and s^2 *)
Definition mixed (a b : nat) (c s : R) : R := sumn (S b) (fun j => (-1) ^ j * bin a j * bin b j * c ^ (a + b - 2 * j) * (s * s) ^ j).
Lemma rot_mixed a b c s : (b <= a)%nat -> rot a b c s a = mixed a b c s.
Proof.
  intros Hab. unfold rot, mixed. rewrite powL_conv. apply sumn_ext. intros j Hj. unfold at_.
  rewrite (proj2 (Nat.leb_le j a)) by lia. rewrite powL_one, bin_sym by lia.
  replace (a - (a - j))%nat with j by lia. replace (a + b - 2 * j)%nat with ((b - j) + (a - j))%nat by lia. rewrite pow_add.
  replace (- s) with (-1 * s) by ring. rewrite !Rpow_mult_distr. ring.
Qed.

Lemma vandermonde m n : forall k, sumn (S k) (fun i => bin m i * bin n (k - i)) = bin (m + n) k.
Proof.
  induction m as [|m IH]; intros k.
  - rewrite sumn_head, bin_0, Nat.sub_0_r. rewrite (sumn_ext _ _ (fun _ => 0)) by (intros; cbn [bin]; ring). rewrite sumn_const. cbn [Nat.add]. ring.
  - destruct k as [|k]; [cbn [sumn Nat.sub]; rewrite !bin_0; ring|].
    rewrite sumn_head, bin_0. rewrite (sumn_ext _ _ (fun i => bin m i * bin n (k - i) + bin m (S i) * bin n (k - i))) by (intros i _; cbn [bin Nat.sub]; ring).
    rewrite sumn_add, IH. cbn [Nat.add bin]. rewrite <- (IH (S k)). rewrite (sumn_head (S k)), bin_0. cbn [Nat.sub]. ring.
Qed.
Lemma trinomial b j s : (j <= b)%nat -> (s <= b)%nat -> bin b j * bin j s = bin b s * bin (b - s) (b - j).
Proof.
  intros Hj Hs. destruct (le_lt_dec s j) as [H|H].
  - rewrite !bin_eq by lia. replace (b - s - (b - j))%nat with (j - s)%nat by lia.
    pose proof (INR_fact_pos j). pose proof (INR_fact_pos s). pose proof (INR_fact_pos (b - j)). pose proof (INR_fact_pos (b - s)). pose proof (INR_fact_pos (j - s)).
    field. lra.
  - rewrite (bin_gt j s), (bin_gt (b - s) (b - j)) by lia. ring.
Qed.
Lemma sumn_swap n m (g : nat -> nat -> R) : sumn n (fun i => sumn m (g i)) = sumn m (fun j => sumn n (fun i => g i j)).
Proof.
  induction n as [|n IH]; cbn [sumn]; [rewrite sumn_const; ring|]. rewrite IH, <- sumn_add. reflexivity.
Qed.
Lemma one_minus_pow x j b : (j <= b)%nat -> (1 - x) ^ j = sumn (S b) (fun s => bin j s * ((-1) ^ (j - s) * x ^ (j - s))).
Proof.
  intros H. replace (S b) with (S j + (b - j))%nat by lia. rewrite sumn_plus.
  rewrite (sumn_ext (b - j) _ (fun _ => 0)) by (intros k _; rewrite bin_gt by lia; ring). rewrite sumn_const.
  assert (E : forall y, (1 + y) ^ j = sumn (S j) (fun s => bin j s * y ^ (j - s))).
  { intros y. clear H. induction j as [|j IH]; [cbn; ring|].
    rewrite sumn_head, bin_0, Nat.sub_0_r.
    rewrite (sumn_ext (S j) _ (fun s => bin j s * y ^ (j - s) + bin j (S s) * y ^ (j - s))) by (intros s _; cbn [bin Nat.sub]; ring).
    rewrite sumn_add, <- IH. rewrite sumn_last, (bin_gt j (S j)) by lia.
    rewrite (sumn_ext j (fun s => bin j (S s) * y ^ (j - s)) (fun s => y * (bin j (S s) * y ^ (j - S s)))).
    2:{ intros s Hs. replace (j - s)%nat with (S (j - S s)) by lia. cbn [pow]. ring. }
    rewrite sumn_scal. assert (E2 : (1 + y) ^ j = y ^ j + sumn j (fun s => bin j (S s) * y ^ (j - S s))).
    { rewrite IH, sumn_head, bin_0, Nat.sub_0_r. ring. }
    cbn [pow]. replace (sumn j _) with ((1 + y) ^ j - y ^ j) by (rewrite E2; ring). ring. }
  replace (1 - x) with (1 + - x) by ring. rewrite E. rewrite Rmult_0_r, Rplus_0_r. apply sumn_ext. intros s _.
  replace (- x) with (-1 * x) by ring. rewrite Rpow_mult_distr. ring.
Qed.
Lemma Rad_mixed a b r s : (b <= a)%nat -> s * s = 1 - r * r -> Rad a b r = mixed a b r s.
Proof.
  intros Hab Hs. unfold mixed. rewrite Hs.
  rewrite (sumn_ext (S b) _ (fun j => sumn (S b) (fun s => (-1) ^ s * r ^ (a + b - 2 * s) * (bin a j * (bin b j * bin j s))))).
  2:{ intros j Hj. rewrite (one_minus_pow _ j b) by lia. rewrite <- sumn_scal. apply sumn_ext. intros i Hi.
      destruct (le_lt_dec i j) as [H|H]; [|rewrite (bin_gt j i) by lia; ring].
      replace (a + b - 2 * i)%nat with (a + b - 2 * j + 2 * (j - i))%nat by lia.
      rewrite pow_add, pow_mult. replace (r ^ 2) with (r * r) by ring.
      assert (E : (-1) ^ i = (-1) ^ j * (-1) ^ (j - i)).
      { rewrite <- pow_add. replace (j + (j - i))%nat with (i + 2 * (j - i))%nat by lia. rewrite pow_add, pow_1_even. ring. }
      rewrite E. ring. }
  rewrite sumn_swap. unfold Rad. apply sumn_ext. intros i Hi. rewrite sumn_scal.
  rewrite (sumn_ext (S b) _ (fun j => bin b i * (bin a j * bin (b - i) (b - j)))) by (intros j Hj; rewrite trinomial by lia; ring).
  rewrite sumn_scal, vandermonde. unfold rcoef. rewrite (bin_eq b i), (bin_eq (a + (b - i)) b) by lia.
  replace (a + (b - i))%nat with (a + b - i)%nat by lia. replace (a + b - i - b)%nat with (a - i)%nat by lia.
  pose proof (INR_fact_pos b). pose proof (INR_fact_pos i). pose proof (INR_fact_pos (b - i)). pose proof (INR_fact_pos (a - i)). field. lra.
Qed.

(** ** the bound *)
Lemma sumn_nonneg n g : (forall k, (k < n)%nat -> 0 <= g k) -> 0 <= sumn n g.
Proof. induction n as [|n IH]; intros H; cbn [sumn]; [lra|]. specialize (IH ltac:(intros; apply H; lia)). pose proof (H n ltac:(lia)). lra. Qed.
Lemma sumn_term n g k : (forall k, (k < n)%nat -> 0 <= g k) -> (k < n)%nat -> g k <= sumn n g.
Proof.
  induction n as [|n IH]; intros H Hk; [lia|]. cbn [sumn]. destruct (Nat.eq_dec k n) as [->|Hne].
  - pose proof (sumn_nonneg n g ltac:(intros; apply H; lia)). lra.
  - specialize (IH ltac:(intros; apply H; lia) ltac:(lia)). pose proof (H n ltac:(lia)). lra.
Qed.
Lemma pow_0_n n : (0 < n)%nat -> 0 ^ n = 0. Proof. intros H. destruct n; [lia|]. cbn. ring. Qed.
Lemma rot_id a b k : rot a b 1 0 k = if (k =? a)%nat then 1 else 0.
Proof.
  unfold rot. rewrite Ropp_0. rewrite powL_conv, sumn_head.
  rewrite (sumn_ext b _ (fun _ => 0)) by (intros j _; rewrite (pow_0_n (S j)) by lia; ring). rewrite sumn_const, bin_0.
  unfold at_. cbn [Nat.leb pow]. rewrite !Nat.sub_0_r, pow1, powL_one, pow1.
  destruct (Nat.eqb_spec k a) as [->|Hne]; [rewrite Nat.sub_diag, bin_nn; cbn [pow]; ring|].
  destruct (le_lt_dec k a) as [H|H]; [rewrite (pow_0_n (a - k)) by lia; ring|rewrite bin_gt by lia; ring].
Qed.
Lemma wt_pos n k : 0 < wt n k. Proof. unfold wt. apply Rmult_lt_0_compat; apply INR_fact_pos. Qed.
Lemma nrm_id a b : nrm (a + b) (rot a b 1 0) = wt (a + b) a.
Proof.
  unfold nrm. rewrite (sumn_ext _ _ (fun k => if (k =? a)%nat then wt (a + b) a else 0)).
  2:{ intros k _. rewrite rot_id. destruct (Nat.eqb_spec k a) as [->|]; ring. }
  replace (S (a + b)) with (a + S b)%nat by lia. rewrite sumn_plus, sumn_head, Nat.add_0_r, Nat.eqb_refl.
  rewrite (sumn_ext a _ (fun _ => 0)) by (intros k Hk; rewrite (proj2 (Nat.eqb_neq k a)) by lia; reflexivity).
  rewrite (sumn_ext b _ (fun _ => 0)) by (intros k Hk; rewrite (proj2 (Nat.eqb_neq (a + S k) a)) by lia; reflexivity).
  rewrite !sumn_const. ring.
Qed.
Theorem Rad_le_1 a b r : (b <= a)%nat -> 0 <= r <= 1 -> Rabs (Rad a b r) <= 1.
Proof.
  intros Hab Hr. set (t := acos r). assert (Ec : cos t = r) by (apply cos_acos; lra).
  assert (Es : sin t * sin t = 1 - r * r).
  { pose proof (sin2_cos2 t) as H. unfold Rsqr in H. rewrite Ec in H. lra. }
  rewrite (Rad_mixed a b r (sin t) Hab Es), <- rot_mixed by exact Hab. rewrite <- Ec.
  set (p := rot a b (cos t) (sin t)).
  assert (H : wt (a + b) a * (p a * p a) <= wt (a + b) a * 1).
  { rewrite Rmult_1_r. replace (wt (a + b) a) with (nrm (a + b) p) at 2 by (unfold p; rewrite nrm_const; apply nrm_id). apply (sumn_term (S (a + b)) (fun k => wt (a + b) k * (p k * p k)) a); [|lia].
    intros k _. pose proof (wt_pos (a + b) k). apply Rmult_le_pos; [lra|]. apply Rle_0_sqr. }
  apply Rmult_le_reg_l in H; [|apply wt_pos].
  apply Rabs_le. split; nra.
Qed.
