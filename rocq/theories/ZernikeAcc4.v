(** Accuracy of the binary64 Zernike features: the radial polynomial and one matrix element. *)
From Coq Require Import Reals Lra Psatz.
From Flocq Require Import Core BinarySingleNaN.
From Coquelicot Require Import Complex.
From Verif Require Import Outcome Floats FloatFacts IndexArithProofs Matrix MatrixFacts HaarReal Zernike ZernikeProofs PropsZernike ZernikeBound PropsZernike2 ZernikeGen ZernikeF64 RelError LibmSpec ZernikeAcc ZernikeAcc2 ZernikeAcc3.
Open Scope R_scope.

(** ** absolute accuracy *)
Definition app (e : R) (x : b64) (X : R) : Prop := fin x /\ Rabs (toR x - X) <= e.
Lemma app_weaken e f x X : e <= f -> app e x X -> app f x X.
Proof. intros H (F & E). split; [exact F|lra]. Qed.
Lemma app_abs e x X : app e x X -> Rabs (toR x) <= Rabs X + e.
Proof. intros (_ & E). replace (toR x) with (X + (toR x - X)) by ring. eapply Rle_trans; [apply Rabs_triang|]. lra. Qed.
Lemma app_int x k : is_int x k -> app 0 x (IZR k).
Proof. intros (F & V). split; [exact F|]. rewrite V, Rminus_diag_eq, Rabs_R0 by reflexivity. lra. Qed.
Definition big : R := 1000000000000000000000000000000.
Lemma rnd_app X z e : Rabs (z - X) <= e -> Rabs (rnd z - X) <= e + (u53 * (Rabs X + e) + eta).
Proof.
  intros H. replace (rnd z - X) with ((rnd z - z) + (z - X)) by ring. eapply Rle_trans; [apply Rabs_triang|].
  pose proof (rnd_err z). assert (Rabs z <= Rabs X + e) by (replace z with (X + (z - X)) by ring; eapply Rle_trans; [apply Rabs_triang|]; lra).
  pose proof u53_pos. nra.
Qed.
Lemma app_add e f x y X Y : app e x X -> app f y Y -> Rabs (X + Y) + (e + f) <= big ->
  app (e + f + (u53 * (Rabs (X + Y) + (e + f)) + eta)) (f_add Bops x y) (X + Y).
Proof.
  intros (Fx & Ex) (Fy & Ey) HB.
  assert (H : Rabs (toR x + toR y - (X + Y)) <= e + f) by (replace (toR x + toR y - (X + Y)) with ((toR x - X) + (toR y - Y)) by ring; eapply Rle_trans; [apply Rabs_triang|]; lra).
  destruct (b_add_ok x y Fx Fy) as (F & V).
  { apply small_1000. fold big. replace (toR x + toR y) with ((X + Y) + (toR x + toR y - (X + Y))) by ring. eapply Rle_trans; [apply Rabs_triang|]. lra. }
  split; [exact F|]. rewrite V. now apply rnd_app.
Qed.
Lemma app_mul e f x y X Y A B : app e x X -> app f y Y -> Rabs X <= A -> Rabs Y <= B -> A * B + (e * B + A * f + e * f) <= big ->
  app (e * B + A * f + e * f + (u53 * (Rabs (X * Y) + (e * B + A * f + e * f)) + eta)) (f_mul Bops x y) (X * Y).
Proof.
  intros (Fx & Ex) (Fy & Ey) HA HB HH. pose proof (Rabs_pos (toR x - X)). pose proof (Rabs_pos (toR y - Y)). pose proof (Rabs_pos X). pose proof (Rabs_pos Y).
  assert (HE : Rabs (toR x * toR y - X * Y) <= e * B + A * f + e * f).
  { replace (toR x * toR y - X * Y) with ((toR x - X) * Y + X * (toR y - Y) + (toR x - X) * (toR y - Y)) by ring.
    eapply Rle_trans; [apply Rabs_triang|]. eapply Rle_trans; [apply Rplus_le_compat_r, Rabs_triang|]. rewrite !Rabs_mult.
    assert (Rabs (toR x - X) * Rabs Y <= e * B) by (apply Rmult_le_compat; lra). assert (Rabs X * Rabs (toR y - Y) <= A * f) by (apply Rmult_le_compat; lra).
    assert (Rabs (toR x - X) * Rabs (toR y - Y) <= e * f) by (apply Rmult_le_compat; lra). lra. }
  destruct (b_mul_ok x y Fx Fy) as (F & V).
  { apply small_1000. fold big. replace (toR x * toR y) with (X * Y + (toR x * toR y - X * Y)) by ring. eapply Rle_trans; [apply Rabs_triang|]. rewrite Rabs_mult.
    assert (Rabs X * Rabs Y <= A * B) by (apply Rmult_le_compat; lra). lra. }
  split; [exact F|]. rewrite V. now apply rnd_app.
Qed.
Lemma app_neg e x X : app e x X -> app e (f_neg Bops x) (- X).
Proof.
  intros (F & E). split; [cbn; now rewrite is_finite_Bopp|]. change (f_neg Bops x) with (Bopp x). rewrite (@B2R_Bopp 53 1024 x : toR (Bopp x) = - toR x).
  replace (- toR x - - X) with (- (toR x - X)) by ring. now rewrite Rabs_Ropp.
Qed.
Lemma eta_le : eta <= u53 / 1000000000000000000000000000000.
Proof.
  unfold eta, u53. change (-1075)%Z with (-53 + -1022)%Z. rewrite bpow_plus. unfold Rdiv. apply Rmult_le_compat_l; [apply bpow_ge_0|].
  apply Rle_trans with (bpow radix2 (-100)); [apply bpow_le; lia|]. change (-100)%Z with (- (100))%Z; rewrite bpow_opp. apply Rinv_le_contravar; [lra|].
  change (bpow radix2 100) with (IZR (2 ^ 100)). apply IZR_le. lia.
Qed.

Section Acc4.
Context (M : libm b64) (HM : accurate M) (g : b64 -> b64).

Lemma radial_acc k i r rho : (k <= 10)%nat -> (i <= k)%nat -> let a := (k + i + 1)%nat in let b := (k - i)%nat in
  fin r -> rel 11 (toR r) rho -> 0 <= rho <= 1 -> rho = 0 \/ / 131072 <= rho ->
  exists x, g_radial Bops M g (a + b) (a - b) r = Ok x /\ app (bpow radix2 (-20)) x (Rad a b rho).
Proof.
  intros Hk Hi a b Fr Rr Hrho Hz. unfold g_radial. rewrite radial_end by (unfold a, b; lia).
  set (h := fun accumulator s => _).
  destruct (coef_ok g k i 0 Hk Hi ltac:(lia)) as (_ & _ & _ & _ & _ & _ & Ksum). fold a b in Ksum.
  assert (H : forall m, (m <= S b)%nat -> exists x, foldM h (seq 0 m) (f_of_Z Bops 0) = Ok x
    /\ app ((246 + 2 * INR m) * u53 * IZR (zsum m (kcoef a b))) x (sumn m (fun s => rcoef a b s * rho ^ (a + b - 2 * s)))
    /\ Rabs (sumn m (fun s => rcoef a b s * rho ^ (a + b - 2 * s))) <= IZR (zsum m (kcoef a b)) /\ (Z.of_nat m <= zsum m (kcoef a b))%Z).
  { induction m as [|m IH]; intros Hm.
    - cbn [seq foldM sumn zsum]. eexists. split; [reflexivity|]. split; [|split; [rewrite Rabs_R0; lra|lia]]. apply (app_weaken 0).
      + cbn [IZR]. rewrite Rmult_0_r. lra.
      + apply (app_int _ 0). apply int_of_Z. lia.
    - destruct (IH ltac:(lia)) as (x & Ex & Ax & Bx & Lx). clear IH. rewrite seq_S, foldM_app, Ex. cbn [bind foldM Nat.add]. unfold h at 1.
      destruct (term_acc M HM g k i m r rho Hk Hi ltac:(unfold b in *; lia) Fr Rr Hrho Hz) as (y & Ey & Fy & Ft & Rt). fold a b in Ey, Rt. rewrite Ey. cbn [bind].
      eexists. split; [reflexivity|]. cbn [sumn zsum].
      destruct (coef_ok g k i m Hk Hi ltac:(unfold b in *; lia)) as (_ & _ & _ & _ & Kb & Ek & _). fold a b in Kb, Ek.
      set (t := f_mul Bops _ y) in *. set (T := rcoef a b m * rho ^ (a + b - 2 * m)) in *. set (S0 := sumn m _) in *.
      set (K := kcoef a b m) in *. set (Z0 := zsum m (kcoef a b)) in *.
      assert (BT : Rabs T <= IZR K).
      { unfold T. rewrite Ek. rewrite !Rabs_mult, pow_1_abs, Rmult_1_l. rewrite (Rabs_pos_eq (IZR K)) by (apply IZR_le; lia).
        rewrite <- (Rmult_1_r (IZR K)) at 2. apply Rmult_le_compat_l; [apply IZR_le; lia|]. rewrite Rabs_pos_eq by (apply pow_le; lra).
        rewrite <- (pow1 (a + b - 2 * m)). apply pow_incr. lra. }
      assert (K1 : 1 <= IZR K <= 18474633) by (split; apply IZR_le; lia).
      assert (Z1 : 0 <= IZR Z0 <= 18474633). 
      { split; apply IZR_le; [lia|]. assert (Mono : forall p, (m + p <= S b)%nat -> (Z0 <= zsum (m + p) (kcoef a b))%Z).
        { induction p as [|p IHp]; intros Hp; [rewrite Nat.add_0_r; lia|]. rewrite Nat.add_succ_r. cbn [zsum]. specialize (IHp ltac:(lia)).
          destruct (coef_ok g k i (m + p) Hk Hi ltac:(unfold b in *; lia)) as (_ & _ & _ & _ & Kp & _). fold a b in Kp. lia. }
        specialize (Mono (S b - m)%nat ltac:(lia)). replace (m + (S b - m))%nat with (S b) in Mono by lia. lia. }
      assert (Im : 0 <= INR m <= 11). { split; [apply pos_INR|]. replace 11 with (INR 11) by (rewrite INR_IZR_INZ; reflexivity). apply le_INR. unfold b in *; lia. }
      rewrite plus_IZR. split; [|split; [|lia]].
      + pose proof (rel_err 245 _ T ltac:(simpl; lra) Rt) as Et. fold t in Et.
        assert (At : app (246 * u53 * IZR K) t T).
        { split; [exact Ft|]. eapply Rle_trans; [exact Et|]. pose proof u53_pos. pose proof (Rabs_pos T). nra. }
        pose proof u53_pos as U. pose proof eta_le as ET. set (e := (246 + 2 * INR m) * u53 * IZR Z0) in *. set (f := 246 * u53 * IZR K) in *.
        assert (U2 : u53 <= / 1000000) by (rewrite u53_val; lra).
        assert (Ee : 0 <= e <= IZR Z0 / 1000). { unfold e. split; [apply Rmult_le_pos; nra|]. assert ((246 + 2 * INR m) * u53 <= / 1000) by nra. nra. }
        assert (Ef : 0 <= f <= IZR K / 1000) by (unfold f; split; nra).
        assert (ST : Rabs (S0 + T) <= IZR Z0 + IZR K) by (eapply Rle_trans; [apply Rabs_triang|]; lra).
        eapply app_weaken; [|apply (app_add e f x t S0 T Ax At); unfold big; lra].
        rewrite S_INR. replace ((246 + 2 * (INR m + 1)) * u53 * (IZR Z0 + IZR K)) with (e + (f + (2 * INR m) * u53 * IZR K) + 2 * u53 * (IZR Z0 + IZR K)) by (unfold e, f; ring).
        assert (0 <= 2 * INR m * u53 * IZR K) by (apply Rmult_le_pos; [apply Rmult_le_pos|]; lra).
        assert (u53 * (Rabs (S0 + T) + (e + f)) <= u53 * ((IZR Z0 + IZR K) * (1001 / 1000))) by (apply Rmult_le_compat_l; lra).
        assert (u53 * 1 <= u53 * (IZR Z0 + IZR K)) by (apply Rmult_le_compat_l; lra). lra.
      + eapply Rle_trans; [apply Rabs_triang|]. lra. }
  destruct (H (S b) ltac:(lia)) as (x & Ex & Ax & _ & _). exists x. split; [exact Ex|]. unfold Rad. eapply app_weaken; [|exact Ax].
  assert (INR (S b) <= 11) by (replace 11 with (INR 11) by (rewrite INR_IZR_INZ; reflexivity); apply le_INR; unfold b; lia). pose proof (pos_INR (S b)).
  assert (IZR (zsum (S b) (kcoef a b)) <= 18474633) by (apply IZR_le; exact Ksum).
  change (bpow radix2 (-20)) with (/ 1048576). pose proof u53_pos.
  apply Rle_trans with (268 * u53 * 18474633); [|rewrite u53_val; lra].
  apply Rle_trans with ((246 + 2 * INR (S b)) * u53 * 18474633); [apply Rmult_le_compat_l; [nra|assumption]|]. apply Rmult_le_compat_r; [lra|]. nra.
Qed.
End Acc4.
