(** Accuracy of the binary64 Zernike features: integral, moment and feature. *)
From Coq Require Import Reals Lra Psatz.
From Flocq Require Import Core BinarySingleNaN.
From Coquelicot Require Import Complex.
From Verif Require Import Outcome Floats FloatFacts IndexArithProofs Matrix MatrixFacts HaarReal Zernike ZernikeProofs PropsZernike ZernikeBound PropsZernike2 ZernikeGen ZernikeF64 RelError LibmSpec ZernikeAcc ZernikeAcc2 ZernikeAcc3 ZernikeAcc4 ZernikeAcc5.
Open Scope R_scope.

Lemma sum_abs x y : Rabs (x + y) <= Rabs x + Rabs y. Proof. apply Rabs_triang. Qed.
(** one step of the integral, one component *)
Lemma step_acc k v z acc G S0 : (Z.of_nat k < 2 ^ 32)%Z -> (0 <= v <= 255)%Z -> app delta z G -> Rabs G <= 1 ->
  app (INR k / 2000) acc S0 -> Rabs S0 <= 255 * INR k ->
  app (INR (S k) / 2000) (f_add Bops acc (f_mul Bops z (f_of_Z Bops v))) (S0 + IZR v * G) /\ Rabs (S0 + IZR v * G) <= 255 * INR (S k).
Proof.
  intros Hk Hv Az BG Aa BS. pose proof u53_pos as U. pose proof eta_le as ET. pose proof eta_pos as EP.
  assert (Ik : 0 <= INR k <= 4294967295) by (rewrite INR_IZR_INZ; split; apply IZR_le; lia).
  assert (Rv : 0 <= IZR v <= 255) by (split; apply IZR_le; lia).
  assert (Av : app 0 (f_of_Z Bops v) (IZR v)) by (apply app_int, int_of_Z; lia).
  assert (BGv : Rabs (IZR v * G) <= 255) by (rewrite Rabs_mult, (Rabs_pos_eq (IZR v)) by lra; pose proof (Rabs_pos G); nra).
  assert (BS2 : Rabs (S0 + IZR v * G) <= 255 * INR (S k)) by (rewrite S_INR; eapply Rle_trans; [apply sum_abs|]; lra).
  split; [|exact BS2]. rewrite (Rmult_comm (IZR v) G) in *.
  assert (Dd : delta <= / 1000000) by (unfold delta; lra). assert (Dp : 0 < delta) by (unfold delta; lra).
  pose proof (app_mul _ _ z _ G (IZR v) 1 255 Az Av BG ltac:(rewrite Rabs_pos_eq; lra) ltac:(unfold big; lra)) as A1.
  assert (A2 : app (255 * delta + 257 * u53) (f_mul Bops z (f_of_Z Bops v)) (G * IZR v)).
  { eapply app_weaken; [|exact A1]. assert (u53 * (Rabs (G * IZR v) + (delta * 255 + 1 * 0 + delta * 0)) <= u53 * 256) by (apply Rmult_le_compat_l; lra). lra. }
  assert (UU : u53 * 4294967296 <= / 2000000) by (rewrite u53_val; lra).
  rewrite S_INR in *. eapply app_weaken; [|apply (app_add _ _ _ _ _ _ Aa A2); unfold big; lra].
  assert (u53 * (Rabs (S0 + G * IZR v) + (INR k / 2000 + (255 * delta + 257 * u53))) <= u53 * (256 * 4294967296)) by (apply Rmult_le_compat_l; lra).
  unfold delta in *. lra.
Qed.
Lemma integral_acc (matrix : list (@cx b64)) (G : nat -> C) (l : list Z) : Forall (fun v => (0 <= v <= 255)%Z) l ->
  forall k acc Sr Si, (Z.of_nat (k + length l) <= 2 ^ 32)%Z ->
  (forall p, (p < length l)%nat -> exists z, nth_error matrix (k + p) = Some z /\ app delta (fst z) (fst (G (k + p)%nat)) /\ app delta (snd z) (snd (G (k + p)%nat)) /\ Cmod (G (k + p)%nat) <= 1) ->
  app (INR k / 2000) (fst acc) Sr -> Rabs Sr <= 255 * INR k -> app (INR k / 2000) (snd acc) Si -> Rabs Si <= 255 * INR k ->
  exists z, foldM (g_integrand matrix) (combine (seq k (length l)) l) acc = Ok z
    /\ app (INR (k + length l) / 2000) (fst z) (Sr + sumn (length l) (fun p => IZR (nth p l 0%Z) * fst (G (k + p)%nat)))
    /\ app (INR (k + length l) / 2000) (snd z) (Si + sumn (length l) (fun p => IZR (nth p l 0%Z) * snd (G (k + p)%nat)))
    /\ Rabs (Sr + sumn (length l) (fun p => IZR (nth p l 0%Z) * fst (G (k + p)%nat))) <= 255 * INR (k + length l)
    /\ Rabs (Si + sumn (length l) (fun p => IZR (nth p l 0%Z) * snd (G (k + p)%nat))) <= 255 * INR (k + length l).
Proof.
  intros Hl. induction Hl as [|v t Hv Ht IH]; intros k acc Sr Si Hk HG Ar Br Ai Bi.
  - cbn [length seq combine foldM sumn]. exists acc. rewrite Nat.add_0_r, !Rplus_0_r. repeat split; try assumption; try apply Ar; apply Ai.
  - cbn [length seq combine foldM]. unfold g_integrand at 1. cbn [fst snd].
    destruct (HG 0%nat ltac:(cbn [length]; lia)) as (z & Ez & Az1 & Az2 & Bz). rewrite Nat.add_0_r in *. rewrite Ez. cbn [unwrap bind].
    destruct (comp_le_Cmod (G k)) as (C1 & C2). unfold cx_add, cx_mulr. cbn [fst snd].
    destruct (step_acc k v (fst z) (fst acc) (fst (G k)) Sr ltac:(cbn [length] in Hk; lia) Hv Az1 ltac:(lra) Ar Br) as (Ar' & Br').
    destruct (step_acc k v (snd z) (snd acc) (snd (G k)) Si ltac:(cbn [length] in Hk; lia) Hv Az2 ltac:(lra) Ai Bi) as (Ai' & Bi').
    set (acc' := (f_add Bops (fst acc) _, f_add Bops (snd acc) _)).
    destruct (IH (S k) acc' (Sr + IZR v * fst (G k)) (Si + IZR v * snd (G k))) as (y & Ey & Y1 & Y2 & Y3 & Y4); try assumption.
    { cbn [length] in Hk. lia. }
    { intros p Hp. replace (S k + p)%nat with (k + S p)%nat by lia. apply HG. cbn [length]. lia. }
    exists y. split; [exact Ey|].
    assert (Hs : forall sel : C -> R, forall S1, S1 + IZR v * sel (G k) + sumn (length t) (fun p => IZR (nth p t 0%Z) * sel (G (S k + p)%nat))
       = S1 + sumn (S (length t)) (fun p => IZR (nth p (v :: t) 0%Z) * sel (G (k + p)%nat))).
    { intros sel S1. rewrite (sumn_head (length t) (fun p => IZR (nth p (v :: t) 0%Z) * sel (G (k + p)%nat))). cbn [nth]. rewrite Nat.add_0_r, <- Rplus_assoc. f_equal. apply sumn_ext.
      intros p _. do 3 f_equal. lia. }
    rewrite !Hs in *. replace (k + S (length t))%nat with (S k + length t)%nat by lia. repeat split; try assumption; try apply Y1; apply Y2.
Qed.

(** the pixels in storage order and the double sum *)
Lemma raw_bytes image : wf image -> byte_pixels image -> Forall (fun v => (0 <= v <= 255)%Z) (into_raw_vec image).
Proof.
  intros (H0 & H1) Hb. apply Forall_forall. intros v Hv. unfold into_raw_vec in Hv. apply in_concat in Hv as (r & Hr & Hv).
  apply In_nth_error in Hr as (i & Ei). apply In_nth_error in Hv as (j & Ej). apply (Hb i j v). unfold cell. rewrite Ei. exact Ej.
Qed.
Lemma integral_dsum image n (K : nat -> nat -> R) : (2 <= n)%nat -> square image n ->
  sumn (length (into_raw_vec image)) (fun p => IZR (nth p (into_raw_vec image) 0%Z) * K (p / n)%nat (p mod n)%nat) = dsum n n (fun i j => pix image i j * K i j).
Proof.
  intros Hn (Hwf & E0 & E1). rewrite into_raw_vec_length, E0, E1, sumn_mul by exact Hwf. apply dsum_ext. intros i j Hi Hj.
  rewrite Nat.div_add_l, (Nat.div_small j), Nat.add_0_r by lia. rewrite (Nat.add_comm (i * n)), Nat.mod_add, Nat.mod_small by lia. rewrite (Nat.add_comm j).
  f_equal. rewrite <- E1 at 1. apply raw_nth; [exact Hwf|lia|lia].
Qed.

Lemma b_pi_val : fin b_pi /\ 31415926 / 10000000 <= toR b_pi <= 31415928 / 10000000.
Proof.
  destruct (b_dyadic_exact 7074237752028440 (-51)) as (F & V); [lia|lia|]. split; [exact F|]. change b_pi with (b_dyadic 7074237752028440 (-51)).
  rewrite V. change (bpow radix2 (-51)) with (/ 2251799813685248). lra.
Qed.

Section Acc6.
Context (M : libm b64) (HM : accurate M) (g : b64 -> b64).

Lemma multiplier_acc k : (k <= 10)%nat ->
  app (/ 2000000) (f_div Bops (f_add Bops (f_of_Z Bops (Z.of_nat (2 * k + 1))) (f_of_Z Bops 1)) (l_pi M)) ((INR (2 * k + 1) + 1) / PI)
  /\ 0 <= (INR (2 * k + 1) + 1) / PI <= 7004 / 1000.
Proof.
  intros Hk. rewrite (acc_pi M HM). destruct b_pi_val as (Fp & Vp). pose proof PI_bounds as HP.
  assert (HN : is_int (f_add Bops (f_of_Z Bops (Z.of_nat (2 * k + 1))) (f_of_Z Bops 1)) (Z.of_nat (2 * k + 1) + 1)) by (apply int_add; [apply int_of_Z; lia|apply int_of_Z; lia|lia]).
  destruct HN as (FN & VN). rewrite plus_IZR, <- INR_IZR_INZ in VN. set (x := f_add Bops _ _) in *. set (N := INR (2 * k + 1) + 1) in *.
  assert (BN : 0 <= N <= 22). { unfold N. rewrite INR_IZR_INZ, <- plus_IZR. split; apply IZR_le; lia. }
  set (p := toR b_pi) in *. assert (Q : forall q, 31415926 / 10000000 <= q -> 0 <= N / q <= 7003 / 1000).
  { intros q Hq. assert (0 < q) by lra. split; [apply Rmult_le_pos; [lra|left; now apply Rinv_0_lt_compat]|]. apply Rmult_le_reg_r with q; [lra|]. unfold Rdiv. rewrite Rmult_assoc, Rinv_l by lra. lra. }
  destruct (b_div_ok x b_pi FN) as (Fq & Vq).
  { fold p. lra. }
  { fold p. rewrite VN. apply small_1000. pose proof (Q p ltac:(lra)). rewrite Rabs_pos_eq; lra. }
  pose proof (Q PI ltac:(lra)) as Q1. split; [|lra]. split; [exact Fq|]. fold p in Vq. rewrite VN in Vq. rewrite Vq.
  assert (E : Rabs (N / p - N / PI) <= 48 / 100000000).
  { replace (N / p - N / PI) with (N / p * (PI - p) / PI) by (field; lra). unfold Rdiv at 1. rewrite !Rabs_mult, Rabs_inv, (Rabs_pos_eq PI) by lra.
    pose proof (Q p ltac:(lra)) as Q2. rewrite (Rabs_pos_eq (N / p)) by lra. assert (Rabs (PI - p) <= 2 / 10000000) by (apply Rabs_le; lra).
    assert (/ PI <= 1 / 3). { unfold Rdiv. rewrite Rmult_1_l. apply Rinv_le_contravar; lra. } assert (0 < / PI) by (apply Rinv_0_lt_compat; lra).
    pose proof (Rabs_pos (PI - p)). assert (N / p * Rabs (PI - p) <= 7003 / 1000 * (2 / 10000000)) by (apply Rmult_le_compat; lra).
    assert (0 <= N / p * Rabs (PI - p)) by (apply Rmult_le_pos; lra).
    assert (N / p * Rabs (PI - p) * / PI <= 7003 / 1000 * (2 / 10000000) * (1 / 3)) by (apply Rmult_le_compat; lra). lra. }
  pose proof (rnd_app _ _ _ E) as E2. rewrite (Rabs_pos_eq (N / PI)) in E2 by lra. eapply Rle_trans; [exact E2|].
  pose proof eta_le. pose proof u53_pos. assert (u53 * (N / PI + 48 / 100000000) <= u53 * 8) by (apply Rmult_le_compat_l; lra). assert (u53 <= / 1000000000000) by (rewrite u53_val; lra). lra.
Qed.

(** one component of the moment *)
Lemma component_acc N x X mu MU pa : (4 <= Z.of_nat N <= 2 ^ 32)%Z -> app (INR N / 2000) x X -> Rabs X <= 255 * INR N -> app (/ 2000000) mu MU -> 0 <= MU <= 7004 / 1000 ->
  is_int pa (Z.of_nat N) -> app (37 / 10000) (f_div Bops (f_mul Bops mu x) pa) (MU * X / INR N) /\ Rabs (MU * X / INR N) <= 1800.
Proof.
  intros HN Ax BX Am BM Hpa. pose proof u53_pos as U. pose proof eta_le as ET. pose proof eta_pos as EP.
  assert (IN : 4 <= INR N <= 4294967296) by (rewrite INR_IZR_INZ; split; apply IZR_le; lia).
  pose proof (app_mul _ _ mu x MU X (7004 / 1000) (255 * INR N) Am Ax ltac:(rewrite Rabs_pos_eq; lra) BX ltac:(unfold big; nra)) as (Fy & Ey).
  assert (BMX : Rabs (MU * X) <= 1790 * INR N). { rewrite Rabs_mult, (Rabs_pos_eq MU) by lra. pose proof (Rabs_pos X). nra. }
  assert (U2 : u53 * 1000000000 <= / 1000000) by (rewrite u53_val; lra).
  assert (Ey2 : Rabs (toR (f_mul Bops mu x) - MU * X) <= 3640 / 1000000 * INR N).
  { eapply Rle_trans; [exact Ey|]. assert (u53 * (Rabs (MU * X) + (/ 2000000 * (255 * INR N) + 7004 / 1000 * (INR N / 2000) + / 2000000 * (INR N / 2000))) <= u53 * (1800 * INR N)) by (apply Rmult_le_compat_l; lra).
    assert (u53 * INR N <= / 1000000000000000 * INR N) by (apply Rmult_le_compat_r; [lra|rewrite u53_val; lra]). lra. }
  destruct Hpa as (Fp & Vp). rewrite <- INR_IZR_INZ in Vp. set (y := f_mul Bops mu x) in *.
  assert (Dv : forall z c, Rabs z <= c * INR N -> Rabs (z / INR N) <= c).
  { intros z c Hz. unfold Rdiv. rewrite Rabs_mult, Rabs_inv, (Rabs_pos_eq (INR N)) by lra. apply Rmult_le_reg_r with (INR N); [lra|]. rewrite Rmult_assoc, Rinv_l by lra. lra. }
  pose proof (Dv _ _ BMX) as B1. pose proof (Dv _ _ Ey2) as E1. replace ((toR y - MU * X) / INR N) with (toR y / INR N - MU * X / INR N) in E1 by (field; lra).
  split; [|lra]. destruct (b_div_ok y pa Fy) as (Fq & Vq).
  { rewrite Vp. lra. }
  { rewrite Vp. apply small_1000. replace (toR y / INR N) with (MU * X / INR N + (toR y / INR N - MU * X / INR N)) by ring. eapply Rle_trans; [apply Rabs_triang|]. lra. }
  split; [exact Fq|]. rewrite Vq, Vp. eapply Rle_trans; [apply (rnd_app _ _ _ E1)|].
  assert (u53 * (Rabs (MU * X / INR N) + 3640 / 1000000) <= u53 * 2000) by (apply Rmult_le_compat_l; lra). lra.
Qed.

Lemma moment_acc k q n image : (k <= 10)%nat -> (q <= k)%nat -> (2 <= Z.of_nat n <= 65536)%Z -> square image n -> byte_pixels image ->
  exists z, g_moment Bops M g (1 + 2 * k) (1 + 2 * q) image = Ok z /\ 0 <= toR (cx_abs M z) /\ app (/ 128) (cx_abs M z) (feature k q n (pix image)).
Proof.
  intros Hk Hq Hn Hsq Hb. destruct (ab_sum k q Hq) as (EA & EB). rewrite EA, EB. set (a := (k + q + 1)%nat) in *. set (b := (k - q)%nat) in *.
  pose proof Hsq as (Hwf & E0 & E1). unfold g_moment. rewrite E0, E1.
  destruct (g_matrix_total M g a b n ltac:(unfold a; lia) ltac:(unfold a, b; lia)) as (m & Em & Lm & Hm). rewrite Em. cbn [bind].
  match goal with |- context [foldM ?h _ _] => change h with (g_integrand m) end.
  pose proof (into_raw_vec_length image Hwf) as Hlen. rewrite E0, E1 in Hlen.
  set (G := fun p => kern a n b (p / n) (p mod n)).
  assert (H0 : app (INR 0 / 2000) (f_of_Z Bops 0) 0).
  { eapply app_weaken; [|apply (app_int _ 0), int_of_Z; lia]. cbn [INR]. lra. }
  destruct (integral_acc m G (into_raw_vec image) (raw_bytes image Hwf Hb) 0 (f_of_Z Bops 0, f_of_Z Bops 0) 0 0) as (z & Ez & Z1 & Z2 & Z3 & Z4); cbn [fst snd]; try assumption; try (rewrite Rabs_R0; cbn [INR]; lra).
  { rewrite Hlen. nia. }
  { intros p Hp. rewrite Hlen in Hp. cbn [Nat.add]. destruct (Hm p Hp) as (w & Ew & Enw). exists w. split; [exact Enw|].
    assert (Hd : (p / n < n)%nat) by (apply Nat.div_lt_upper_bound; lia). assert (Hd2 : (p mod n < n)%nat) by (apply Nat.mod_upper_bound; lia).
    destruct (element_acc M HM g k q n (p / n) (p mod n) Hk Hq Hn Hd Hd2) as (w' & Ew' & Aw1 & Aw2). fold a b in Ew', Aw1, Aw2.
    replace (p / n * n + p mod n)%nat with p in Ew' by (rewrite Nat.mul_comm; apply Nat.div_mod; lia).
    assert (w' = w) by congruence. subst w'. split; [exact Aw1|]. split; [exact Aw2|]. apply zval_le_1; try assumption; unfold a, b; lia. }
  rewrite Ez. cbn [bind]. eexists. split; [reflexivity|].
  rewrite Hlen in Z1, Z2, Z3, Z4. rewrite <- Hlen in Z1 at 2. rewrite <- Hlen in Z2 at 2. rewrite <- Hlen in Z3 at 1. rewrite <- Hlen in Z4 at 1.
  cbn [Nat.add] in Z1, Z2, Z3, Z4.
  change (fun p => IZR (nth p (into_raw_vec image) 0%Z) * fst (G p)) with (fun p => IZR (nth p (into_raw_vec image) 0%Z) * (fun i j => fst (kern a n b i j)) (p / n)%nat (p mod n)%nat) in Z1, Z3.
  change (fun p => IZR (nth p (into_raw_vec image) 0%Z) * snd (G p)) with (fun p => IZR (nth p (into_raw_vec image) 0%Z) * (fun i j => snd (kern a n b i j)) (p / n)%nat (p mod n)%nat) in Z2, Z4.
  rewrite (integral_dsum image n) in Z1, Z2, Z3, Z4 by (try assumption; lia). rewrite Rplus_0_l in Z1, Z2, Z3, Z4.
  unfold feature. fold a b. unfold moment. set (Sr := dsum n n (fun i j => pix image i j * fst (kern a n b i j))) in *. set (Si := dsum n n (fun i j => pix image i j * snd (kern a n b i j))) in *.
  destruct (multiplier_acc k Hk) as (Amu & Bmu). replace (2 * k + 1)%nat with (a + b)%nat in Amu, Bmu by (unfold a, b; lia).
  assert (Hpa : is_int (f_of_Z Bops (Z.of_nat (n * n))) (Z.of_nat (n * n))) by (apply int_of_Z; nia).
  unfold cx_abs, cx_divr, cx_scale. cbn [fst snd].
  destruct (component_acc (n * n) _ _ _ _ _ ltac:(nia) Z1 Z3 Amu Bmu Hpa) as (Ar & Br).
  destruct (component_acc (n * n) _ _ _ _ _ ltac:(nia) Z2 Z4 Amu Bmu Hpa) as (Ai & Bi).
  set (MU := (INR (a + b) + 1) / PI) in *. set (xr := f_div Bops (f_mul Bops _ (fst z)) _) in *. set (xi := f_div Bops (f_mul Bops _ (snd z)) _) in *.
  assert (IN : INR (n * n) <> 0) by (apply not_0_INR; nia).
  assert (ES : Cscale (factor (a + b) n) (Sr, Si) = (MU * Sr / INR (n * n), MU * Si / INR (n * n))).
  { unfold Cscale, factor. cbn [fst snd]. fold MU. f_equal; field; exact IN. }
  rewrite ES. set (Xr := MU * Sr / INR (n * n)) in *. set (Xi := MU * Si / INR (n * n)) in *.
  pose proof (app_abs _ _ _ Ar) as Br'. pose proof (app_abs _ _ _ Ai) as Bi'. destruct Ar as (Fr & Er). destruct Ai as (Fi & Ei).
  assert (B500 : 2000 <= bpow radix2 500) by (apply Rle_trans with (bpow radix2 11); [change (bpow radix2 11) with 2048; lra|apply bpow_le; lia]).
  destruct (acc_hypot M HM xr xi Fr Fi ltac:(lra) ltac:(lra)) as (Fh & Eh).
  split; [exact (acc_hypot_sign M HM xr xi Fr Fi ltac:(lra) ltac:(lra))|]. split; [exact Fh|].
  change (sqrt (toR xr ^ 2 + toR xi ^ 2)) with (Cmod (toR xr, toR xi)) in Eh.
  pose proof (Cmod_sub_le (toR xr, toR xi) (Xr, Xi)) as Hd. pose proof (Cmod_le_sum ((toR xr, toR xi) - (Xr, Xi))%C) as Hs.
  cbn [fst snd Cminus Cplus Copp] in Hs. fold (Rminus (toR xr) Xr) in Hs. fold (Rminus (toR xi) Xi) in Hs.
  pose proof (Cmod_le_sum (toR xr, toR xi)) as Hb2. cbn [fst snd] in Hb2. pose proof (Cmod_ge_0 (toR xr, toR xi)) as Hp2.
  assert (Et : bpow radix2 (-1000) <= / 1000000).
  { apply Rle_trans with (bpow radix2 (-30)); [apply bpow_le; lia|]. change (bpow radix2 (-30)) with (/ 1073741824). lra. }
  assert (Ee : eps * Cmod (toR xr, toR xi) <= / 1000000) by (rewrite eps_u, u53_val; lra).
  replace (toR (l_hypot M xr xi) - Cmod (Xr, Xi)) with ((toR (l_hypot M xr xi) - Cmod (toR xr, toR xi)) + (Cmod (toR xr, toR xi) - Cmod (Xr, Xi))) by ring.
  eapply Rle_trans; [apply Rabs_triang|]. lra.
Qed.
End Acc6.
