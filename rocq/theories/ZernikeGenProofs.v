(** Proofs about ZernikeGen.v: the real reading, and the structure of the binary64 reading. *)
From Coq Require Import Reals Lra Psatz.
From Flocq Require Import Core BinarySingleNaN.
From Coquelicot Require Import Complex.
From Verif Require Import Outcome Floats FloatFacts Matrix MatrixFacts HaarReal Zernike ZernikeProofs PropsZernike ZernikeGen.
Open Scope R_scope.

(** ** the real reading *)
Lemma f_eq_R x y : f_eq Rops x y = Req_bool x y.
Proof.
  unfold f_eq. cbn. destruct (Req_bool_spec x y) as [->|H].
  - rewrite !Rle_bool_true by lra. reflexivity.
  - destruct (Rle_bool_spec y x) as [H1|H1]; [|reflexivity]. destruct (Rle_bool_spec x y) as [H2|H2]; [lra|reflexivity].
Qed.
Lemma g_factorial_R g x : Rabs x <= IZR (2 ^ 1000) -> g_factorial Rops g x = factorial g x.
Proof.
  intros H. unfold g_factorial, factorial. replace (f_cast Rops (- 2 ^ 1100) (2 ^ 1100) x) with (Ztrunc x); [reflexivity|].
  cbn [f_cast Rops]. unfold clamp.
  assert (Hz : (Z.abs (Ztrunc x) <= 2 ^ 1000)%Z).
  { apply le_IZR. rewrite abs_IZR. eapply Rle_trans; [|exact H]. unfold Ztrunc. destruct (Rlt_bool_spec x 0) as [Hx|Hx].
    - rewrite (Rabs_left x) by lra. assert (Zceil x <= 0)%Z by (apply Zceil_glb; simpl; lra). rewrite Rabs_left1 by (apply IZR_le; lia).
      pose proof (Zceil_ub x). lra.
    - rewrite (Rabs_pos_eq x) by lra. assert (0 <= Zfloor x)%Z by (apply Zfloor_lub; simpl; lra). rewrite Rabs_pos_eq by (apply IZR_le; lia). apply Zfloor_lb. }
  assert (2 ^ 1000 < 2 ^ 1100)%Z by (apply Z.pow_lt_mono_r; lia). lia.
Qed.
Lemma small_abs x : Rabs x <= IZR (2 ^ 70) -> Rabs x <= IZR (2 ^ 1000).
Proof. intros H. eapply Rle_trans; [exact H|]. apply IZR_le. apply Z.pow_le_mono_r; lia. Qed.
Lemma INR_small n : (Z.of_nat n < 2 ^ 62)%Z -> 0 <= INR n <= IZR (2 ^ 62).
Proof. intros H. split; [apply pos_INR|]. rewrite INR_IZR_INZ. apply IZR_le. lia. Qed.

Lemma g_f_R g order index s r : (Z.of_nat order < 2 ^ 62)%Z -> (Z.of_nat index < 2 ^ 62)%Z -> (Z.of_nat s < 2 ^ 62)%Z ->
  g_f Rops Rlibm g (Z.of_nat order) (Z.of_nat index) (IZR (Z.of_nat s)) r = f g order index s r.
Proof.
  intros Ho Hi Hs. unfold g_f, f. rewrite !f_eq_R. cbn [f_of_Z f_sub f_mul f_add f_div Rops l_powf Rlibm].
  pose proof (INR_small _ Ho) as Bo. pose proof (INR_small _ Hi) as Bi. pose proof (INR_small _ Hs) as Bs.
  rewrite <- !INR_IZR_INZ.
  assert (P : IZR (2 ^ 62) * 4 <= IZR (2 ^ 70)) by (rewrite <- mult_IZR; apply IZR_le; lia).
  rewrite !g_factorial_R by (apply small_abs; apply Rabs_le; lra).
  replace (Zfloor (IZR (Z.of_nat order - 2 * f_to_i64 Rops (INR s)))) with (Z.of_nat order - 2 * Z.of_nat s)%Z; [reflexivity|].
  rewrite Zfloor_IZR. unfold f_to_i64. cbn [f_cast Rops]. rewrite INR_IZR_INZ, Ztrunc_IZR. unfold clamp, i64_min, i64_max. lia.
Qed.
Lemma g_radial_R g order index r : (index <= order)%nat -> (Z.of_nat order < 2 ^ 62)%Z ->
  g_radial Rops Rlibm g order index r = radial g order index r.
Proof.
  intros Hi Ho. unfold g_radial, radial. cbn [f_of_Z f_sub f_div f_floor f_mul f_add Rops l_powf Rlibm]. rewrite <- !INR_IZR_INZ.
  set (e := Z.to_nat _).
  assert (He : (e <= order)%nat).
  { unfold e, f_to_usize. cbn [f_cast Rops]. rewrite Ztrunc_IZR. unfold clamp, usize_max.
    assert (Hf : (Zfloor ((INR order - INR index) / 2) <= Z.of_nat order)%Z).
    { apply le_IZR. eapply Rle_trans; [apply Zfloor_lb|]. rewrite <- INR_IZR_INZ. pose proof (pos_INR order). pose proof (pos_INR index). lra. }
    lia. }
  apply foldM_ext. intros acc s Hs. apply in_seq in Hs. rewrite g_f_R by lia. rewrite Zfloor_IZR. do 2 f_equal.
  rewrite <- pow_powerRZ. reflexivity.
Qed.
Lemma g_v_R g order index r t : (index <= order)%nat -> (Z.of_nat order < 2 ^ 62)%Z -> g_v Rops Rlibm g order index r t = v g order index r t.
Proof.
  intros Hi Ho. unfold g_v, v. rewrite g_radial_R by assumption. destruct (radial g order index r) as [x| |]; cbn [bind]; try reflexivity.
  f_equal. unfold cx_scale, cx_exp, cx_mulr, g_I, Cscale, Cexp, I. cbn [fst snd f_mul f_of_Z Rops l_exp l_cos l_sin Rlibm]. rewrite <- INR_IZR_INZ.
  replace (0 * INR index * t) with (t * (INR index * 0)) by ring. replace (1 * INR index * t) with (t * (INR index * 1)) by ring. reflexivity.
Qed.
Lemma g_to_polar_R x y n : g_to_polar Rops Rlibm x y n = to_polar x y n.
Proof.
  unfold g_to_polar, to_polar, g_coordinate. rewrite !f_eq_R. cbn [f_of_Z f_sub f_div f_mul f_add f_sqrt1_2 Rops l_powf l_sqrt l_atan2 Rlibm].
  rewrite <- INR_IZR_INZ. change (Zfloor (IZR 2)) with (Zfloor 2). replace (Zfloor 2) with 2%Z by (symmetry; apply (Zfloor_IZR 2)).
  reflexivity.
Qed.
Lemma g_element_R g order index n i : (index <= order)%nat -> (Z.of_nat order < 2 ^ 62)%Z ->
  g_element Rops Rlibm g order index n i = zernike_element g order index n i.
Proof.
  intros Hi Ho. unfold g_element, zernike_element. rewrite g_to_polar_R. cbn [f_of_Z f_add f_floor f_div Rops]. rewrite <- !INR_IZR_INZ.
  destruct (to_polar _ _ n) as (r, t). rewrite g_v_R by assumption. reflexivity.
Qed.
Lemma g_moment_R g order index image : (index <= order)%nat -> (Z.of_nat order < 2 ^ 62)%Z ->
  g_moment Rops Rlibm g order index image = calculate_zernike_image_moment g order index image.
Proof.
  intros Hi Ho. unfold g_moment, calculate_zernike_image_moment, g_matrix, zernike_matrix.
  replace (mapM (g_element Rops Rlibm g order index (dim0 image)) (seq 0 (dim0 image * dim0 image)))
    with (mapM (zernike_element g order index (dim0 image)) (seq 0 (dim0 image * dim0 image))).
  2:{ induction (seq 0 (dim0 image * dim0 image)) as [|a l IH]; [reflexivity|]. cbn [mapM]. rewrite g_element_R, IH by assumption. reflexivity. }
  destruct (mapM _ _) as [m| |]; cbn [bind]; try reflexivity.
  rewrite (foldM_ext _ (fun accumulator p =>
                 zernike_multiplier <- unwrap (nth_error m (fst p)) ;;
                 Ok (accumulator + Cscale (IZR (snd p)) zernike_multiplier)%C)).
  2:{ intros acc p _. change (@nth_error (@cx R) m (fst p)) with (@nth_error C m (fst p)). destruct (@nth_error C m (fst p)) as [z|]; cbn [unwrap bind]; [|reflexivity]. f_equal.
      unfold cx_add, cx_mulr, Cscale, Cplus. cbn [fst snd f_of_Z f_mul f_add Rops]. f_equal; ring. }
  cbn [f_of_Z f_add f_div Rops l_pi Rlibm]. rewrite <- !INR_IZR_INZ.
  destruct (foldM _ _ _) as [z| |]; cbn [bind]; try reflexivity. f_equal.
  unfold cx_divr, cx_scale, Cscale. cbn [fst snd f_div f_mul Rops]. f_equal; unfold Rdiv; ring.
Qed.
(** The generic model read over exact reals is the model of Zernike.v. *)
Theorem gen_real : forall gamma checks image t amount, (Z.of_nat amount <= 2 ^ 60)%Z ->
  g_calculate_features Rops Rlibm gamma checks image t amount = calculate_features gamma checks image t amount.
Proof.
  intros g checks image [| |] amount Ha; try reflexivity. cbn [g_calculate_features calculate_features]. unfold g_zernike_features, zernike_features.
  destruct amount as [|k]; [destruct checks; reflexivity|]. cbn [get_order_by_features_amount bind]. rewrite indices_odd.
  assert (H : Forall (fun index => (index <= 1 + 2 * k)%nat) (map (fun i => 1 + 2 * i)%nat (seq 0 (S k)))).
  { apply Forall_forall. intros x Hx. apply in_map_iff in Hx as (i & <- & Hi). apply in_seq in Hi. lia. }
  induction (map _ _) as [|x l IH]; [reflexivity|]. cbn [mapM]. rewrite IH by now inversion H.
  rewrite g_moment_R; [|now inversion H|lia]. reflexivity.
Qed.
