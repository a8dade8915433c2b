(** Properties C44-C50: image features (lib/sia/rust/image-features, zernike, utils/src/math.rs), exact arithmetic. *)
From Coq Require Import Reals Lra.
From Flocq Require Import Core.
From Coquelicot Require Import Complex.
From Verif Require Import Outcome Floats FloatFacts Matrix MatrixFacts HaarReal Zernike ZernikeProofs.
Open Scope R_scope.

(** ** Specification vocabulary *)

(** [square_image image n]: an n x n image with at least 2 x 2 pixels. *)
Definition square_image (image : array2 Z) (n : nat) : Prop := square image n /\ (2 <= n)%nat.

(** The numbers of features a usize computation of the order can express. *)
Definition amount_ok (amount : nat) : Prop := (1 <= Z.of_nat amount <= 2 ^ 63)%Z.

(** Finite sums. *)
Definition sum_over (n : nat) (g : nat -> R) : R := fold_right Rplus 0 (map g (seq 0 n)).

(** Textbook Zernike radial polynomial of order n and index m (n >= m, n - m even). *)
Definition radial_polynomial (n m : nat) (r : R) : R :=
  sum_over ((n - m) / 2 + 1) (fun s =>
    (-1) ^ s * INR (fact (n - s)) / (INR (fact s) * INR (fact ((n + m) / 2 - s)) * INR (fact ((n - m) / 2 - s))) * r ^ (n - 2 * s)).

(** Pixel i of n along one axis, scaled so that the square of all pixels is inscribed in the unit disk. *)
Definition position (n i : nat) : R := (2 * INR i - (INR n - 1)) / (INR n - 1) / sqrt 2.

(** z ^ m for a complex number (x, y) *)
Fixpoint complex_power (x y : R) (m : nat) : R * R :=
  match m with O => (1, 0) | S k => let '(a, b) := complex_power x y k in (a * x - b * y, a * y + b * x) end.

(** ** helpers *)
Lemma sum_over_sumn n g : sum_over n g = sumn n g.
Proof.
  unfold sum_over. induction n as [|n IH]; [reflexivity|]. rewrite seq_S, map_app, fold_right_app. cbn [map fold_right sumn Nat.add].
  rewrite <- IH. clear IH. generalize (map g (seq 0 n)) as l. induction l as [|x t IHt]; cbn [fold_right]; [ring|]. rewrite IHt. ring.
Qed.
Lemma radial_Rad a b r : (b <= a)%nat -> radial_polynomial (a + b) (a - b) r = Rad a b r.
Proof.
  intros H. unfold radial_polynomial, Rad. rewrite sum_over_sumn.
  replace ((a + b - (a - b)) / 2)%nat with b by (apply (Nat.div_unique _ 2 b 0); lia).
  replace ((a + b + (a - b)) / 2)%nat with a by (apply (Nat.div_unique _ 2 a 0); lia).
  rewrite Nat.add_1_r. apply sumn_ext. intros s Hs. unfold rcoef, Rdiv. ring.
Qed.
Lemma position_coord n i : position n i = coord n i.
Proof. unfold position, coord. f_equal. f_equal. ring. Qed.
Lemma complex_power_cpow x y m : complex_power x y m = cpow (x, y) m.
Proof.
  induction m as [|m IH]; [reflexivity|]. cbn [complex_power cpow]. rewrite IH. destruct (cpow (x, y) m). unfold Cmult. cbn [fst snd]. reflexivity.
Qed.
Lemma Cmod_scale k z : 0 <= k -> Cmod (Cscale k z) = k * Cmod z.
Proof.
  intros H. replace (Cscale k z) with (RtoC k * z)%C by (unfold Cscale, RtoC, Cmult; cbn; f_equal; ring).
  rewrite Cmod_mult, Cmod_R, Rabs_pos_eq by exact H. reflexivity.
Qed.
Lemma factor_pos order n : (2 <= n)%nat -> 0 < factor order n.
Proof.
  intros H. unfold factor. pose proof PI_RGT_0. pose proof (pos_INR order). assert (0 < INR (n * n)) by (apply lt_0_INR; nia).
  apply Rdiv_lt_0_compat; [apply Rdiv_lt_0_compat; lra|assumption].
Qed.

Lemma sumn_rev n g : sumn n g = sumn n (fun k => g (n - 1 - k)%nat).
Proof.
  induction n as [|n IH]; [reflexivity|]. rewrite (sumn_head n (fun k => g (S n - 1 - k)%nat)). cbn [sumn]. rewrite IH, Rplus_comm. f_equal; [f_equal; lia|].
  apply sumn_ext. intros k Hk. f_equal. lia.
Qed.
Lemma dsum_rev_r w h G : dsum w h G = dsum w h (fun i j => G i (h - 1 - j)%nat).
Proof. unfold dsum. apply sumn_ext. intros i _. apply sumn_rev. Qed.
Lemma dsum_rev_l w h G : dsum w h G = dsum w h (fun i j => G (w - 1 - i)%nat j).
Proof. unfold dsum. exact (sumn_rev w (fun i => sumn h (G i))). Qed.
Lemma dsum_swap w h G : dsum w h G = dsum h w (fun i j => G j i).
Proof.
  unfold dsum. induction w as [|w IH]; cbn [sumn].
  - rewrite sumn_const. ring.
  - rewrite sumn_add, IH. reflexivity.
Qed.
Lemma dsum_add w h G G' : dsum w h (fun i j => G i j + G' i j) = dsum w h G + dsum w h G'.
Proof. unfold dsum. rewrite <- sumn_add. apply sumn_ext. intros. apply sumn_add. Qed.
Lemma dsum_scal w h a G : dsum w h (fun i j => a * G i j) = a * dsum w h G.
Proof. unfold dsum. rewrite <- sumn_scal. apply sumn_ext. intros. apply sumn_scal. Qed.

Lemma dsum_lin w h a b G G' : dsum w h (fun i j => a * G i j + b * G' i j) = a * dsum w h G + b * dsum w h G'.
Proof. rewrite dsum_add, !dsum_scal. reflexivity. Qed.

(** raw complex integral *)
Definition integral (a b n : nat) (P : nat -> nat -> R) : C :=
  (dsum n n (fun i j => P i j * fst (kern a n b i j)), dsum n n (fun i j => P i j * snd (kern a n b i j))).
Lemma feature_integral k i n P : (2 <= n)%nat -> feature k i n P = factor (k + i + 1 + (k - i)) n * Cmod (integral (k + i + 1) (k - i) n P).
Proof. intros Hn. unfold feature, moment. apply Cmod_scale. left. now apply factor_pos. Qed.
Lemma integral_ext a b n P P' : (forall i j, (i < n)%nat -> (j < n)%nat -> P i j = P' i j) -> integral a b n P = integral a b n P'.
Proof. intros H. unfold integral. f_equal; apply dsum_ext; intros; rewrite H by assumption; reflexivity. Qed.

Lemma integral_opp a b n P : (2 <= n)%nat -> Nat.odd (a - b) = true -> (b <= a)%nat ->
  integral a b n (fun i j => P (n - 1 - i)%nat (n - 1 - j)%nat) = Cscale (-1) (integral a b n P).
Proof.
  intros Hn Ho Hab. unfold integral, Cscale. cbn [fst snd].
  rewrite (dsum_rev_l n n (fun i j => _ * fst _)), (dsum_rev_r n n (fun i j => _ * fst _)).
  rewrite (dsum_rev_l n n (fun i j => _ * snd _)), (dsum_rev_r n n (fun i j => _ * snd _)).
  rewrite <- !dsum_scal. f_equal; apply dsum_ext; intros i j Hi Hj;
    replace (n - 1 - (n - 1 - i))%nat with i by lia; replace (n - 1 - (n - 1 - j))%nat with j by lia;
    unfold kern; rewrite !coord_opp by assumption; rewrite zval_opp by assumption; unfold Cscale; cbn [fst snd]; ring.
Qed.
Lemma integral_rot a b n P : (2 <= n)%nat ->
  integral a b n (fun i j => P j (n - 1 - i)%nat) = (Cconj (cpow (0, 1) (a - b)) * integral a b n P)%C.
Proof.
  intros Hn. set (u := Cconj (cpow (0, 1) (a - b))).
  assert (K : forall i j, (i < n)%nat -> (j < n)%nat -> kern a n b (n - 1 - j) i = (u * kern a n b i j)%C).
  { intros i j Hi Hj. unfold kern. rewrite coord_opp by assumption. apply zval_rot. }
  unfold integral, Cmult. cbn [fst snd].
  rewrite (dsum_swap n n (fun i j => P j (n - 1 - i)%nat * fst _)), (dsum_rev_r n n (fun i j => _ * fst (kern a n b j i))).
  rewrite (dsum_swap n n (fun i j => P j (n - 1 - i)%nat * snd _)), (dsum_rev_r n n (fun i j => _ * snd (kern a n b j i))).
  assert (R : forall j i, (i < n)%nat -> (j < n)%nat -> (n - 1 - (n - 1 - j))%nat = j) by lia.
  f_equal; [replace (fst u * _ - snd u * _) with (fst u * dsum n n (fun i j => P i j * fst (kern a n b i j))
      + (- snd u) * dsum n n (fun i j => P i j * snd (kern a n b i j))) by ring|];
    rewrite <- dsum_lin; apply dsum_ext; intros i j Hi Hj; rewrite (R j i), K by assumption; unfold Cmult; cbn [fst snd]; ring.
Qed.
Lemma integral_mirror a b n P : (2 <= n)%nat -> integral a b n (fun i j => P i (n - 1 - j)%nat) = Cconj (integral a b n P).
Proof.
  intros Hn. unfold integral, Cconj. cbn [fst snd].
  rewrite (dsum_rev_r n n (fun i j => P i (n - 1 - j)%nat * fst _)), (dsum_rev_r n n (fun i j => P i (n - 1 - j)%nat * snd _)).
  f_equal; [|replace (- dsum n n _) with ((-1) * dsum n n (fun i j => P i j * snd (kern a n b i j))) by ring; rewrite <- dsum_scal];
    apply dsum_ext; intros i j Hi Hj; replace (n - 1 - (n - 1 - j))%nat with j by lia;
    unfold kern; rewrite coord_opp by assumption; rewrite zval_mirror; unfold Cconj; cbn [fst snd]; ring.
Qed.
Lemma Cmod_Cconj z : Cmod (Cconj z) = Cmod z.
Proof. unfold Cmod, Cconj. cbn [fst snd]. f_equal. ring. Qed.

Lemma odd_index k i : (i <= k)%nat -> Nat.odd (k + i + 1 - (k - i)) = true.
Proof. intros H. apply Nat.odd_spec. exists i. lia. Qed.

Lemma pix_ext A B (i j i' j' : nat) : cell A i j = cell B i' j' -> pix A i j = pix B i' j'.
Proof. unfold pix. now intros ->. Qed.

(** *** C44 *)
Theorem C44_number_and_indices_of_features : forall gamma checks image amount,
  amount_ok amount -> wf image -> (dim1 image <= dim0 image)%nat ->
  exists features, calculate_features gamma checks image MomentsZernike amount = Ok features /\ length features = amount
    /\ forall i, (i < amount)%nat -> exists z,
         calculate_zernike_image_moment gamma (2 * amount - 1) (2 * i + 1) image = Ok z
         /\ nth_error features i = Some (Cmod z).
Proof.
  intros g checks image amount (Ha1 & Ha2) Hwf Hd. destruct amount as [|k]; [lia|].
  assert (Hk : (Z.of_nat k < 2 ^ 64)%Z) by lia.
  destruct (features_total g checks image k Hwf Hd Hk) as (l & El & Hl). exists l. split; [exact El|]. split; [exact Hl|].
  intros i Hi. destruct (moment_total g (k + i + 1) (k - i) image ltac:(lia) ltac:(lia) Hwf Hd) as (z & Ez).
  destruct (ab_sum k i ltac:(lia)) as (A & B). exists z. replace (2 * S k - 1)%nat with (1 + 2 * k)%nat by lia. rewrite (Nat.add_comm (2 * i) 1), A, B.
  split; [exact Ez|]. unfold zernike_features in El. cbn [get_order_by_features_amount bind] in El. rewrite indices_odd in El.
  assert (Hn : nth_error (map (fun i => 1 + 2 * i)%nat (seq 0 (S k))) i = Some (1 + 2 * i)%nat).
  { rewrite nth_error_map, (nth_error_nth' _ 0%nat) by (rewrite seq_length; lia). rewrite seq_nth by lia. reflexivity. }
  revert Hn El. generalize (map (fun i => 1 + 2 * i)%nat (seq 0 (S k))) as idx. clear - Ez A B. intros idx. revert i l Ez A B.
  assert (G : forall idx p q l, nth_error idx p = Some q ->
    mapM (fun index => m <- calculate_zernike_image_moment g (1 + 2 * k) index image ;; Ok (Cmod m)) idx = Ok l ->
    forall z, calculate_zernike_image_moment g (1 + 2 * k) q image = Ok z -> nth_error l p = Some (Cmod z)).
  { clear. induction idx as [|q0 t IH]; intros p q l Hn El z Ez; [destruct p; discriminate|]. cbn [mapM] in El.
    apply bind_ok in El as (m & Em & El). apply bind_ok in El as (l' & El' & El). assert (El2 : l = m :: l') by congruence. subst l.
    destruct p as [|p]; cbn [nth_error] in *.
    - assert (q0 = q) by congruence. subst q0. rewrite Ez in Em. cbn [bind] in Em. congruence.
    - eapply IH; eassumption. }
  intros i l Ez A B Hn El. eapply G; [exact Hn|exact El|]. rewrite A, B. exact Ez.
Qed.

(** Amount 0 panics in every build profile; the two unimplemented feature types return no feature. *)
Theorem C44_degenerate_requests : forall gamma checks image amount,
  (exists r, calculate_features gamma checks image MomentsZernike 0 = Panic r)
  /\ calculate_features gamma checks image MomentsPseudoZernike amount = Ok []
  /\ calculate_features gamma checks image CentralFiniteDifferences amount = Ok [].
Proof. intros g checks image amount. split; [destruct checks; eexists; reflexivity|split; reflexivity]. Qed.

(** For square images the moment is the textbook one: (n+1)/(pi N^2) * sum I(p) * R(rho) * conj((x+iy)/rho)^m. *)
Theorem C44_moments_are_zernike_moments : forall gamma image n order index,
  square_image image n -> (index <= order)%nat -> Nat.odd order = true -> Nat.odd index = true -> (Z.of_nat order < 2 ^ 64)%Z ->
  let rho i j := sqrt (position n i ^ 2 + position n j ^ 2) in
  let term (part : R * R -> R) i j := match cell image i j with Some p => IZR p | None => 0 end
         * (radial_polynomial order index (rho i j) * part (complex_power (position n i / rho i j) (position n j / rho i j) index)) in
  let total part := (INR order + 1) / (PI * INR n ^ 2) * sum_over n (fun i => sum_over n (fun j => term part i j)) in
  calculate_zernike_image_moment gamma order index image = Ok (total fst, - total snd).
Proof.
  intros g image n order index (Hsq & Hn) Hi Ho1 Ho2 Hr.
  assert (Hab : exists a b, order = (a + b)%nat /\ index = (a - b)%nat /\ (b < a)%nat).
  { apply Nat.odd_spec in Ho1 as (k & ->). apply Nat.odd_spec in Ho2 as (i & ->). exists (k + i + 1)%nat, (k - i)%nat. lia. }
  destruct Hab as (a & b & A & B & Hab). clear Ho1 Ho2 Hi. subst order index. intros rho term total.
  rewrite (moment_ok g a b n image) by (try assumption; lia). unfold moment, Cscale. cbn [fst snd].
  assert (E : forall part, total part = factor (a + b) n * dsum n n (fun i j => pix image i j * (Rad a b (rho i j) *
      part (cpow (coord n i / rho i j, coord n j / rho i j) (a - b))))).
  { intros part. unfold total, factor, dsum. f_equal.
    - rewrite mult_INR. assert (INR n <> 0) by (apply not_0_INR; lia). pose proof PI_neq0. field. split; assumption.
    - rewrite sum_over_sumn. apply sumn_ext. intros p Hp. rewrite sum_over_sumn. apply sumn_ext. intros q Hq. unfold term, pix. f_equal.
      rewrite radial_Rad by lia. rewrite complex_power_cpow, !position_coord. reflexivity. }
  rewrite !E. do 2 f_equal.
  - f_equal. apply dsum_ext. intros p q Hp Hq. unfold kern, zval, Cscale, Cconj, rho. cbn [fst snd]. rewrite !position_coord. reflexivity.
  - rewrite Ropp_mult_distr_r. f_equal. replace (- dsum n n _) with (-1 * dsum n n (fun i j => pix image i j * (Rad a b (rho i j) *
      snd (cpow (coord n i / rho i j, coord n j / rho i j) (a - b))))) by ring. rewrite <- dsum_scal.
    apply dsum_ext. intros p q Hp Hq. unfold kern, zval, Cscale, Cconj, rho. cbn [fst snd]. rewrite !position_coord. ring.
Qed.

(** *** C45 *)
Theorem C45_point_symmetric_images_have_zero_features : forall gamma checks image n amount,
  square_image image n -> amount_ok amount ->
  (forall i j, (i < n)%nat -> (j < n)%nat -> cell image (n - 1 - i) (n - 1 - j) = cell image i j) ->
  calculate_features gamma checks image MomentsZernike amount = Ok (repeat 0 amount).
Proof.
  intros g checks image n amount (Hsq & Hn) (Ha1 & Ha2) Hsym. destruct amount as [|k]; [lia|]. cbn [calculate_features].
  rewrite (features_ok g checks image n k) by (try assumption; lia). f_equal.
  rewrite <- (seq_length (S k) 0) at 2. generalize (fun i (H : In i (seq 0 (S k))) => proj1 (in_seq _ _ _) H). generalize (seq 0 (S k)) as l.
  induction l as [|i t IH]; intros Hin; [reflexivity|]. cbn [map length repeat]. f_equal; [|apply IH; intros; apply Hin; now right].
  specialize (Hin i (or_introl eq_refl)). rewrite feature_integral by exact Hn.
  assert (E : integral (k + i + 1) (k - i) n (pix image) = (0, 0)).
  { pose proof (integral_opp (k + i + 1) (k - i) n (pix image) Hn (odd_index k i ltac:(lia)) ltac:(lia)) as H.
    rewrite (integral_ext _ _ n _ (pix image)) in H by (intros; apply pix_ext, Hsym; assumption).
    destruct (integral _ _ _ _) as (x, y). unfold Cscale in H. cbn [fst snd] in H.
    assert (Hx : x = -1 * x) by congruence. assert (Hy : y = -1 * y) by congruence. f_equal; lra. }
  rewrite E. change (0, 0) with (RtoC 0). rewrite Cmod_0. ring.
Qed.

(** *** C46 *)
Lemma features_eq g checks A B n k : square_image A n -> square_image B n -> (Z.of_nat k < 2 ^ 64)%Z ->
  (forall i, (i <= k)%nat -> Cmod (integral (k + i + 1) (k - i) n (pix A)) = Cmod (integral (k + i + 1) (k - i) n (pix B))) ->
  zernike_features g checks A (S k) = zernike_features g checks B (S k).
Proof.
  intros (HA & Hn) (HB & _) Hk H. rewrite (features_ok g checks A n k), (features_ok g checks B n k) by assumption. f_equal.
  apply map_ext_in. intros i Hi. apply in_seq in Hi. rewrite !feature_integral by exact Hn. rewrite H by lia. reflexivity.
Qed.
Theorem C46_rotation_by_90_degrees : forall gamma checks image rotated n amount,
  square_image image n -> square_image rotated n -> amount_ok amount ->
  (forall i j, (i < n)%nat -> (j < n)%nat -> cell rotated i j = cell image j (n - 1 - i)) ->
  calculate_features gamma checks rotated MomentsZernike amount = calculate_features gamma checks image MomentsZernike amount.
Proof.
  intros g checks A B n amount HA HB (Ha1 & Ha2) H. destruct amount as [|k]; [lia|]. cbn [calculate_features].
  apply (features_eq g checks B A n k HB HA); [lia|]. intros i Hi.
  rewrite (integral_ext _ _ n (pix B) (fun i j => pix A j (n - 1 - i)%nat)) by (intros; apply pix_ext, H; assumption).
  rewrite integral_rot by (apply HA). rewrite Cmod_mult, Cmod_Cconj, cpow_unit; [ring|].
  unfold Cmod. cbn. replace (0 * (0 * 1) + 1 * (1 * 1)) with 1 by ring. apply sqrt_1.
Qed.
Theorem C46_mirroring : forall gamma checks image mirrored n amount,
  square_image image n -> square_image mirrored n -> amount_ok amount ->
  (forall i j, (i < n)%nat -> (j < n)%nat -> cell mirrored i j = cell image i (n - 1 - j)) ->
  calculate_features gamma checks mirrored MomentsZernike amount = calculate_features gamma checks image MomentsZernike amount.
Proof.
  intros g checks A B n amount HA HB (Ha1 & Ha2) H. destruct amount as [|k]; [lia|]. cbn [calculate_features].
  apply (features_eq g checks B A n k HB HA); [lia|]. intros i Hi.
  rewrite (integral_ext _ _ n (pix B) (fun i j => pix A i (n - 1 - j)%nat)) by (intros; apply pix_ext, H; assumption).
  rewrite integral_mirror by (apply HA). apply Cmod_Cconj.
Qed.
Theorem C46_transposition : forall gamma checks image transposed n amount,
  square_image image n -> square_image transposed n -> amount_ok amount ->
  (forall i j, (i < n)%nat -> (j < n)%nat -> cell transposed i j = cell image j i) ->
  calculate_features gamma checks transposed MomentsZernike amount = calculate_features gamma checks image MomentsZernike amount.
Proof.
  intros g checks A B n amount HA HB (Ha1 & Ha2) H. destruct amount as [|k]; [lia|]. cbn [calculate_features].
  apply (features_eq g checks B A n k HB HA); [lia|]. intros i Hi.
  rewrite (integral_ext _ _ n (pix B) (fun i j => (fun a b => pix A a (n - 1 - b)%nat) j (n - 1 - i)%nat)).
  2:{ intros p q Hp Hq. cbn beta. replace (n - 1 - (n - 1 - p))%nat with p by lia. apply pix_ext, H; assumption. }
  rewrite (integral_rot _ _ n (fun a b => pix A a (n - 1 - b)%nat)) by (apply HA). rewrite integral_mirror by (apply HA).
  rewrite Cmod_mult, !Cmod_Cconj, cpow_unit; [ring|].
  unfold Cmod. cbn. replace (0 * (0 * 1) + 1 * (1 * 1)) with 1 by ring. apply sqrt_1.
Qed.

(** *** C47 *)
Theorem C47_features_scale_and_ignore_offset : forall gamma checks image changed n amount factor offset,
  square_image image n -> square_image changed n -> amount_ok amount ->
  (forall i j p, cell image i j = Some p -> cell changed i j = Some (factor * p + offset)%Z) ->
  exists features, calculate_features gamma checks image MomentsZernike amount = Ok features
    /\ calculate_features gamma checks changed MomentsZernike amount = Ok (map (fun x => Rabs (IZR factor) * x) features).
Proof.
  intros g checks A B n amount c d (HA & Hn) (HB & _) (Ha1 & Ha2) H. destruct amount as [|k]; [lia|]. cbn [calculate_features].
  rewrite (features_ok g checks A n k), (features_ok g checks B n k) by (try assumption; lia). eexists. split; [reflexivity|].
  rewrite map_map. f_equal. apply map_ext_in. intros i Hi. apply in_seq in Hi. rewrite !feature_integral by exact Hn.
  set (a := (k + i + 1)%nat). set (b := (k - i)%nat).
  assert (Z0 : integral a b n (fun _ _ => 1) = (0, 0)).
  { pose proof (integral_opp a b n (fun _ _ => 1) Hn (odd_index k i ltac:(lia)) ltac:(lia)) as Ho. cbn beta in Ho.
    destruct (integral _ _ _ _) as (x, y). unfold Cscale in Ho. cbn [fst snd] in Ho.
    assert (Hx : x = -1 * x) by congruence. assert (Hy : y = -1 * y) by congruence. f_equal; lra. }
  assert (E : integral a b n (pix B) = Cscale (IZR c) (integral a b n (pix A))).
  { rewrite (integral_ext a b n (pix B) (fun p q => IZR c * pix A p q + IZR d * 1)).
    2:{ intros p q Hp Hq. unfold pix. destruct HA as (Hwf & E0 & E1). destruct (cell_bounds A p q Hwf) as (x & Ex); [lia|lia|].
        rewrite Ex, (H p q x Ex), plus_IZR, mult_IZR. ring. }
    unfold integral in Z0 |- *. assert (Z1 := f_equal fst Z0). assert (Z2 := f_equal snd Z0). cbn [fst snd] in Z1, Z2.
    unfold Cscale. cbn [fst snd]. f_equal.
    - transitivity (IZR c * dsum n n (fun p q => pix A p q * fst (kern a n b p q)) + IZR d * dsum n n (fun p q => 1 * fst (kern a n b p q))).
      + rewrite <- dsum_lin. apply dsum_ext. intros. ring.
      + rewrite Z1. ring.
    - transitivity (IZR c * dsum n n (fun p q => pix A p q * snd (kern a n b p q)) + IZR d * dsum n n (fun p q => 1 * snd (kern a n b p q))).
      + rewrite <- dsum_lin. apply dsum_ext. intros. ring.
      + rewrite Z2. ring. }
  rewrite E. replace (Cscale (IZR c) (integral a b n (pix A))) with (RtoC (IZR c) * integral a b n (pix A))%C
    by (unfold Cscale, RtoC, Cmult; cbn; f_equal; ring).
  rewrite Cmod_mult, Cmod_R. ring.
Qed.

(** *** C48 *)
Theorem C48_radial_is_the_polynomial_and_normalised : forall gamma order index r,
  (index <= order)%nat -> Nat.even (order - index) = true -> (Z.of_nat order < 2 ^ 64)%Z ->
  radial gamma order index r = Ok (radial_polynomial order index r) /\ radial gamma order index 1 = Ok 1.
Proof.
  intros g order index r Hi He Hr. apply Nat.even_spec in He as (b & Hb).
  assert (Hab : exists a, order = (a + b)%nat /\ index = (a - b)%nat /\ (b <= a)%nat) by (exists (index + b)%nat; lia).
  destruct Hab as (a & A & B & Hab). clear Hi Hb. subst order index. rewrite !radial_ok by lia. split; [now rewrite radial_Rad by lia|now rewrite Rad_1 by lia].
Qed.
Theorem C48_pixels_lie_in_the_unit_disk : forall n i j, (2 <= n)%nat -> (i < n)%nat -> (j < n)%nat ->
  let '(radius, angle) := to_polar (INR i + 1) (INR j + 1) n in
  0 <= radius <= 1 /\ radius * cos angle = position n i /\ radius * sin angle = position n j
  /\ (((i = 0 \/ i = n - 1) /\ (j = 0 \/ j = n - 1))%nat -> radius = 1).
Proof.
  intros n i j Hn Hi Hj. unfold to_polar. rewrite !coord_eq, !position_coord by exact Hn.
  pose proof (coord_bound n i Hn Hi) as Bx. pose proof (coord_bound n j Hn Hj) as By. pose proof sqrt2_pos as H2.
  assert (S2 : / sqrt 2 * / sqrt 2 = / 2) by (rewrite <- Rinv_mult, sqrt_sqrt by lra; reflexivity).
  assert (Sq : forall z, Rabs z <= / sqrt 2 -> z ^ 2 <= / 2).
  { intros z Hz. rewrite <- S2. replace (z ^ 2) with (Rabs z * Rabs z) by (rewrite <- Rabs_mult, Rabs_pos_eq; [ring|apply Rle_0_sqr]).
    apply Rmult_le_compat; try apply Rabs_pos; assumption. }
  assert (Corner : forall p, (p = 0 \/ p = n - 1)%nat -> coord n p ^ 2 = / 2).
  { intros p Hp. pose proof (INR2 n Hn). rewrite <- S2. destruct Hp as [-> | ->]; unfold coord; [simpl (INR 0)|rewrite minus_INR by lia; simpl (INR 1)]; field; lra. }
  assert (Hrange : 0 <= sqrt (coord n i ^ 2 + coord n j ^ 2) <= 1).
  { split; [apply sqrt_pos|]. rewrite <- sqrt_1. apply sqrt_le_1_alt. pose proof (Sq _ Bx). pose proof (Sq _ By). lra. }
  assert (Hc : ((i = 0 \/ i = n - 1) /\ (j = 0 \/ j = n - 1))%nat -> sqrt (coord n i ^ 2 + coord n j ^ 2) = 1).
  { intros (C1 & C2). rewrite (Corner i C1), (Corner j C2). replace (/ 2 + / 2) with 1 by lra. apply sqrt_1. }
  destruct (Req_bool_spec (coord n i) 0) as [Ex|Ex]; destruct (Req_bool_spec (coord n j) 0) as [Ey|Ey]; cbn [andb].
  1:{ split; [lra|]. split; [rewrite Ex; ring|]. split; [rewrite Ey; ring|]. intros C. specialize (Hc C). rewrite Ex, Ey in Hc.
      rewrite !pow_i, Rplus_0_l, sqrt_0 in Hc by lia. exact Hc. }
  all: destruct (atan2_polar (coord n i) (coord n j) ltac:(tauto)) as (Hr & Ec & Es);
    split; [exact Hrange|]; rewrite Ec, Es; split; [field; lra|]; split; [field; lra|]; exact Hc.
Qed.

(** *** C49 *)
Theorem C49_tall_images_are_rejected : forall gamma checks image amount,
  wf image -> (0 < dim0 image < dim1 image)%nat -> (Z.of_nat amount <= 2 ^ 63)%Z ->
  exists r, calculate_features gamma checks image MomentsZernike amount = Panic r.
Proof.
  intros g checks image amount Hwf Hd Ha. destruct amount as [|k]; [destruct checks; eexists; reflexivity|].
  eexists. cbn [calculate_features]. apply features_panic; [exact Hwf|exact Hd|lia].
Qed.

(** *** C50 *)
Theorem C50_factorial_of_naturals : forall gamma n depth, (n < depth)%nat ->
  factorial_fuel Rops gamma depth (INR n) = Some (INR (fact n)) /\ factorial gamma (INR n) = Ok (INR (fact n)).
Proof. intros g n depth H. split; [rewrite INR_IZR_INZ; now apply factorial_fuel_nat|apply factorial_nat]. Qed.
(** No recursion depth suffices for a negative integer. *)
Theorem C50_factorial_of_negative_integers_does_not_return : forall gamma n depth, (n < 0)%Z ->
  factorial_fuel Rops gamma depth (IZR n) = None.
Proof. intros g n depth H. now apply factorial_fuel_neg. Qed.
(** Non-integers go to the gamma function after no recursion at all. *)
Theorem C50_factorial_of_non_integers : forall gamma x depth, (forall n : Z, x <> IZR n) ->
  factorial_fuel Rops gamma (S depth) x = Some (gamma (1 + x)).
Proof. intros g x depth H. cbn [factorial_fuel]. rewrite has_fract_not by apply H. reflexivity. Qed.

(** *** f64 reading of the factorial *)
Section F64.
Import BinarySingleNaN.
Lemma b_nonzero_inj (x y : b64) : fin x -> fin y -> toR x = toR y -> toR x <> 0 -> x = y.
Proof.
  intros Fx Fy E N. apply B2R_inj; [| |exact E].
  - destruct x; cbn in *; try discriminate; try reflexivity. exfalso; apply N; reflexivity.
  - rewrite E in N. destruct y; cbn in *; try discriminate; try reflexivity. exfalso; apply N; reflexivity.
Qed.
Lemma b_pred z : (- 2 ^ 53 < z < 0)%Z -> f_sub Bops (b_of_Z z) (b_of_Z 1) = b_of_Z (z - 1).
Proof.
  intros Hz. destruct (b_of_Z_ok z) as (F1 & V1); [lia|]. destruct (b_of_Z_ok 1) as (F2 & V2); [lia|]. destruct (b_of_Z_ok (z - 1)) as (F3 & V3); [lia|].
  destruct (b_sub_ok (b_of_Z z) (b_of_Z 1) F1 F2) as (F4 & V4).
  { rewrite V1, V2, <- minus_IZR. apply small_IZR. lia. }
  rewrite V1, V2, <- minus_IZR, rnd_IZR in V4 by lia.
  apply b_nonzero_inj; try assumption; [congruence|]. rewrite V4. apply IZR_neq. lia.
Qed.
Lemma b_pred_fix : f_sub Bops (b_of_Z (- 2 ^ 53)) (b_of_Z 1) = b_of_Z (- 2 ^ 53).
Proof. apply B2SF_inj. vm_compute. reflexivity. Qed.

(** Also in f64 the recursion of factorial never ends on a negative integer: it counts down to -2^53 and stays there. *)
Theorem C50_f64_factorial_of_negative_integers_does_not_return : forall gamma n depth, (- 2 ^ 53 <= n < 0)%Z ->
  factorial_fuel Bops gamma depth (b_of_Z n) = None.
Proof.
  intros g n depth. revert n. induction depth as [|d IH]; intros n Hn; [reflexivity|]. cbn [factorial_fuel].
  destruct (b_of_Z_ok n) as (F1 & V1); [lia|].
  assert (Hf : has_fract Bops (b_of_Z n) = false).
  { destruct (b_floor_ok _ F1) as (Ff & Vf). unfold has_fract. rewrite !b_ge_ok by assumption. rewrite Vf, V1, Zfloor_IZR.
    rewrite !Rle_bool_true by lra. reflexivity. }
  destruct (b_round_ok _ F1) as (Fr & Vr).
  assert (Hc : f_to_i64 Bops (f_round Bops (b_of_Z n)) = n).
  { unfold f_to_i64. rewrite b_cast_ok by exact Fr. rewrite Vr, V1.
    rewrite (Znearest_imp _ _ n) by (rewrite Rminus_diag_eq by reflexivity; rewrite Rabs_R0; lra). rewrite Ztrunc_IZR.
    unfold clamp, i64_min, i64_max. lia. }
  rewrite Hf, Hc. replace ((n =? 0) || (n =? 1))%Z with false by (symmetry; apply orb_false_iff; rewrite !Z.eqb_neq; lia).
  change (f_of_Z Bops 1) with (b_of_Z 1).
  destruct (Z.eq_dec n (- 2 ^ 53)) as [->|Hne]; [rewrite b_pred_fix, IH by lia|rewrite b_pred, IH by lia]; reflexivity.
Qed.
(** f64 factorials are exact up to 22! (the front ends use at most 21!), and 23! is not. *)
Fixpoint zfact (n : nat) : Z := match n with O => 1 | S k => Z.of_nat n * zfact k end.
Lemma zfact_fact n : INR (fact n) = IZR (zfact n).
Proof.
  induction n as [|n IH]; [reflexivity|]. rewrite fact_simpl, mult_INR, IH. cbn [zfact]. now rewrite mult_IZR, <- INR_IZR_INZ.
Qed.
Definition twos (n : nat) : Z := nth n [0;0;1;1;3;3;4;4;7;7;8;8;10;10;11;11;15;15;16;16;18;18;19]%Z 0%Z.
Definition dy_fact (n : nat) : b64 := b_dyadic (zfact n / 2 ^ twos n) (twos n).
Lemma map_B2SF (o : option b64) (y : b64) : option_map B2SF o = Some (B2SF y) -> o = Some y.
Proof. destruct o as [x|]; cbn; [|discriminate]. intros E. f_equal. apply B2SF_inj. congruence. Qed.
Theorem C50_f64_factorial_exact_up_to_22 : forall gamma n, (n <= 22)%nat ->
  exists x, factorial_fuel Bops gamma (n + 1) (b_of_Z (Z.of_nat n)) = Some x /\ fin x /\ toR x = INR (fact n).
Proof.
  intros g n Hn. exists (dy_fact n). split.
  - apply map_B2SF. do 23 (destruct n as [|n]; [vm_compute; reflexivity|]). lia.
  - assert (H : (Z.abs (zfact n / 2 ^ twos n) <= 2 ^ 53 /\ 0 <= twos n <= 900 /\ zfact n = zfact n / 2 ^ twos n * 2 ^ twos n)%Z).
    { do 23 (destruct n as [|n]; [vm_compute; repeat split; discriminate|]). lia. }
    destruct H as (H1 & H2 & H3). destruct (b_dyadic_exact (zfact n / 2 ^ twos n) (twos n) H1 ltac:(lia)) as (Ff & Vf).
    split; [exact Ff|]. unfold dy_fact. rewrite Vf, zfact_fact. rewrite H3 at 2. rewrite mult_IZR, (IZR_Zpower radix2) by lia. reflexivity.
Qed.
Theorem C50_f64_factorial_of_23_is_inexact : forall gamma,
  exists x, factorial_fuel Bops gamma 24 (b_of_Z 23) = Some x /\ toR x <> INR (fact 23).
Proof.
  intros g. exists (b_dyadic (zfact 23) 0). split; [apply map_B2SF; vm_compute; reflexivity|].
  rewrite zfact_fact.
  assert (E : b_dyadic (zfact 23) 0 = b_dyadic (zfact 23 / 2 ^ 22 - 1) 22 \/ b_dyadic (zfact 23) 0 = b_dyadic (zfact 23 / 2 ^ 22) 22 \/ b_dyadic (zfact 23) 0 = b_dyadic (zfact 23 / 2 ^ 22 + 1) 22).
  { first [left; apply B2SF_inj; vm_compute; reflexivity|right; left; apply B2SF_inj; vm_compute; reflexivity|right; right; apply B2SF_inj; vm_compute; reflexivity]. }
  assert (H : forall d, (-1 <= d <= 1)%Z -> toR (b_dyadic (zfact 23 / 2 ^ 22 + d) 22) <> IZR (zfact 23)).
  { intros d Hd. destruct (b_dyadic_exact (zfact 23 / 2 ^ 22 + d) 22) as (_ & V).
    - assert (zfact 23 / 2 ^ 22 <= 2 ^ 53 - 2)%Z by (vm_compute; discriminate). assert (0 <= zfact 23 / 2 ^ 22)%Z by (vm_compute; discriminate). lia.
    - lia.
    - rewrite V, <- (IZR_Zpower radix2), <- mult_IZR by lia. apply IZR_neq. intros C.
      assert (M : (zfact 23 mod 2 ^ 22 = 0)%Z) by (rewrite <- C; change (radix_val radix2) with 2%Z; apply Z.mod_mul; lia). vm_compute in M. discriminate. }
  destruct E as [ -> | [ -> | -> ] ]; [apply (H (-1)%Z); lia|rewrite <- (Z.add_0_r (_ / _)); apply H; lia|apply H; lia].
Qed.
End F64.

(** ** Concrete cases *)
Definition sample : array2 Z := mkArray2 2 2 [[1; 2]; [3; 4]]%Z.
Definition sample_rotated : array2 Z := mkArray2 2 2 [[2; 4]; [1; 3]]%Z.
Definition sample_symmetric : array2 Z := mkArray2 2 2 [[1; 2]; [2; 1]]%Z.

Lemma square2 a b c d : square_image (mkArray2 2 2 [[a; b]; [c; d]]) 2.
Proof. split; [|lia]. split; [|split; reflexivity]. split; [reflexivity|]. repeat constructor. Qed.
Lemma lt2 (i : nat) : (i < 2)%nat -> i = 0%nat \/ i = 1%nat. Proof. lia. Qed.

Example C44_witness : square_image sample 2 /\ amount_ok 11
  /\ forall gamma checks, exists x, calculate_features gamma checks sample MomentsZernike 1 = Ok [x] /\ 0 < x.
Proof.
  split; [apply square2|]. split; [unfold amount_ok; lia|]. intros g checks. cbn [calculate_features].
  rewrite (features_ok g checks sample 2 0) by (try lia; apply square2). cbn [seq map]. eexists. split; [reflexivity|].
  rewrite feature_integral by lia. apply Rmult_lt_0_compat; [apply factor_pos; lia|]. apply Cmod_gt_0. intros C.
  assert (C2 : fst (integral 1 0 2 (pix sample)) = 0) by (change (0 + 0 + 1)%nat with 1%nat in C; change (0 - 0)%nat with 0%nat in C; rewrite C; reflexivity).
  unfold integral, dsum in C2. cbn [fst sumn pix sample cell rows nth_error] in C2.
  assert (E : forall i j, (i < 2)%nat -> (j < 2)%nat -> fst (kern 1 2 0 i j) = coord 2 i).
  { intros i j Hi Hj. unfold kern, zval. set (rho := sqrt _).
    assert (Hr : 0 < rho).
    { apply sqrt_lt_R0. pose proof sqrt2_pos. assert (Hne : coord 2 i <> 0).
      { unfold coord. destruct (lt2 i Hi) as [-> | ->]; simpl (INR _); intros E; apply Rmult_integral in E as [E|E]; try lra.
        all: apply Rinv_neq_0_compat in E; lra || (assert (sqrt 2 <> 0) by lra; apply Rinv_neq_0_compat in H0; contradiction). }
      pose proof (pow2_ge_0 (coord 2 j)). assert (0 < coord 2 i ^ 2) by (replace (coord 2 i ^ 2) with ((coord 2 i)²) by (unfold Rsqr; ring); now apply Rsqr_pos_lt). lra. }
    unfold Cscale, Cconj, Rad, rcoef. cbn. field. lra. }
  rewrite !E in C2 by lia. unfold coord in C2. simpl (INR _) in C2. pose proof sqrt2_pos.
  assert (F : 4 / sqrt 2 = 0) by (rewrite <- C2; field; lra). apply Rmult_integral in F as [F|F]; [lra|].
  assert (N : sqrt 2 <> 0) by lra. apply Rinv_neq_0_compat in N. contradiction.
Qed.
Example C45_witness : square_image sample_symmetric 2 /\
  (forall i j, (i < 2)%nat -> (j < 2)%nat -> cell sample_symmetric (2 - 1 - i) (2 - 1 - j) = cell sample_symmetric i j).
Proof. split; [apply square2|]. intros i j Hi Hj. destruct (lt2 i Hi) as [-> | ->], (lt2 j Hj) as [-> | ->]; reflexivity. Qed.
Example C46_witness : square_image sample_rotated 2 /\
  (forall i j, (i < 2)%nat -> (j < 2)%nat -> cell sample_rotated i j = cell sample j (2 - 1 - i)) /\ sample_rotated <> sample.
Proof. split; [apply square2|]. split; [|discriminate]. intros i j Hi Hj. destruct (lt2 i Hi) as [-> | ->], (lt2 j Hj) as [-> | ->]; reflexivity. Qed.
Example C47_witness : forall i j p, cell sample i j = Some p -> cell (mapv (fun x => 3 * x + 7)%Z sample) i j = Some (3 * p + 7)%Z.
Proof. intros i j p H. rewrite cell_mapv, H. reflexivity. Qed.
Example C48_witness : Nat.even (21 - 7) = true /\ radial_polynomial 3 1 0 = 0.
Proof. split; [reflexivity|]. unfold radial_polynomial, sum_over. cbn. ring. Qed.
Example C49_witness : wf (mkArray2 1 2 [[5; 6]]%Z) /\ (0 < 1 < 2)%nat.
Proof. split; [|lia]. split; [reflexivity|]. repeat constructor. Qed.

Print Assumptions C44_number_and_indices_of_features.
Print Assumptions C44_degenerate_requests.
Print Assumptions C44_moments_are_zernike_moments.
Print Assumptions C45_point_symmetric_images_have_zero_features.
Print Assumptions C46_rotation_by_90_degrees.
Print Assumptions C46_mirroring.
Print Assumptions C46_transposition.
Print Assumptions C47_features_scale_and_ignore_offset.
Print Assumptions C48_radial_is_the_polynomial_and_normalised.
Print Assumptions C48_pixels_lie_in_the_unit_disk.
Print Assumptions C49_tall_images_are_rejected.
Print Assumptions C50_factorial_of_naturals.
Print Assumptions C50_factorial_of_negative_integers_does_not_return.
Print Assumptions C50_factorial_of_non_integers.
Print Assumptions C50_f64_factorial_of_negative_integers_does_not_return.
Print Assumptions C50_f64_factorial_exact_up_to_22.
Print Assumptions C50_f64_factorial_of_23_is_inexact.
