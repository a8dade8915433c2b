(** Structure of the binary64 reading of the feature extractor: what holds whatever the mathematical library computes. *)
From Coq Require Import Reals Lra Psatz.
From Flocq Require Import Core BinarySingleNaN.
From Verif Require Import Outcome Floats FloatFacts Matrix MatrixFacts HaarReal Zernike ZernikeProofs PropsZernike ZernikeGen.
Open Scope R_scope.

(** ** exact operations on integers and half-integers *)
Definition is_int (x : b64) (k : Z) : Prop := fin x /\ toR x = IZR k.

Lemma int_of_Z k : (Z.abs k <= 2 ^ 53)%Z -> is_int (f_of_Z Bops k) k.
Proof. intros H. exact (b_of_Z_ok k H). Qed.
Lemma int_add x y a b : is_int x a -> is_int y b -> (Z.abs (a + b) <= 2 ^ 53)%Z -> is_int (f_add Bops x y) (a + b).
Proof.
  intros (Fx & Vx) (Fy & Vy) H. destruct (b_add_ok x y Fx Fy) as (F1 & V1).
  - rewrite Vx, Vy, <- plus_IZR. apply small_IZR. lia.
  - split; [exact F1|]. rewrite V1, Vx, Vy, <- plus_IZR. now apply rnd_IZR.
Qed.
Lemma int_sub x y a b : is_int x a -> is_int y b -> (Z.abs (a - b) <= 2 ^ 53)%Z -> is_int (f_sub Bops x y) (a - b).
Proof.
  intros (Fx & Vx) (Fy & Vy) H. destruct (b_sub_ok x y Fx Fy) as (F1 & V1).
  - rewrite Vx, Vy, <- minus_IZR. apply small_IZR. lia.
  - split; [exact F1|]. rewrite V1, Vx, Vy, <- minus_IZR. now apply rnd_IZR.
Qed.
Lemma int_mul x y a b : is_int x a -> is_int y b -> (Z.abs (a * b) <= 2 ^ 53)%Z -> is_int (f_mul Bops x y) (a * b).
Proof.
  intros (Fx & Vx) (Fy & Vy) H. destruct (b_mul_ok x y Fx Fy) as (F1 & V1).
  - rewrite Vx, Vy, <- mult_IZR. apply small_IZR. lia.
  - split; [exact F1|]. rewrite V1, Vx, Vy, <- mult_IZR. now apply rnd_IZR.
Qed.
Lemma int_div x y a b : is_int x (b * a) -> is_int y b -> b <> 0%Z -> (Z.abs a <= 2 ^ 53)%Z -> is_int (f_div Bops x y) a.
Proof.
  intros (Fx & Vx) (Fy & Vy) Hb H.
  assert (E : toR x / toR y = IZR a) by (rewrite Vx, Vy, mult_IZR; field; now apply not_0_IZR).
  destruct (b_div_ok x y Fx) as (F1 & V1).
  - rewrite Vy. now apply not_0_IZR.
  - rewrite E. apply small_IZR. lia.
  - split; [exact F1|]. rewrite V1, E. now apply rnd_IZR.
Qed.
Lemma int_floor x k : is_int x k -> is_int (f_floor Bops x) k.
Proof. intros (Fx & Vx). destruct (b_floor_ok x Fx) as (F1 & V1). split; [exact F1|]. rewrite V1, Vx, Zfloor_IZR. reflexivity. Qed.
Lemma int_cast lo hi x k : is_int x k -> (lo <= k <= hi)%Z -> f_cast Bops lo hi x = k.
Proof. intros (Fx & Vx) H. rewrite b_cast_ok by exact Fx. rewrite Vx, Ztrunc_IZR. unfold clamp. lia. Qed.
Lemma int_eq x y a b : is_int x a -> is_int y b -> f_eq Bops x y = (a =? b)%Z.
Proof.
  intros (Fx & Vx) (Fy & Vy). unfold f_eq. rewrite !b_ge_ok by assumption. rewrite Vx, Vy.
  destruct (Z.eqb_spec a b) as [->|H]; [rewrite !Rle_bool_true by lra; reflexivity|].
  destruct (Rle_bool_spec (IZR b) (IZR a)) as [H1|H1]; [|reflexivity].
  destruct (Rle_bool_spec (IZR a) (IZR b)) as [H2|H2]; [|reflexivity]. exfalso. apply H. apply eq_IZR. lra.
Qed.
Lemma int_round x k : is_int x k -> is_int (f_round Bops x) k.
Proof.
  intros (Fx & Vx). destruct (b_round_ok x Fx) as (F1 & V1). split; [exact F1|]. rewrite V1, Vx. f_equal.
  apply Znearest_imp. rewrite Rminus_diag_eq by reflexivity. rewrite Rabs_R0. lra.
Qed.
Lemma int_has_fract x k : is_int x k -> has_fract Bops x = false.
Proof.
  intros H. pose proof (int_eq x (f_floor Bops x) k k H (int_floor x k H)) as E. unfold f_eq in E. unfold has_fract. rewrite E, Z.eqb_refl. reflexivity.
Qed.

(** ** the factorial returns on every natural number *)
Lemma factorial_fuel_int g k : forall fuel x, (k < fuel)%nat -> (Z.of_nat k <= 2 ^ 53)%Z -> is_int x (Z.of_nat k) ->
  exists v, factorial_fuel Bops g fuel x = Some v.
Proof.
  induction k as [|k IH]; intros [|fuel] x Hf Hk Hx; try lia; cbn [factorial_fuel]; rewrite (int_has_fract x _ Hx);
    unfold f_to_i64; rewrite (int_cast _ _ _ _ (int_round x _ Hx)) by (unfold i64_min, i64_max; lia).
  - eexists. reflexivity.
  - destruct ((Z.of_nat (S k) =? 0) || (Z.of_nat (S k) =? 1))%Z; [eexists; reflexivity|].
    destruct (IH fuel (f_sub Bops x (f_of_Z Bops 1)) ltac:(lia) ltac:(lia)) as (v & ->).
    + replace (Z.of_nat k) with (Z.of_nat (S k) - 1)%Z by lia. apply int_sub; [exact Hx|apply int_of_Z; lia|lia].
    + eexists. reflexivity.
Qed.
Lemma fuel_mono {F} (O : FOps F) g m : forall n x v, (m <= n)%nat -> factorial_fuel O g m x = Some v -> factorial_fuel O g n x = Some v.
Proof.
  induction m as [|m IH]; intros [|n] x v H E; try lia; [discriminate|discriminate|]. cbn [factorial_fuel] in *.
  destruct (has_fract O x); [exact E|]. destruct (_ || _)%bool; [exact E|].
  destruct (factorial_fuel O g m (f_sub O x (f_of_Z O 1))) as [p|] eqn:Ep; [|discriminate].
  rewrite (IH n _ p) by (assumption || lia). exact E.
Qed.
Lemma g_factorial_int g k x : (Z.of_nat k <= 2 ^ 53)%Z -> is_int x (Z.of_nat k) ->
  exists v, g_factorial Bops g x = Ok v /\ forall m, (k < m)%nat -> factorial_fuel Bops g m x = Some v.
Proof.
  intros Hk Hx. destruct (factorial_fuel_int g k (S k) x ltac:(lia) Hk Hx) as (v & E). exists v.
  assert (H : forall m, (k < m)%nat -> factorial_fuel Bops g m x = Some v) by (intros m Hm; eapply fuel_mono; [|exact E]; lia).
  split; [|exact H]. unfold g_factorial.
  rewrite (int_cast _ _ x _ Hx) by (pose proof (Z.pow_le_mono_r 2 53 1100); lia).
  rewrite H by lia. reflexivity.
Qed.

Section Total.
Context (M : libm b64) (g : b64 -> b64).

(** the arguments of the four factorials *)
Lemma f_arguments a b s S : (Z.of_nat a <= 2 ^ 51)%Z -> (b <= a)%nat -> (s <= b)%nat -> is_int S (Z.of_nat s) ->
  let order := f_of_Z Bops (Z.of_nat (a + b)) in let index := f_of_Z Bops (Z.of_nat (a - b)) in
  is_int (f_sub Bops order S) (Z.of_nat (a + b - s)) /\ is_int (f_sub Bops (f_div Bops (f_add Bops order index) (f_of_Z Bops 2)) S) (Z.of_nat (a - s))
  /\ is_int (f_sub Bops (f_div Bops (f_sub Bops order index) (f_of_Z Bops 2)) S) (Z.of_nat (b - s)).
Proof.
  intros Ha Hb Hs HS order index.
  assert (Ho : is_int order (Z.of_nat (a + b))) by (apply int_of_Z; lia).
  assert (Hi : is_int index (Z.of_nat (a - b))) by (apply int_of_Z; lia).
  assert (H2 : is_int (f_of_Z Bops 2) 2) by (apply int_of_Z; lia).
  split; [|split].
  - replace (Z.of_nat (a + b - s)) with (Z.of_nat (a + b) - Z.of_nat s)%Z by lia. apply int_sub; [assumption|assumption|lia].
  - replace (Z.of_nat (a - s)) with (Z.of_nat a - Z.of_nat s)%Z by lia. apply int_sub; [|assumption|lia].
    apply (int_div _ _ _ 2); [|assumption|lia|lia]. replace (2 * Z.of_nat a)%Z with (Z.of_nat (a + b) + Z.of_nat (a - b))%Z by lia. apply int_add; [assumption|assumption|lia].
  - replace (Z.of_nat (b - s)) with (Z.of_nat b - Z.of_nat s)%Z by lia. apply int_sub; [|assumption|lia].
    apply (int_div _ _ _ 2); [|assumption|lia|lia]. replace (2 * Z.of_nat b)%Z with (Z.of_nat (a + b) - Z.of_nat (a - b))%Z by lia. apply int_sub; [assumption|assumption|lia].
Qed.
Lemma radial_end a b : (Z.of_nat a <= 2 ^ 51)%Z -> (b <= a)%nat ->
  Z.to_nat (f_to_usize Bops (f_floor Bops (f_div Bops (f_sub Bops (f_of_Z Bops (Z.of_nat (a + b))) (f_of_Z Bops (Z.of_nat (a - b)))) (f_of_Z Bops 2)))) = b.
Proof.
  intros Ha Hb. unfold f_to_usize. rewrite (int_cast _ _ _ (Z.of_nat b)); [lia| |unfold usize_max; lia]. apply int_floor.
  apply (int_div _ _ _ 2); [|apply int_of_Z; lia|lia|lia].
  replace (2 * Z.of_nat b)%Z with (Z.of_nat (a + b) - Z.of_nat (a - b))%Z by lia. apply int_sub; [apply int_of_Z; lia|apply int_of_Z; lia|lia].
Qed.
Lemma g_f_total a b s r : (Z.of_nat a <= 2 ^ 51)%Z -> (b <= a)%nat -> (s <= b)%nat ->
  exists x, g_f Bops M g (Z.of_nat (a + b)) (Z.of_nat (a - b)) (f_of_Z Bops (Z.of_nat s)) r = Ok x.
Proof.
  intros Ha Hb Hs. assert (HS : is_int (f_of_Z Bops (Z.of_nat s)) (Z.of_nat s)) by (apply int_of_Z; lia).
  destruct (f_arguments a b s _ Ha Hb Hs HS) as (H1 & H2 & H3). unfold g_f.
  destruct (g_factorial_int g (a + b - s) _ ltac:(lia) H1) as (v1 & -> & _). destruct (g_factorial_int g s _ ltac:(lia) HS) as (v2 & -> & _).
  destruct (g_factorial_int g (a - s) _ ltac:(lia) H2) as (v3 & -> & _). destruct (g_factorial_int g (b - s) _ ltac:(lia) H3) as (v4 & -> & _).
  cbn [bind]. eauto.
Qed.
Lemma foldM_total {A B} (h : B -> A -> outcome B) l : (forall s a, In a l -> exists s', h s a = Ok s') -> forall s, exists s', foldM h l s = Ok s'.
Proof.
  induction l as [|a t IH]; intros H s; [eexists; reflexivity|]. cbn [foldM]. destruct (H s a (or_introl eq_refl)) as (s1 & ->). cbn [bind].
  apply IH. intros; apply H; now right.
Qed.
Lemma g_radial_total a b r : (Z.of_nat a <= 2 ^ 51)%Z -> (b <= a)%nat -> exists x, g_radial Bops M g (a + b) (a - b) r = Ok x.
Proof.
  intros Ha Hb. unfold g_radial. rewrite radial_end by assumption. apply foldM_total. intros acc s Hs. apply in_seq in Hs.
  destruct (g_f_total a b s r Ha Hb ltac:(lia)) as (x & ->). cbn [bind]. eauto.
Qed.
Lemma g_element_total a b n i : (Z.of_nat a <= 2 ^ 51)%Z -> (b <= a)%nat -> exists z, g_element Bops M g (a + b) (a - b) n i = Ok z.
Proof.
  intros Ha Hb. unfold g_element. destruct (g_to_polar _ _ _ _ n) as (r, t). unfold g_v. destruct (g_radial_total a b r Ha Hb) as (x & ->). cbn [bind]. eauto.
Qed.
Lemma g_matrix_total a b n : (Z.of_nat a <= 2 ^ 51)%Z -> (b <= a)%nat ->
  exists m, g_matrix Bops M g (a + b) (a - b) n = Ok m /\ length m = (n * n)%nat
    /\ (forall i, (i < n * n)%nat -> exists z, g_element Bops M g (a + b) (a - b) n i = Ok z /\ nth_error m i = Some z).
Proof.
  intros Ha Hb. unfold g_matrix.
  assert (H : exists h, forall i, g_element Bops M g (a + b) (a - b) n i = Ok (h i)).
  { exists (fun i => match g_element Bops M g (a + b) (a - b) n i with Ok z => z | _ => (B754_nan, B754_nan) end).
    intros i. destruct (g_element_total a b n i Ha Hb) as (z & ->). reflexivity. }
  destruct H as (h & H). exists (map h (seq 0 (n * n))). split; [|split].
  - apply mapM_ok_map. intros i _. apply H.
  - now rewrite map_length, seq_length.
  - intros i Hi. exists (h i). split; [apply H|]. rewrite nth_error_map, (nth_error_nth' _ 0%nat) by (rewrite seq_length; lia). rewrite seq_nth by lia. reflexivity.
Qed.

Definition g_integrand (matrix : list (@cx b64)) (accumulator : @cx b64) (p : nat * Z) : outcome (@cx b64) :=
  zernike_multiplier <- unwrap (nth_error matrix (fst p)) ;;
  Ok (cx_add Bops accumulator (cx_mulr Bops zernike_multiplier (f_of_Z Bops (snd p)))).
Lemma g_integral_total matrix l : forall k acc, (k + length l <= length matrix)%nat -> exists z, foldM (g_integrand matrix) (combine (seq k (length l)) l) acc = Ok z.
Proof.
  induction l as [|x t IH]; intros k acc H; [eexists; reflexivity|]. cbn [length seq combine foldM] in *. unfold g_integrand at 1. cbn [fst snd].
  destruct (nth_error matrix k) as [z|] eqn:E; [|apply nth_error_None in E; lia]. cbn [unwrap bind]. apply IH. lia.
Qed.
Lemma g_integral_panics matrix l : forall k acc, (length matrix < k + length l)%nat -> (k <= length matrix)%nat ->
  foldM (g_integrand matrix) (combine (seq k (length l)) l) acc = Panic UnwrapNone.
Proof.
  induction l as [|x t IH]; intros k acc H Hk; [cbn in H; lia|]. cbn [length seq combine foldM] in *. unfold g_integrand at 1. cbn [fst snd].
  destruct (nth_error matrix k) as [z|] eqn:E; [|reflexivity]. cbn [unwrap bind]. apply IH; [lia|]. assert (k < length matrix)%nat by (apply nth_error_Some; congruence). lia.
Qed.
Lemma g_moment_total a b image : (Z.of_nat a <= 2 ^ 51)%Z -> (b <= a)%nat -> wf image -> (dim1 image <= dim0 image)%nat ->
  exists z, g_moment Bops M g (a + b) (a - b) image = Ok z.
Proof.
  intros Ha Hb Hwf Hd. unfold g_moment. destruct (g_matrix_total a b (dim0 image) Ha Hb) as (m & -> & Lm & _). cbn [bind].
  match goal with |- context [foldM ?h _ _] => change h with (g_integrand m) end. destruct (g_integral_total m (into_raw_vec image) 0 (f_of_Z Bops 0, f_of_Z Bops 0)) as (z & Ez).
  - rewrite into_raw_vec_length, Lm by exact Hwf. nia.
  - rewrite Ez. cbn [bind]. eauto.
Qed.
Lemma g_moment_panics a b image : (Z.of_nat a <= 2 ^ 51)%Z -> (b <= a)%nat -> wf image -> (0 < dim0 image < dim1 image)%nat ->
  g_moment Bops M g (a + b) (a - b) image = Panic UnwrapNone.
Proof.
  intros Ha Hb Hwf Hd. unfold g_moment. destruct (g_matrix_total a b (dim0 image) Ha Hb) as (m & -> & Lm & _). cbn [bind].
  pose proof (g_integral_panics m (into_raw_vec image) 0 (f_of_Z Bops 0, f_of_Z Bops 0)) as Ez.
  rewrite into_raw_vec_length, Lm in Ez by exact Hwf. specialize (Ez ltac:(nia) ltac:(lia)).
  match goal with |- context [foldM ?h _ _] => change h with (g_integrand m) end. rewrite into_raw_vec_length by exact Hwf. rewrite Ez. reflexivity.
Qed.
Lemma g_features_total checks image k : wf image -> (dim1 image <= dim0 image)%nat -> (Z.of_nat k < 2 ^ 50)%Z ->
  exists l, g_zernike_features Bops M g checks image (S k) = Ok l /\ length l = S k
   /\ forall i, (i <= k)%nat -> exists z, g_moment Bops M g (1 + 2 * k) (1 + 2 * i) image = Ok z /\ nth_error l i = Some (cx_abs M z).
Proof.
  intros Hwf Hd Hk. unfold g_zernike_features. cbn [get_order_by_features_amount bind]. rewrite indices_odd.
  assert (H : exists h, forall i, (i <= k)%nat -> g_moment Bops M g (1 + 2 * k) (1 + 2 * i) image = Ok (h (1 + 2 * i)%nat)).
  { exists (fun q => match g_moment Bops M g (1 + 2 * k) q image with Ok z => z | _ => (B754_nan, B754_nan) end).
    intros i Hi. destruct (ab_sum k i Hi) as (A & B). rewrite A, B. destruct (g_moment_total (k + i + 1) (k - i) image ltac:(lia) ltac:(lia) Hwf Hd) as (z & ->). reflexivity. }
  destruct H as (h & H). exists (map (fun q => cx_abs M (h q)) (map (fun i => (1 + 2 * i)%nat) (seq 0 (S k)))). split; [|split].
  - apply mapM_ok_map. intros q Hq. apply in_map_iff in Hq as (i & <- & Hi). apply in_seq in Hi. rewrite H by lia. reflexivity.
  - now rewrite !map_length, seq_length.
  - intros i Hi. exists (h (1 + 2 * i)%nat). split; [now apply H|]. rewrite map_map, nth_error_map, (nth_error_nth' _ 0%nat) by (rewrite seq_length; lia). rewrite seq_nth by lia. reflexivity.
Qed.
Lemma g_features_panic checks image k : wf image -> (0 < dim0 image < dim1 image)%nat -> (Z.of_nat k < 2 ^ 50)%Z ->
  g_zernike_features Bops M g checks image (S k) = Panic UnwrapNone.
Proof.
  intros Hwf Hd Hk. unfold g_zernike_features. cbn [get_order_by_features_amount bind]. rewrite indices_odd. cbn [seq map mapM].
  destruct (ab_sum k 0 ltac:(lia)) as (Ea & Eb). rewrite Ea, Eb. rewrite g_moment_panics by (try assumption; lia). reflexivity.
Qed.
End Total.
