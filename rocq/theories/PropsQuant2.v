(** C03, C05, continued: the correction capability and the meaning of the bits in binary64 (lib/sia/rust/three-bit-quantization/src/lib.rs). *)
From Coq Require Import Reals Lra.
From Flocq Require Import Core BinarySingleNaN.
From Verif Require Import Outcome Floats FloatFacts Bits ListFacts Quantization QuantProofs QuantReal QuantFloat PropsQuant.
Open Scope Z_scope.

(** *** C05: in every arithmetic the first two bits are those of the quantised value *)
Theorem C05_first_bits_of_the_quantised_value : forall {F} (O : FOps F) step features checks quantised bits,
  three_bit_quantization O checks features step = Ok (quantised, bits) ->
  length quantised = length features
  /\ forall i q, nth_error quantised i = Some q -> exists b0 b1 b2,
       firstn 3 (skipn (3 * i) bits) = [b0; b1; b2] /\ 2 * Z.b2z b0 + Z.b2z b1 = (q - 1) mod 4.
Proof.
  intros F O step xs checks qs bits E.
  assert (Hno : no_overflow O step checks xs).
  { intros ->. destruct (Forall_dec (fun x => quantize1 O step x <> i64_min) (fun x => match Z.eq_dec (quantize1 O step x) i64_min with left e => right (fun n => n e) | right n => left n end) xs) as [H|H]; [exact H|].
    rewrite quantization_overflow in E by exact H. discriminate. }
  rewrite quantization_ok in E by exact Hno. assert (Eq : qs = quantize O xs step) by congruence. assert (Eb : bits = flat_map (bits3 O step) xs) by congruence. subst.
  split; [apply map_length|]. intros i q Hq. unfold quantize in Hq. rewrite nth_error_map in Hq. destruct (nth_error xs i) as [x|] eqn:Hx; [|discriminate]. cbn [option_map] in Hq.
  assert (Eq : q = quantize1 O step x) by congruence. subst q.
  exists (Z.testbit ((quantize1 O step x - 1) mod 4) 1), (Z.testbit ((quantize1 O step x - 1) mod 4) 0), (upper_half O step x). split.
  - apply nth_error_split in Hx as (l1 & l2 & -> & <-). rewrite flat_map_app. cbn [flat_map].
    assert (El : length (flat_map (bits3 O step) l1) = (3 * length l1)%nat).
    { clear. induction l1 as [|y t IH]; [reflexivity|]. cbn [flat_map length]. rewrite app_length, IH. cbn [bits3 length]. lia. }
    rewrite <- El, skipn_app, skipn_all, Nat.sub_diag. reflexivity.
  - pose proof (Z.mod_pos_bound (quantize1 O step x - 1) 4 ltac:(lia)) as M. destruct (four_cases _ M) as [-> |[-> |[-> | ->]]]; reflexivity.
Qed.

Lemma bits3_at {F} (O : FOps F) step xs i x : nth_error xs i = Some x -> firstn 3 (skipn (3 * i) (flat_map (bits3 O step) xs)) = bits3 O step x.
Proof.
  intros Hx. apply nth_error_split in Hx as (l1 & l2 & -> & <-). rewrite flat_map_app. cbn [flat_map].
  assert (El : length (flat_map (bits3 O step) l1) = (3 * length l1)%nat).
  { clear. induction l1 as [|y t IH]; [reflexivity|]. cbn [flat_map length]. rewrite app_length, IH. cbn [bits3 length]. lia. }
  rewrite <- El, skipn_app, skipn_all, Nat.sub_diag. reflexivity.
Qed.
Lemma two_bits_sum q : 2 * Z.b2z (Z.testbit ((q - 1) mod 4) 1) + Z.b2z (Z.testbit ((q - 1) mod 4) 0) = (q - 1) mod 4.
Proof. pose proof (Z.mod_pos_bound (q - 1) 4 ltac:(lia)) as M. destruct (four_cases _ M) as [-> |[-> |[-> | ->]]]; reflexivity. Qed.

(** *** C05 in binary64: the bin and its half are right up to 2^-22 of a step *)
Theorem C05_f64_meaning_of_bits : forall (step : b64) features checks,
  fin step -> (bpow radix2 (-500) <= toR step <= bpow radix2 500)%R ->
  Forall (fun x : b64 => fin x /\ (Rabs (toR x) <= bpow radix2 30 * toR step)%R) features ->
  exists quantised bits, three_bit_quantization Bops checks features step = Ok (quantised, bits)
    /\ (forall i x, nth_error features i = Some x ->
          exists q b0 b1 b2,
            nth_error quantised i = Some q
            /\ ((IZR q - bpow radix2 (-22)) * toR step <= toR x < (IZR q + 1) * toR step)%R
            /\ firstn 3 (skipn (3 * i) bits) = [b0; b1; b2]
            /\ 2 * Z.b2z b0 + Z.b2z b1 = (q - 1) mod 4
            /\ (b2 = true -> (IZR q + / 2 - bpow radix2 (-22)) * toR step <= toR x)%R
            /\ (b2 = false -> toR x < (IZR q + / 2 + bpow radix2 (-22)) * toR step)%R).
Proof.
  intros step xs checks Fs Hs Hx. rewrite quantization_ok by (apply no_overflow_float; assumption).
  eexists. eexists. split; [reflexivity|]. intros i x Hi. rewrite Forall_forall in Hx. destruct (Hx x (nth_error_In _ _ Hi)) as (Fx & Bx).
  destruct (quantize1_qz step Hs x Fx Bx) as (Q & _). destruct (upper_ok step Fs Hs x Fx Bx) as (t & Ht & Hu). pose proof (qz_bounds step Hs x Fx Bx) as Hb.
  exists (qz step x), (Z.testbit ((qz step x - 1) mod 4) 1), (Z.testbit ((qz step x - 1) mod 4) 0), (upper_half Bops step x).
  split; [unfold quantize; rewrite nth_error_map, Hi; cbn [option_map]; now rewrite Q|].
  split; [exact Hb|]. split; [rewrite (bits3_at Bops step xs i x Hi); unfold bits3; rewrite Q; reflexivity|]. split; [apply two_bits_sum|].
  rewrite Hu. apply Rabs_le_inv in Ht. unfold eps22 in Ht. pose proof (S_pos step Hs).
  destruct (Rle_bool_spec t (toR x)) as [C|C]; split; intros E; try discriminate E; nra.
Qed.

(** *** Step 1.0, as both front ends pass it: bins and halves are exact in binary64 *)
Lemma unit_quotient (one x : b64) : fin one -> toR one = 1%R -> fin x -> (Rabs (toR x) <= bpow radix2 30)%R -> rnd (toR x / toR one) = toR x.
Proof. intros F1 V1 Fx _. rewrite V1. unfold Rdiv. rewrite Rinv_1, Rmult_1_r. apply rnd_generic. apply (generic_format_B2R 53 1024 x). Qed.
Lemma unit_ordinary (one : b64) : toR one = 1%R -> ordinary_step (toR one).
Proof. intros ->. split; [apply (bpow_le radix2 (-500) 0); lia|apply (bpow_le radix2 0 500); lia]. Qed.
Lemma unit_halves (one x : b64) : fin one -> toR one = 1%R -> fin x -> (Rabs (toR x) <= bpow radix2 30)%R ->
  quantize1 Bops one x = Zfloor (toR x) /\ (upper_half Bops one x = true <-> IZR (Zfloor (toR x)) + / 2 <= toR x)%R
  /\ 2 * quantize1 Bops one x + Z.b2z (upper_half Bops one x) = Zfloor (2 * toR x).
Proof.
  intros F1 V1 Fx Hx. pose proof (unit_ordinary one V1) as Ho.
  assert (Hx' : (Rabs (toR x) <= bpow radix2 30 * toR one)%R) by (rewrite V1, Rmult_1_r; exact Hx).
  destruct (quantize1_qz one Ho x Fx Hx') as (Q & B). unfold qz in Q, B. rewrite unit_quotient in Q, B by assumption. split; [exact Q|].
  assert (U : upper_half Bops one x = true <-> (IZR (Zfloor (toR x)) + / 2 <= toR x)%R).
  { unfold upper_half. rewrite Q. set (z := Zfloor (toR x)) in *.
    destruct (b_of_Z_ok z) as (G1 & W1); [lia|]. destruct (b_dyadic_exact 1 (-1)) as (G2 & W2); [lia|lia|].
    change (f_of_Z Bops) with b_of_Z. change (f_dyadic Bops) with b_dyadic.
    assert (W2' : toR (b_dyadic 1 (-1)) = (/ 2)%R) by (etransitivity; [exact W2|simpl; lra]).
    assert (HB : (Rabs (IZR z) <= 1073741826)%R) by (rewrite <- abs_IZR; change 1073741826%R with (IZR (2 ^ 30 + 2)); apply IZR_le; exact B). apply Rabs_le_inv in HB.
    destruct (b_add_ok (b_of_Z z) (b_dyadic 1 (-1)) G1 G2) as (G3 & W3); [rewrite W1, W2'; apply small_le with 32; [lia|]; apply Rabs_le; simpl bpow; lra|].
    assert (V3 : rnd (IZR z + / 2) = (IZR z + / 2)%R).
    { replace (IZR z + / 2)%R with (IZR (2 * z + 1) * bpow radix2 (-1))%R by (rewrite plus_IZR, mult_IZR; simpl; lra). apply rnd_generic, generic_dyadic; lia. }
    rewrite W1, W2', V3 in W3.
    destruct (b_mul_ok one (f_add Bops (b_of_Z z) (b_dyadic 1 (-1))) F1 G3) as (G4 & W4); [rewrite W3, V1; apply small_le with 32; [lia|]; apply Rabs_le; simpl bpow; lra|].
    rewrite W3, V1, Rmult_1_l, V3 in W4. rewrite (b_ge_ok _ _ Fx G4), W4.
    destruct (Rle_bool_spec (IZR z + / 2) (toR x)); split; intros; try reflexivity; try assumption; try discriminate; lra. }
  split; [exact U|]. rewrite Q. symmetry. apply Zfloor_imp. rewrite !plus_IZR, mult_IZR. pose proof (Zfloor_lb (toR x)). pose proof (Zfloor_ub (toR x)).
  destruct (upper_half Bops one x); cbn [Z.b2z].
  - pose proof (proj1 U eq_refl). lra.
  - assert (toR x < IZR (Zfloor (toR x)) + / 2)%R by (apply Rnot_le_lt; intros C; apply U in C; discriminate). lra.
Qed.

Theorem C05_f64_unit_step_is_exact : forall (one : b64) features checks, fin one -> toR one = 1%R ->
  Forall (fun x : b64 => fin x /\ (Rabs (toR x) <= bpow radix2 30)%R) features ->
  exists quantised bits, three_bit_quantization Bops checks features one = Ok (quantised, bits)
    /\ (forall i x, nth_error features i = Some x ->
          exists q b0 b1 b2,
            nth_error quantised i = Some q /\ (IZR q <= toR x < IZR q + 1)%R
            /\ firstn 3 (skipn (3 * i) bits) = [b0; b1; b2]
            /\ 2 * Z.b2z b0 + Z.b2z b1 = (q - 1) mod 4
            /\ (b2 = true <-> IZR q + / 2 <= toR x)%R).
Proof.
  intros one xs checks F1 V1 Hx. pose proof (unit_ordinary one V1) as Ho.
  rewrite quantization_ok by (apply (no_overflow_float one Ho); eapply Forall_impl; [|exact Hx]; intros x (Fx & Bx); split; [exact Fx|]; rewrite V1, Rmult_1_r; exact Bx).
  eexists. eexists. split; [reflexivity|]. intros i x Hi. rewrite Forall_forall in Hx. destruct (Hx x (nth_error_In _ _ Hi)) as (Fx & Bx).
  destruct (unit_halves one x F1 V1 Fx Bx) as (Q & U & _).
  exists (Zfloor (toR x)), (Z.testbit ((Zfloor (toR x) - 1) mod 4) 1), (Z.testbit ((Zfloor (toR x) - 1) mod 4) 0), (upper_half Bops one x).
  split; [unfold quantize; rewrite nth_error_map, Hi; cbn [option_map]; now rewrite Q|].
  split; [split; [apply Zfloor_lb|apply Zfloor_ub]|]. split; [rewrite (bits3_at Bops one xs i x Hi); unfold bits3; rewrite Q; reflexivity|]. split; [apply two_bits_sum|exact U].
Qed.

(** *** C03 in binary64 *)
(** The decision of the dequantiser depends on the half-bins only, in every arithmetic. *)
Lemma restore_any {F} (O : FOps F) step x x' : let q := quantize1 O step x in let q' := quantize1 O step x' in
  quantize1 O step (f_add O x' step) = q' + 1 -> quantize1 O step (f_sub O x' step) = q' - 1 ->
  let r := quantize1 O step (restore_l O step x' (bits3 O step x)) in
  (r = q <-> Z.abs ((2 * q' + Z.b2z (upper_half O step x')) - (2 * q + Z.b2z (upper_half O step x))) <= 2) /\ Z.abs (r - q') <= 1.
Proof.
  intros q q' Ep Em r. unfold r, restore_l, bits3. cbn [nth]. unfold restore. rewrite two_bits_roundtrip. fold q q'.
  set (b := upper_half O step x). set (b' := upper_half O step x').
  pose proof (Z.mod_pos_bound (q - 1) 4 ltac:(lia)).
  assert (M0 : ((q' - 1) mod 4 =? ((q - 1) mod 4 - 1) mod 4) = (((q' - q + 1) mod 4) =? 0)).
  { apply eq_true_iff_eq. rewrite !Z.eqb_eq. Z.to_euclidean_division_equations. lia. }
  assert (M1 : ((q' - 1) mod 4 =? ((q - 1) mod 4 + 1) mod 4) = (((q' - q - 1) mod 4) =? 0)).
  { apply eq_true_iff_eq. rewrite !Z.eqb_eq. Z.to_euclidean_division_equations. lia. }
  rewrite M0, M1.
  destruct ((q' - q + 1) mod 4 =? 0) eqn:E0; [apply Z.eqb_eq in E0|apply Z.eqb_neq in E0].
  - destruct b, b'; cbn [negb orb Z.b2z]; rewrite ?Ep; fold q'; (split; [Z.to_euclidean_division_equations; lia|lia]).
  - destruct ((q' - q - 1) mod 4 =? 0) eqn:E1; [apply Z.eqb_eq in E1|apply Z.eqb_neq in E1].
    + destruct b, b'; cbn [negb orb Z.b2z]; rewrite ?Em; fold q'; (split; [Z.to_euclidean_division_equations; lia|lia]).
    + fold q'. destruct b, b'; cbn [Z.b2z]; (split; [Z.to_euclidean_division_equations; lia|lia]).
Qed.

Lemma shifts (s x' : b64) : fin s -> ordinary_step (toR s) -> fin x' -> (Rabs (toR x') <= bpow radix2 29 * toR s)%R ->
  (forall n : Z, (n = 0%Z /\ 0 <= toR x') \/ bpow radix2 (-20) * toR s <= Rabs (toR x' - IZR n * toR s))%R ->
  quantize1 Bops s (f_add Bops x' s) = quantize1 Bops s x' + 1 /\ quantize1 Bops s (f_sub Bops x' s) = quantize1 Bops s x' - 1.
Proof.
  intros Fs Hs Fx Hx Hg. pose proof (S_pos s Hs) as HS.
  assert (B2 : (Rabs (toR x') <= bpow radix2 30 * toR s)%R) by (simpl bpow in *; lra).
  assert (Hx1 : (Rabs (toR x') <= bpow radix2 29 * toR s + toR s)%R) by lra.
  destruct (quantize1_qz s Hs x' Fx B2) as (Q & _). pose proof (qz_bounds s Hs x' Fx B2) as Hb. rewrite <- Q in Hb.
  split.
  - assert (Hsm : small (toR x' + toR s)) by (apply (small_S s Hs) with 31; [lia|]; apply Rabs_le_inv in Hx; apply Rabs_le; simpl bpow in *; lra).
    destruct (b_add_ok x' s Fx Fs Hsm) as (Fy & Vy).
    destruct (requant s Hs x' 1 (f_add Bops x' s) Fx Fy (or_introl eq_refl) Hx1) with (q := quantize1 Bops s x') as (z & Ez & ->).
    + rewrite Vy. f_equal. ring.
    + exact Hg.
    + lra.
    + rewrite <- plus_IZR in Ez. apply eq_IZR in Ez. exact Ez.
  - assert (Hsm : small (toR x' - toR s)) by (apply (small_S s Hs) with 31; [lia|]; apply Rabs_le_inv in Hx; apply Rabs_le; simpl bpow in *; lra).
    destruct (b_sub_ok x' s Fx Fs Hsm) as (Fy & Vy).
    destruct (requant s Hs x' (-1) (f_sub Bops x' s) Fx Fy (or_intror eq_refl) Hx1) with (q := quantize1 Bops s x') as (z & Ez & ->).
    + rewrite Vy. f_equal. ring.
    + exact Hg.
    + lra.
    + rewrite <- plus_IZR in Ez. apply eq_IZR in Ez. lia.
Qed.
Lemma nth_combine {A B} (xs : list A) (ys : list B) i x y : nth_error xs i = Some x -> nth_error ys i = Some y -> nth_error (combine xs ys) i = Some (x, y).
Proof. revert xs ys. induction i as [|i IH]; intros [|a xs] [|b ys] H1 H2; cbn in *; try discriminate; [congruence|]. now apply IH. Qed.

(** [away x' step]: x' keeps 2^-20 of a step from the bin boundaries (0 may be approached from above), cf. C02. *)
Definition away (x' step : R) : Prop := forall n : Z, ((n = 0%Z /\ 0 <= x') \/ bpow radix2 (-20) * step <= Rabs (x' - IZR n * step))%R.

(** Step 1.0: exactly the half-bin rule of exact arithmetic. *)
Theorem C03_f64_unit_step_correction_capability : forall (one : b64) features noised checks, fin one -> toR one = 1%R ->
  length noised = length features ->
  Forall (fun x : b64 => fin x /\ (Rabs (toR x) <= bpow radix2 29)%R) features ->
  Forall (fun x' : b64 => fin x' /\ (Rabs (toR x') <= bpow radix2 29)%R /\ away (toR x') 1) noised ->
  exists bits restored, three_bit_quantization Bops checks features one = Ok (map (fun x => Zfloor (toR x)) features, bits)
    /\ three_bit_dequantization Bops checks noised bits one = Ok restored
    /\ length restored = length features
    /\ (forall i x x' r, nth_error features i = Some x -> nth_error noised i = Some x' -> nth_error restored i = Some r ->
          (r = Zfloor (toR x) <-> Z.abs (Zfloor (2 * toR x') - Zfloor (2 * toR x)) <= 2)
          /\ Z.abs (r - Zfloor (toR x')) <= 1).
Proof.
  intros one xs xs' checks F1 V1 Hl Hx Hx'. pose proof (unit_ordinary one V1) as Ho.
  assert (H30 : (bpow radix2 29 <= bpow radix2 30)%R) by (apply bpow_le; lia).
  assert (N1 : no_overflow Bops one checks xs).
  { apply (no_overflow_float one Ho). eapply Forall_impl; [|exact Hx]. intros x (Fx & Bx). split; [exact Fx|]. rewrite V1. lra. }
  assert (N2 : no_overflow Bops one checks xs').
  { apply (no_overflow_float one Ho). eapply Forall_impl; [|exact Hx']. intros x (Fx & Bx & _). split; [exact Fx|]. rewrite V1. lra. }
  destruct (dequantize_lists Bops one checks xs xs' Hl N1 N2) as (E1 & E2).
  assert (Eq : quantize Bops xs one = map (fun x => Zfloor (toR x)) xs).
  { unfold quantize. apply map_ext_in. intros x Hin. rewrite Forall_forall in Hx. destruct (Hx x Hin) as (Fx & Bx). apply (unit_halves one x F1 V1 Fx). lra. }
  eexists. eexists. split; [rewrite E1, Eq; reflexivity|]. split; [exact E2|]. split; [rewrite map_length, combine_length; lia|].
  intros i x x' r Hi Hi' Hr. rewrite nth_error_map, (nth_combine _ _ _ _ _ Hi Hi') in Hr. cbn [option_map fst snd] in Hr.
  rewrite Forall_forall in Hx, Hx'. destruct (Hx x (nth_error_In _ _ Hi)) as (Fx & Bx). destruct (Hx' x' (nth_error_In _ _ Hi')) as (Fx' & Bx' & Ha).
  destruct (unit_halves one x F1 V1 Fx ltac:(lra)) as (Q & _ & Hh). destruct (unit_halves one x' F1 V1 Fx' ltac:(lra)) as (Q' & _ & Hh').
  destruct (shifts one x' F1 Ho Fx') as (Ep & Em); [rewrite V1, Rmult_1_r; exact Bx'|rewrite V1; exact Ha|].
  pose proof (restore_any Bops one x x' Ep Em) as R. cbv zeta in R. rewrite Hh, Hh', Q, Q' in R.
  assert (Er : r = quantize1 Bops one (restore_l Bops one x' (bits3 Bops one x))) by congruence. rewrite <- Er in R. exact R.
Qed.

(** Every step: a feature that moved by at least 3/2 + 2^-20 steps is never restored, however far it moved. *)
Theorem C03_f64_far_features_are_not_restored : forall (step : b64) features noised checks bits restored quantised i x x' q r,
  fin step -> (bpow radix2 (-500) <= toR step <= bpow radix2 500)%R -> length noised = length features ->
  Forall (fun x : b64 => fin x /\ (Rabs (toR x) <= bpow radix2 29 * toR step)%R) features ->
  Forall (fun x' : b64 => fin x' /\ (Rabs (toR x') <= bpow radix2 29 * toR step)%R /\ away (toR x') (toR step)) noised ->
  three_bit_quantization Bops checks features step = Ok (quantised, bits) ->
  three_bit_dequantization Bops checks noised bits step = Ok restored ->
  nth_error features i = Some x -> nth_error noised i = Some x' -> nth_error quantised i = Some q -> nth_error restored i = Some r ->
  ((3 / 2 + bpow radix2 (-20)) * toR step <= Rabs (toR x' - toR x))%R -> r <> q.
Proof.
  intros s xs xs' checks bits restored quantised i x x' q r Fs Ho Hl Hx Hx' E1 E2 Hi Hi' Hq Hr Hfar.
  assert (H30 : (bpow radix2 29 * toR s <= bpow radix2 30 * toR s)%R) by (pose proof (S_pos s Ho); apply Rmult_le_compat_r; [lra|apply bpow_le; lia]).
  assert (N1 : no_overflow Bops s checks xs).
  { apply (no_overflow_float s Ho). eapply Forall_impl; [|exact Hx]. intros y (Fy & By). split; [exact Fy|lra]. }
  assert (N2 : no_overflow Bops s checks xs').
  { apply (no_overflow_float s Ho). eapply Forall_impl; [|exact Hx']. intros y (Fy & By & _). split; [exact Fy|lra]. }
  destruct (dequantize_lists Bops s checks xs xs' Hl N1 N2) as (D1 & D2).
  rewrite D1 in E1. assert (Eq : quantised = quantize Bops xs s) by congruence. assert (Eb : bits = flat_map (bits3 Bops s) xs) by congruence. subst quantised bits.
  rewrite D2 in E2. assert (Er : restored = map (fun p => quantize1 Bops s (restore_l Bops s (snd p) (bits3 Bops s (fst p)))) (combine xs xs')) by congruence. subst restored. clear D1 D2 E1 E2.
  rewrite nth_error_map, (nth_combine _ _ _ _ _ Hi Hi') in Hr. cbn [option_map fst snd] in Hr. unfold quantize in Hq. rewrite nth_error_map, Hi in Hq. cbn [option_map] in Hq.
  assert (Eq : q = quantize1 Bops s x) by congruence. assert (Er : r = quantize1 Bops s (restore_l Bops s x' (bits3 Bops s x))) by congruence.
  rewrite Forall_forall in Hx, Hx'. destruct (Hx x (nth_error_In _ _ Hi)) as (Fx & Bx). destruct (Hx' x' (nth_error_In _ _ Hi')) as (Fx' & Bx' & Ha).
  destruct (shifts s x' Fs Ho Fx' Bx' Ha) as (Ep & Em). pose proof (restore_any Bops s x x' Ep Em) as (R & _). cbv zeta in R. rewrite <- Eq, <- Er in R.
  intros C. apply R in C. rewrite Eq in C.
  pose proof (hb_bounds s Fs Ho x Fx ltac:(lra)) as Hb. pose proof (hb_bounds s Fs Ho x' Fx' ltac:(lra)) as Hb'. unfold hb in Hb, Hb'.
  destruct (quantize1_qz s Ho x Fx ltac:(lra)) as (Q & _). destruct (quantize1_qz s Ho x' Fx' ltac:(lra)) as (Q' & _). rewrite <- Q in Hb. rewrite <- Q' in Hb'.
  set (h := 2 * quantize1 Bops s x + Z.b2z (upper_half Bops s x)) in *. set (h' := 2 * quantize1 Bops s x' + Z.b2z (upper_half Bops s x')) in *.
  assert (C1 : (IZR h' - IZR h <= 2)%R) by (rewrite <- minus_IZR; apply IZR_le; lia). assert (C2 : (-2 <= IZR h' - IZR h)%R) by (rewrite <- minus_IZR; apply IZR_le; lia).
  pose proof (S_pos s Ho) as HS. unfold eps22 in Hb, Hb'. simpl bpow in Hb, Hb', Hfar. unfold Rabs in Hfar. destruct (Rcase_abs (toR x' - toR x)); nra.
Qed.

(** *** Witness: 7.25 disturbed to 8.125 is restored to 7, to 9.0625 it is not; step 1.0 *)
Example C03_f64_witness : exists bits,
  three_bit_quantization Bops true [b_dyadic 29 (-2)] (b_of_Z 1) = Ok ([7], bits)
  /\ three_bit_dequantization Bops true [b_dyadic 65 (-3)] bits (b_of_Z 1) = Ok [7]
  /\ three_bit_dequantization Bops true [b_dyadic 145 (-4)] bits (b_of_Z 1) = Ok [9].
Proof. eexists. split; [vm_compute; reflexivity|]. split; vm_compute; reflexivity. Qed.
Example C03_f64_hypotheses : fin (b_of_Z 1) /\ toR (b_of_Z 1) = 1%R /\ fin (b_dyadic 145 (-4)) /\ (Rabs (toR (b_dyadic 145 (-4))) <= bpow radix2 29)%R /\ away (toR (b_dyadic 145 (-4))) 1.
Proof.
  destruct (b_of_Z_ok 1) as (F1 & V1); [lia|]. destruct (b_dyadic_exact 145 (-4)) as (F2 & V2); [lia|lia|].
  split; [exact F1|]. split; [exact V1|]. split; [exact F2|]. assert (V : toR (b_dyadic 145 (-4)) = (145 / 16)%R) by (etransitivity; [exact V2|simpl; lra]). rewrite V.
  split; [rewrite Rabs_pos_eq by lra; simpl bpow; lra|]. intros n. right. rewrite Rmult_1_r.
  destruct (Z_le_gt_dec n 9) as [H|H].
  - apply IZR_le in H. rewrite Rabs_pos_eq by lra. simpl bpow. lra.
  - assert (H' : 10 <= n) by lia. apply IZR_le in H'. rewrite Rabs_left by lra. simpl bpow. lra.
Qed.

Print Assumptions C03_f64_unit_step_correction_capability.
Print Assumptions C03_f64_far_features_are_not_restored.
Print Assumptions C05_first_bits_of_the_quantised_value.
Print Assumptions C05_f64_meaning_of_bits.
Print Assumptions C05_f64_unit_step_is_exact.
