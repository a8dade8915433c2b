(** Property C68, and C45, C46, C66 for the compiled feature extractor: for every mathematical library as accurate as LibmSpec.v says
    (a few units in the last place), the binary64 features of a square grey picture lie within 1/128 of the exact ones, so what holds of
    the exact features holds of the computed ones up to that. *)
From Coq Require Import List Reals Lra Psatz.
From Flocq Require Import Core BinarySingleNaN.
From Verif Require Import Outcome Floats FloatFacts ListFacts Matrix MatrixFacts HaarReal Zernike ZernikeProofs PropsZernike ZernikeBound PropsZernike2 ZernikeGen ZernikeGenProofs ZernikeF64 PropsZernikeF64
  RelError LibmSpec LibmExact ZernikeAcc ZernikeAcc4 ZernikeAcc6.
Open Scope R_scope.

(** ** vocabulary *)
(** Picture side for which accuracy is proved (any picture an image decoder of 32-bit sizes and a few gigabytes of memory produces). *)
Definition side_ok (n : nat) : Prop := (Z.of_nat n <= 65536)%Z.
(** A computed value that is a finite nonnegative double within e of the exact value. *)
Definition close_to (e : R) (computed : b64) (exact : R) : Prop := fin computed /\ 0 <= toR computed /\ Rabs (toR computed - exact) <= e.

Lemma Forall2_from_nth {A B} (P : A -> B -> Prop) l l' : length l = length l' ->
  (forall i x y, nth_error l i = Some x -> nth_error l' i = Some y -> P x y) -> Forall2 P l l'.
Proof.
  revert l'. induction l as [|a l IH]; intros [|b l'] Hl H; try discriminate Hl; constructor.
  - exact (H 0%nat a b eq_refl eq_refl).
  - apply IH; [now injection Hl|]. intros i x y Ex Ey. exact (H (S i) x y Ex Ey).
Qed.

(** *** C68 *)
Theorem C68_f64_features_are_accurate : forall M, accurate M -> forall gamma gamma' checks image n amount,
  square_image image n -> side_ok n -> byte_pixels image -> (1 <= amount <= 11)%nat ->
  exists computed exact,
    g_calculate_features Bops M gamma checks image MomentsZernike amount = Ok computed
    /\ calculate_features gamma' checks image MomentsZernike amount = Ok exact
    /\ Forall2 (close_to (/ 128)) computed exact.
Proof.
  intros M HM g g' checks image n amount (Hsq & Hn) Hs Hb Ha. destruct amount as [|k]; [lia|]. pose proof Hsq as (Hwf & E0 & E1).
  cbn [g_calculate_features calculate_features].
  destruct (g_features_total M g checks image k Hwf) as (l & El & Ll & H); [lia|lia|].
  rewrite El, (features_ok g' checks image n k) by (try assumption; lia). eexists _, _. split; [reflexivity|]. split; [reflexivity|].
  apply Forall2_from_nth; [now rewrite map_length, seq_length|]. intros i x y Ex Ey.
  assert (Hi : (i < S k)%nat) by (rewrite <- Ll; apply nth_error_Some; congruence).
  destruct (H i ltac:(lia)) as (z & Ez & Enz). assert (Exz : x = cx_abs M z) by congruence.
  rewrite nth_error_map in Ey. rewrite (nth_error_nth' (seq 0 (S k)) 0%nat) in Ey by (rewrite seq_length; exact Hi). rewrite seq_nth in Ey by exact Hi. cbn [option_map Nat.add] in Ey.
  assert (Ey' : y = feature k i n (pix image)) by congruence. rewrite Exz, Ey'.
  destruct (moment_acc M HM g k i n image ltac:(lia) ltac:(lia)) as (z' & Ez' & P1 & P2 & P3); [unfold side_ok in Hs; lia|exact Hsq|exact Hb|].
  assert (z' = z) by congruence. subst z'. split; [exact P2|]. split; [exact P1|exact P3].
Qed.

(** The computed features do not depend on the mathematical library by more than 1/64. *)
Theorem C68_f64_features_agree_between_libraries : forall M M', accurate M -> accurate M' -> forall gamma gamma' checks image n amount,
  square_image image n -> side_ok n -> byte_pixels image -> (1 <= amount <= 11)%nat ->
  exists here there,
    g_calculate_features Bops M gamma checks image MomentsZernike amount = Ok here
    /\ g_calculate_features Bops M' gamma' checks image MomentsZernike amount = Ok there
    /\ Forall2 (fun x y : b64 => Rabs (toR x - toR y) <= / 64) here there.
Proof.
  intros M M' HM HM' g g' checks image n amount Hsq Hs Hb Ha.
  destruct (C68_f64_features_are_accurate M HM g (fun x => x) checks image n amount Hsq Hs Hb Ha) as (c & e & Ec & Ee & H).
  destruct (C68_f64_features_are_accurate M' HM' g' (fun x => x) checks image n amount Hsq Hs Hb Ha) as (c' & e' & Ec' & Ee' & H').
  assert (e' = e) by congruence. subst e'. exists c, c'. split; [exact Ec|]. split; [exact Ec'|]. clear - H H'.
  revert c' H'. induction H as [|x y c e (_ & _ & Hx) _ IH]; intros [|x' c'] H'; inversion H'; subst; constructor; [|now apply IH].
  match goal with H : close_to _ _ _ |- _ => destruct H as (_ & _ & Hx') end. revert Hx Hx'. unfold Rabs. repeat destruct Rcase_abs; lra.
Qed.

(** *** C45, C46, C66 in binary64 *)
Lemma two_images M (HM : accurate M) g checks A B n amount : square_image A n -> square_image B n -> side_ok n -> byte_pixels A -> byte_pixels B -> (1 <= amount <= 11)%nat ->
  exists c e c' e', g_calculate_features Bops M g checks A MomentsZernike amount = Ok c /\ calculate_features (fun x => x) checks A MomentsZernike amount = Ok e /\ Forall2 (close_to (/ 128)) c e
    /\ g_calculate_features Bops M g checks B MomentsZernike amount = Ok c' /\ calculate_features (fun x => x) checks B MomentsZernike amount = Ok e' /\ Forall2 (close_to (/ 128)) c' e'.
Proof.
  intros HA HB Hs BA BB Ha.
  destruct (C68_f64_features_are_accurate M HM g (fun x => x) checks A n amount HA Hs BA Ha) as (c & e & P1 & P2 & P3).
  destruct (C68_f64_features_are_accurate M HM g (fun x => x) checks B n amount HB Hs BB Ha) as (c' & e' & Q1 & Q2 & Q3).
  exists c, e, c', e'. repeat (split; [assumption|]). assumption.
Qed.
Lemma amount11 amount : (1 <= amount <= 11)%nat -> amount_ok amount. Proof. unfold amount_ok. lia. Qed.

Theorem C45_f64_point_symmetric_images_have_small_features : forall M, accurate M -> forall gamma checks image n amount,
  square_image image n -> side_ok n -> byte_pixels image -> (1 <= amount <= 11)%nat ->
  (forall i j, (i < n)%nat -> (j < n)%nat -> cell image (n - 1 - i) (n - 1 - j) = cell image i j) ->
  exists features, g_calculate_features Bops M gamma checks image MomentsZernike amount = Ok features
    /\ length features = amount /\ Forall (fun x : b64 => fin x /\ 0 <= toR x <= / 128) features.
Proof.
  intros M HM g checks image n amount Hsq Hs Hb Ha Hsym.
  destruct (C68_f64_features_are_accurate M HM g (fun x => x) checks image n amount Hsq Hs Hb Ha) as (c & e & P1 & P2 & P3).
  rewrite (C45_point_symmetric_images_have_zero_features (fun x => x) checks image n amount Hsq (amount11 _ Ha) Hsym) in P2.
  assert (e = repeat 0 amount) by congruence. subst e. exists c. split; [exact P1|].
  pose proof (ListFacts.Forall2_length _ _ _ P3) as L. rewrite repeat_length in L. split; [exact L|]. clear - P3. revert c P3.
  induction amount as [|a IH]; intros c P3; inversion P3; subst; constructor; [|now apply IH].
  match goal with H : close_to _ _ _ |- _ => destruct H as (F & F0 & HF) end. split; [exact F|]. rewrite Rminus_0_r, Rabs_pos_eq in HF by exact F0. lra.
Qed.

Lemma close_same c c' e : Forall2 (close_to (/ 128)) c e -> Forall2 (close_to (/ 128)) c' e -> Forall2 (fun x y : b64 => Rabs (toR x - toR y) <= / 64) c c'.
Proof.
  intros H. revert c'. induction H as [|x y c e (_ & _ & Hx) _ IH]; intros [|x' c'] H'; inversion H'; subst; constructor; [|now apply IH].
  match goal with H : close_to _ _ _ |- _ => destruct H as (_ & _ & Hx') end. revert Hx Hx'. unfold Rabs. repeat destruct Rcase_abs; lra.
Qed.
(** Turning the picture by 90 degrees, mirroring it or transposing it changes no computed feature by more than 1/64. *)
Theorem C46_f64_rotation_mirroring_transposition : forall M, accurate M -> forall gamma checks image changed n amount,
  square_image image n -> square_image changed n -> side_ok n -> byte_pixels image -> byte_pixels changed -> (1 <= amount <= 11)%nat ->
  (forall i j, (i < n)%nat -> (j < n)%nat -> cell changed i j = cell image j (n - 1 - i))
  \/ (forall i j, (i < n)%nat -> (j < n)%nat -> cell changed i j = cell image i (n - 1 - j))
  \/ (forall i j, (i < n)%nat -> (j < n)%nat -> cell changed i j = cell image j i) ->
  exists features features',
    g_calculate_features Bops M gamma checks image MomentsZernike amount = Ok features
    /\ g_calculate_features Bops M gamma checks changed MomentsZernike amount = Ok features'
    /\ Forall2 (fun x y : b64 => Rabs (toR x - toR y) <= / 64) features features'.
Proof.
  intros M HM g checks A B n amount HA HB Hs BA BB Ha H.
  destruct (two_images M HM g checks A B n amount HA HB Hs BA BB Ha) as (c & e & c' & e' & P1 & P2 & P3 & Q1 & Q2 & Q3).
  assert (E : calculate_features (fun x => x) checks B MomentsZernike amount = calculate_features (fun x => x) checks A MomentsZernike amount).
  { pose proof (amount11 _ Ha) as Ao. destruct H as [H|[H|H]].
    - exact (C46_rotation_by_90_degrees _ checks A B n amount HA HB Ao H).
    - exact (C46_mirroring _ checks A B n amount HA HB Ao H).
    - exact (C46_transposition _ checks A B n amount HA HB Ao H). }
  assert (e' = e) by congruence. subst e'. exists c, c'. split; [exact P1|]. split; [exact Q1|]. exact (close_same c c' e P3 Q3).
Qed.

Lemma Forall2_chain (b d : R) c e c' e' : Forall2 (close_to (/ 128)) c e -> Forall2 (close_to (/ 128)) c' e' -> Forall2 (fun x x' => Rabs (x' - x) <= b) e e' ->
  b + / 64 <= d -> Forall2 (fun x x' : b64 => Rabs (toR x' - toR x) <= d) c c'.
Proof.
  intros H H' He Hd. revert c c' H H'. induction He as [|y y' e e' Hy _ IH]; intros c c' H H'; inversion H; inversion H'; subst; constructor; [|now apply IH].
  repeat match goal with H : close_to _ _ _ |- _ => destruct H as (_ & _ & H) end. repeat match goal with H : Rabs _ <= _ |- _ => revert H end. unfold Rabs. repeat destruct Rcase_abs; lra.
Qed.
Theorem C66_f64_features_are_stable : forall M, accurate M -> forall gamma checks before after n amount c,
  square_image before n -> square_image after n -> side_ok n -> byte_pixels before -> byte_pixels after -> (1 <= amount <= 11)%nat ->
  exists features features', g_calculate_features Bops M gamma checks before MomentsZernike amount = Ok features
    /\ g_calculate_features Bops M gamma checks after MomentsZernike amount = Ok features'
    /\ Forall2 (fun x x' : b64 => Rabs (toR x' - toR x) <= 2 * INR amount / PI * mean_change before after n c + / 64) features features'.
Proof.
  intros M HM g checks A B n amount c0 HA HB Hs BA BB Ha.
  destruct (two_images M HM g checks A B n amount HA HB Hs BA BB Ha) as (c & e & c' & e' & P1 & P2 & P3 & Q1 & Q2 & Q3).
  destruct (C66_features_are_stable (fun x => x) checks A B n amount c0 HA HB (amount11 _ Ha)) as (f1 & f2 & X1 & X2 & X).
  assert (f1 = e) by congruence. assert (f2 = e') by congruence. subst f1 f2. exists c, c'. split; [exact P1|]. split; [exact Q1|].
  refine (Forall2_chain _ _ c e c' e' P3 Q3 X _). lra.
Qed.
Theorem C66_f64_features_are_bounded : forall M, accurate M -> forall gamma checks image n amount,
  square_image image n -> side_ok n -> byte_pixels image -> (1 <= amount <= 11)%nat ->
  exists features, g_calculate_features Bops M gamma checks image MomentsZernike amount = Ok features
    /\ Forall (fun x : b64 => fin x /\ 0 <= toR x <= 255 * INR amount / PI + / 128) features.
Proof.
  intros M HM g checks image n amount Hsq Hs Hb Ha.
  destruct (C68_f64_features_are_accurate M HM g (fun x => x) checks image n amount Hsq Hs Hb Ha) as (c & e & P1 & P2 & P3).
  destruct (C66_features_are_bounded (fun x => x) checks image n amount Hsq Hb (amount11 _ Ha)) as (f & X1 & X).
  assert (f = e) by congruence. subst f. exists c. split; [exact P1|]. clear - P3 X.
  induction P3 as [|x y c e (F & F0 & HF) _ IH]; constructor; inversion X; subst; [|now apply IH].
  split; [exact F|]. split; [exact F0|]. pose proof (Rle_trans _ _ _ (Rle_abs _) HF). lra.
Qed.

(** *** C47 in binary64 *)
Theorem C47_f64_features_scale_and_ignore_offset : forall M, accurate M -> forall gamma checks image changed n amount factor offset,
  square_image image n -> square_image changed n -> side_ok n -> byte_pixels image -> byte_pixels changed -> (1 <= amount <= 11)%nat ->
  (forall i j p, cell image i j = Some p -> cell changed i j = Some (factor * p + offset)%Z) ->
  exists features features',
    g_calculate_features Bops M gamma checks image MomentsZernike amount = Ok features
    /\ g_calculate_features Bops M gamma checks changed MomentsZernike amount = Ok features'
    /\ Forall2 (fun x x' : b64 => Rabs (toR x' - Rabs (IZR factor) * toR x) <= (Rabs (IZR factor) + 1) / 128) features features'.
Proof.
  intros M HM g checks A B n amount fa off HA HB Hs BA BB Ha H.
  destruct (two_images M HM g checks A B n amount HA HB Hs BA BB Ha) as (c & e & c' & e' & P1 & P2 & P3 & Q1 & Q2 & Q3).
  destruct (C47_features_scale_and_ignore_offset (fun x => x) checks A B n amount fa off HA HB (amount11 _ Ha) H) as (f & X1 & X2).
  assert (f = e) by congruence. subst f. assert (E : e' = map (fun x => Rabs (IZR fa) * x) e) by congruence. rewrite E in Q3. clear E Q2 X2.
  exists c, c'. split; [exact P1|]. split; [exact Q1|]. clear - P3 Q3. revert c' Q3.
  induction P3 as [|x y c e (_ & _ & Hx) _ IH]; intros c' Q3; cbn [map] in Q3; inversion Q3; subst; constructor; [|now apply IH].
  match goal with H : close_to _ _ _ |- _ => destruct H as (_ & _ & Hx') end.
  set (k := Rabs (IZR fa)) in *. assert (Hk : 0 <= k) by apply Rabs_pos.
  match goal with |- Rabs (toR ?z - k * toR x) <= _ => replace (toR z - k * toR x) with ((toR z - k * y) + k * (y - toR x)) by ring end.
  eapply Rle_trans; [apply Rabs_triang|]. rewrite Rabs_mult, (Rabs_pos_eq k), (Rabs_minus_sym y) by exact Hk.
  assert (k * Rabs (toR x - y) <= k * / 128) by (apply Rmult_le_compat_l; assumption). lra.
Qed.

(** ** Concrete cases *)
Lemma sample_bytes : byte_pixels sample.
Proof.
  intros i j p H. destruct (le_lt_dec 2 i) as [Hi|Hi]; [|destruct (le_lt_dec 2 j) as [Hj|Hj]].
  - unfold cell, sample in H. cbn [rows] in H. destruct i as [|[|i]]; try lia. destruct i; discriminate.
  - unfold cell, sample in H. cbn [rows] in H. destruct (lt2 i Hi) as [-> | ->]; cbn in H; destruct j as [|[|j]]; try lia; destruct j; discriminate.
  - unfold cell, sample in H. cbn [rows] in H. destruct (lt2 i Hi) as [-> | ->]; destruct (lt2 j Hj) as [-> | ->]; cbn in H; injection H as <-; lia.
Qed.
Example C68_instance : exists computed exact,
  g_calculate_features Bops exact_libm (fun x => x) true sample MomentsZernike 11 = Ok computed
  /\ calculate_features (fun x => x) true sample MomentsZernike 11 = Ok exact /\ Forall2 (close_to (/ 128)) computed exact.
Proof.
  apply (C68_f64_features_are_accurate exact_libm exact_libm_accurate _ _ _ _ 2); [apply square2|unfold side_ok; lia|exact sample_bytes|lia].
Qed.

Print Assumptions C68_f64_features_are_accurate.
Print Assumptions C68_f64_features_agree_between_libraries.
Print Assumptions C45_f64_point_symmetric_images_have_small_features.
Print Assumptions C46_f64_rotation_mirroring_transposition.
Print Assumptions C66_f64_features_are_stable.
Print Assumptions C66_f64_features_are_bounded.
Print Assumptions C47_f64_features_scale_and_ignore_offset.
