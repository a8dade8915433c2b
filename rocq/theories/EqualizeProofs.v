(** Facts about the histogram equalisation of Equalize.v. *)
From Coq Require Import ZArith List Reals Lia Lra Psatz.
From Flocq Require Import Core BinarySingleNaN Relative.
From Verif Require Import Floats FloatFacts Bits Equalize.
Import ListNotations.
Open Scope R_scope.

(** ** binary32 *)
Definition rnd32 (x : R) : R := round radix2 (FLT_exp (-149) 24) ZnearestE x.
Notation fin32 x := (is_finite x = true).
Notation toR32 x := (@B2R 24 128 x).

Lemma rnd32_le x y : x <= y -> rnd32 x <= rnd32 y.
Proof. intros H; unfold rnd32. apply round_le; auto with typeclass_instances. Qed.
Lemma rnd32_generic x : generic_format radix2 (FLT_exp (-149) 24) x -> rnd32 x = x.
Proof. intros H; unfold rnd32. apply round_generic; auto with typeclass_instances. Qed.
Lemma rnd32_0 : rnd32 0 = 0.
Proof. unfold rnd32. apply round_0; auto with typeclass_instances. Qed.
Lemma generic32_IZR m : (Z.abs m <= 2 ^ 24)%Z -> generic_format radix2 (FLT_exp (-149) 24) (IZR m).
Proof.
  intros Hm. destruct (Z.eq_dec (Z.abs m) (2 ^ 24)) as [E|N].
  - assert (Hb : generic_format radix2 (FLT_exp (-149) 24) (bpow radix2 24)) by (apply generic_format_bpow; unfold FLT_exp; lia).
    assert (Hm' : (m = 2 ^ 24 \/ m = - 2 ^ 24)%Z) by lia.
    assert (HIZR : IZR (2 ^ 24) = bpow radix2 24) by (now rewrite <- IZR_Zpower by lia).
    destruct Hm' as [-> | ->]; [now rewrite HIZR|]. rewrite opp_IZR, HIZR. now apply generic_format_opp.
  - apply generic_format_FLT. exists (Float radix2 m 0).
    + unfold F2R. cbn [Fnum Fexp]. simpl bpow. ring.
    + cbn [Fnum]. change (radix2 ^ 24)%Z with (2 ^ 24)%Z. lia.
    + cbn [Fexp]. lia.
Qed.
Lemma rnd32_IZR m : (Z.abs m <= 2 ^ 24)%Z -> rnd32 (IZR m) = IZR m.
Proof. intros; apply rnd32_generic, generic32_IZR; assumption. Qed.
Definition small32 (x : R) : Prop := Rabs x <= bpow radix2 100.
Lemma rnd32_small x : small32 x -> Rabs (rnd32 x) < bpow radix2 128.
Proof.
  unfold small32; intros H.
  assert (Hb : generic_format radix2 (FLT_exp (-149) 24) (bpow radix2 100)) by (apply generic_format_bpow; unfold FLT_exp; lia).
  apply Rle_lt_trans with (bpow radix2 100); [unfold rnd32; apply abs_round_le_generic; auto with typeclass_instances|apply bpow_lt; lia].
Qed.
Lemma s_of_Z_ok n : (Z.abs n <= 2 ^ 64)%Z -> fin32 (s_of_Z n) /\ toR32 (s_of_Z n) = rnd32 (IZR n).
Proof.
  intros Hn. unfold s_of_Z. pose proof (binary_normalize_correct prec32 emax32 _ _ mode_NE n 0 false) as H.
  cbv zeta in H. unfold F2R in H. cbn [Fnum Fexp] in H. simpl (bpow radix2 0) in H. rewrite Rmult_1_r in H.
  rewrite Rlt_bool_true in H.
  - destruct H as (H1 & H2 & _). split; [exact H2|exact H1].
  - apply (rnd32_small (IZR n)). unfold small32. apply Rle_trans with (bpow radix2 64); [|apply bpow_le; lia].
    rewrite <- abs_IZR, <- IZR_Zpower by lia. apply IZR_le. exact Hn.
Qed.
Lemma s_mul_ok x y : fin32 x -> fin32 y -> small32 (toR32 x * toR32 y) -> fin32 (s_mul x y) /\ toR32 (s_mul x y) = rnd32 (toR32 x * toR32 y).
Proof.
  intros Fx Fy Hs. unfold s_mul. pose proof (Bmult_correct prec32 emax32 _ _ mode_NE x y) as H.
  rewrite Rlt_bool_true in H by exact (rnd32_small _ Hs).
  destruct H as (H1 & H2 & _). split; [etransitivity; [exact H2|]; apply andb_true_intro; split; assumption|exact H1].
Qed.
Lemma s_div_ok x y : fin32 x -> toR32 y <> 0 -> small32 (toR32 x / toR32 y) -> fin32 (s_div x y) /\ toR32 (s_div x y) = rnd32 (toR32 x / toR32 y).
Proof.
  intros Fx Fy Hs. unfold s_div. pose proof (Bdiv_correct prec32 emax32 _ _ mode_NE x y Fy) as H.
  rewrite Rlt_bool_true in H by exact (rnd32_small _ Hs).
  destruct H as (H1 & H2 & _). split; [etransitivity; [exact H2|exact Fx]|exact H1].
Qed.

(** what the pixel arithmetic computes: the rounded share of the pixels that are not brighter, scaled to 255 and truncated *)
Definition share32 (c n : Z) : R := rnd32 (255 * rnd32 (rnd32 (IZR c) / rnd32 (IZR n))).
Definition level_of (c n : Z) : Z :=
  s_to_u8 (s_min255 (s_mul (s_of_Z 255) (s_div (s_of_Z c) (s_of_Z n)))).

Lemma rnd32_pos n : (1 <= n)%Z -> 1 <= rnd32 (IZR n).
Proof. intros H. rewrite <- (rnd32_IZR 1) by lia. apply rnd32_le. apply IZR_le. exact H. Qed.
Lemma fraction_range c n : (0 <= c <= n)%Z -> (1 <= n)%Z -> 0 <= rnd32 (IZR c) / rnd32 (IZR n) <= 1.
Proof.
  intros Hc Hn. pose proof (rnd32_pos n Hn). assert (0 <= rnd32 (IZR c)) by (rewrite <- rnd32_0; apply rnd32_le, IZR_le; lia).
  assert (rnd32 (IZR c) <= rnd32 (IZR n)) by (apply rnd32_le, IZR_le; lia).
  split; [apply Rmult_le_pos; [assumption|]; left; apply Rinv_0_lt_compat; lra|]. apply Rmult_le_reg_r with (rnd32 (IZR n)); [lra|]. unfold Rdiv. rewrite Rmult_assoc, Rinv_l by lra. lra.
Qed.
Lemma share32_range c n : (0 <= c <= n)%Z -> (1 <= n)%Z -> 0 <= rnd32 (rnd32 (IZR c) / rnd32 (IZR n)) <= 1 /\ 0 <= share32 c n <= 255.
Proof.
  intros Hc Hn. pose proof (fraction_range c n Hc Hn) as (A & B).
  assert (R1 : rnd32 1 = 1) by (apply (rnd32_IZR 1); lia). assert (R255 : rnd32 255 = 255) by (apply (rnd32_IZR 255); lia).
  assert (C : 0 <= rnd32 (rnd32 (IZR c) / rnd32 (IZR n)) <= 1) by (split; [rewrite <- rnd32_0|rewrite <- R1]; now apply rnd32_le).
  split; [exact C|]. unfold share32. split; [rewrite <- rnd32_0|rewrite <- R255 at 2]; apply rnd32_le; lra.
Qed.
Lemma level_of_ok c n : (0 <= c <= n)%Z -> (1 <= n < 2 ^ 32)%Z -> level_of c n = Zfloor (share32 c n) /\ (0 <= level_of c n <= 255)%Z.
Proof.
  intros Hc Hn. destruct (s_of_Z_ok c ltac:(lia)) as (Fc & Vc). destruct (s_of_Z_ok n ltac:(lia)) as (Fn & Vn). destruct (s_of_Z_ok 255 ltac:(lia)) as (F255 & V255).
  rewrite rnd32_IZR in V255 by lia.
  pose proof (rnd32_pos n (proj1 Hn)) as Pn. pose proof (fraction_range c n Hc (proj1 Hn)) as Fr. destruct (share32_range c n Hc (proj1 Hn)) as (Qr & Sr).
  assert (B1 : 1 <= bpow radix2 100) by (apply Rle_trans with (bpow radix2 0); [simpl; lra|apply bpow_le; lia]).
  assert (B2 : 255 <= bpow radix2 100) by (apply Rle_trans with (bpow radix2 8); [simpl; lra|apply bpow_le; lia]).
  destruct (s_div_ok (s_of_Z c) (s_of_Z n) Fc) as (Fd & Vd); [rewrite Vn; lra|rewrite Vc, Vn; unfold small32; rewrite Rabs_pos_eq; lra|]. rewrite Vc, Vn in Vd.
  destruct (s_mul_ok (s_of_Z 255) (s_div (s_of_Z c) (s_of_Z n)) F255 Fd) as (Fm & Vm); [rewrite V255, Vd; unfold small32; rewrite Rabs_pos_eq by lra; lra|].
  rewrite V255, Vd in Vm. change (toR32 (s_mul (s_of_Z 255) (s_div (s_of_Z c) (s_of_Z n))) = share32 c n) in Vm.
  unfold level_of. set (x := s_mul _ _) in *.
  assert (M : fin32 (s_min255 x) /\ toR32 (s_min255 x) = share32 c n).
  { unfold s_min255. pose proof (Bltb_correct prec32 emax32 x (s_of_Z 255) Fm F255) as Hb.
    destruct (@Bltb prec32 emax32 x (s_of_Z 255)); [split; [exact Fm|exact Vm]|]. split; [exact F255|].
    symmetry in Hb. destruct (Rlt_bool_spec (@B2R prec32 emax32 x) (@B2R prec32 emax32 (s_of_Z 255))) as [Hl|Hl]; [discriminate Hb|].
    change (toR32 (s_of_Z 255) <= toR32 x) in Hl. rewrite V255 in *. rewrite Vm in Hl. lra. }
  destruct M as (Fy & Vy). set (y := s_min255 x) in *.
  assert (T : Btrunc y = Zfloor (share32 c n)).
  { rewrite <- (Ztrunc_floor (share32 c n)) by lra. rewrite <- Vy. apply eq_IZR. etransitivity; [exact (Btrunc_correct prec32 emax32 _ y)|]. apply round_FIX0. auto with typeclass_instances. }
  assert (Z0 : (0 <= Zfloor (share32 c n) <= 255)%Z).
  { split; [apply Zfloor_lub; simpl; lra|]. apply le_IZR. apply Rle_trans with (share32 c n); [apply Zfloor_lb|lra]. }
  assert (G : s_to_u8 y = clamp 0 255 (Btrunc y)) by (destruct y; try discriminate Fy; reflexivity).
  rewrite G, T. unfold clamp. lia.
Qed.

Lemma level_of_mono c c' n : (0 <= c <= c')%Z -> (c' <= n)%Z -> (1 <= n < 2 ^ 32)%Z -> (level_of c n <= level_of c' n)%Z.
Proof.
  intros Hc Hc' Hn. destruct (level_of_ok c n ltac:(lia) Hn) as (-> & _). destruct (level_of_ok c' n ltac:(lia) Hn) as (-> & _).
  apply Zfloor_le. unfold share32. apply rnd32_le. apply Rmult_le_compat_l; [lra|]. apply rnd32_le. pose proof (rnd32_pos n (proj1 Hn)).
  unfold Rdiv. apply Rmult_le_compat_r; [left; apply Rinv_0_lt_compat; lra|]. apply rnd32_le, IZR_le. lia.
Qed.
Lemma level_of_top n : (1 <= n < 2 ^ 32)%Z -> level_of n n = 255%Z.
Proof.
  intros Hn. destruct (level_of_ok n n ltac:(lia) Hn) as (-> & _). unfold share32. pose proof (rnd32_pos n (proj1 Hn)).
  unfold Rdiv. rewrite Rinv_r by lra. rewrite (rnd32_IZR 1) by lia. rewrite Rmult_1_r, (rnd32_IZR 255) by lia. apply Zfloor_IZR.
Qed.

Lemma rnd32_err x : 0 <= x -> x = 0 \/ bpow radix2 (-100) <= x -> Rabs (rnd32 x - x) <= bpow radix2 (-24) * x.
Proof.
  intros H0 [->|H]; [rewrite rnd32_0, Rminus_0_r, Rabs_R0; lra|]. unfold rnd32.
  eapply Rle_trans; [apply (relative_error_N_FLT radix2 (-149) 24 ltac:(reflexivity))|].
  - rewrite Rabs_pos_eq by exact H0. eapply Rle_trans; [|exact H]. apply bpow_le. lia.
  - rewrite (Rabs_pos_eq x) by exact H0. apply Req_le. f_equal. replace (/ 2) with (bpow radix2 (-1)) by (simpl; lra). rewrite <- bpow_plus. reflexivity.
Qed.
(** For pictures of at most 2^24 pixels the value before truncation is 255 c / n up to 2^-14. *)
Lemma share32_accurate c n : (0 <= c <= n)%Z -> (1 <= n <= 2 ^ 24)%Z -> Rabs (share32 c n - 255 * IZR c / IZR n) <= / 2 ^ 14.
Proof.
  intros Hc Hn. unfold share32. rewrite !rnd32_IZR by lia. set (q := IZR c / IZR n).
  assert (Pn : 1 <= IZR n) by (apply IZR_le; lia). assert (Pn2 : IZR n <= bpow radix2 24) by (rewrite <- (IZR_Zpower radix2 24) by lia; apply IZR_le; simpl; lia).
  assert (Hq : 0 <= q <= 1) by (pose proof (fraction_range c n Hc ltac:(lia)) as H; rewrite !rnd32_IZR in H by lia; exact H).
  assert (Hq2 : q = 0 \/ bpow radix2 (-24) <= q).
  { destruct (Z.eq_dec c 0) as [->|]; [left; unfold q; lra|right]. apply Rmult_le_reg_r with (IZR n); [lra|]. unfold q, Rdiv. rewrite Rmult_assoc, Rinv_l, Rmult_1_r by lra.
    apply Rle_trans with (bpow radix2 (-24) * bpow radix2 24); [apply Rmult_le_compat_l; [apply bpow_ge_0|exact Pn2]|]. rewrite <- bpow_plus. simpl bpow. apply IZR_le. lia. }
  assert (L100 : bpow radix2 (-100) <= bpow radix2 (-24)) by (apply bpow_le; lia).
  pose proof (rnd32_err q (proj1 Hq) ltac:(destruct Hq2 as [->|]; [now left|right; lra])) as E1. set (f := rnd32 q) in *.
  assert (U : bpow radix2 (-24) = / 2 ^ 24) by (simpl; lra). rewrite U in *.
  apply Rabs_le_inv in E1.
  assert (Hf : 0 <= f <= 1 + / 2 ^ 24) by (split; [unfold f; rewrite <- rnd32_0; apply rnd32_le; lra|simpl in *; nra]).
  assert (Hf2 : 255 * f = 0 \/ bpow radix2 (-100) <= 255 * f).
  { destruct Hq2 as [Eq|Hq2]; [left; unfold f; rewrite Eq, rnd32_0; ring|right].
    assert (bpow radix2 (-24) <= f); [|rewrite U in *; lra].
    unfold f. rewrite <- (rnd32_generic (bpow radix2 (-24))) by (apply generic_format_bpow; unfold FLT_exp; lia). apply rnd32_le. rewrite U. exact Hq2. }
  pose proof (rnd32_err (255 * f) ltac:(lra) Hf2) as E2. rewrite U in E2. apply Rabs_le_inv in E2.
  replace (255 * IZR c / IZR n) with (255 * q) by (unfold q, Rdiv; ring). apply Rabs_le. simpl in *. split; nra.
Qed.

(** ** histograms *)
Open Scope Z_scope.
(** number of pixels that are not brighter than [v] *)
Definition rank (l : list Z) (v : Z) : Z := Z.of_nat (length (filter (fun q => q <=? v) l)).

Lemma bump_at_length hist p : length (bump_at hist p) = length hist.
Proof. revert p. induction hist as [|h t IH]; intros [|p]; cbn [bump_at length]; auto. Qed.
Lemma cumulate_bump hist : forall p before k, (p < length hist)%nat -> (k < length hist)%nat ->
  nth k (cumulate before (bump_at hist p)) 0 = nth k (cumulate before hist) 0 + (if (p <=? k)%nat then 1 else 0).
Proof.
  induction hist as [|h t IH]; intros p before k Hp Hk; cbn [length] in *; [lia|].
  assert (S : forall (l : list Z) a b k, (k < length l)%nat -> nth k (cumulate (a + b) l) 0 = nth k (cumulate a l) 0 + b).
  { clear. induction l as [|x l IH]; intros a b k Hk; cbn [length] in *; [lia|]. cbn [cumulate]. destruct k as [|k]; cbn [nth]; [lia|].
    replace (a + b + x) with (a + x + b) by ring. apply IH. lia. }
  destruct p as [|p]; cbn [bump_at cumulate].
  - replace (before + (h + 1)) with (before + h + 1) by ring. destruct k as [|k]; cbn [nth Nat.leb]; [reflexivity|]. apply S. lia.
  - destruct k as [|k]; cbn [nth Nat.leb]; [ring|]. apply IH; lia.
Qed.
Lemma cumulative_rank l : Forall (fun v => 0 <= v <= 255) l -> forall v, 0 <= v <= 255 ->
  nth (Z.to_nat v) (cumulative_histogram l) 0 = rank l v.
Proof.
  intros Hl v Hv. unfold cumulative_histogram, histogram.
  assert (G : forall l, Forall (fun v => 0 <= v <= 255) l -> forall h, length h = 256%nat ->
    nth (Z.to_nat v) (cumulate 0 (fold_left (fun hist p => bump_at hist (Z.to_nat p)) l h)) 0 = nth (Z.to_nat v) (cumulate 0 h) 0 + rank l v).
  { clear l Hl. induction l as [|p l IH]; intros Hl h Hh; cbn [fold_left]; [unfold rank; cbn; ring|]. apply Forall_cons_iff in Hl. destruct Hl as (Hp & Hl).
    rewrite IH by (try exact Hl; now rewrite bump_at_length). rewrite cumulate_bump by lia. unfold rank. cbn [filter].
    destruct (Nat.leb_spec (Z.to_nat p) (Z.to_nat v)); destruct (Z.leb_spec p v); try lia; cbn [length]; lia. }
  rewrite G by (try exact Hl; apply repeat_length).
  assert (Z : forall n k, nth k (cumulate 0 (repeat 0 n)) 0 = 0).
  { induction n as [|n IHn]; intros [|k]; try reflexivity. cbn [repeat cumulate nth]. apply IHn. }
  rewrite Z. reflexivity.
Qed.
Lemma rank_range l v : 0 <= rank l v <= Z.of_nat (length l).
Proof. unfold rank. split; [lia|]. apply Nat2Z.inj_le. induction l as [|q l IH]; [reflexivity|]. cbn [filter]. destruct (q <=? v); cbn [length]; lia. Qed.
Lemma rank_all l v : Forall (fun q => q <= v) l -> rank l v = Z.of_nat (length l).
Proof.
  intros H. unfold rank. f_equal. induction H as [|q l Hq _ IH]; [reflexivity|]. cbn [filter]. apply Z.leb_le in Hq. rewrite Hq. cbn [length]. now f_equal.
Qed.
Lemma rank_mono l v w : v <= w -> rank l v <= rank l w.
Proof.
  intros H. unfold rank. apply Nat2Z.inj_le. induction l as [|q l IH]; [reflexivity|]. cbn [filter].
  destruct (Z.leb_spec q v), (Z.leb_spec q w); cbn [length]; try lia.
Qed.
Lemma rank_pos l v : In v l -> 1 <= rank l v.
Proof.
  intros H. unfold rank. assert (I : In v (filter (fun q => q <=? v) l)) by (apply filter_In; split; [exact H|apply Z.leb_refl]).
  destruct (filter (fun q => q <=? v) l); [destruct I|cbn [length]; lia].
Qed.

(** the equalised value of a pixel is determined by how many pixels are not brighter *)
Lemma equalized_level_rank l v : Forall (fun v => 0 <= v <= 255) l -> 0 <= v <= 255 ->
  equalized_level (cumulative_histogram l) v = level_of (rank l v) (Z.of_nat (length l)).
Proof.
  intros Hl Hv. unfold equalized_level. rewrite cumulative_rank by assumption. change 255%nat with (Z.to_nat 255) at 1. rewrite cumulative_rank by (try assumption; lia).
  rewrite (rank_all l 255) by (eapply Forall_impl; [|exact Hl]; cbn; intros; lia). reflexivity.
Qed.
