(** Rounding-error analysis of the binary64 transform. *)
From Coq Require Import Reals Lra.
From Flocq Require Import Core BinarySingleNaN.
From Verif Require Import Outcome Floats FloatFacts Bits ListFacts Matrix MatrixFacts Haar HaarProofs HaarReal.
Open Scope R_scope.

Definition u49 : R := bpow radix2 (-49).
Lemma u49_pos : 0 < u49. Proof. apply bpow_gt_0. Qed.

Lemma sqrt1_2_ok : fin b_sqrt1_2 /\ Rabs (toR b_sqrt1_2 - cc) <= u53.
Proof.
  destruct (b_dyadic_exact 6369051672525773 (-53)) as (Hf & V); [lia|lia|].
  split; [exact Hf|]. change (toR b_sqrt1_2) with (toR (b_dyadic 6369051672525773 (-53))). rewrite V.
  pose proof cc_sq as Hs. pose proof cc_pos as Hp. unfold u53. simpl bpow.
  apply Rabs_le. split.
  - apply Rnot_lt_le. intros C. nra.
  - apply Rnot_lt_le. intros C. nra.
Qed.

Lemma eta_le_u : eta <= bpow radix2 (-60). Proof. apply bpow_le. lia. Qed.

(** One butterfly. *)
Lemma butterfly (a b : b64) (x y e B : R) : fin a -> fin b ->
  Rabs (toR a - x) <= e -> Rabs (toR b - y) <= e -> Rabs x <= B -> Rabs y <= B -> 0 <= e <= B -> 1 <= B <= bpow radix2 500 ->
  (fin (plus2 Bops a b) /\ Rabs (toR (plus2 Bops a b) - plus2 Rops x y) <= 3 / 2 * e + u49 * B)
  /\ (fin (minus2 Bops a b) /\ Rabs (toR (minus2 Bops a b) - minus2 Rops x y) <= 3 / 2 * e + u49 * B).
Proof.
  intros Fa Fb Ha Hb Hx Hy He HB. destruct sqrt1_2_ok as (Fc & Hc).
  pose proof cc_pos as C0. pose proof cc_le as C1. assert (C2 : / 2 <= cc) by (pose proof cc_sq; nra). pose proof eta_le_u as Het. pose proof eta_pos as Het0.
  set (C := toR b_sqrt1_2) in *.
  assert (Hu : u53 = / 9007199254740992) by (unfold u53; simpl; lra).
  assert (Hu49 : u49 = / 562949953421312) by (unfold u49; simpl; lra).
  assert (Het' : eta <= / 1152921504606846976) by (eapply Rle_trans; [exact Het|simpl; lra]).
  apply Rabs_le_inv in Ha, Hb, Hx, Hy, Hc. rewrite Hu in Hc.
  assert (HC : 0 <= C <= 4 / 5) by lra.
  set (A := toR a) in *. set (B' := toR b) in *.
  assert (HA : Rabs A <= 2 * B) by (apply Rabs_le; lra).
  assert (HB' : Rabs B' <= 2 * B) by (apply Rabs_le; lra).
  assert (HCA : Rabs (C * A) <= 8 / 5 * B) by (rewrite Rabs_mult, (Rabs_pos_eq C) by lra; nra).
  assert (HCB : Rabs (C * B') <= 8 / 5 * B) by (rewrite Rabs_mult, (Rabs_pos_eq C) by lra; nra).
  assert (Hb500 : forall v, Rabs v <= 16 * B -> small v).
  { intros v Hv. apply small_le with 504%Z; [lia|]. replace 504%Z with (4 + 500)%Z by lia. rewrite bpow_plus. simpl (bpow radix2 4).
    eapply Rle_trans; [exact Hv|]. nra. }
  destruct (b_mul_ok b_sqrt1_2 a Fc Fa) as (F1 & V1); [apply Hb500; fold C A; lra|].
  destruct (b_mul_ok b_sqrt1_2 b Fc Fb) as (F2 & V2); [apply Hb500; fold C B'; lra|].
  fold C A in V1. fold C B' in V2.
  pose proof (rnd_err (C * A)) as E1. pose proof (rnd_err (C * B')) as E2. rewrite Hu in E1, E2.
  set (P := rnd (C * A)) in *. set (Q := rnd (C * B')) in *.
  assert (E1' : Rabs (P - C * A) <= B * (2 / 9007199254740992)) by lra.
  assert (E2' : Rabs (Q - C * B') <= B * (2 / 9007199254740992)) by lra.
  apply Rabs_le_inv in HCA, HCB, E1', E2'.
  assert (HP : Rabs P <= 2 * B) by (apply Rabs_le; lra). assert (HQ : Rabs Q <= 2 * B) by (apply Rabs_le; lra).
  apply Rabs_le_inv in HP, HQ.
  destruct (b_add_ok (f_mul Bops b_sqrt1_2 a) (f_mul Bops b_sqrt1_2 b) F1 F2) as (F3 & V3);
    [rewrite V1, V2; apply Hb500, Rabs_le; lra|].
  destruct (b_sub_ok (f_mul Bops b_sqrt1_2 a) (f_mul Bops b_sqrt1_2 b) F1 F2) as (F4 & V4);
    [rewrite V1, V2; apply Hb500, Rabs_le; lra|].
  rewrite V1, V2 in V3, V4.
  pose proof (rnd_err (P + Q)) as E3. pose proof (rnd_err (P - Q)) as E4. rewrite Hu in E3, E4.
  assert (HPQ : Rabs (P + Q) <= 4 * B) by (apply Rabs_le; lra).
  assert (HPQ' : Rabs (P - Q) <= 4 * B) by (apply Rabs_le; lra).
  assert (E3' : Rabs (rnd (P + Q) - (P + Q)) <= B * (5 / 9007199254740992)) by lra.
  assert (E4' : Rabs (rnd (P - Q) - (P - Q)) <= B * (5 / 9007199254740992)) by lra.
  clear E1 E2 E3 E4. apply Rabs_le_inv in E3', E4', HA, HB'.
  (* C A - cc x = (C - cc) A + cc (A - x) *)
  assert (G : forall t t', Rabs t <= 2 * B -> Rabs (t - t') <= e -> Rabs (C * t - cc * t') <= B * (2 / 9007199254740992) + 3 / 4 * e).
  { intros t t' Ht Htt. replace (C * t - cc * t') with ((C - cc) * t + cc * (t - t')) by ring.
    eapply Rle_trans; [apply Rabs_triang|]. rewrite !Rabs_mult, (Rabs_pos_eq cc) by lra.
    assert (H1 : Rabs (C - cc) * Rabs t <= / 9007199254740992 * (2 * B)).
    { apply Rmult_le_compat; try apply Rabs_pos; [apply Rabs_le; lra|exact Ht]. }
    assert (H2 : cc * Rabs (t - t') <= 3 / 4 * e) by (pose proof (Rabs_pos (t - t')); nra). lra. }
  assert (GA := G A x ltac:(apply Rabs_le; lra) ltac:(apply Rabs_le; lra)).
  assert (GB := G B' y ltac:(apply Rabs_le; lra) ltac:(apply Rabs_le; lra)).
  apply Rabs_le_inv in GA, GB. clear G.
  unfold plus2, minus2. change (f_sqrt1_2 Bops) with b_sqrt1_2. change (f_sqrt1_2 Rops) with cc.
  cbn [f_add f_sub f_mul Rops]. rewrite Hu49.
  split.
  - split; [exact F3|]. rewrite V3. apply Rabs_le. lra.
  - split; [exact F4|]. rewrite V4. apply Rabs_le. lra.
Qed.

Definition approx (d0 d1 : nat) (e : R) (N : nat -> nat -> b64) (M : nat -> nat -> R) : Prop :=
  forall i j, (i < d0)%nat -> (j < d1)%nat -> fin (N i j) /\ Rabs (toR (N i j) - M i j) <= e.

Lemma approx_le d0 d1 e e' N M : e <= e' -> approx d0 d1 e N M -> approx d0 d1 e' N M.
Proof. intros H A i j Hi Hj. destruct (A i j Hi Hj). split; [assumption|lra]. Qed.

Lemma step_float bw n (f : nat -> b64) (g : nat -> R) e B j : (n mod 2 = 0)%nat -> (j < n)%nat ->
  (forall k, (k < n)%nat -> fin (f k) /\ Rabs (toR (f k) - g k) <= e /\ Rabs (g k) <= B) -> 0 <= e <= B -> 1 <= B <= bpow radix2 500 ->
  fin (step Bops bw n f j) /\ Rabs (toR (step Bops bw n f j) - stepR bw n g j) <= 3 / 2 * e + u49 * B.
Proof.
  intros Hev Hj H He HB. pose proof (even_half n Hev) as E. pose proof (div2_lt j n Hj Hev) as Hd. set (h := Nat.div2 n) in *.
  unfold step. fold h.
  destruct bw; [destruct (Nat.even j)|destruct (Nat.ltb_spec j h)];
    match goal with |- context [_ Bops (f ?k) (f ?l)] =>
      destruct (H k ltac:(lia)) as (F1 & E1 & B1); destruct (H l ltac:(lia)) as (F2 & E2 & B2) end;
    eapply butterfly; eassumption.
Qed.

Lemma rows_float bw d0 d1 w h e B N M : (w <= d0)%nat -> (h <= d1)%nat -> (h mod 2 = 0)%nat -> 0 <= e <= B -> 1 <= B <= bpow radix2 500 ->
  bounded d0 d1 B M -> approx d0 d1 e N M -> approx d0 d1 (3 / 2 * e + u49 * B) (rows_pass Bops bw w h N) (rowsR bw w h M).
Proof.
  intros Hw Hh Hev He HB Hb Ha i j Hi Hj. pose proof u49_pos. unfold rows_pass.
  destruct (Nat.ltb_spec i w), (Nat.ltb_spec j h); cbn [andb]; try (destruct (Ha i j Hi Hj); split; [assumption|nra]).
  apply step_float; try assumption. intros k Hk. destruct (Ha i k ltac:(lia) ltac:(lia)). repeat split; try assumption. apply Hb; lia.
Qed.
Lemma cols_float bw d0 d1 w h e B N M : (w <= d0)%nat -> (h <= d1)%nat -> (w mod 2 = 0)%nat -> 0 <= e <= B -> 1 <= B <= bpow radix2 500 ->
  bounded d0 d1 B M -> approx d0 d1 e N M -> approx d0 d1 (3 / 2 * e + u49 * B) (cols_pass Bops bw w h N) (colsR bw w h M).
Proof.
  intros Hw Hh Hev He HB Hb Ha i j Hi Hj. pose proof u49_pos. unfold cols_pass.
  destruct (Nat.ltb_spec i w), (Nat.ltb_spec j h); cbn [andb]; try (destruct (Ha i j Hi Hj); split; [assumption|nra]).
  apply (step_float bw w (fun k => N k j) (fun k => M k j)); try assumption.
  intros k Hk. destruct (Ha k j ltac:(lia) ltac:(lia)). repeat split; try assumption. apply Hb; lia.
Qed.

Lemma iter_float bw d0 d1 level it k B N M : divisible d0 d1 level -> (it < level)%nat -> 0 <= k <= 1000 -> 1 <= B -> 9 / 4 * B <= bpow radix2 500 ->
  bounded d0 d1 B M -> approx d0 d1 (k * u49 * B) N M ->
  approx d0 d1 ((k + 2) * u49 * (9 / 4 * B)) (iteration Bops bw d0 d1 N it) (iterR bw d0 d1 M it).
Proof.
  intros (D0 & D1) Hit Hk HB HB2 Hb Ha. destruct (half_even _ _ it D0 Hit) as (E0 & _). destruct (half_even _ _ it D1 Hit) as (E1 & _).
  pose proof u49_pos as Hu0. assert (Hu : u49 <= / 1000000) by (unfold u49; simpl; lra).
  assert (Hk1 : 0 <= k * u49 <= / 1000) by nra.
  assert (Hr := rows_float bw d0 d1 (d0 / 2 ^ it) (d1 / 2 ^ it) (k * u49 * B) B N M (div_pow_le _ _) (div_pow_le _ _) E1
     ltac:(nra) ltac:(lra) Hb Ha).
  assert (Hb1 := rows_bound bw d0 d1 (d0 / 2 ^ it) (d1 / 2 ^ it) B M (div_pow_le _ _) (div_pow_le _ _) E1 Hb).
  set (e1 := 3 / 2 * (k * u49 * B) + u49 * B) in *.
  assert (He1 : 0 <= e1 <= 3 / 2 * B) by (unfold e1; nra).
  assert (Hc := cols_float bw d0 d1 (d0 / 2 ^ it) (d1 / 2 ^ it) e1 (3 / 2 * B) _ _ (div_pow_le _ _) (div_pow_le _ _) E0
     He1 ltac:(lra) Hb1 Hr).
  eapply approx_le; [|exact Hc]. unfold e1. nra.
Qed.

Lemma fold_float bw d0 d1 level its : forall k B N M, divisible d0 d1 level -> Forall (fun it => (it < level)%nat) its ->
  0 <= k -> k + 2 * INR (length its) <= 1000 -> 1 <= B -> (9 / 4) ^ length its * B <= bpow radix2 500 ->
  bounded d0 d1 B M -> approx d0 d1 (k * u49 * B) N M ->
  approx d0 d1 ((k + 2 * INR (length its)) * u49 * ((9 / 4) ^ length its * B))
    (fold_left (iteration Bops bw d0 d1) its N) (fold_left (iterR bw d0 d1) its M).
Proof.
  induction its as [|it t IH]; intros k B N M D Hi Hk Hk2 HB HB2 Hb Ha; cbn [fold_left].
  - cbn [length pow]. simpl INR. rewrite Rmult_0_r, Rplus_0_r, Rmult_1_l. exact Ha.
  - cbn [length] in *. rewrite S_INR in *. cbn [pow] in *. inversion Hi; subst.
    assert (Hp : 1 <= (9 / 4) ^ length t) by (apply pow_R1_Rle; lra). pose proof (pos_INR (length t)).
    assert (H94 : 9 / 4 * B <= bpow radix2 500) by nra.
    replace ((k + 2 * (INR (length t) + 1)) * u49 * (9 / 4 * (9 / 4) ^ length t * B))
      with ((k + 2 + 2 * INR (length t)) * u49 * ((9 / 4) ^ length t * (9 / 4 * B))) by ring.
    apply IH; try assumption; try lra.
    + apply (iter_bound bw d0 d1 level); assumption.
    + apply (iter_float bw d0 d1 level); try assumption. lra.
Qed.

(** The binary64 transform is close to the exact transform of the same data. *)
Lemma trans_float bw d0 d1 L B N M : divisible d0 d1 L -> (L <= 31)%nat -> 1 <= B <= bpow radix2 300 ->
  bounded d0 d1 B M -> approx d0 d1 0 N M ->
  approx d0 d1 (2 * INR L * u49 * ((9 / 4) ^ L * B)) (transform Bops bw d0 d1 L N) (transR bw d0 d1 L M).
Proof.
  intros D HL HB Hb Ha.
  assert (E : length (if bw then rev (seq 0 L) else seq 0 L) = L) by (destruct bw; rewrite ?rev_length, seq_length; reflexivity).
  assert (HI : INR L <= 31) by (replace 31 with (INR 31) by (simpl; lra); apply le_INR; exact HL).
  assert (H := fold_float bw d0 d1 L (if bw then rev (seq 0 L) else seq 0 L) 0 B N M D (its_bound bw L)).
  rewrite E in H. rewrite Rplus_0_l, Rmult_0_l, Rmult_0_l in H. unfold transform. apply H; try lra; try assumption.
  apply Rle_trans with (bpow radix2 200 * bpow radix2 300); [|rewrite <- bpow_plus; apply bpow_le; lia].
  apply Rmult_le_compat; try lra; [apply pow_le; lra|].
  apply Rle_trans with ((9 / 4) ^ 31); [apply Rle_pow; [lra|exact HL]|].
  apply Rle_trans with (4 ^ 31); [apply pow_incr; lra|].
  apply Rle_trans with (bpow radix2 62); [simpl; lra|apply bpow_le; lia].
Qed.

(** ** Concrete bounds for up to ten levels and 8-bit data *)
Lemma pow94_10 L : (L <= 10)%nat -> 1 <= (9 / 4) ^ L <= 3326.
Proof.
  intros H. split; [apply pow_R1_Rle; lra|]. apply Rle_trans with ((9 / 4) ^ 10); [apply Rle_pow; [lra|exact H]|]. simpl. lra.
Qed.
Lemma INR_10 L : (L <= 10)%nat -> 0 <= INR L <= 10.
Proof. intros H. split; [apply pos_INR|]. replace 10 with (INR 10) by (simpl; lra). apply le_INR. exact H. Qed.

Lemma analysis_float d0 d1 L N M : divisible d0 d1 L -> (L <= 10)%nat -> bounded d0 d1 255 M -> approx d0 d1 0 N M ->
  approx d0 d1 (bpow radix2 (-24)) (transform Bops false d0 d1 L N) (transR false d0 d1 L M).
Proof.
  intros D HL Hb Ha. eapply approx_le; [|apply (trans_float false d0 d1 L 255); try assumption; try lia].
  - pose proof (pow94_10 L HL). pose proof (INR_10 L HL).
    apply Rle_trans with (2 * 10 * u49 * (3326 * 255)).
    + unfold u49. simpl bpow. nra.
    + unfold u49. simpl bpow. lra.
  - split; [lra|]. apply Rle_trans with (bpow radix2 8); [simpl; lra|apply bpow_le; lia].
Qed.

Lemma synthesis_float d0 d1 L N M (D : nat -> nat -> R) : divisible d0 d1 L -> (L <= 10)%nat -> bounded d0 d1 255 M ->
  (forall i j, ~ (i < d0 / 2 ^ L /\ j < d1 / 2 ^ L)%nat -> D i j = 0) -> bounded d0 d1 (bpow radix2 20) D ->
  approx d0 d1 (bpow radix2 (-24)) N (lin 1 1 (transR false d0 d1 L M) D) ->
  approx d0 d1 (bpow radix2 (-10)) (transform Bops true d0 d1 L N) (fun i j => M i j + (/ 2) ^ L * D (i / 2 ^ L)%nat (j / 2 ^ L)%nat).
Proof.
  intros HD HL Hb Hs Hbd Ha. pose proof (pow94_10 L HL) as Hp. pose proof (INR_10 L HL) as HI.
  set (C := transR false d0 d1 L M) in *.
  assert (HbC : bounded d0 d1 ((9 / 4) ^ L * 255) C) by now apply trans_bound.
  set (T := fun i j => toR (N i j)).
  set (E := fun i j => T i j - lin 1 1 C D i j).
  assert (HT : T = lin 1 1 (lin 1 1 C D) E).
  { apply FunctionalExtensionality.functional_extensionality. intros i. apply FunctionalExtensionality.functional_extensionality. intros j.
    unfold lin, E, lin. ring. }
  assert (HbE : bounded d0 d1 (bpow radix2 (-24)) E).
  { intros i j Hi Hj. destruct (Ha i j Hi Hj) as (_ & H). exact H. }
  assert (HbT : bounded d0 d1 2000000 T).
  { intros i j Hi Hj. rewrite HT. unfold lin. specialize (HbE i j Hi Hj). specialize (HbC i j Hi Hj). specialize (Hbd i j Hi Hj).
    assert (HC : Rabs (C i j) <= 3326 * 255) by nra. simpl bpow in *.
    apply Rabs_le_inv in HC, HbE, Hbd. apply Rabs_le. lra. }
  assert (HaT : approx d0 d1 0 N T).
  { intros i j Hi Hj. destruct (Ha i j Hi Hj) as (F & _). split; [exact F|]. unfold T. replace (toR (N i j) - toR (N i j)) with 0 by ring. rewrite Rabs_R0. lra. }
  assert (HF := trans_float true d0 d1 L 2000000 N T HD ltac:(lia)).
  assert (HF' : approx d0 d1 (bpow radix2 (-12)) (transform Bops true d0 d1 L N) (transR true d0 d1 L T)).
  { eapply approx_le; [|apply HF; try assumption].
    - apply Rle_trans with (2 * 10 * u49 * (3326 * 2000000)); [unfold u49; simpl bpow; nra|unfold u49; simpl bpow; lra].
    - split; [lra|]. apply Rle_trans with (bpow radix2 30); [simpl; lra|apply bpow_le; lia]. }
  intros i j Hi Hj. destruct (HF' i j Hi Hj) as (Fi & Hi'). split; [exact Fi|].
  rewrite HT, !trans_lin in Hi'. unfold C in Hi'. rewrite trans_bwd_fwd in Hi' by exact HD.
  unfold lin in Hi'. rewrite (trans_bwd_LL d0 d1 L D) in Hi' by assumption.
  assert (HbE' := trans_bound true d0 d1 L _ E HD HbE i j Hi Hj).
  assert (HbE'' : Rabs (transR true d0 d1 L E i j) <= 3326 * bpow radix2 (-24)).
  { eapply Rle_trans; [exact HbE'|]. apply Rmult_le_compat_r; [apply bpow_ge_0|lra]. }
  apply Rabs_le_inv in HbE'', Hi'. simpl bpow in *. apply Rabs_le. lra.
Qed.
