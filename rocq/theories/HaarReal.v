(** The transform over exact reals: reconstruction, linearity, the low-pass band. *)
From Coq Require Import Reals Lra FunctionalExtensionality.
From Verif Require Import Outcome Floats Bits ListFacts Matrix MatrixFacts Haar HaarProofs.
Open Scope R_scope.

Notation stepR := (step Rops).
Notation rowsR := (rows_pass Rops).
Notation colsR := (cols_pass Rops).
Notation iterR := (iteration Rops).
Notation transR := (transform Rops).

Definition cc : R := / sqrt 2.
Lemma cc_sq : cc * cc = / 2.
Proof.
  unfold cc. rewrite <- Rinv_mult. f_equal. apply sqrt_sqrt. lra.
Qed.
Lemma cc_pos : 0 < cc.
Proof. unfold cc. apply Rinv_0_lt_compat, sqrt_lt_R0. lra. Qed.
Lemma cc_le : cc <= 3 / 4.
Proof. pose proof cc_sq. pose proof cc_pos. nra. Qed.

Lemma plus2R a b : plus2 Rops a b = cc * a + cc * b. Proof. reflexivity. Qed.
Lemma minus2R a b : minus2 Rops a b = cc * a - cc * b. Proof. reflexivity. Qed.

Lemma half2_ss a b : cc * (cc * a + cc * b) + cc * (cc * a - cc * b) = a.
Proof. replace (cc * (cc * a + cc * b) + cc * (cc * a - cc * b)) with (2 * (cc * cc) * a) by ring. rewrite cc_sq. lra. Qed.
Lemma half2_sd a b : cc * (cc * a + cc * b) - cc * (cc * a - cc * b) = b.
Proof. replace (cc * (cc * a + cc * b) - cc * (cc * a - cc * b)) with (2 * (cc * cc) * b) by ring. rewrite cc_sq. lra. Qed.

Lemma even_split j : (j = if Nat.even j then 2 * Nat.div2 j else 2 * Nat.div2 j + 1)%nat.
Proof.
  rewrite (Nat.div2_odd j) at 1. rewrite <- Nat.negb_even. destruct (Nat.even j); cbn [negb Nat.b2n]; lia.
Qed.

Lemma div2_2k k : Nat.div2 (2 * k) = k. Proof. apply Nat.div2_double. Qed.
Lemma div2_2k1 k : Nat.div2 (2 * k + 1) = k. Proof. replace (2 * k + 1)%nat with (S (2 * k)) by lia. apply Nat.div2_succ_double. Qed.
Lemma even_2k k : Nat.even (2 * k) = true. Proof. rewrite Nat.even_mul. reflexivity. Qed.
Lemma even_2k1 k : Nat.even (2 * k + 1) = false. Proof. rewrite Nat.even_add, even_2k. reflexivity. Qed.

Lemma step_bwd_fwd n f j : (n mod 2 = 0)%nat -> (j < n)%nat -> stepR true n (stepR false n f) j = f j.
Proof.
  intros Hev Hj. pose proof (even_half n Hev) as E. pose proof (div2_lt j n Hj Hev) as Hd. set (h := Nat.div2 n) in *.
  pose proof (even_split j) as Ej. set (k := Nat.div2 j) in *.
  unfold step. fold h. fold k.
  rewrite (proj2 (Nat.ltb_lt k h) Hd), (proj2 (Nat.ltb_ge (k + h) h)) by lia.
  replace (k + h - h)%nat with k by lia. rewrite !plus2R, !minus2R.
  destruct (Nat.even j); rewrite Ej; [apply half2_ss|apply half2_sd].
Qed.

Lemma step_fwd_bwd n f j : (n mod 2 = 0)%nat -> (j < n)%nat -> stepR false n (stepR true n f) j = f j.
Proof.
  intros Hev Hj. pose proof (even_half n Hev) as E. set (h := Nat.div2 n) in *.
  unfold step. fold h. rewrite !even_2k, !even_2k1, !div2_2k, !div2_2k1, !plus2R, !minus2R.
  destruct (Nat.ltb_spec j h) as [H|H].
  - apply half2_ss.
  - rewrite half2_sd. f_equal. lia.
Qed.

Lemma step_inv bw n f j : (n mod 2 = 0)%nat -> (j < n)%nat -> stepR (negb bw) n (stepR bw n f) j = f j.
Proof. destruct bw; cbn [negb]; [apply step_fwd_bwd|apply step_bwd_fwd]. Qed.

(** linearity *)
Lemma step_lin bw n f g a b j : stepR bw n (fun k => a * f k + b * g k) j = a * stepR bw n f j + b * stepR bw n g j.
Proof.
  unfold step. destruct bw; [destruct (Nat.even j)|destruct (j <? Nat.div2 n)%nat]; rewrite !plus2R || rewrite !minus2R; ring.
Qed.

(** separability *)
Lemma step_comm bw bw' n n' (M : nat -> nat -> R) i j :
  stepR bw n (fun k => stepR bw' n' (fun l => M l k) i) j = stepR bw' n' (fun l => stepR bw n (M l) j) i.
Proof.
  unfold step.
  destruct bw, bw'; repeat match goal with |- context [if ?b then _ else _] => destruct b end;
    rewrite ?plus2R, ?minus2R; ring.
Qed.

Lemma step_bound bw n f B j : (n mod 2 = 0)%nat -> (j < n)%nat -> (forall k, (k < n)%nat -> Rabs (f k) <= B) -> Rabs (stepR bw n f j) <= 3 / 2 * B.
Proof.
  intros Hev Hj H. pose proof (even_half n Hev) as E. pose proof (div2_lt j n Hj Hev) as Hd. set (h := Nat.div2 n) in *.
  pose proof cc_pos. pose proof cc_le.
  assert (G : forall x y, Rabs x <= B -> Rabs y <= B -> Rabs (cc * x + cc * y) <= 3 / 2 * B /\ Rabs (cc * x - cc * y) <= 3 / 2 * B).
  { intros x y Hx Hy. assert (0 <= B) by (pose proof (Rabs_pos x); lra).
    assert (Hxy : Rabs (x + y) <= 2 * B) by (eapply Rle_trans; [apply Rabs_triang|lra]).
    assert (Hxy' : Rabs (x - y) <= 2 * B) by (unfold Rminus; eapply Rle_trans; [apply Rabs_triang|rewrite Rabs_Ropp; lra]).
    replace (cc * x + cc * y) with (cc * (x + y)) by ring. replace (cc * x - cc * y) with (cc * (x - y)) by ring.
    rewrite !Rabs_mult, (Rabs_pos_eq cc) by lra. split; nra. }
  unfold step. fold h. destruct bw; [destruct (Nat.even j)|destruct (Nat.ltb_spec j h)]; rewrite ?plus2R, ?minus2R;
    (apply G; apply H; lia).
Qed.

(** ** passes *)
Ltac fext := apply functional_extensionality; intros ?i; apply functional_extensionality; intros ?j.

Lemma rows_inv bw w h M : (h mod 2 = 0)%nat -> rowsR (negb bw) w h (rowsR bw w h M) = M.
Proof.
  intros He. fext. unfold rows_pass.
  destruct (Nat.ltb_spec i w) as [Hi|Hi], (Nat.ltb_spec j h) as [Hj|Hj]; cbn [andb]; try reflexivity.
  rewrite <- (step_inv bw h (M i) j He Hj). apply step_ext; [exact He|exact Hj|]. intros k Hk.
  rewrite (proj2 (Nat.ltb_lt k h) Hk). reflexivity.
Qed.
Lemma cols_inv bw w h M : (w mod 2 = 0)%nat -> colsR (negb bw) w h (colsR bw w h M) = M.
Proof.
  intros He. fext. unfold cols_pass.
  destruct (Nat.ltb_spec i w) as [Hi|Hi], (Nat.ltb_spec j h) as [Hj|Hj]; cbn [andb]; try reflexivity.
  rewrite <- (step_inv bw w (fun k => M k j) i He Hi). apply step_ext; [exact He|exact Hi|]. intros k Hk.
  rewrite (proj2 (Nat.ltb_lt k w) Hk). reflexivity.
Qed.
Lemma rows_cols_comm bw bw' w h M : (w mod 2 = 0)%nat -> (h mod 2 = 0)%nat ->
  rowsR bw w h (colsR bw' w h M) = colsR bw' w h (rowsR bw w h M).
Proof.
  intros Hw Hh. fext. unfold rows_pass, cols_pass.
  destruct (Nat.ltb_spec i w) as [Hi|Hi], (Nat.ltb_spec j h) as [Hj|Hj]; cbn [andb]; try reflexivity.
  transitivity (stepR bw h (fun k => stepR bw' w (fun l => M l k) i) j).
  - apply step_ext; [exact Hh|exact Hj|]. intros k Hk. rewrite (proj2 (Nat.ltb_lt k h) Hk). reflexivity.
  - rewrite step_comm. apply step_ext; [exact Hw|exact Hi|]. intros k Hk. rewrite (proj2 (Nat.ltb_lt k w) Hk). reflexivity.
Qed.

Lemma iter_inv bw d0 d1 level it M : divisible d0 d1 level -> (it < level)%nat ->
  iterR (negb bw) d0 d1 (iterR bw d0 d1 M it) it = M.
Proof.
  intros (D0 & D1) Hit. destruct (half_even _ _ it D0 Hit) as (E0 & _). destruct (half_even _ _ it D1 Hit) as (E1 & _).
  unfold iteration. rewrite rows_cols_comm by assumption. rewrite cols_inv by assumption. apply rows_inv. assumption.
Qed.

Lemma trans_fwd_S d0 d1 L M : transR false d0 d1 (S L) M = iterR false d0 d1 (transR false d0 d1 L M) L.
Proof.
  unfold transform. rewrite seq_S, fold_left_app. reflexivity.
Qed.
Lemma trans_bwd_S d0 d1 L M : transR true d0 d1 (S L) M = transR true d0 d1 L (iterR true d0 d1 M L).
Proof. unfold transform. rewrite seq_S, rev_app_distr. reflexivity. Qed.

Lemma divisible_le d0 d1 L L' : divisible d0 d1 L -> (L' <= L)%nat -> divisible d0 d1 L'.
Proof.
  intros (H0 & H1) HL. assert (G : forall d, (d mod 2 ^ L = 0 -> d mod 2 ^ L' = 0)%nat).
  { intros d Hd. apply Nat.mod_divides in Hd as (k & ->); [|pose proof (pow2_pos L); lia].
    replace L with (L' + (L - L'))%nat by lia. rewrite Nat.pow_add_r.
    replace (2 ^ L' * 2 ^ (L - L') * k)%nat with (2 ^ (L - L') * k * 2 ^ L')%nat by ring. apply Nat.mod_mul. pose proof (pow2_pos L'). lia. }
  split; auto.
Qed.

Lemma trans_bwd_fwd d0 d1 L : forall M, divisible d0 d1 L -> transR true d0 d1 L (transR false d0 d1 L M) = M.
Proof.
  induction L as [|L IH]; intros M D; [reflexivity|].
  rewrite trans_fwd_S, trans_bwd_S. rewrite (iter_inv false d0 d1 (S L)) by (try assumption; lia).
  apply IH. apply (divisible_le d0 d1 (S L)); [exact D|lia].
Qed.
Lemma trans_fwd_bwd d0 d1 L : forall M, divisible d0 d1 L -> transR false d0 d1 L (transR true d0 d1 L M) = M.
Proof.
  induction L as [|L IH]; intros M D; [reflexivity|].
  rewrite trans_bwd_S, trans_fwd_S. rewrite IH by (apply (divisible_le d0 d1 (S L)); [exact D|lia]).
  apply (iter_inv true d0 d1 (S L)); [exact D|lia].
Qed.

(** linearity *)
Definition lin (a b : R) (M N : nat -> nat -> R) : nat -> nat -> R := fun i j => a * M i j + b * N i j.
Lemma rows_lin bw w h a b M N : rowsR bw w h (lin a b M N) = lin a b (rowsR bw w h M) (rowsR bw w h N).
Proof. fext. unfold rows_pass, lin. destruct ((i <? w) && (j <? h))%nat; [|reflexivity]. apply (step_lin bw h (M i) (N i)). Qed.
Lemma cols_lin bw w h a b M N : colsR bw w h (lin a b M N) = lin a b (colsR bw w h M) (colsR bw w h N).
Proof. fext. unfold cols_pass, lin. destruct ((i <? w) && (j <? h))%nat; [|reflexivity]. apply (step_lin bw w (fun k => M k j) (fun k => N k j)). Qed.
Lemma iter_lin bw d0 d1 it a b M N : iterR bw d0 d1 (lin a b M N) it = lin a b (iterR bw d0 d1 M it) (iterR bw d0 d1 N it).
Proof. unfold iteration. rewrite rows_lin, cols_lin. reflexivity. Qed.
Lemma fold_lin bw d0 d1 its a b : forall M N, fold_left (iterR bw d0 d1) its (lin a b M N) = lin a b (fold_left (iterR bw d0 d1) its M) (fold_left (iterR bw d0 d1) its N).
Proof. induction its as [|it t IH]; intros M N; cbn [fold_left]; [reflexivity|]. rewrite iter_lin. apply IH. Qed.
Lemma trans_lin bw d0 d1 L a b M N : transR bw d0 d1 L (lin a b M N) = lin a b (transR bw d0 d1 L M) (transR bw d0 d1 L N).
Proof. apply fold_lin. Qed.

(** growth *)
Definition bounded (d0 d1 : nat) (B : R) (M : nat -> nat -> R) : Prop := forall i j, (i < d0)%nat -> (j < d1)%nat -> Rabs (M i j) <= B.
Lemma bounded_pos d0 d1 B M i j : (i < d0)%nat -> (j < d1)%nat -> bounded d0 d1 B M -> 0 <= B.
Proof. intros Hi Hj H. pose proof (H i j Hi Hj). pose proof (Rabs_pos (M i j)). lra. Qed.
Lemma rows_bound bw d0 d1 w h B M : (w <= d0)%nat -> (h <= d1)%nat -> (h mod 2 = 0)%nat -> bounded d0 d1 B M -> bounded d0 d1 (3 / 2 * B) (rowsR bw w h M).
Proof.
  intros Hw Hh He H i j Hi Hj. assert (0 <= B) by exact (bounded_pos d0 d1 B M i j Hi Hj H). unfold rows_pass.
  destruct (Nat.ltb_spec i w), (Nat.ltb_spec j h); cbn [andb]; try (specialize (H i j Hi Hj); lra).
  apply step_bound; [exact He|assumption|]. intros k Hk. apply H; lia.
Qed.
Lemma cols_bound bw d0 d1 w h B M : (w <= d0)%nat -> (h <= d1)%nat -> (w mod 2 = 0)%nat -> bounded d0 d1 B M -> bounded d0 d1 (3 / 2 * B) (colsR bw w h M).
Proof.
  intros Hw Hh He H i j Hi Hj. assert (0 <= B) by exact (bounded_pos d0 d1 B M i j Hi Hj H). unfold cols_pass.
  destruct (Nat.ltb_spec i w), (Nat.ltb_spec j h); cbn [andb]; try (specialize (H i j Hi Hj); lra).
  apply step_bound; [exact He|assumption|]. intros k Hk. apply H; lia.
Qed.
Lemma iter_bound bw d0 d1 level it B M : divisible d0 d1 level -> (it < level)%nat -> bounded d0 d1 B M -> bounded d0 d1 (9 / 4 * B) (iterR bw d0 d1 M it).
Proof.
  intros (D0 & D1) Hit H. destruct (half_even _ _ it D0 Hit) as (E0 & _). destruct (half_even _ _ it D1 Hit) as (E1 & _).
  unfold iteration. replace (9 / 4 * B) with (3 / 2 * (3 / 2 * B)) by lra.
  apply cols_bound; try apply div_pow_le; try assumption. apply rows_bound; try apply div_pow_le; assumption.
Qed.
Lemma fold_bound bw d0 d1 level its : forall B M, divisible d0 d1 level -> Forall (fun it => (it < level)%nat) its -> bounded d0 d1 B M ->
  bounded d0 d1 ((9 / 4) ^ length its * B) (fold_left (iterR bw d0 d1) its M).
Proof.
  induction its as [|it t IH]; intros B M D Hi H; cbn [fold_left length pow].
  - rewrite Rmult_1_l. exact H.
  - inversion Hi; subst. replace (9 / 4 * (9 / 4) ^ length t * B) with ((9 / 4) ^ length t * (9 / 4 * B)) by ring.
    apply IH; try assumption. apply (iter_bound bw d0 d1 level); assumption.
Qed.
Lemma trans_bound bw d0 d1 L B M : divisible d0 d1 L -> bounded d0 d1 B M -> bounded d0 d1 ((9 / 4) ^ L * B) (transR bw d0 d1 L M).
Proof.
  intros D H. assert (E : L = length (if bw then rev (seq 0 L) else seq 0 L)) by (destruct bw; rewrite ?rev_length, seq_length; reflexivity).
  rewrite E at 1. apply (fold_bound bw d0 d1 L); [exact D|apply its_bound|exact H].
Qed.

(** ** the low-pass band *)
Fixpoint sumn (n : nat) (f : nat -> R) : R := match n with O => 0 | S k => sumn k f + f k end.
Definition blocksum (s : nat) (M : nat -> nat -> R) (i j : nat) : R :=
  sumn s (fun a => sumn s (fun b => M (s * i + a)%nat (s * j + b)%nat)).

Lemma sumn_ext n f g : (forall k, (k < n)%nat -> f k = g k) -> sumn n f = sumn n g.
Proof. induction n as [|n IH]; intros H; cbn [sumn]; [reflexivity|]. rewrite IH, H by (intros; try apply H; lia). reflexivity. Qed.
Lemma sumn_plus n m f : sumn (n + m) f = sumn n f + sumn m (fun k => f (n + k)%nat).
Proof.
  induction m as [|m IH]; cbn [sumn]; [rewrite Nat.add_0_r; lra|]. rewrite Nat.add_succ_r. cbn [sumn]. rewrite IH. lra.
Qed.
Lemma sumn_add n f g : sumn n (fun k => f k + g k) = sumn n f + sumn n g.
Proof. induction n as [|n IH]; cbn [sumn]; [lra|]. rewrite IH. lra. Qed.
Lemma sumn_scal n a f : sumn n (fun k => a * f k) = a * sumn n f.
Proof. induction n as [|n IH]; cbn [sumn]; [lra|]. rewrite IH. lra. Qed.
Lemma sumn_const n a : sumn n (fun _ => a) = INR n * a.
Proof. induction n as [|n IH]; [cbn; lra|]. cbn [sumn]. rewrite IH, S_INR. lra. Qed.
Lemma sumn_bound n f B : (forall k, (k < n)%nat -> Rabs (f k) <= B) -> Rabs (sumn n f) <= INR n * B.
Proof.
  induction n as [|n IH]; intros H; [cbn [sumn]; rewrite Rabs_R0; simpl; lra|].
  cbn [sumn]. rewrite S_INR. eapply Rle_trans; [apply Rabs_triang|]. specialize (IH ltac:(intros; apply H; lia)). specialize (H n ltac:(lia)). lra.
Qed.

Lemma blocksum_double s M i j :
  blocksum (2 * s) M i j = blocksum s M (2 * i) (2 * j) + blocksum s M (2 * i) (2 * j + 1)
                         + blocksum s M (2 * i + 1) (2 * j) + blocksum s M (2 * i + 1) (2 * j + 1).
Proof.
  unfold blocksum. replace (2 * s)%nat with (s + s)%nat at 1 by lia. rewrite sumn_plus.
  assert (G : forall a, sumn (2 * s) (fun b => M a (2 * s * j + b)%nat) =
     sumn s (fun b => M a (s * (2 * j) + b)%nat) + sumn s (fun b => M a (s * (2 * j + 1) + b)%nat)).
  { intros a. replace (2 * s)%nat with (s + s)%nat at 1 by lia. rewrite sumn_plus. f_equal; apply sumn_ext; intros; f_equal; lia. }
  rewrite (sumn_ext s _ (fun a => sumn s (fun b => M (s * (2 * i) + a)%nat (s * (2 * j) + b)%nat) + sumn s (fun b => M (s * (2 * i) + a)%nat (s * (2 * j + 1) + b)%nat))).
  2:{ intros a _. rewrite G. replace (2 * s * i + a)%nat with (s * (2 * i) + a)%nat by lia. reflexivity. }
  rewrite (sumn_ext s (fun k => sumn (2 * s) _) (fun a => sumn s (fun b => M (s * (2 * i + 1) + a)%nat (s * (2 * j) + b)%nat) + sumn s (fun b => M (s * (2 * i + 1) + a)%nat (s * (2 * j + 1) + b)%nat))).
  2:{ intros a _. rewrite G. replace (2 * s * i + (s + a))%nat with (s * (2 * i + 1) + a)%nat by lia. reflexivity. }
  rewrite !sumn_add. lra.
Qed.

Lemma iter_fwd_LL d0 d1 level it M i j : divisible d0 d1 level -> (it < level)%nat ->
  (i < d0 / 2 ^ S it)%nat -> (j < d1 / 2 ^ S it)%nat ->
  iterR false d0 d1 M it i j = / 2 * (M (2 * i)%nat (2 * j)%nat + M (2 * i)%nat (2 * j + 1)%nat + M (2 * i + 1)%nat (2 * j)%nat + M (2 * i + 1)%nat (2 * j + 1)%nat).
Proof.
  intros (D0 & D1) Hit Hi Hj. destruct (half_even _ _ it D0 Hit) as (E0 & F0). destruct (half_even _ _ it D1 Hit) as (E1 & F1).
  set (w := (d0 / 2 ^ it)%nat) in *. set (h := (d1 / 2 ^ it)%nat) in *.
  assert (Hw2 : Nat.div2 w = (d0 / 2 ^ S it)%nat) by (rewrite F0; apply div2_2k).
  assert (Hh2 : Nat.div2 h = (d1 / 2 ^ S it)%nat) by (rewrite F1; apply div2_2k).
  unfold iteration. fold w. fold h. unfold cols_pass.
  rewrite (proj2 (Nat.ltb_lt i w)), (proj2 (Nat.ltb_lt j h)) by lia. cbn [andb]. unfold step. rewrite Hw2, (proj2 (Nat.ltb_lt _ _) Hi).
  unfold rows_pass. rewrite (proj2 (Nat.ltb_lt (2 * i) w)), (proj2 (Nat.ltb_lt (2 * i + 1) w)), (proj2 (Nat.ltb_lt j h)) by lia. cbn [andb].
  unfold step. rewrite Hh2, (proj2 (Nat.ltb_lt _ _) Hj). rewrite !plus2R. rewrite <- cc_sq. ring.
Qed.

Lemma trans_LL d0 d1 L : forall M i j, divisible d0 d1 L -> (i < d0 / 2 ^ L)%nat -> (j < d1 / 2 ^ L)%nat ->
  transR false d0 d1 L M i j = (/ 2) ^ L * blocksum (2 ^ L) M i j.
Proof.
  induction L as [|L IH]; intros M i j D Hi Hj.
  - unfold blocksum. cbn. rewrite !Nat.add_0_r. lra.
  - rewrite trans_fwd_S, (iter_fwd_LL d0 d1 (S L)) by (try assumption; lia).
    assert (D' : divisible d0 d1 L) by (apply (divisible_le d0 d1 (S L)); [exact D|lia]).
    destruct D as (D0 & D1). destruct (half_even _ _ L D0 ltac:(lia)) as (_ & F0). destruct (half_even _ _ L D1 ltac:(lia)) as (_ & F1).
    rewrite !IH by (try exact D'; lia). rewrite Nat.pow_succ_r', blocksum_double. cbn [pow]. ring.
Qed.

(** Inverse of a matrix supported on the low-pass band. *)
Lemma iter_bwd_LL d0 d1 level it M i j : divisible d0 d1 level -> (it < level)%nat ->
  (forall i j, ~ (i < d0 / 2 ^ S it /\ j < d1 / 2 ^ S it)%nat -> M i j = 0) ->
  iterR true d0 d1 M it i j = if ((i <? d0 / 2 ^ it) && (j <? d1 / 2 ^ it))%nat then / 2 * M (Nat.div2 i) (Nat.div2 j) else 0.
Proof.
  intros (D0 & D1) Hit H0. destruct (half_even _ _ it D0 Hit) as (E0 & F0). destruct (half_even _ _ it D1 Hit) as (E1 & F1).
  set (w := (d0 / 2 ^ it)%nat) in *. set (h := (d1 / 2 ^ it)%nat) in *.
  assert (Hw2 : Nat.div2 w = (d0 / 2 ^ S it)%nat) by (rewrite F0; apply div2_2k).
  assert (Hh2 : Nat.div2 h = (d1 / 2 ^ S it)%nat) by (rewrite F1; apply div2_2k).
  unfold iteration. fold w. fold h. unfold cols_pass.
  destruct (Nat.ltb_spec i w) as [Hi|Hi], (Nat.ltb_spec j h) as [Hj|Hj]; cbn [andb].
  - pose proof (div2_lt i w Hi E0) as Hi2. pose proof (div2_lt j h Hj E1) as Hj2.
    unfold step. rewrite Hw2 in *. rewrite Hh2 in *. unfold rows_pass.
    rewrite (proj2 (Nat.ltb_lt (Nat.div2 i) w)), (proj2 (Nat.ltb_lt (Nat.div2 i + d0 / 2 ^ S it) w)), (proj2 (Nat.ltb_lt j h)) by lia. cbn [andb].
    unfold step. rewrite Hh2.
    rewrite (H0 (Nat.div2 i) (Nat.div2 j + d1 / 2 ^ S it)%nat), (H0 (Nat.div2 i + d0 / 2 ^ S it)%nat (Nat.div2 j)),
      (H0 (Nat.div2 i + d0 / 2 ^ S it)%nat (Nat.div2 j + d1 / 2 ^ S it)%nat) by lia.
    rewrite <- cc_sq. destruct (Nat.even i), (Nat.even j); rewrite ?plus2R, ?minus2R; ring.
  - unfold rows_pass. rewrite (proj2 (Nat.ltb_ge j h)), andb_false_r by lia. apply H0. lia.
  - unfold rows_pass. rewrite (proj2 (Nat.ltb_ge i w)) by lia. cbn [andb]. apply H0. lia.
  - unfold rows_pass. rewrite (proj2 (Nat.ltb_ge i w)) by lia. cbn [andb]. apply H0. lia.
Qed.

Lemma trans_bwd_LL d0 d1 L : forall M i j, divisible d0 d1 L ->
  (forall i j, ~ (i < d0 / 2 ^ L /\ j < d1 / 2 ^ L)%nat -> M i j = 0) -> (i < d0)%nat -> (j < d1)%nat ->
  transR true d0 d1 L M i j = (/ 2) ^ L * M (i / 2 ^ L)%nat (j / 2 ^ L)%nat.
Proof.
  induction L as [|L IH]; intros M i j D H0 Hi Hj.
  - change (2 ^ 0)%nat with 1%nat. rewrite !Nat.div_1_r. unfold transform. cbn [seq rev fold_left pow]. lra.
  - assert (D' : divisible d0 d1 L) by (apply (divisible_le d0 d1 (S L)); [exact D|lia]).
    assert (Hit : forall i j, iterR true d0 d1 M L i j = if ((i <? d0 / 2 ^ L) && (j <? d1 / 2 ^ L))%nat then / 2 * M (Nat.div2 i) (Nat.div2 j) else 0).
    { intros. apply (iter_bwd_LL d0 d1 (S L)); [exact D|lia|exact H0]. }
    rewrite trans_bwd_S, IH; [|exact D'| |exact Hi|exact Hj].
    + rewrite Hit. destruct D' as (D0 & D1). pose proof (pow2_pos L) as Hp.
      assert (Ea : (i / 2 ^ L < d0 / 2 ^ L)%nat).
      { apply Nat.div_lt_upper_bound; [lia|]. apply Nat.div_exact in D0; [|lia]. rewrite <- D0. exact Hi. }
      assert (Eb : (j / 2 ^ L < d1 / 2 ^ L)%nat).
      { apply Nat.div_lt_upper_bound; [lia|]. apply Nat.div_exact in D1; [|lia]. rewrite <- D1. exact Hj. }
      rewrite (proj2 (Nat.ltb_lt _ _) Ea), (proj2 (Nat.ltb_lt _ _) Eb). cbn [andb pow].
      rewrite !Nat.div2_div, !Nat.div_div by lia. rewrite Nat.pow_succ_r', (Nat.mul_comm 2). ring.
    + intros a b Hab. rewrite Hit. destruct (Nat.ltb_spec a (d0 / 2 ^ L)), (Nat.ltb_spec b (d1 / 2 ^ L)); try reflexivity. lia.
Qed.
