(** Properties C27-C29: the two-dimensional Haar transform (lib/sia/rust/embedding/src/haar/mod.rs). *)
From Coq Require Import Reals Lra.
From Flocq Require Import Core BinarySingleNaN.
From Verif Require Import Outcome Floats FloatFacts Bits ListFacts IndexArithProofs Matrix MatrixFacts Haar HaarProofs HaarReal HaarFloat.
Open Scope nat_scope.

(** ** Specification vocabulary *)

(** Both sides of the matrix are divisible by 2^levels; at most 31 levels (beyond, the code's i32 power overflows). *)
Definition transformable {A} (m : array2 A) (levels : nat) : Prop :=
  wf m /\ dim0 m mod 2 ^ levels = 0 /\ dim1 m mod 2 ^ levels = 0 /\ 1 <= levels <= 31.

Definition value (m : array2 R) (i j : nat) : R := match cell m i j with Some v => v | None => 0%R end.

(** sum of f 0 .. f (n-1) *)
Fixpoint sum_to (n : nat) (f : nat -> R) : R := match n with 0 => 0%R | S k => (sum_to k f + f k)%R end.

(** *** C27 *)
Theorem C27_backward_of_forward_is_identity : forall m levels, transformable m levels ->
  exists c, dwt_2d Rops m levels false = Ok c /\ dwt_2d Rops c levels true = Ok m.
Proof.
  intros m L (Hwf & D0 & D1 & HL). assert (D : divisible (dim0 m) (dim1 m) L) by (split; assumption).
  destruct (dwt_2d_ok Rops false L m Hwf D HL) as (c & E & W & A0 & A1 & C).
  exists c. split; [exact E|].
  destruct (dwt_2d_ok Rops true L c W) as (r & E' & W' & B0 & B1 & C'); [rewrite A0, A1; exact D|exact HL|].
  rewrite E'. f_equal. apply (get_ext Rops); [exact W'|exact Hwf|congruence|congruence|].
  intros i j Hi Hj. rewrite C', A0, A1.
  rewrite (transform_ext Rops true _ _ L _ (transform Rops false (dim0 m) (dim1 m) L (get Rops m)) D) by exact C.
  rewrite trans_bwd_fwd by exact D. reflexivity.
Qed.

Theorem C27_forward_of_backward_is_identity : forall c levels, transformable c levels ->
  exists m, dwt_2d Rops c levels true = Ok m /\ dwt_2d Rops m levels false = Ok c.
Proof.
  intros m L (Hwf & D0 & D1 & HL). assert (D : divisible (dim0 m) (dim1 m) L) by (split; assumption).
  destruct (dwt_2d_ok Rops true L m Hwf D HL) as (c & E & W & A0 & A1 & C).
  exists c. split; [exact E|].
  destruct (dwt_2d_ok Rops false L c W) as (r & E' & W' & B0 & B1 & C'); [rewrite A0, A1; exact D|exact HL|].
  rewrite E'. f_equal. apply (get_ext Rops); [exact W'|exact Hwf|congruence|congruence|].
  intros i j Hi Hj. rewrite C', A0, A1.
  rewrite (transform_ext Rops false _ _ L _ (transform Rops true (dim0 m) (dim1 m) L (get Rops m)) D) by exact C.
  rewrite trans_fwd_bwd by exact D. reflexivity.
Qed.

(** *** C28 *)
Lemma sum_to_sumn n f : sum_to n f = sumn n f.
Proof. induction n as [|n IH]; cbn; [reflexivity|]. now rewrite IH. Qed.

Theorem C28_low_pass_band_is_scaled_block_sum : forall m levels, transformable m levels ->
  exists c, dwt_2d Rops m levels false = Ok c /\ dim0 c = dim0 m /\ dim1 c = dim1 m /\
    forall i j, i < dim0 m / 2 ^ levels -> j < dim1 m / 2 ^ levels ->
      cell c i j = Some (/ 2 ^ levels *
        sum_to (2 ^ levels) (fun a => sum_to (2 ^ levels) (fun b => value m (2 ^ levels * i + a)%nat (2 ^ levels * j + b)%nat)))%R.
Proof.
  intros m L (Hwf & D0 & D1 & HL). assert (D : divisible (dim0 m) (dim1 m) L) by (split; assumption).
  destruct (dwt_2d_ok Rops false L m Hwf D HL) as (c & E & W & A0 & A1 & C).
  exists c. split; [exact E|]. split; [exact A0|]. split; [exact A1|]. intros i j Hi Hj.
  pose proof (div_pow_le (dim0 m) L). pose proof (div_pow_le (dim1 m) L).
  rewrite (cell_get Rops) by (try exact W; lia). f_equal. rewrite C, trans_LL by assumption.
  rewrite pow_inv. reflexivity.
Qed.

(** *** C29 *)
Definition image8 (m : array2 Z) : Prop := wf m /\ Forall (Forall byte) (rows m).

Lemma image8_cell m i j v : image8 m -> cell m i j = Some v -> byte v.
Proof.
  intros (Hwf & Hb) E. unfold cell in E. destruct (nth_error (rows m) i) as [r|] eqn:Er; [|discriminate].
  rewrite Forall_forall in Hb. specialize (Hb r (nth_error_In _ _ Er)). rewrite Forall_forall in Hb. apply Hb, (nth_error_In _ _ E).
Qed.

(** Exact pixel values as an index function. *)
Definition pixR (m : array2 Z) (i j : nat) : R := match cell m i j with Some v => IZR v | None => 0%R end.

Lemma pixR_bounded m : image8 m -> bounded (dim0 m) (dim1 m) 255 (pixR m).
Proof.
  intros Hm i j Hi Hj. unfold pixR. destruct (cell_bounds m i j (proj1 Hm) Hi Hj) as (v & Ev). rewrite Ev.
  pose proof (image8_cell m i j v Hm Ev) as (H1 & H2). rewrite Rabs_pos_eq by (apply (IZR_le 0); exact H1). apply (IZR_le v 255). lia.
Qed.

Lemma pix_float m : image8 m -> approx (dim0 m) (dim1 m) 0 (get Bops (mapv (f_of_Z Bops) m)) (pixR m).
Proof.
  intros Hm i j Hi Hj. unfold get, pixR. rewrite cell_mapv. destruct (cell_bounds m i j (proj1 Hm) Hi Hj) as (v & Ev). rewrite Ev. cbn [option_map].
  pose proof (image8_cell m i j v Hm Ev) as (H1 & H2). destruct (b_of_Z_ok v) as (F1 & V1); [lia|].
  split; [exact F1|]. change (f_of_Z Bops v) with (b_of_Z v). rewrite V1. replace (IZR v - IZR v)%R with 0%R by ring. rewrite Rabs_R0. lra.
Qed.

Theorem C29_f64_transform_reproduces_8bit_images : forall image levels, image8 image -> transformable image levels -> levels <= 10 ->
  exists c r, dwt_2d Bops (mapv (f_of_Z Bops) image) levels false = Ok c /\ dwt_2d Bops c levels true = Ok r
    /\ mapv (fun x => f_to_u8 Bops (f_round Bops x)) r = image.
Proof.
  intros m L Hm (Hwf & D0 & D1 & HL) HL10. assert (D : divisible (dim0 m) (dim1 m) L) by (split; assumption).
  assert (Hwf' : wf (mapv (f_of_Z Bops) m)) by now apply mapv_wf.
  destruct (dwt_2d_ok Bops false L (mapv (f_of_Z Bops) m) Hwf' D HL) as (c & E & W & A0 & A1 & C).
  cbn [mapv dim0 dim1] in A0, A1, C.
  destruct (dwt_2d_ok Bops true L c W) as (r & E' & W' & B0 & B1 & C'); [rewrite A0, A1; exact D|exact HL|].
  exists c, r. split; [exact E|]. split; [exact E'|].
  assert (HA := analysis_float (dim0 m) (dim1 m) L _ _ D HL10 (pixR_bounded m Hm) (pix_float m Hm)).
  assert (HS := synthesis_float (dim0 m) (dim1 m) L (get Bops c) (pixR m) (fun _ _ => 0%R) D HL10 (pixR_bounded m Hm)).
  assert (HS' : approx (dim0 m) (dim1 m) (bpow radix2 (-10)) (transform Bops true (dim0 m) (dim1 m) L (get Bops c)) (fun i j => pixR m i j + (/ 2) ^ L * 0)%R).
  { apply HS.
    - reflexivity.
    - intros i j _ _. rewrite Rabs_R0. apply bpow_ge_0.
    - intros i j Hi Hj. rewrite C. destruct (HA i j Hi Hj) as (F1 & H1). split; [exact F1|]. unfold lin. rewrite Rmult_0_r, Rplus_0_r, Rmult_1_l. exact H1. }
  apply array2_ext.
  - now apply mapv_wf.
  - exact Hwf.
  - cbn [mapv dim0]. congruence.
  - cbn [mapv dim1]. congruence.
  - cbn [mapv dim0 dim1]. intros i j Hi Hj. rewrite cell_mapv.
    rewrite (cell_get Bops) by (try exact W'; assumption). cbn [option_map]. rewrite C', A0, A1.
    destruct (HS' i j ltac:(lia) ltac:(lia)) as (F1 & H1).
    destruct (cell_bounds m i j Hwf ltac:(lia) ltac:(lia)) as (v & Ev).
    pose proof (image8_cell m i j v Hm Ev) as (Hv1 & Hv2). unfold pixR in H1. rewrite Ev in H1 |- *. f_equal.
    unfold f_to_u8. destruct (b_round_ok _ F1) as (F2 & V2). rewrite (b_cast_ok _ _ _ F2), V2, Ztrunc_IZR.
    rewrite (Znearest_imp (Z.leb 0) _ v).
    + apply clamp_id. lia.
    + replace (IZR v) with (IZR v + (/ 2) ^ L * 0)%R by ring. eapply Rle_lt_trans; [exact H1|]. simpl bpow. lra.
Qed.

(** ** Witness: an 8 x 16 image and three levels *)
Example transformable_witness : exists image, image8 image /\ transformable image 3 /\ cell image 7 15 = Some 200%Z.
Proof.
  exists (mkArray2 8 16 (repeat (repeat 200%Z 16) 8)). split; [|split].
  - split; [split; [reflexivity|repeat constructor]|]. repeat constructor; unfold byte; lia.
  - split; [split; [reflexivity|repeat constructor]|]. split; [reflexivity|]. split; [reflexivity|lia].
  - reflexivity.
Qed.

Print Assumptions C27_backward_of_forward_is_identity.
Print Assumptions C27_forward_of_backward_is_identity.
Print Assumptions C28_low_pass_band_is_scaled_block_sum.
Print Assumptions C29_f64_transform_reproduces_8bit_images.
