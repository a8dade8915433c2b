(** Properties C44 and C49 of the feature extractor in binary64, for every mathematical library (record [libm]): the structure of the
    result does not depend on how powf, sqrt, atan2, exp, cos, sin and hypot round. *)
From Coq Require Import Reals Lra.
From Flocq Require Import Core BinarySingleNaN.
From Verif Require Import Outcome Floats FloatFacts Matrix MatrixFacts HaarReal Zernike ZernikeProofs PropsZernike ZernikeGen ZernikeGenProofs ZernikeF64.
Open Scope Z_scope.

(** *** C44 *)
Theorem C44_f64_number_and_indices_of_features : forall (M : libm b64) gamma checks image amount,
  1 <= Z.of_nat amount <= 2 ^ 50 -> wf image -> (dim1 image <= dim0 image)%nat ->
  exists features, g_calculate_features Bops M gamma checks image MomentsZernike amount = Ok features /\ length features = amount
    /\ forall i, (i < amount)%nat -> exists re im,
         g_moment Bops M gamma (2 * amount - 1) (2 * i + 1) image = Ok (re, im)
         /\ nth_error features i = Some (l_hypot M re im).
Proof.
  intros M g checks image amount Ha Hwf Hd. destruct amount as [|k]; [lia|]. cbn [g_calculate_features].
  destruct (g_features_total M g checks image k Hwf Hd ltac:(lia)) as (l & El & Ll & H). exists l. split; [exact El|]. split; [exact Ll|].
  intros i Hi. destruct (H i ltac:(lia)) as ((re, im) & Ez & En). exists re, im.
  replace (2 * S k - 1)%nat with (1 + 2 * k)%nat by lia. rewrite (Nat.add_comm (2 * i) 1). split; [exact Ez|exact En].
Qed.
Theorem C44_f64_degenerate_requests : forall (M : libm b64) gamma checks image amount,
  (exists r, g_calculate_features Bops M gamma checks image MomentsZernike 0 = Panic r)
  /\ g_calculate_features Bops M gamma checks image MomentsPseudoZernike amount = Ok []
  /\ g_calculate_features Bops M gamma checks image CentralFiniteDifferences amount = Ok [].
Proof. intros M g checks image amount. split; [destruct checks; eexists; reflexivity|split; reflexivity]. Qed.

(** The same program text read over exact reals computes the features of Zernike.v (so the theorems over reals and over binary64 are
    about one program). *)
Theorem C44_one_program_two_arithmetics : forall gamma checks image t amount, Z.of_nat amount <= 2 ^ 60 ->
  g_calculate_features Rops Rlibm gamma checks image t amount = calculate_features gamma checks image t amount.
Proof. exact gen_real. Qed.

(** *** C49 *)
Theorem C49_f64_tall_images_are_rejected : forall (M : libm b64) gamma checks image amount,
  wf image -> (0 < dim0 image < dim1 image)%nat -> Z.of_nat amount <= 2 ^ 50 ->
  exists r, g_calculate_features Bops M gamma checks image MomentsZernike amount = Panic r.
Proof.
  intros M g checks image amount Hwf Hd Ha. destruct amount as [|k]; [destruct checks; eexists; reflexivity|].
  eexists. cbn [g_calculate_features]. apply g_features_panic; [exact Hwf|exact Hd|lia].
Qed.

(** ** Concrete cases *)
(** A (crude) library: the theorems above need nothing of it. *)
Definition crude_libm : libm b64 := {|
  l_pi := b_pi; l_powf := fun x _ => x; l_sqrt := fun x => x; l_atan2 := fun y _ => y; l_exp := fun x => x; l_cos := fun x => x;
  l_sin := fun x => x; l_hypot := fun x _ => x |}.
Example C44_f64_witness : exists features,
  g_calculate_features Bops crude_libm (fun x => x) true sample MomentsZernike 11 = Ok features /\ length features = 11%nat.
Proof.
  destruct (C44_f64_number_and_indices_of_features crude_libm (fun x => x) true sample 11 ltac:(lia)) as (l & E & Hl & _).
  - apply (proj1 (square2 1 2 3 4)).
  - cbn. lia.
  - eauto.
Qed.
Example C49_f64_witness : exists r, g_calculate_features Bops crude_libm (fun x => x) true (mkArray2 1 2 [[5; 6]]) MomentsZernike 11 = Panic r.
Proof. apply C49_f64_tall_images_are_rejected; [apply C49_witness|cbn; lia|lia]. Qed.

Print Assumptions C44_f64_number_and_indices_of_features.
Print Assumptions C44_f64_degenerate_requests.
Print Assumptions C44_one_program_two_arithmetics.
Print Assumptions C49_f64_tall_images_are_rejected.
