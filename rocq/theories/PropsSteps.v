(** Property C120: useless steps.  The library takes any number as quantisation step.  With a step that is infinite or no number every feature is quantised to 0, with step 0 every positive
    feature to i64::MAX: the same bytes are signed for all pictures, the stored bits are the same, and authentication no longer depends on the features of the received picture: the signature
    of one picture is accepted on every picture (lib/sia/rust/three-bit-quantization/src/lib.rs:39-77, 101-171; lib/sia/rust/watermarking/src/process.rs: watermark_channel, authenticate_channel). *)
From Coq Require Import Reals Lra.
From Flocq Require Import Core BinarySingleNaN.
From Verif Require Import Outcome Floats FloatFacts Bits ListFacts Quantization QuantProofs QuantReal QuantFloat PropsQuant PropsQuant2 Codecs CodecProofs WatermarkProofs PropsCodec
  Encoding EncodingProofs PropsEncoding Matrix MatrixFacts Haar HaarProofs HaarReal HaarFloat PropsHaar Stego StegoProofs StegoMarks PropsStego Embedding EmbeddingProofs EmbeddingEffect PropsEmbedding PropsEmbedding2 PropsEmbedding3 PropsRobust
  Signature Process ProcessProofs Toy Zernike ZernikeProofs PropsZernike ZernikeBound PropsZernike2 ZernikeGen PropsZernikeF64 LibmSpec LibmExact PropsZernikeAcc
  PropsProcess PropsProcess2 Image PropsImage PropsProcess3 PropsProcess4 PropsProcess5 PropsProcess6 PropsTamper Equalize PropsEqualize PropsShipped PropsShipped2 PropsInteger PropsClipping PropsClipping2 PropsRepair PropsRepair2 PropsVerdict PropsUnused PropsForged PropsBright PropsBlockwise PropsFaint PropsInvisible PropsUnmarked PropsUseless PropsBits.
Open Scope Z_scope.

(** ** Specification vocabulary *)
(** Infinite (of either sign) or not a number. *)
Definition endless (step : b64) : Prop := match step with B754_infinity _ | B754_nan => True | _ => False end.
(** A number above zero, or infinity. *)
Definition above_zero (x : b64) : Prop := match x with B754_finite false _ _ _ | B754_infinity false => True | _ => False end.
(** A step that tells nothing apart: every feature is quantised to [c]. *)
Definition tells_nothing (step : b64) (features : list b64) (c : Z) : Prop :=
  (endless step /\ c = 0) \/ (step = f_of_Z Bops 0 /\ Forall above_zero features /\ c = 9223372036854775807).
(** [payload] is what is embedded in [channel], giving [marked]. *)
Definition receives (K : ldpc) (channel marked : gray) (depth : b64) (levels : nat) (payload : list Z) : Prop :=
  exists pixels out, from_shape_vec (gwidth channel) (gheight channel) (gray_raw channel) = Ok pixels /\ embed Bops K pixels payload depth levels = Ok out
    /\ marked = mkGray (gwidth channel) (gheight channel) (into_raw_vec out).

(** ** Proofs *)
Notation nan := (@B754_nan 53 1024).
Lemma endless_value (step x : b64) : endless step -> quantize1 Bops step x = 0.
Proof.
  intros H. unfold quantize1. destruct step as [s|s| |s m e Hb]; try contradiction; destruct x as [[|]|[|]| |[|] m' e' Hb']; try (destruct s); reflexivity.
Qed.
Lemma zero_value (x : b64) : above_zero x -> quantize1 Bops (f_of_Z Bops 0) x = 9223372036854775807.
Proof. intros H. unfold quantize1. destruct x as [[|]|[|]| |[|] m' e' Hb']; try contradiction; reflexivity. Qed.
Lemma zero_shift (x : b64) : above_zero x -> f_add Bops x (f_of_Z Bops 0) = x /\ f_sub Bops x (f_of_Z Bops 0) = x.
Proof. intros H. destruct x as [[|]|[|]| |[|] m' e' Hb']; try contradiction; split; reflexivity. Qed.

Lemma same_value step fs c : tells_nothing step fs c -> forall x, In x fs -> quantize1 Bops step x = c /\ quantize1 Bops step (f_add Bops x step) = c /\ quantize1 Bops step (f_sub Bops x step) = c.
Proof.
  intros [(H & ->)|(-> & H & ->)] x Hx.
  - repeat split; apply endless_value; exact H.
  - rewrite Forall_forall in H. specialize (H x Hx). destruct (zero_shift x H) as (A & B). rewrite A, B. repeat split; apply zero_value; exact H.
Qed.
Lemma same_quantised step fs c : tells_nothing step fs c -> quantize Bops fs step = repeat c (length fs).
Proof.
  intros H. pose proof (same_value step fs c H) as V. clear H. unfold quantize. induction fs as [|x t IH]; [reflexivity|]. cbn [map length repeat]. f_equal; [apply V; now left|]. apply IH. intros y Hy. apply V. now right.
Qed.
Lemma nothing_overflows checks step fs c : tells_nothing step fs c -> no_overflow Bops step checks fs.
Proof.
  intros H _. apply Forall_forall. intros x Hx. destruct (same_value step fs c H x Hx) as (-> & _). destruct H as [(_ & ->)|(_ & _ & ->)]; discriminate.
Qed.

(** *** What is signed is the same for all features. *)
Theorem C120_f64_useless_steps_quantise_everything_alike : forall checks step features c, tells_nothing step features c ->
  exists bits, three_bit_quantization Bops checks features step = Ok (repeat c (length features), bits) /\ length bits = (3 * length features)%nat.
Proof.
  intros checks step fs c H. pose proof (quantization_ok Bops step checks fs (nothing_overflows checks step fs c H)) as E. rewrite (same_quantised step fs c H) in E.
  eexists. split; [exact E|]. exact (proj2 (proj2 (quantization_inv Bops checks fs step _ _ E))).
Qed.
(** *** Nor does it matter what is restored: whatever the bits say. *)
Theorem C120_f64_useless_steps_restore_everything_alike : forall checks step noised given c k, tells_nothing step noised c -> length given = (3 * k)%nat -> (k <= length noised)%nat ->
  three_bit_dequantization Bops checks noised given step = Ok (repeat c k).
Proof.
  intros checks step fs given c k H Hg Hk. pose proof (nothing_overflows checks step fs c H) as Ho.
  assert (E : three_bit_dequantization Bops checks fs given step = Ok (map (quantize1 Bops step) (restore_all Bops step fs (chunks 3 given)))).
  { apply dequantization_ok; [exact Ho| |lia]. rewrite Hg, Nat.mul_comm. apply Nat.mod_mul. lia. }
  rewrite E. f_equal. destruct (dequantization_near Bops checks fs given step _ E) as (L1 & L2 & Hr). set (r := map _ _) in *. clearbody r. rewrite Hg in L2.
  assert (Lr : length r = k) by lia. apply nth_error_ext. intros i. destruct (lt_dec i k) as [Hi|Hi].
  - rewrite nth_error_repeat by exact Hi. destruct (nth_error r i) as [q|] eqn:Eq; [|apply nth_error_None in Eq; lia]. destruct (nth_error fs i) as [x|] eqn:Ex; [|apply nth_error_None in Ex; lia].
    destruct (same_value step fs c H x (nth_error_In _ _ Ex)) as (A & B & C). f_equal. destruct (Hr i q x Eq Ex) as [ -> |[ -> | -> ]]; assumption.
  - transitivity (@None Z); [apply nth_error_None; lia|symmetry; apply nth_error_None; rewrite repeat_length; lia].
Qed.

Section Blind.
Context (K : ldpc) (E : ed25519) (equalize : list Z -> list Z) (features_of : array2 Z -> nat -> outcome (list b64)) (checks : bool).

(** *** The verdict on a received picture does not depend on its features: only on the watermark it shows. *)
Theorem C120_f64_useless_steps_verdict_ignores_the_picture : forall received noised step c w k depth levels amount,
  measures equalize features_of received amount noised -> tells_nothing step noised c -> length (perturbation_vector w) = (3 * k)%nat -> (k <= length noised)%nat -> shows_watermark K received depth levels w ->
  authenticate_channel Bops K E equalize features_of checks received depth step amount levels = verify E (vec_i64_to_bytes (repeat c k)) (Codecs.signature w) PUBLIC_KEY.
Proof.
  intros rc ns step c w k d L am Hm H Hl Hk (px & pl & Epx & Ex & Ed).
  rewrite (authenticate_run Bops K E equalize features_of checks rc px am ns step w pl d L Epx Hm Ex Ed).
  rewrite (C120_f64_useless_steps_restore_everything_alike checks step ns (perturbation_vector w) c k H Hl Hk). reflexivity.
Qed.
(** *** So two pictures that show the same watermark get the same verdict, however different they are. *)
Theorem C120_f64_useless_steps_same_verdict_on_all_pictures : forall received received' noised noised' step c w k depth levels amount,
  measures equalize features_of received amount noised -> measures equalize features_of received' amount noised' -> tells_nothing step noised c -> tells_nothing step noised' c ->
  length (perturbation_vector w) = (3 * k)%nat -> (k <= length noised)%nat -> (k <= length noised')%nat -> shows_watermark K received depth levels w -> shows_watermark K received' depth levels w ->
  authenticate_channel Bops K E equalize features_of checks received depth step amount levels = authenticate_channel Bops K E equalize features_of checks received' depth step amount levels.
Proof.
  intros rc rc' ns ns' step c w k d L am Hm Hm' H H' Hl Hk Hk' Hs Hs'.
  rewrite (C120_f64_useless_steps_verdict_ignores_the_picture rc ns step c w k d L am Hm H Hl Hk Hs), (C120_f64_useless_steps_verdict_ignores_the_picture rc' ns' step c w k d L am Hm' H' Hl Hk' Hs'). reflexivity.
Qed.
(** *** And all pictures marked with such a step get the same signature: the one of [c, c, ...]. *)
Theorem C120_f64_useless_steps_one_signature_for_all : forall pad channel features step c depth levels amount marked,
  measures equalize features_of channel amount features -> tells_nothing step features c ->
  watermark_channel Bops K E equalize features_of checks pad channel depth step amount levels = Ok marked ->
  exists bits sig payload, sign E (vec_i64_to_bytes (repeat c (length features))) PRIVATE_KEY PUBLIC_KEY = Ok sig
    /\ watermark_serialize pad (mkWatermark bits sig WATERMARK_TEXT) = Ok payload /\ receives K channel marked depth levels payload.
Proof.
  intros pad ch fs step c d L am mk Hm H Hw. apply watermark_inv in Hw as (im & fs' & q & bits & sig & pl & out & H1 & H2 & H3 & H4 & H5 & H6 & H7).
  assert (fs' = fs) by (destruct Hm as (e & M1 & M2), H2 as (e' & M1' & M2'); congruence). subst fs'.
  destruct (C120_f64_useless_steps_quantise_everything_alike checks step fs c H) as (b & Eb & _). assert (q = repeat c (length fs)) by congruence. subst q.
  exists bits, sig, pl. split; [exact H4|]. split; [exact H5|]. exists im, out. now split.
Qed.

Context (HE : signature_format E) (Hk : key_pair E PRIVATE_KEY PUBLIC_KEY).
(** *** So the signature made for any picture with such a step is accepted on any other one, with any bits. *)
Theorem C120_f64_useless_steps_accept_every_picture : forall features noised step c sig bits text received depth levels amount,
  tells_nothing step features c -> tells_nothing step noised c -> length noised = length features ->
  sign E (vec_i64_to_bytes (quantize Bops features step)) PRIVATE_KEY PUBLIC_KEY = Ok sig -> length bits = (3 * length features)%nat ->
  measures equalize features_of received amount noised -> shows_watermark K received depth levels (mkWatermark bits sig text) ->
  authenticate_channel Bops K E equalize features_of checks received depth step amount levels = Ok true.
Proof.
  intros fs ns step c sig bits text rc d L am H H' Ln Es Lb Hm Hs.
  rewrite (C120_f64_useless_steps_verdict_ignores_the_picture rc ns step c (mkWatermark bits sig text) (length fs) d L am Hm H' Lb ltac:(lia) Hs). cbn [Codecs.signature].
  rewrite (same_quantised step fs c H) in Es.
  destruct (sign_verify E _ _ (vec_i64_to_bytes (repeat c (length fs))) HE Hk) as (sig' & Es' & _ & _ & Ev). assert (sig' = sig) by congruence. subst sig'. exact Ev.
Qed.
End Blind.

(** ** Concrete cases: the features 1.25 and the features 2.5 are two and one half bins apart at step 1 (refused, see C104); with no number as step, and with step 0, they are the same.
    A grey picture with the features 2.5 that carries the signature of the features 1.25 and bits that are all zero is accepted. *)
Lemma positive_features : Forall above_zero signed_features /\ Forall above_zero grey_features.
Proof. split; apply Forall_forall; intros x Hx; apply repeat_spec in Hx; subst x; exact Logic.I. Qed.
Definition useless_step (c : Z) : b64 := if c =? 0 then nan else f_of_Z Bops 0.
Lemma nothing_told c : In c [0; 9223372036854775807] -> tells_nothing (useless_step c) signed_features c /\ tells_nothing (useless_step c) grey_features c.
Proof.
  destruct positive_features as (A & B). intros [ <- |[ <- |[]]].
  - split; left; (split; [exact Logic.I|reflexivity]).
  - split; right; (split; [reflexivity|]); (split; [assumption|reflexivity]).
Qed.
Example C120_instance : forall c, In c [0; 9223372036854775807] -> exists sig forged,
  three_bit_quantization Bops true signed_features (useless_step c) = Ok (repeat c 11, concat (repeat (if c =? 0 then [true; true; false] else [true; false; true]) 11))
  /\ sign toy_ed (vec_i64_to_bytes (repeat c 11)) PRIVATE_KEY PUBLIC_KEY = Ok sig
  /\ shows_watermark toy_ldpc (mkGray 512 512 (into_raw_vec forged)) (f_of_Z Bops 100) 3 (mkWatermark (repeat false 33) sig WATERMARK_TEXT)
  /\ authenticate_channel Bops toy_ldpc toy_ed (fun l => l) toy_features_f64 true (mkGray 512 512 (into_raw_vec forged)) (f_of_Z Bops 100) (useless_step c) 11 3 = Ok true.
Proof.
  intros c Hc. destruct (nothing_told c Hc) as (A & B).
  destruct (sign_verify toy_ed _ _ (vec_i64_to_bytes (repeat c 11)) toy_format toy_keys) as (sig & Es & Ls & Bs & _).
  destruct (payload_of (repeat false 8) (repeat false 33) sig 11 eq_refl Bs Ls eq_refl ltac:(lia)) as (pl & _ & Bp & Lp & Edp).
  destruct (gray_array grey512 512 3 grey512_picture) as (im & Eim & Pim & Hcell).
  destruct (b_of_Z_ok 100) as (F1 & V1); [lia|]. change (b_of_Z 100) with (f_of_Z Bops 100) in *.
  destruct (C31_f64_embed_then_extract_returns_the_payload toy_ldpc toy_shape toy_decodes im 512 3 (f_of_Z Bops 100) pl Pim ltac:(lia) usable_512 Bp) as (fo & Eo & Po & Ex).
  - rewrite Lp. pose proof (payload_size_range 11 ltac:(lia)). lia.
  - rewrite Lp. exact fits_512.
  - exact F1.
  - rewrite V1. simpl. lra.
  - apply (gray_room_array grey512); [exact Pim|exact Hcell|]. apply grey512_room. rewrite V1. simpl. lra.
  - destruct (array_gray fo 512 3 Po) as (Gf & Ef).
    assert (Sh : shows_watermark toy_ldpc (mkGray 512 512 (into_raw_vec fo)) (f_of_Z Bops 100) 3 (mkWatermark (repeat false 33) sig WATERMARK_TEXT)).
    { exists fo, pl. cbn [gwidth gheight gray_raw]. split; [exact Ef|]. split; [exact Ex|exact Edp]. }
    exists sig, fo. split.
    { destruct Hc as [ <- |[ <- |[]]].
      - vm_compute. reflexivity.
      - vm_compute. reflexivity. }
    split; [exact Es|]. split; [exact Sh|].
    apply (C120_f64_useless_steps_accept_every_picture toy_ldpc toy_ed (fun l => l) toy_features_f64 true toy_format toy_keys signed_features grey_features (useless_step c) c sig (repeat false 33) WATERMARK_TEXT); try assumption; try reflexivity.
    + rewrite (same_quantised (useless_step c) _ c A). exact Es.
    + destruct (gray_array _ 512 3 Gf) as (om & Eom & _). exists om. split; [exact Eom|reflexivity].
Qed.

(** Marking the grey picture with no number as step, and with step 0: the call succeeds. *)
Example C120_instance_marking : forall c, In c [0; 9223372036854775807] ->
  exists marked, watermark_channel Bops toy_ldpc toy_ed (fun l => l) toy_features_f64 true (repeat false 8) grey512 (f_of_Z Bops 100) (useless_step c) 11 3 = Ok marked
  /\ exists bits sig payload, sign toy_ed (vec_i64_to_bytes (repeat c 11)) PRIVATE_KEY PUBLIC_KEY = Ok sig
     /\ watermark_serialize (repeat false 8) (mkWatermark bits sig WATERMARK_TEXT) = Ok payload /\ receives toy_ldpc grey512 marked (f_of_Z Bops 100) 3 payload.
Proof.
  intros c Hc. destruct (nothing_told c Hc) as (_ & B).
  destruct (C120_f64_useless_steps_quantise_everything_alike true (useless_step c) grey_features c B) as (bits & Eq & Lb). unfold grey_features in Lb, Eq. rewrite repeat_length in Lb, Eq.
  destruct (sign_verify toy_ed _ _ (vec_i64_to_bytes (repeat c 11)) toy_format toy_keys) as (sig & Es & Ls & Bs & _).
  destruct (payload_of (repeat false 8) bits sig 11 eq_refl Bs Ls Lb ltac:(lia)) as (pl & Ep & Bp & Lp & Edp).
  destruct (gray_array grey512 512 3 grey512_picture) as (im & Eim & Pim & Hcell).
  destruct (b_of_Z_ok 100) as (F1 & V1); [lia|]. change (b_of_Z 100) with (f_of_Z Bops 100) in *.
  destruct (C31_f64_embed_then_extract_returns_the_payload toy_ldpc toy_shape toy_decodes im 512 3 (f_of_Z Bops 100) pl Pim ltac:(lia) usable_512 Bp) as (fo & Eo & Po & Ex).
  - rewrite Lp. pose proof (payload_size_range 11 ltac:(lia)). lia.
  - rewrite Lp. exact fits_512.
  - exact F1.
  - rewrite V1. simpl. lra.
  - apply (gray_room_array grey512); [exact Pim|exact Hcell|]. apply grey512_room. rewrite V1. simpl. lra.
  - pose proof Po as ((Hwf & D0 & D1 & _) & _).
    assert (Hm : measures (fun l => l) toy_features_f64 grey512 11 grey_features) by (exists im; split; [exact Eim|reflexivity]).
    assert (Run : watermark_channel Bops toy_ldpc toy_ed (fun l => l) toy_features_f64 true (repeat false 8) grey512 (f_of_Z Bops 100) (useless_step c) 11 3 = Ok (mkGray (gwidth grey512) (gheight grey512) (into_raw_vec fo))).
    { apply (watermark_run Bops toy_ldpc toy_ed (fun l => l) toy_features_f64 true (repeat false 8) grey512 im 11 grey_features (useless_step c) (repeat c 11) bits sig pl fo (f_of_Z Bops 100) 3); assumption. }
    exists (mkGray (gwidth grey512) (gheight grey512) (into_raw_vec fo)). split; [exact Run|].
    exact (C120_f64_useless_steps_one_signature_for_all toy_ldpc toy_ed (fun l => l) toy_features_f64 true (repeat false 8) grey512 grey_features (useless_step c) c (f_of_Z Bops 100) 3 11 _ Hm B Run).
Qed.

Print Assumptions C120_f64_useless_steps_quantise_everything_alike.
Print Assumptions C120_f64_useless_steps_restore_everything_alike.
Print Assumptions C120_f64_useless_steps_verdict_ignores_the_picture.
Print Assumptions C120_f64_useless_steps_same_verdict_on_all_pictures.
Print Assumptions C120_f64_useless_steps_one_signature_for_all.
Print Assumptions C120_f64_useless_steps_accept_every_picture.
