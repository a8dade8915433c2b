(** Property C104: the correction bits stored beside the signature are not signed.  Whoever copies a signature may choose them afresh, and then a picture whose
    features lie one bin further away is accepted as well; but no more than one bin (lib/sia/rust/watermarking/src/process.rs: watermark_channel,
    authenticate_channel; lib/sia/rust/three-bit-quantization/src/lib.rs). *)
From Coq Require Import Reals Lra.
From Flocq Require Import Core BinarySingleNaN.
From Verif Require Import Outcome Floats FloatFacts Bits ListFacts Quantization QuantProofs QuantReal QuantFloat PropsQuant PropsQuant2 Codecs CodecProofs WatermarkProofs PropsCodec
  Encoding EncodingProofs PropsEncoding Matrix MatrixFacts Haar HaarProofs HaarReal HaarFloat PropsHaar Stego StegoProofs StegoMarks PropsStego Embedding EmbeddingProofs EmbeddingEffect PropsEmbedding PropsEmbedding2 PropsEmbedding3 PropsRobust
  Signature Process ProcessProofs Toy Zernike ZernikeProofs PropsZernike ZernikeBound PropsZernike2 ZernikeGen PropsZernikeF64 LibmSpec LibmExact PropsZernikeAcc
  PropsProcess PropsProcess2 Image PropsImage PropsProcess3 PropsProcess4 PropsProcess5 PropsProcess6 PropsTamper Equalize PropsEqualize PropsShipped PropsShipped2 PropsInteger PropsClipping PropsClipping2 PropsRepair PropsRepair2 PropsVerdict.
Open Scope Z_scope.

(** ** Specification vocabulary *)
(** Every feature lies in the same bin (of width 1) or in a neighbouring one. *)
Definition at_most_one_bin_apart (features noised : list b64) : Prop := Forall2 (fun x x' : b64 => Z.abs (Zfloor (toR x') - Zfloor (toR x)) <= 1) features noised.
(** Finite features of ordinary size, those of the received picture not within 2^-20 of an integer (C02; zero may be approached from above). *)
Definition ordinary (features : list b64) : Prop := Forall (fun x : b64 => fin x /\ (Rabs (toR x) <= bpow radix2 28)%R) features.
Definition off_the_boundaries (features : list b64) : Prop := Forall (fun x : b64 => away (toR x) 1) features.
(** The signature is accepted on this vector only. *)
Definition fits_only (E : ed25519) (sig v : list Z) : Prop := forall u, i64_vector u -> verify E (vec_i64_to_bytes u) sig PUBLIC_KEY = Ok true -> u = v.

(** ** Proofs *)
(** A value in the bin of [x] whose half bin is the one next to [x']. *)
Definition pretended (x x' : b64) : b64 := b_dyadic (Z.max (2 * Zfloor (toR x)) (Z.min (2 * Zfloor (toR x) + 1) (Zfloor (2 * toR x')))) (-1).
Lemma pretended_ok x x' : (Rabs (toR x) <= bpow radix2 28)%R -> Z.abs (Zfloor (toR x') - Zfloor (toR x)) <= 1 ->
  fin (pretended x x') /\ (Rabs (toR (pretended x x')) <= bpow radix2 29)%R /\ Zfloor (toR (pretended x x')) = Zfloor (toR x) /\ half_bins_apart (pretended x x') x' <= 2.
Proof.
  intros Bx Hd. set (k := Zfloor (toR x)) in *. set (h' := Zfloor (2 * toR x')). set (h := Z.max (2 * k) (Z.min (2 * k + 1) h')).
  assert (Kb : - 2 ^ 28 - 1 <= k <= 2 ^ 28).
  { apply Rabs_le_inv in Bx. simpl bpow in Bx. pose proof (Zfloor_lb (toR x)). pose proof (Zfloor_ub (toR x)). fold k in H, H0.
    assert (A : (IZR k <= IZR 268435456)%R) by lra. assert (B : (IZR (-268435457) <= IZR k)%R) by (simpl; lra). apply le_IZR in A, B. lia. }
  assert (Hb : 2 * k <= h <= 2 * k + 1) by (unfold h; lia).
  destruct (b_dyadic_exact h (-1)) as (F & V); [lia|lia|]. fold h' h in F, V |- *. change (pretended x x') with (b_dyadic h (-1)).
  assert (V' : toR (b_dyadic h (-1)) = (IZR h / 2)%R) by (etransitivity; [exact V|simpl; lra]). clear V.
  assert (Fl : Zfloor (IZR h / 2) = k).
  { apply Zfloor_imp. rewrite plus_IZR. destruct Hb as (A & B). apply IZR_le in A, B. rewrite mult_IZR in A. rewrite plus_IZR, mult_IZR in B. simpl in *. lra. }
  assert (F2 : Zfloor (2 * (IZR h / 2)) = h) by (replace (2 * (IZR h / 2))%R with (IZR h) by lra; apply Zfloor_IZR).
  assert (H2 : 2 * Zfloor (toR x') <= h' <= 2 * Zfloor (toR x') + 1).
  { pose proof (Zfloor_lb (toR x')) as A. pose proof (Zfloor_ub (toR x')) as B. unfold h'. pose proof (Zfloor_lb (2 * toR x')) as C. pose proof (Zfloor_ub (2 * toR x')) as D.
    set (a := Zfloor (toR x')) in *. set (b := Zfloor (2 * toR x')) in *. split.
    - assert (X : (IZR (2 * a) < IZR (b + 1))%R) by (rewrite mult_IZR, plus_IZR; simpl; lra). apply lt_IZR in X. lia.
    - assert (X : (IZR b < IZR (2 * a + 2))%R) by (rewrite plus_IZR, mult_IZR; simpl; lra). apply lt_IZR in X. lia. }
  split; [exact F|]. rewrite V'. split.
  - assert (A : - 2 ^ 29 - 2 <= h <= 2 ^ 29 + 1) by lia. destruct A as (A & B). apply IZR_le in A, B. apply Rabs_le. simpl in *. lra.
  - split; [exact Fl|]. unfold half_bins_apart. rewrite V', F2. fold h'. unfold h. lia.
Qed.

Lemma pretended_list fs ns : ordinary fs -> at_most_one_bin_apart fs ns ->
  exists ps, length ps = length fs /\ Forall (fun x : b64 => fin x /\ (Rabs (toR x) <= bpow radix2 29)%R) ps /\ integer_parts ps = integer_parts fs /\ features_agree ps ns.
Proof.
  intros Ho H. induction H as [|x x' fs ns Hx Hl IH]; [exists []; repeat split; constructor|]. inversion Ho as [|? ? (Fx & Bx) Ho']; subst.
  destruct (IH Ho') as (ps & L & B & I & A). destruct (pretended_ok x x' Bx Hx) as (F & Bp & Fl & Hh). exists (pretended x x' :: ps).
  split; [cbn; now rewrite L|]. split; [constructor; [split; assumption|exact B]|]. split; [cbn [integer_parts map]; f_equal; [exact Fl|exact I]|]. constructor; assumption.
Qed.

Section Chosen.
Context (K : ldpc) (E : ed25519) (HE : signature_format E) (Hk : key_pair E PRIVATE_KEY PUBLIC_KEY) (equalize : list Z -> list Z) (features_of : array2 Z -> nat -> outcome (list b64)) (checks : bool).
Let one : b64 := f_of_Z Bops 1.

(** *** C104: somebody watermarked a picture with these features, so the signature [sig] exists.  For a picture whose features are nowhere more than one bin away there are
    bits with which that signature makes it authentic; they are computed without the key. *)
Theorem C104_f64_freshly_chosen_bits_are_accepted : forall features noised, ordinary features -> ordinary noised -> off_the_boundaries noised -> at_most_one_bin_apart features noised ->
  exists bits, length bits = (3 * length features)%nat
    /\ forall sig, sign E (vec_i64_to_bytes (integer_parts features)) PRIVATE_KEY PUBLIC_KEY = Ok sig ->
       forall received depth levels amount text, measures equalize features_of received amount noised -> shows_watermark K received depth levels (mkWatermark bits sig text) ->
       authenticate_channel Bops K E equalize features_of checks received depth one amount levels = Ok true.
Proof.
  intros fs ns Hf Hn Ha Hb. destruct unit_one as (F1 & V1). fold one in F1, V1.
  destruct (pretended_list fs ns Hf Hb) as (ps & Lp & Bp & Ip & Ap).
  assert (Ln : length ns = length ps) by (apply Forall2_length in Ap; congruence).
  destruct (C03_f64_unit_step_correction_capability one ps ns checks F1 V1 Ln Bp) as (bits & restored & E1 & E2 & Lr & Hcap).
  { unfold ordinary, off_the_boundaries in *. rewrite Forall_forall in *. intros x Hx. destruct (Hn x Hx) as (A & B). split; [exact A|]. split; [|now apply Ha]. simpl bpow in *. lra. }
  assert (Er : restored = integer_parts ps).
  { apply (restored_agree ps ns restored Ln Lr); [|exact Ap]. intros i x x' r A B C. exact (proj1 (Hcap i x x' r A B C)). }
  exists bits. split; [rewrite <- Lp; exact (proj2 (proj2 (quantization_inv Bops checks ps one _ bits E1)))|].
  intros sig Es received depth levels amount text Hm (px & pl & Epx & Ex & Ed).
  rewrite (authenticate_run Bops K E equalize features_of checks received px amount ns one (mkWatermark bits sig text) pl depth levels Epx Hm Ex Ed).
  cbn [perturbation_vector Codecs.signature]. rewrite E2. cbn [bind]. rewrite Er, Ip.
  destruct (sign_verify E _ _ (vec_i64_to_bytes (integer_parts fs)) HE Hk) as (sig' & Es' & _ & _ & Ev). assert (sig' = sig) by congruence. subst sig'. exact Ev.
Qed.

(** *** No choice of bits does better: a picture that is accepted with a signature made for [features] (and for nothing else) is nowhere more than one bin away. *)
Theorem C104_f64_no_bits_reach_further : forall features noised w received depth levels amount, ordinary noised -> off_the_boundaries noised ->
  measures equalize features_of received amount noised -> length noised = length features -> shows_watermark K received depth levels w -> fits_only E (Codecs.signature w) (integer_parts features) ->
  authenticate_channel Bops K E equalize features_of checks received depth one amount levels = Ok true -> at_most_one_bin_apart features noised.
Proof.
  intros fs ns w received depth levels amount Hn Ha Hm Ln (px & pl & Epx & Ex & Ed) Hfit H. destruct unit_one as (F1 & V1). fold one in F1, V1.
  rewrite (authenticate_run Bops K E equalize features_of checks received px amount ns one w pl depth levels Epx Hm Ex Ed) in H.
  apply bind_ok in H as (r & Hd & Hv). destruct (dequantization_near Bops checks ns _ one r Hd) as (Lr & _ & Hr).
  assert (Iv : i64_vector r).
  { apply Forall_forall. intros y Hy. apply In_nth_error in Hy as (j & Hj). assert (Hlt : (j < length ns)%nat) by (assert (j < length r)%nat by (apply nth_error_Some; congruence); lia).
    destruct (nth_error ns j) as [z|] eqn:Ez; [|apply nth_error_None in Ez; lia]. destruct (Hr j y z Hj Ez) as [ -> |[ -> | -> ]]; apply quantize1_i64. }
  assert (Er : r = integer_parts fs) by (apply Hfit; assumption).
  assert (Near : forall i x x', nth_error fs i = Some x -> nth_error ns i = Some x' -> Z.abs (Zfloor (toR x') - Zfloor (toR x)) <= 1).
  { intros i x x' Hx Hx'. assert (Hri : nth_error r i = Some (Zfloor (toR x))) by (rewrite Er; unfold integer_parts; now rewrite nth_error_map, Hx).
    unfold ordinary, off_the_boundaries in *. rewrite Forall_forall in Hn, Ha. destruct (Hn x' (nth_error_In _ _ Hx')) as (Fx & Bx). pose proof (Ha x' (nth_error_In _ _ Hx')) as Aw.
    assert (B29 : (Rabs (toR x') <= bpow radix2 29 * toR one)%R) by (rewrite V1; simpl bpow in *; lra).
    destruct (shifts one x' F1 (unit_ordinary one V1) Fx B29) as (Ep & Em); [rewrite V1; exact Aw|].
    destruct (unit_halves one x' F1 V1 Fx) as (Q & _); [simpl bpow in *; lra|].
    destruct (Hr i _ x' Hri Hx') as [A|[A|A]]; rewrite ?Ep, ?Em, Q in A; lia. }
  clear - Near Ln. revert ns Ln Near. induction fs as [|x fs IH]; intros [|x' ns] Ln Near; try discriminate; constructor.
  - apply (Near 0%nat); reflexivity.
  - apply IH; [cbn in Ln; lia|]. intros i y y' Hy Hy'. apply (Near (S i)); assumption.
Qed.
End Chosen.

(** ** Concrete case: the features 1.25 were signed, the forger's grey picture has the features 2.5.  With the bits stored by the signer the integers 2 are restored
    instead of 1 (refused: three half bins off); with fresh bits the same signature is accepted. *)
Definition signed_features : list b64 := repeat (b_dyadic 5 (-2)) 11.
Definition grey_features : list b64 := repeat (b_dyadic 5 (-1)) 11.
Lemma signed_value : fin (b_dyadic 5 (-2)) /\ toR (b_dyadic 5 (-2)) = (5 / 4)%R.
Proof. destruct (b_dyadic_exact 5 (-2)) as (F & V); [lia|lia|]. split; [exact F|]. etransitivity; [exact V|simpl; lra]. Qed.
Lemma grey_value : fin (b_dyadic 5 (-1)) /\ toR (b_dyadic 5 (-1)) = (5 / 2)%R.
Proof. destruct (b_dyadic_exact 5 (-1)) as (F & V); [lia|lia|]. split; [exact F|]. etransitivity; [exact V|simpl; lra]. Qed.
Lemma one_bin_case : ordinary signed_features /\ ordinary grey_features /\ off_the_boundaries grey_features /\ at_most_one_bin_apart signed_features grey_features.
Proof.
  destruct signed_value as (F1 & V1). destruct grey_value as (F2 & V2). split; [|split; [|split]].
  - apply Forall_forall. intros x Hx. apply repeat_spec in Hx. subst x. split; [exact F1|]. rewrite V1, Rabs_pos_eq by lra. simpl. lra.
  - apply Forall_forall. intros x Hx. apply repeat_spec in Hx. subst x. split; [exact F2|]. rewrite V2, Rabs_pos_eq by lra. simpl. lra.
  - apply Forall_forall. intros x Hx. apply repeat_spec in Hx. subst x. rewrite V2. intros n. right. rewrite Rmult_1_r. destruct (Z_le_gt_dec n 2) as [H|H].
    + apply IZR_le in H. rewrite Rabs_pos_eq by lra. simpl bpow. lra.
    + assert (H' : 3 <= n) by lia. apply IZR_le in H'. rewrite Rabs_left by lra. simpl bpow. lra.
  - unfold at_most_one_bin_apart, signed_features, grey_features. assert (H : Z.abs (Zfloor (toR (b_dyadic 5 (-1))) - Zfloor (toR (b_dyadic 5 (-2)))) <= 1).
    { rewrite V1, V2. replace (Zfloor (5 / 2)) with 2 by (symmetry; apply Zfloor_imp; simpl; lra). replace (Zfloor (5 / 4)) with 1 by (symmetry; apply Zfloor_imp; simpl; lra). lia. }
    generalize 11%nat. induction n as [|n IH]; constructor; assumption.
Qed.
Example C104_instance :
  (exists bits, three_bit_quantization Bops true signed_features (f_of_Z Bops 1) = Ok (repeat 1 11, bits) /\ three_bit_dequantization Bops true grey_features bits (f_of_Z Bops 1) = Ok (repeat 2 11))
  /\ exists bits sig image forged, sign toy_ed (vec_i64_to_bytes (integer_parts signed_features)) PRIVATE_KEY PUBLIC_KEY = Ok sig
     /\ shows_watermark toy_ldpc (mkGray 512 512 (into_raw_vec forged)) (f_of_Z Bops 100) 3 (mkWatermark bits sig WATERMARK_TEXT)
     /\ from_shape_vec 512 512 (gray_raw grey512) = Ok image /\ (exists payload, embed Bops toy_ldpc image payload (f_of_Z Bops 100) 3 = Ok forged)
     /\ authenticate_channel Bops toy_ldpc toy_ed (fun l => l) toy_features_f64 true (mkGray 512 512 (into_raw_vec forged)) (f_of_Z Bops 100) (f_of_Z Bops 1) 11 3 = Ok true.
Proof.
  split; [eexists; split; [vm_compute; reflexivity|]; vm_compute; reflexivity|].
  destruct one_bin_case as (A & B & C & D).
  destruct (C104_f64_freshly_chosen_bits_are_accepted toy_ldpc toy_ed toy_format toy_keys (fun l => l) toy_features_f64 true signed_features grey_features A B C D) as (bits & Lb & H).
  destruct (sign_verify toy_ed _ _ (vec_i64_to_bytes (integer_parts signed_features)) toy_format toy_keys) as (sig & Es & Ls & Bs & _).
  unfold signed_features in Lb. rewrite repeat_length in Lb.
  destruct (payload_of (repeat false 8) bits sig 11 eq_refl Bs Ls Lb ltac:(lia)) as (pl & _ & Bp & Lp & Edp).
  destruct (gray_array grey512 512 3 grey512_picture) as (im & Eim & Pim & Hcell).
  destruct (b_of_Z_ok 100) as (F1 & V1); [lia|]. change (b_of_Z 100) with (f_of_Z Bops 100) in *.
  destruct (C31_f64_embed_then_extract_returns_the_payload toy_ldpc toy_shape toy_decodes im 512 3 (f_of_Z Bops 100) pl Pim ltac:(lia) usable_512 Bp) as (fo & Eo & Po & Ex).
  - rewrite Lp. pose proof (payload_size_range 11 ltac:(lia)). lia.
  - rewrite Lp. exact fits_512.
  - exact F1.
  - rewrite V1. simpl. lra.
  - apply (gray_room_array grey512); [exact Pim|exact Hcell|]. apply grey512_room. rewrite V1. simpl. lra.
  - destruct (array_gray fo 512 3 Po) as (Gf & Ef).
    assert (Sh : shows_watermark toy_ldpc (mkGray 512 512 (into_raw_vec fo)) (f_of_Z Bops 100) 3 (mkWatermark bits sig WATERMARK_TEXT)).
    { exists fo, pl. cbn [gwidth gheight gray_raw]. split; [exact Ef|]. split; [exact Ex|exact Edp]. }
    exists bits, sig, im, fo. split; [exact Es|]. split; [exact Sh|]. split; [exact Eim|]. split; [exists pl; exact Eo|].
    apply (H sig Es _ _ _ 11%nat WATERMARK_TEXT); [|exact Sh]. destruct (gray_array _ 512 3 Gf) as (om & Eom & _). exists om. split; [exact Eom|reflexivity].
Qed.

Print Assumptions C104_f64_freshly_chosen_bits_are_accepted.
Print Assumptions C104_f64_no_bits_reach_further.
