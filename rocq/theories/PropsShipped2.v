(** Property C84: what the shipped scheme says about a picture that was watermarked and altered afterwards, exactly: the verdict in terms of
    the features of the original and of the received channel (lib/sia/rust/watermarking/src/process.rs: watermark_channel,
    authenticate_channel; configuration as in C83). *)
From Coq Require Import Reals Lra.
From Flocq Require Import Core BinarySingleNaN.
From Verif Require Import Outcome Floats FloatFacts Bits ListFacts Quantization QuantProofs QuantReal QuantFloat PropsQuant PropsQuant2 Codecs CodecProofs WatermarkProofs PropsCodec
  Encoding EncodingProofs PropsEncoding Matrix MatrixFacts Haar HaarProofs HaarReal PropsHaar Stego StegoProofs StegoMarks PropsStego Embedding EmbeddingProofs EmbeddingEffect PropsEmbedding PropsEmbedding2 PropsRobust
  Signature Process ProcessProofs Toy Zernike ZernikeProofs PropsZernike ZernikeBound PropsZernike2 ZernikeGen PropsZernikeF64 LibmSpec LibmExact PropsZernikeAcc
  PropsProcess PropsProcess2 Image PropsImage PropsProcess3 PropsProcess4 PropsProcess5 PropsProcess6 PropsTamper Equalize PropsEqualize PropsShipped.
Open Scope Z_scope.

(** ** Specification vocabulary *)
(** The number of half steps (the step is 1.0) between the half bins two feature values lie in. *)
Definition half_bins_apart (x x' : b64) : Z := Z.abs (Zfloor (2 * toR x') - Zfloor (2 * toR x)).
(** No feature is more than two half bins off. *)
Definition features_agree (features noised : list b64) : Prop := Forall2 (fun x x' => half_bins_apart x x' <= 2) features noised.
(** What is signed: the integer parts. *)
Definition integer_parts (features : list b64) : list Z := map (fun x => Zfloor (toR x)) features.

Lemma agree_dec fs ns : {features_agree fs ns} + {~ features_agree fs ns}.
Proof.
  unfold features_agree. revert ns. induction fs as [|x fs IH]; intros [|y ns]; [left; constructor|right; intros H; inversion H|right; intros H; inversion H|].
  destruct (Z_le_dec (half_bins_apart x y) 2) as [A|A]; [|right; intros H; inversion H; subst; contradiction].
  destruct (IH ns) as [B|B]; [left; constructor; assumption|right; intros H; inversion H; subst; contradiction].
Qed.

Lemma restored_agree fs ns restored : length ns = length fs -> length restored = length fs ->
  (forall i x x' r, nth_error fs i = Some x -> nth_error ns i = Some x' -> nth_error restored i = Some r ->
      (r = Zfloor (toR x) <-> Z.abs (Zfloor (2 * toR x') - Zfloor (2 * toR x)) <= 2)) ->
  (restored = integer_parts fs <-> features_agree fs ns).
Proof.
  revert ns restored. induction fs as [|x fs IH]; intros [|y ns] [|r rs] H1 H2 H; try discriminate.
  - split; [intros _; constructor|reflexivity].
  - pose proof (H 0%nat x y r eq_refl eq_refl eq_refl) as H0.
    destruct (IH ns rs ltac:(cbn in *; lia) ltac:(cbn in *; lia) ltac:(intros i a b c Ha Hb Hc; exact (H (S i) a b c Ha Hb Hc))) as (A & B).
    split.
    + intros E. unfold integer_parts in E. cbn [map] in E. assert (r = Zfloor (toR x)) by congruence. assert (rs = integer_parts fs) by (unfold integer_parts; congruence).
      constructor; [now apply H0|now apply A].
    + intros G. inversion G as [|? ? ? ? G1 G2]; subst. unfold integer_parts. cbn [map]. f_equal; [now apply H0|now apply B].
Qed.

Lemma integer_parts_i64 fs : Forall (fun x : b64 => fin x /\ (0 <= toR x <= 1000)%R) fs -> i64_vector (integer_parts fs).
Proof.
  intros H. unfold i64_vector, integer_parts. rewrite Forall_map. eapply Forall_impl; [|exact H]. intros x (_ & A & B).
  pose proof (Zfloor_lb (toR x)). pose proof (Zfloor_ub (toR x)).
  assert (C1 : (IZR (Zfloor (toR x)) < IZR 2000)%R) by (simpl; lra). assert (C2 : (IZR (-1) < IZR (Zfloor (toR x)) + 1)%R) by (simpl; lra).
  apply lt_IZR in C1. rewrite <- plus_IZR in C2. apply lt_IZR in C2. lia.
Qed.

Section Shipped.
Context (K : ldpc) (Hsh : ldpc_shape K) (Hdec : ldpc_decodes K) (E : ed25519) (HE : signature_format E) (Hk : key_pair E PRIVATE_KEY PUBLIC_KEY).
Context (M : libm b64) (HM : accurate M) (gamma : b64 -> b64) (checks : bool) (pad : list bool) (Hpad : length pad = 8%nat).
Let features_of := zernike_f64 M gamma checks.
Let one : b64 := f_of_Z Bops 1.

Lemma measured_once ch fs fs' : measures equalize_histogram features_of ch 11 fs -> measures equalize_histogram features_of ch 11 fs' -> fs' = fs.
Proof. intros (e & A & B) (e' & A' & B'). assert (e' = e) by congruence. subst e'. congruence. Qed.

Lemma measured_small ch n fs : gray_picture ch n 3 -> side_ok n -> usable n 3 -> measures equalize_histogram features_of ch 11 fs ->
  Forall (fun x : b64 => fin x /\ (0 <= toR x <= 1000)%R) fs.
Proof.
  intros Hg Hs Hu Hm. pose proof (usable_side n 3 Hu) as Hn.
  destruct (zernike_measures_f64 M HM gamma checks equalize_histogram ch n 3 11 C76_equalisation_keeps_grey Hg Hn Hs ltac:(lia)) as (A & fs' & es & Hm' & _ & _ & _ & _ & _ & _ & _ & _ & Bf).
  rewrite (measured_once ch fs' fs Hm' Hm). exact Bf.
Qed.

(** *** C84: watermark a picture with either front end (hypotheses as in C83), alter a colour channel by at most the front end's tolerance.
    Unless a feature of the altered channel is within 2^-20 of an integer, the verdict of authenticate_channel is true whenever no feature has
    moved by more than two half bins, and otherwise it is the check of the watermarking signature on a message other than the signed one: so, if
    the signature fits no other vector, it is true exactly when no feature has moved by more than two half bins, and false otherwise. *)
Theorem C84_f64_the_verdict_of_the_shipped_scheme : forall fe image n, In fe [command_line; web_page] ->
  well_formed image -> dimensions image = (n, n) -> (n mod 8 = 0)%nat -> side_ok n -> usable n 3 ->
  (stored_size n 3 (payload_size 11) <= band_capacity n 3)%nat -> colours_within (margin_of fe) image ->
  exists result, watermark_image Bops K E equalize_histogram features_of checks pad image (f_of_Z Bops (depth_of fe)) one 11 = Ok result
    /\ forall sel, In sel [ch1; ch2; ch3] -> exists features sig,
         measures equalize_histogram features_of (component sel image) 11 features /\ length features = 11%nat
         /\ sign E (vec_i64_to_bytes (integer_parts features)) PRIVATE_KEY PUBLIC_KEY = Ok sig
         /\ forall received, gray_picture received n 3 -> changed_by_at_most (component sel result) received (survives fe) ->
            exists noised, measures equalize_histogram features_of received 11 noised /\
              let verdict := authenticate_channel Bops K E equalize_histogram features_of checks received (f_of_Z Bops (depth_of fe)) one 11 3 in
              (Forall (fun x' : b64 => away (toR x') 1) noised ->
                (features_agree features noised -> verdict = Ok true)
                /\ (~ features_agree features noised -> exists restored, length restored = 11%nat /\ another_message restored (integer_parts features)
                      /\ verdict = verify E (vec_i64_to_bytes restored) sig PUBLIC_KEY)
                /\ (signs_only E sig (integer_parts features) ->
                      (verdict = Ok true <-> features_agree features noised) /\ (verdict = Ok false <-> ~ features_agree features noised))).
Proof.
  intros fe image n Hfe Hw Ed Hm8 Hs Hu Hcap Hcol.
  destruct (C83_f64_the_scheme_as_shipped K Hsh Hdec E HE Hk M HM gamma checks pad Hpad fe image n Hfe Hw Ed Hm8 Hs Hu Hcap Hcol) as (result & Eres & Wres & Dres & _ & Hch).
  exists result. split; [exact Eres|]. intros sel Hsel. destruct (Hch sel Hsel) as (fs & q & bits & sig & Hm & Lf & Eq & Es & Rd).
  assert (Hr : Z.of_nat (n * n) < 2 ^ 53) by (unfold side_ok in Hs; rewrite Nat2Z.inj_mul; nia).
  assert (Gc : gray_picture (component sel image) n 3).
  { apply component_picture; auto. cbn in Hsel. intuition auto. }
  pose proof (measured_small _ n fs Gc Hs Hu Hm) as Bf.
  assert (One : fin one /\ toR one = 1%R) by (destruct (b_of_Z_ok 1) as (F1 & V1); [lia|]; split; [exact F1|exact V1]). destruct One as (F1 & V1).
  assert (W29 : forall xs : list b64, Forall (fun x : b64 => fin x /\ (0 <= toR x <= 1000)%R) xs -> Forall (fun x : b64 => fin x /\ (Rabs (toR x) <= bpow radix2 29)%R) xs).
  { intros xs. apply Forall_impl. intros x (Fx & H0 & H1). split; [exact Fx|]. rewrite Rabs_pos_eq by exact H0. simpl. lra. }
  assert (Eq1 : three_bit_quantization Bops checks fs one = Ok (q, bits)) by exact Eq. clear Eq.
  assert (Q : q = integer_parts fs).
  { assert (N1 : no_overflow Bops one checks fs).
    { apply (no_overflow_float one (unit_ordinary one V1)). eapply Forall_impl; [|exact (W29 _ Bf)]. intros x (Fx & Bx). split; [exact Fx|]. rewrite V1. apply Rle_trans with (1 := Bx). simpl. lra. }
    pose proof (quantization_ok Bops one checks fs N1) as Eq'. assert (q = quantize Bops fs one) by congruence. subst q. unfold quantize, integer_parts.
    apply map_ext_in. intros x Hin. pose proof (W29 _ Bf) as B29. rewrite Forall_forall in B29. destruct (B29 x Hin) as (Fx & Bx). apply (unit_halves one x F1 V1 Fx).
    apply Rle_trans with (1 := Bx). apply bpow_le. lia. }
  exists fs, sig. split; [exact Hm|]. split; [exact Lf|]. split; [rewrite <- Q; exact Es|].
  intros received Grc Hchg. destruct (Rd received Grc Hchg) as (px & pl & ns & restored & v & _ & _ & _ & Hm' & Ln & Dq & Lr & Au & Ve & Tr).
  assert (Dq1 : three_bit_dequantization Bops checks ns bits one = Ok restored) by exact Dq. clear Dq.
  exists ns. split; [exact Hm'|]. cbv zeta. intros Haway.
  pose proof (measured_small _ n ns Grc Hs Hu Hm') as Bn.
  destruct (C03_f64_unit_step_correction_capability one fs ns checks F1 V1 ltac:(congruence) (W29 _ Bf)) as (bits' & restored' & E1 & E2 & _ & Hcap').
  { pose proof (W29 _ Bn) as B29. rewrite Forall_forall in B29, Haway |- *. intros x Hin. destruct (B29 x Hin). split; [assumption|]. split; [assumption|now apply Haway]. }
  assert (bits' = bits) by congruence. subst bits'.
  assert (restored' = restored) by congruence. subst restored'.
  assert (Ag : restored = integer_parts fs <-> features_agree fs ns).
  { apply restored_agree; [congruence|congruence|]. intros i x x' r A B C. exact (proj1 (Hcap' i x x' r A B C)). }
  assert (I64 : i64_vector restored).
  { apply Forall_forall. intros r Hr'. apply In_nth_error in Hr' as (i & Hi). assert (Hlt : (i < length restored)%nat) by (apply nth_error_Some; congruence).
    destruct (nth_error fs i) as [x|] eqn:Ex; [|apply nth_error_None in Ex; lia]. destruct (nth_error ns i) as [x'|] eqn:Ex'; [|apply nth_error_None in Ex'; lia].
    pose proof (proj2 (Hcap' i x x' r Ex Ex' Hi)) as H1. rewrite Forall_forall in Bn. destruct (Bn x' (nth_error_In _ _ Ex')) as (_ & B0 & B1).
    pose proof (Zfloor_lb (toR x')). pose proof (Zfloor_ub (toR x')).
    assert (C1 : (IZR (Zfloor (toR x')) < IZR 2000)%R) by (simpl; lra). assert (C2 : (IZR (-1) < IZR (Zfloor (toR x')) + 1)%R) by (simpl; lra).
    apply lt_IZR in C1. rewrite <- plus_IZR in C2. apply lt_IZR in C2. lia. }
  assert (Yes : features_agree fs ns -> v = true) by (intros H; apply Tr; rewrite Q; now apply Ag).
  assert (No : ~ features_agree fs ns -> another_message restored (integer_parts fs)).
  { intros H. apply another; [exact I64|now apply integer_parts_i64|]. intros C. apply H. now apply Ag. }
  split; [intros H; rewrite <- (Yes H); exact Au|]. split.
  { intros H. exists restored. split; [exact Lr|]. split; [now apply No|]. etransitivity; [exact Au|symmetry; exact Ve]. }
  intros Only.
  assert (False_ : ~ features_agree fs ns -> v = false).
  { intros H. assert (Ok v = Ok false); [|congruence]. rewrite <- Ve. apply Only; [now apply No|]. unfold integer_parts. rewrite map_length. congruence. }
  destruct (agree_dec fs ns) as [H|H].
  - specialize (Yes H). subst v. split; split; intros X; [exact H|exact Au| |contradiction].
    assert (Y : @Ok bool true = Ok false) by (etransitivity; [symmetry; exact Au|exact X]). discriminate Y.
  - specialize (False_ H). subst v. split; split; intros X; [|contradiction|exact H|exact Au].
    assert (Y : @Ok bool false = Ok true) by (etransitivity; [symmetry; exact Au|exact X]). discriminate Y.
Qed.
End Shipped.

(** ** Concrete case: an even RGBA picture, both front ends; the watermarked channels themselves are among the received ones. *)
Example C84_instance : forall fe, In fe [command_line; web_page] -> exists result,
  watermark_image Bops toy_ldpc toy_ed equalize_histogram (zernike_f64 exact_libm (fun x => x) true) true (repeat false 8) colour512 (f_of_Z Bops (depth_of fe)) (f_of_Z Bops 1) 11 = Ok result
  /\ forall sel, In sel [ch1; ch2; ch3] -> gray_picture (component sel result) 512 3 /\ changed_by_at_most (component sel result) (component sel result) (survives fe)
  /\ exists features noised, measures equalize_histogram (zernike_f64 exact_libm (fun x => x) true) (component sel colour512) 11 features
    /\ measures equalize_histogram (zernike_f64 exact_libm (fun x => x) true) (component sel result) 11 noised
    /\ (Forall (fun x' : b64 => away (toR x') 1) noised -> features_agree features noised ->
        authenticate_channel Bops toy_ldpc toy_ed equalize_histogram (zernike_f64 exact_libm (fun x => x) true) true (component sel result) (f_of_Z Bops (depth_of fe)) (f_of_Z Bops 1) 11 3 = Ok true).
Proof.
  intros fe Hfe. destruct C83_512_is_usable as (A & B & C & D).
  assert (Hcol : colours_within (margin_of fe) colour512).
  { unfold colours_within, colour512. cbn [get_pixels]. apply Forall_forall. intros p Hp. apply repeat_spec in Hp. subst p.
    intros sel Hsel. cbn in Hsel. destruct Hfe as [ <- |[ <- |[]]]; destruct Hsel as [ <- |[ <- |[ <- |[]]]]; cbn [margin_of command_line web_page ch1 ch2 ch3]; lia. }
  destruct (C83_f64_the_scheme_as_shipped toy_ldpc toy_shape toy_decodes toy_ed toy_format toy_keys exact_libm exact_libm_accurate (fun x => x) true (repeat false 8) eq_refl fe colour512 512 Hfe colour512_wf eq_refl A B C D Hcol)
    as (result & H1 & W1 & D1 & _ & _).
  destruct (C84_f64_the_verdict_of_the_shipped_scheme toy_ldpc toy_shape toy_decodes toy_ed toy_format toy_keys exact_libm exact_libm_accurate (fun x => x) true (repeat false 8) eq_refl fe colour512 512 Hfe colour512_wf eq_refl A B C D Hcol)
    as (result' & H1' & H2).
  assert (result' = result) by congruence. subst result'. clear H1'. exists result. split; [exact H1|]. intros sel Hsel.
  assert (G : gray_picture (component sel result) 512 3).
  { apply component_picture; [exact W1|exact D1|cbn in Hsel; intuition auto|exact A|reflexivity]. }
  assert (Z0 : 0 <= survives fe) by (destruct Hfe as [ <- |[ <- |[]]]; cbn; lia).
  assert (S0 : changed_by_at_most (component sel result) (component sel result) (survives fe)).
  { split; [reflexivity|]. split; [reflexivity|]. generalize (gray_raw (component sel result)). induction l as [|x l IH]; constructor; [lia|exact IH]. }
  split; [exact G|]. split; [exact S0|].
  destruct (H2 sel Hsel) as (fs & sig & Hm & _ & _ & Hrec). destruct (Hrec _ G S0) as (ns & Hm' & Hv). exists fs, ns.
  split; [exact Hm|]. split; [exact Hm'|]. intros Ha Hag. exact (proj1 (Hv Ha) Hag).
Qed.

Print Assumptions C84_f64_the_verdict_of_the_shipped_scheme.
