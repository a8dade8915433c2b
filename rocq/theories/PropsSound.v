(** Property C103: what a positive verdict of the shipped scheme means, whatever the picture and whoever made it: some picture that was signed has nearly
    the same features, or the picture carries a forged signature (lib/sia/rust/watermarking/src/process.rs: authenticate_channel). *)
From Coq Require Import Reals Lra.
From Coq Require Import Classical_Prop.
From Flocq Require Import Core BinarySingleNaN.
From Verif Require Import Outcome Floats FloatFacts Bits ListFacts Quantization QuantProofs QuantReal QuantFloat PropsQuant PropsQuant2 Codecs CodecProofs WatermarkProofs PropsCodec
  Encoding EncodingProofs PropsEncoding Matrix MatrixFacts Haar HaarProofs HaarReal HaarFloat PropsHaar Stego StegoProofs StegoMarks PropsStego Embedding EmbeddingProofs EmbeddingEffect PropsEmbedding PropsEmbedding2 PropsEmbedding3 PropsRobust
  Signature Process ProcessProofs Toy Zernike ZernikeProofs PropsZernike ZernikeBound PropsZernike2 ZernikeGen PropsZernikeF64 LibmSpec LibmExact PropsZernikeAcc
  PropsProcess PropsProcess2 Image PropsImage PropsProcess3 PropsProcess4 PropsProcess5 PropsProcess6 PropsTamper Equalize PropsEqualize PropsShipped PropsShipped2 PropsInteger PropsClipping PropsClipping2 PropsRepair PropsRepair2 PropsVerdict PropsUnused PropsForged.
Open Scope Z_scope.

(** ** Specification vocabulary *)
(** No feature differs by two units (but for rounding). *)
Definition nearly_equal (features noised : list b64) : Prop := Forall2 (fun x x' : b64 => (Rabs (toR x' - toR x) < 2 + bpow radix2 (-20))%R) features noised.

Section Sound.
Context (K : ldpc) (E : ed25519) (M : libm b64) (HM : accurate M) (gamma : b64 -> b64) (checks : bool).
Let features_of := zernike_f64 M gamma checks.
Let one : b64 := f_of_Z Bops 1.

(** The vectors the private key was used for when exactly the channels [issued] were watermarked. *)
Definition issued_message (issued : list gray) (amount : nat) (v : list Z) : Prop :=
  exists original features, In original issued /\ measures equalize_histogram features_of original amount features /\ v = integer_parts features.
(** The signature carried by [received] fits no vector but those. *)
Definition carries_no_forgery (received : gray) (depth : b64) (levels : nat) (issued : list gray) (amount : nat) : Prop :=
  forall w v, shows_watermark K received depth levels w -> i64_vector v -> verify E (vec_i64_to_bytes v) (Codecs.signature w) PUBLIC_KEY = Ok true -> issued_message issued amount v.
(** A picture of any side up to the limit of the feature extractor's accuracy. *)
Definition square_picture (channel : gray) : Prop := exists n L, gray_picture channel n L /\ (2 <= n)%nat /\ side_ok n.

Lemma quantize_is_integer_parts fs : Forall (fun x : b64 => fin x /\ (0 <= toR x <= 1000)%R) fs -> quantize Bops fs one = integer_parts fs.
Proof.
  intros Bf. destruct unit_one as (F1 & V1). unfold quantize, integer_parts.
  apply map_ext_in. intros x Hin. pose proof (bounded_29 _ Bf) as B29. rewrite Forall_forall in B29. destruct (B29 x Hin) as (Fx & Bx). apply (unit_halves one x F1 V1 Fx).
  apply Rle_trans with (1 := Bx). apply bpow_le. lia.
Qed.
Lemma ordinary_1000 fs : Forall (fun x : b64 => fin x /\ (0 <= toR x <= 1000)%R) fs -> Forall (ordinary_feature one) fs.
Proof. intros B. destruct unit_one as (F1 & V1). eapply Forall_impl; [|exact (bounded_29 _ B)]. intros x (Fx & Bx). split; [exact Fx|]. fold one in V1. rewrite V1, Rmult_1_r. exact Bx. Qed.

(** *** C103: [issued] are the channels ever watermarked with the key; [received] is any square channel - the attacker may have chosen every pixel. *)
Theorem C103_f64_a_yes_means_an_issued_picture_or_a_forgery : forall issued received depth levels amount, Forall square_picture issued -> square_picture received -> (1 <= amount <= 11)%nat ->
  authenticate_channel Bops K E equalize_histogram features_of checks received depth one amount levels = Ok true ->
  exists noised, measures equalize_histogram features_of received amount noised /\ length noised = amount /\
    ((exists original features, In original issued /\ measures equalize_histogram features_of original amount features /\ nearly_equal features noised)
     \/ (exists w forged, shows_watermark K received depth levels w /\ i64_vector forged /\ ~ issued_message issued amount forged
           /\ verify E (vec_i64_to_bytes forged) (signature w) PUBLIC_KEY = Ok true)).
Proof.
  intros issued received depth levels amount Hi (n & L & Gr & Hn & Hs) Ha H. destruct unit_one as (F1 & V1). fold one in F1, V1.
  destruct (measured_exists M HM gamma checks received n L amount Gr Hn Hs Ha) as (ns & Hm). exists ns. split; [exact Hm|].
  destruct (measured_1000 M HM gamma checks received n L amount ns Gr Hn Hs Ha Hm) as (Ln & Bn). split; [exact Ln|].
  pose proof H as H'. apply C37_authentic_iff_signature_on_restored_features in H' as (im & fs' & pl & w & r & pb & vk & sg & H1 & H2 & H3 & H4 & H5 & H6 & H7 & H8 & H9).
  assert (fs' = ns).
  { destruct Hm as (e & M1 & M2), H2 as (e' & M1' & M2'). assert (e' = e) by congruence. subst e'. assert (X : Ok fs' = Ok ns) by (rewrite <- M2'; exact M2). congruence. }
  subst fs'.
  destruct (dequantization_near Bops checks ns _ one r H5) as (Lr & _ & Hr).
  destruct (classic (issued_message issued amount r)) as [(original & fs & Hin & Hmo & Er)|No].
  - left. exists original, fs. split; [exact Hin|]. split; [exact Hmo|].
    rewrite Forall_forall in Hi. destruct (Hi original Hin) as (n' & L' & Go & Hn' & Hs').
    destruct (measured_1000 M HM gamma checks original n' L' amount fs Go Hn' Hs' Ha Hmo) as (Lf & Bf).
    assert (Near : forall i x x', nth_error fs i = Some x -> nth_error ns i = Some x' -> (Rabs (toR x' - toR x) < 2 + bpow radix2 (-20))%R).
    { intros i x x' Hx Hx'. apply Rnot_le_lt. intros Hfar.
      assert (Hst : (bpow radix2 (-500) <= toR one <= bpow radix2 500)%R) by (rewrite V1; split; [apply Rle_trans with (bpow radix2 0); [apply bpow_le; lia|simpl; lra]|apply Rle_trans with (bpow radix2 0); [simpl; lra|apply bpow_le; lia]]).
      assert (Hmv : some_feature_moved one fs ns (2 + bpow radix2 (-20))) by (exists i, x, x'; split; [exact Hx|]; split; [exact Hx'|]; rewrite V1, Rmult_1_r; exact Hfar).
      destruct (C78_f64_nothing_far_from_the_original_authenticates K E equalize_histogram features_of checks depth one amount levels fs F1 Hst (ordinary_1000 fs Bf) received ns Hm (ordinary_1000 ns Bn) Hmv H)
        as (im' & pl' & w' & r' & I1 & I2 & I3 & I4 & (_ & _ & I5 & _) & _).
      assert (im' = im) by congruence. subst im'. assert (pl' = pl) by congruence. subst pl'. assert (w' = w) by congruence. subst w'. assert (r' = r) by congruence. subst r'.
      apply I5. rewrite Er. symmetry. apply quantize_is_integer_parts. exact Bf. }
    clear - Near Lf Ln. revert ns Ln Near. revert amount Lf. induction fs as [|x fs IH]; intros amount Lf [|x' ns] Ln Near; cbn in *; try (exfalso; lia); constructor.
    + apply (Near 0%nat); reflexivity.
    + destruct amount as [|a]; [discriminate|]. apply (IH a); [lia|lia|]. intros i y y' Hy Hy'. apply (Near (S i)); assumption.
  - right. exists w, r. split; [exists im, pl; split; [exact H1|]; split; [exact H3|exact H4]|]. split; [|split; [exact No|]].
    + apply Forall_forall. intros y Hy. apply In_nth_error in Hy as (j & Hj). assert (Hlt : (j < length ns)%nat) by (assert (j < length r)%nat by (apply nth_error_Some; congruence); lia).
      destruct (nth_error ns j) as [z|] eqn:Ez; [|apply nth_error_None in Ez; lia]. destruct (Hr j y z Hj Ez) as [ -> |[ -> | -> ]]; apply quantize1_i64.
    + unfold verify, decode_hex_unwrap. rewrite H6. cbn [bind]. rewrite H7. cbn [unwrap_err bind]. rewrite H8. cbn [unwrap_err bind]. now rewrite H9.
Qed.

(** Without a forged signature, only pictures nearly equal (in features) to one that was watermarked are accepted: all [amount] features are checked. *)
Theorem C103_f64_only_issued_pictures_are_accepted : forall issued received depth levels amount, Forall square_picture issued -> square_picture received -> (1 <= amount <= 11)%nat ->
  carries_no_forgery received depth levels issued amount ->
  authenticate_channel Bops K E equalize_histogram features_of checks received depth one amount levels = Ok true ->
  exists original features noised, In original issued /\ measures equalize_histogram features_of original amount features
    /\ measures equalize_histogram features_of received amount noised /\ length features = amount /\ length noised = amount /\ nearly_equal features noised.
Proof.
  intros issued received depth levels amount Hi Hr Ha Hu H.
  destruct (C103_f64_a_yes_means_an_issued_picture_or_a_forgery issued received depth levels amount Hi Hr Ha H) as (ns & Hm & Ln & [(o & fs & A & B & C)|(w & r & A & B & C & D)]).
  - exists o, fs, ns. split; [exact A|]. split; [exact B|]. split; [exact Hm|]. split; [|split; [exact Ln|exact C]]. apply Forall2_length in C. congruence.
  - exfalso. apply C. exact (Hu w r A B D).
Qed.

(** Whole pictures: a channel of any picture that authenticates resembles some colour of some picture that was watermarked - which colour, C102 says nobody checks. *)
Lemma component_square sel image n : In sel [ch1; ch2; ch3] -> well_formed image -> dimensions image = (n, n) -> (n mod 2 = 0)%nat -> (2 <= n)%nat -> side_ok n -> square_picture (component sel image).
Proof.
  intros Hsel Hw Ed Hm Hn Hs. exists n, 1%nat. split; [|split; [exact Hn|exact Hs]]. unfold well_formed in Hw. rewrite Ed in Hw. destruct Hw as (Hl & H8 & _).
  unfold gray_picture, component. rewrite Ed. cbn [gwidth gheight gray_raw fst snd].
  split; [reflexivity|]. split; [reflexivity|]. split; [rewrite map_length; exact Hl|]. split; [|split; [exact Hm|split; [lia|]]].
  - unfold bytes. apply Forall_map. eapply Forall_impl; [|exact H8]. intros p (A & B & C & _). cbn in Hsel. destruct Hsel as [ <- |[ <- |[ <- |[]]]]; assumption.
  - unfold side_ok in Hs. nia.
Qed.
Definition all_colours (pictures : list dynimage) : list gray := flat_map (fun i => map (fun sel => component sel i) [ch1; ch2; ch3]) pictures.
Theorem C103_f64_only_issued_colour_pictures_are_accepted : forall issued received n depth levels sel,
  Forall (fun i => well_formed i /\ exists k, dimensions i = (k, k) /\ (k mod 2 = 0)%nat /\ (2 <= k)%nat /\ side_ok k) issued ->
  well_formed received -> dimensions received = (n, n) -> (n mod 2 = 0)%nat -> (2 <= n)%nat -> side_ok n -> In sel [ch1; ch2; ch3] ->
  carries_no_forgery (component sel received) depth levels (all_colours issued) 11 ->
  authenticate_channel Bops K E equalize_histogram features_of checks (component sel received) depth one 11 levels = Ok true ->
  exists original sel' features noised, In original issued /\ In sel' [ch1; ch2; ch3]
    /\ measures equalize_histogram features_of (component sel' original) 11 features
    /\ measures equalize_histogram features_of (component sel received) 11 noised /\ length features = 11%nat /\ nearly_equal features noised.
Proof.
  intros issued received n depth levels sel Hi Hw Ed Hm Hn Hs Hsel Hu H.
  destruct (C103_f64_only_issued_pictures_are_accepted (all_colours issued) (component sel received) depth levels 11) as (o & fs & ns & Hin & A & B & C & _ & D).
  - apply Forall_forall. intros g Hg. unfold all_colours in Hg. apply in_flat_map in Hg as (i & Hin & Hg). apply in_map_iff in Hg as (s & <- & Hs').
    rewrite Forall_forall in Hi. destruct (Hi i Hin) as (Wi & k & Dk & K1 & K2 & K3). exact (component_square s i k Hs' Wi Dk K1 K2 K3).
  - exact (component_square sel received n Hsel Hw Ed Hm Hn Hs).
  - lia.
  - exact Hu.
  - exact H.
  - unfold all_colours in Hin. apply in_flat_map in Hin as (i & Hin & Hg). apply in_map_iff in Hg as (s & <- & Hs').
    exists i, s, fs, ns. split; [exact Hin|]. split; [exact Hs'|]. split; [exact A|]. split; [exact B|]. split; [exact C|exact D].
Qed.
End Sound.

(** ** Concrete case: the forged picture of C101 is accepted, and it does resemble (in features) the even picture from which its watermark was taken.
    The scheme has two signatures, one for the vector of eleven zeros and one for everything else. *)
Definition zeros11 : list Z := vec_i64_to_bytes (repeat 0 11).
Definition careful_ed : ed25519 := {|
  keypair := unit; pubkey := unit; ed_signature := bool;
  keypair_from_bytes := fun l => if Nat.eqb (length l) 64 then Some tt else None;
  pubkey_from_bytes := fun l => if Nat.eqb (length l) 32 then Some tt else None;
  signature_from_bytes := fun l => if Nat.eqb (length l) 64 then Some (Z.odd (nth 0 l 0)) else None;
  signature_to_bytes := fun b : bool => Z.b2z b :: repeat 0 63;
  ed_sign := fun _ data => if list_eq_dec Z.eq_dec data zeros11 then true else false;
  ed_verify := fun _ data s => Bool.eqb (if list_eq_dec Z.eq_dec data zeros11 then true else false) s
|}.
Lemma careful_format : signature_format careful_ed.
Proof. split; [intros [|]; reflexivity|intros [|]; reflexivity|]. intros [|]; cbn; repeat constructor; unfold byte; lia. Qed.
Lemma careful_keys : key_pair careful_ed PRIVATE_KEY PUBLIC_KEY.
Proof.
  destruct toy_keys as (sb & pb & kp & vk & H1 & H2 & H3 & H4 & _). exists sb, pb, tt, tt. split; [exact H1|]. split; [exact H2|].
  cbn [keypair_from_bytes pubkey_from_bytes careful_ed toy_ed] in *. destruct (Nat.eqb (length (sb ++ pb)) 64); [|discriminate]. destruct (Nat.eqb (length pb) 32); [|discriminate].
  split; [reflexivity|]. split; [reflexivity|]. intros data. cbn. now rewrite Bool.eqb_reflx.
Qed.
Lemma careful_only_zeros sig v : sign careful_ed zeros11 PRIVATE_KEY PUBLIC_KEY = Ok sig -> i64_vector v -> verify careful_ed (vec_i64_to_bytes v) sig PUBLIC_KEY = Ok true -> v = repeat 0 11.
Proof.
  intros Es Iv Ev. pose proof careful_format as [P _ _]. destruct careful_keys as (sb & pb & kp & vk & H1 & H2 & H3 & H4 & _). unfold sign, verify, decode_hex_unwrap in *.
  rewrite H1, H2 in Es. cbn [bind] in Es. rewrite H3 in Es. cbn [unwrap_err bind] in Es. rewrite H2 in Ev. cbn [bind] in Ev. rewrite H4 in Ev. cbn [unwrap_err bind] in Ev.
  assert (Esig : sig = signature_to_bytes careful_ed (ed_sign careful_ed kp zeros11)) by congruence. rewrite Esig, P in Ev. cbn [unwrap_err bind ed_verify ed_sign careful_ed] in Ev.
  destruct (list_eq_dec Z.eq_dec zeros11 zeros11) as [_|C]; [|now destruct C]. destruct (list_eq_dec Z.eq_dec (vec_i64_to_bytes v) zeros11) as [Ez|N]; [|discriminate].
  apply i64_bytes_inj; [exact Iv| |exact Ez]. apply Forall_forall. intros x Hx. apply repeat_spec in Hx. subst x. lia.
Qed.
Opaque colour512 stripes512 watermark_image.
Example C103_instance : forall fe, In fe [command_line; web_page] -> exists received,
  let features_of := zernike_f64 exact_libm (fun x => x) true in let depth := f_of_Z Bops (depth_of fe) in let issued := all_colours [colour512] in
  Forall square_picture issued /\ square_picture received
  /\ carries_no_forgery repairing_ldpc careful_ed exact_libm (fun x => x) true received depth 3 issued 11
  /\ upper_halves_within (moves_at_most fe) stripes512 received 512
  /\ authenticate_channel Bops repairing_ldpc careful_ed equalize_histogram features_of true received depth (f_of_Z Bops 1) 11 3 = Ok true.
Proof.
  intros fe Hfe.
  assert (Hcol : colours_within (margin_of fe) colour512).
  { Transparent colour512. unfold colours_within, colour512. cbn [get_pixels]. apply Forall_forall. intros p Hp. apply repeat_spec in Hp. subst p.
    intros sel Hsel. cbn in Hsel. destruct Hfe as [ <- |[ <- |[]]]; destruct Hsel as [ <- |[ <- |[ <- |[]]]]; cbn [margin_of command_line web_page ch1 ch2 ch3]; lia. }
  Opaque colour512. destruct C83_512_is_usable as (A & B & C & D).
  destruct (C101_f64_from_one_upside_down_picture_everything_is_forged repairing_ldpc 1 repairing_shape repairing_corrects careful_ed careful_format careful_keys exact_libm exact_libm_accurate (fun x => x) true (repeat false 8) eq_refl fe colour512 Hfe colour512_wf colour512_size Hcol colour512_same)
    as (result & H1 & H2).
  assert (Hsel : In ch2 [ch1; ch2; ch3]) by (cbn; tauto).
  destruct (H2 ch2 Hsel) as (px & rb & wm & cp & fs & Hm & Hsg & _ & _ & _ & _ & X).
  destruct (gray_array stripes512 512 3 stripes512_picture) as (ta & Eta & _).
  destruct (X stripes512 ta stripes512_picture) as (fo & _ & Gf & U & Sh & V).
  { intros k v _ Hv. apply stripes512_pixel in Hv. destruct Hfe as [ <- |[ <- |[]]]; cbn; lia. }
  { exact Eta. }
  set (received := turned_below (mkGray 512 512 (into_raw_vec fo))) in *. exists received. cbv zeta.
  assert (Sq : forall sel, In sel [ch1; ch2; ch3] -> square_picture (component sel colour512)).
  { intros sel Hs. apply (component_square sel colour512 512 Hs colour512_wf colour512_size); [reflexivity|lia|exact B]. }
  assert (In2 : In (component ch2 colour512) (all_colours [colour512])) by (unfold all_colours; cbn [flat_map map app]; right; left; reflexivity).
  split. { unfold all_colours. cbn [flat_map map app]. constructor; [apply Sq; cbn; tauto|]. constructor; [apply Sq; cbn; tauto|]. constructor; [apply Sq; cbn; tauto|]. constructor. }
  split. { exists 512%nat, 3%nat. split; [exact Gf|]. split; [lia|exact B]. }
  split; [|split; [exact U|exact V]].
  intros w v Shw Iv Ev. exists (component ch2 colour512), fs. split; [exact In2|]. split; [exact Hm|].
  assert (w = wm).
  { destruct Shw as (p1 & q1 & A1 & A2 & A3). destruct Sh as (p2 & q2 & B1 & B2 & B3). assert (p2 = p1) by congruence. subst p2. assert (q2 = q1) by congruence. subst q2. congruence. }
  subst w.
  assert (Z0 : integer_parts fs = repeat 0 11).
  { assert (Gc : gray_picture (component ch2 colour512) 512 3) by (apply component_picture; [exact colour512_wf|exact colour512_size|auto|exact A|reflexivity]).
    destruct (measured_1000 exact_libm exact_libm_accurate (fun x => x) true (component ch2 colour512) 512 3 11 fs Gc ltac:(lia) B ltac:(lia) Hm) as (Lf & Bf).
    pose proof (C101_f64_upside_down_pictures_have_small_features exact_libm exact_libm_accurate (fun x => x) true (component ch2 colour512) 512 11 fs Gc ltac:(lia) B ltac:(lia)) as S.
    specialize (S ltac:(unfold component; cbn [gray_raw]; now rewrite <- map_rev, colour512_same) Hm).
    clear - S Bf Lf. change 11%nat with (length (repeat 0 11)) in Lf. rewrite repeat_length in Lf. revert Lf. generalize 11%nat. induction S as [|x l Hx Hl IH]; intros [|k] Lf; try discriminate; [reflexivity|].
    cbn [integer_parts map repeat]. inversion Bf as [|? ? (_ & B0 & _) Bt]; subst. f_equal; [|apply IH; [exact Bt|cbn in Lf; lia]].
    apply Zfloor_imp. simpl. destruct Hx as (_ & Hx). lra. }
  rewrite Z0 in *. symmetry. symmetry. exact (careful_only_zeros (Codecs.signature wm) v Hsg Iv Ev).
Qed.

Print Assumptions C103_f64_a_yes_means_an_issued_picture_or_a_forgery.
Print Assumptions C103_f64_only_issued_pictures_are_accepted.
Print Assumptions C103_f64_only_issued_colour_pictures_are_accepted.
