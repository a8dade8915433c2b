(** Property C99: whatever happened to a watermarked channel, if the watermark can still be read from it, the verdict is decided by the half bins of the
    features alone (lib/sia/rust/watermarking/src/process.rs: authenticate_channel); and the consequence for pictures of which blocks were painted over. *)
From Coq Require Import Reals Lra.
From Flocq Require Import Core BinarySingleNaN.
From Verif Require Import Outcome Floats FloatFacts Bits ListFacts Quantization QuantProofs QuantReal QuantFloat PropsQuant PropsQuant2 Codecs CodecProofs WatermarkProofs PropsCodec
  Encoding EncodingProofs PropsEncoding Matrix MatrixFacts Haar HaarProofs HaarReal HaarFloat PropsHaar Stego StegoProofs StegoMarks PropsStego Embedding EmbeddingProofs EmbeddingEffect PropsEmbedding PropsEmbedding2 PropsEmbedding3 PropsRobust
  Signature Process ProcessProofs Toy Zernike ZernikeProofs PropsZernike ZernikeBound PropsZernike2 ZernikeGen PropsZernikeF64 LibmSpec LibmExact PropsZernikeAcc
  PropsProcess PropsProcess2 Image PropsImage PropsProcess3 PropsProcess4 PropsProcess5 PropsProcess6 PropsTamper Equalize PropsEqualize PropsShipped PropsShipped2 PropsInteger PropsClipping PropsClipping2 PropsRepair PropsRepair2.
Open Scope Z_scope.

(** ** Specification vocabulary *)
(** The rule: [verdict] is a verdict (no panic); unless a feature of the received channel is within 2^-20 of an integer, it is true if no feature is
    more than two half bins off, and otherwise the check of the signature on another message - false, if the signature fits no other message. *)
Definition decided_by_half_bins (E : ed25519) (features noised : list b64) (sig : list Z) (verdict : outcome bool) : Prop :=
  (exists v, verdict = Ok v)
  /\ (Forall (fun x' : b64 => away (toR x') 1) noised ->
       (features_agree features noised -> verdict = Ok true)
       /\ (~ features_agree features noised -> exists restored, length restored = length features /\ another_message restored (integer_parts features)
             /\ verdict = verify E (vec_i64_to_bytes restored) sig PUBLIC_KEY)
       /\ (signs_only E sig (integer_parts features) ->
             (verdict = Ok true <-> features_agree features noised) /\ (verdict = Ok false <-> ~ features_agree features noised))).

(** The watermark that can be read from a channel. *)
Definition shows_watermark (K : ldpc) (channel : gray) (depth : b64) (levels : nat) (w : Watermark) : Prop :=
  exists pixels payload, from_shape_vec (gwidth channel) (gheight channel) (gray_raw channel) = Ok pixels
    /\ extract Bops K pixels depth levels = Ok payload /\ watermark_deserialize payload = Ok w.

(** Outside the listed blocks of 8 x 8 (numbered row by row) the pixels differ by at most [t]; inside they may be anything. *)
Definition painted_over (bad : list nat) (marked received : gray) (n : nat) (t : Z) : Prop :=
  forall i j v w, (i < n)%nat -> (j < n)%nat -> ~ In (n / 8 * (i / 8) + j / 8)%nat bad ->
    gray_pixel marked n i j = Some v -> gray_pixel received n i j = Some w -> Z.abs (w - v) <= t.

Section Verdict.
Context (K : ldpc) (E : ed25519) (HE : signature_format E) (Hk : key_pair E PRIVATE_KEY PUBLIC_KEY).
Context (M : libm b64) (HM : accurate M) (gamma : b64 -> b64) (checks : bool).
Let features_of := zernike_f64 M gamma checks.
Let one : b64 := f_of_Z Bops 1.

Lemma unit_one : fin one /\ toR one = 1%R.
Proof. destruct (b_of_Z_ok 1) as (F1 & V1); [lia|]. split; [exact F1|exact V1]. Qed.

Lemma bounded_29 (xs : list b64) : Forall (fun x : b64 => fin x /\ (0 <= toR x <= 1000)%R) xs -> Forall (fun x : b64 => fin x /\ (Rabs (toR x) <= bpow radix2 29)%R) xs.
Proof. apply Forall_impl. intros x (Fx & H0 & H1). split; [exact Fx|]. rewrite Rabs_pos_eq by exact H0. simpl. lra. Qed.

Lemma verify_defined (q restored sig : list Z) : sign E (vec_i64_to_bytes q) PRIVATE_KEY PUBLIC_KEY = Ok sig -> exists v, verify E (vec_i64_to_bytes restored) sig PUBLIC_KEY = Ok v.
Proof.
  intros Es. pose proof HE as [P1 _ _]. destruct Hk as (sb & pb & kp & vk & H1 & H2 & H3 & H4 & H5). unfold sign, verify, decode_hex_unwrap in *.
  rewrite H1, H2 in Es. cbn [bind] in Es. rewrite H3 in Es. cbn [unwrap_err bind] in Es. rewrite H2. cbn [bind]. rewrite H4. cbn [unwrap_err bind].
  assert (Esig : sig = signature_to_bytes E (ed_sign E kp (vec_i64_to_bytes q))) by congruence. rewrite Esig, P1. cbn [unwrap_err bind]. eexists. reflexivity.
Qed.

Lemma measured_1000 ch n L amount fs : gray_picture ch n L -> (2 <= n)%nat -> side_ok n -> (1 <= amount <= 11)%nat ->
  measures equalize_histogram features_of ch amount fs -> length fs = amount /\ Forall (fun x : b64 => fin x /\ (0 <= toR x <= 1000)%R) fs.
Proof.
  intros G Hn Hs Ha Hm.
  destruct (zernike_measures_f64 M HM gamma checks equalize_histogram ch n L amount C76_equalisation_keeps_grey G Hn Hs Ha) as (A & fs' & es & Hm1 & _ & _ & _ & _ & _ & _ & Lf & _ & Bf).
  destruct Hm as (e & A1 & A2). destruct Hm1 as (e' & B1 & B2). assert (e' = e) by congruence. subst e'.
  assert (fs' = fs) by (assert (X : Ok fs' = Ok fs) by (rewrite <- B2; exact A2); congruence). subst fs'. split; assumption.
Qed.
Lemma measured_exists ch n L amount : gray_picture ch n L -> (2 <= n)%nat -> side_ok n -> (1 <= amount <= 11)%nat ->
  exists fs, measures equalize_histogram features_of ch amount fs.
Proof.
  intros G Hn Hs Ha.
  destruct (zernike_measures_f64 M HM gamma checks equalize_histogram ch n L amount C76_equalisation_keeps_grey G Hn Hs Ha) as (A & fs' & es & Hm1 & _).
  exists fs'. exact Hm1.
Qed.

(** *** C99: the watermark read from [received] is the one made for [original] - two channels of any sides; nothing else is known about how one became
    the other. *)
Theorem C99_f64_the_verdict_whenever_the_watermark_is_read : forall original received n n' L L' depth levels amount features quantised bits sig text,
  gray_picture original n L -> side_ok n -> (2 <= n)%nat -> gray_picture received n' L' -> side_ok n' -> (2 <= n')%nat -> (1 <= amount <= 11)%nat ->
  measures equalize_histogram features_of original amount features ->
  three_bit_quantization Bops checks features one = Ok (quantised, bits) ->
  sign E (vec_i64_to_bytes quantised) PRIVATE_KEY PUBLIC_KEY = Ok sig ->
  shows_watermark K received depth levels (mkWatermark bits sig text) ->
  quantised = integer_parts features
  /\ exists noised, measures equalize_histogram features_of received amount noised
    /\ decided_by_half_bins E features noised sig (authenticate_channel Bops K E equalize_histogram features_of checks received depth one amount levels).
Proof.
  intros original received n n' L L' depth levels amount fs q bits sig text Go So No Gr Sr Nr Ha Hm Eq Es (px & pl & Epx & Ex & Edp).
  destruct unit_one as (F1 & V1).
  destruct (measured_1000 original n L amount fs Go No So Ha Hm) as (Lf & Bf).
  destruct (measured_exists received n' L' amount Gr Nr Sr Ha) as (ns & Hm'). destruct (measured_1000 received n' L' amount ns Gr Nr Sr Ha Hm') as (Ln & Bn).
  assert (Eq1 : three_bit_quantization Bops checks fs one = Ok (q, bits)) by exact Eq. clear Eq.
  assert (Nof : forall xs, Forall (fun x : b64 => fin x /\ (0 <= toR x <= 1000)%R) xs -> no_overflow Bops one checks xs).
  { intros xs B. apply (no_overflow_float one (unit_ordinary one V1)). eapply Forall_impl; [|exact (bounded_29 _ B)]. intros x (Fx & Bx). split; [exact Fx|]. rewrite V1. apply Rle_trans with (1 := Bx). simpl. lra. }
  pose proof (quantization_ok Bops one checks fs (Nof fs Bf)) as Eq'.
  assert (Q : q = integer_parts fs).
  { assert (q = quantize Bops fs one) by congruence. subst q. unfold quantize, integer_parts.
    apply map_ext_in. intros x Hin. pose proof (bounded_29 _ Bf) as B29. rewrite Forall_forall in B29. destruct (B29 x Hin) as (Fx & Bx). apply (unit_halves one x F1 V1 Fx).
    apply Rle_trans with (1 := Bx). apply bpow_le. lia. }
  split; [exact Q|]. exists ns. split; [exact Hm'|].
  destruct (dequantize_lists Bops one checks fs ns ltac:(congruence) (Nof fs Bf) (Nof ns Bn)) as (_ & D2).
  assert (Eb : bits = flat_map (bits3 Bops one) fs) by congruence. rewrite <- Eb in D2. clear Eb Eq'.
  match type of D2 with _ = Ok ?r => set (restored := r) in * end.
  assert (Lr : length restored = amount) by (unfold restored; rewrite map_length, combine_length; lia). clearbody restored.
  pose proof (authenticate_run Bops K E equalize_histogram features_of checks received px amount ns one (mkWatermark bits sig text) pl depth levels Epx Hm' Ex Edp) as AR.
  cbn [perturbation_vector Codecs.signature] in AR. rewrite D2 in AR. cbn [bind] in AR.
  destruct (verify_defined q restored sig Es) as (v & Ve). 
  assert (Au : authenticate_channel Bops K E equalize_histogram features_of checks received depth one amount levels = Ok v) by (etransitivity; [exact AR|exact Ve]).
  rewrite Au. clear AR.
  split; [exists v; reflexivity|]. intros Haway.
  destruct (C03_f64_unit_step_correction_capability one fs ns checks F1 V1 ltac:(congruence) (bounded_29 _ Bf)) as (bits' & restored' & E1 & E2 & _ & Hcap').
  { pose proof (bounded_29 _ Bn) as B29. rewrite Forall_forall in B29, Haway |- *. intros x Hin. destruct (B29 x Hin). split; [assumption|]. split; [assumption|now apply Haway]. }
  assert (bits' = bits) by congruence. subst bits'.
  assert (restored' = restored) by congruence. subst restored'.
  assert (Ag : restored = integer_parts fs <-> features_agree fs ns).
  { apply restored_agree; [congruence|congruence|]. intros i x x' r A B C. exact (proj1 (Hcap' i x x' r A B C)). }
  assert (I64 : i64_vector restored).
  { apply Forall_forall. intros r Hr'. apply In_nth_error in Hr' as (i & Hi). assert (Hlt : (i < length restored)%nat) by (apply nth_error_Some; congruence).
    destruct (nth_error fs i) as [x|] eqn:Ex1; [|apply nth_error_None in Ex1; lia]. destruct (nth_error ns i) as [x'|] eqn:Ex'; [|apply nth_error_None in Ex'; lia].
    pose proof (proj2 (Hcap' i x x' r Ex1 Ex' Hi)) as H1. rewrite Forall_forall in Bn. destruct (Bn x' (nth_error_In _ _ Ex')) as (_ & B0 & B1).
    pose proof (Zfloor_lb (toR x')). pose proof (Zfloor_ub (toR x')).
    assert (C1 : (IZR (Zfloor (toR x')) < IZR 2000)%R) by (simpl; lra). assert (C2 : (IZR (-1) < IZR (Zfloor (toR x')) + 1)%R) by (simpl; lra).
    apply lt_IZR in C1. rewrite <- plus_IZR in C2. apply lt_IZR in C2. lia. }
  assert (Yes : features_agree fs ns -> v = true).
  { intros H. apply Ag in H. rewrite H, <- Q in Ve.
    destruct (sign_verify E _ _ (vec_i64_to_bytes q) HE Hk) as (sig' & Es' & _ & _ & Ev'). assert (sig' = sig) by congruence. subst sig'. congruence. }
  assert (No' : ~ features_agree fs ns -> another_message restored (integer_parts fs)).
  { intros H. apply another; [exact I64|now apply integer_parts_i64|]. intros C. apply H. now apply Ag. }
  split; [intros H; now rewrite (Yes H)|]. split.
  { intros H. exists restored. split; [congruence|]. split; [now apply No'|]. symmetry. exact Ve. }
  intros Only.
  assert (False_ : ~ features_agree fs ns -> v = false).
  { intros H. assert (Ok v = Ok false); [|congruence]. rewrite <- Ve. apply Only; [now apply No'|]. unfold integer_parts. rewrite map_length. congruence. }
  destruct (agree_dec fs ns) as [H|H].
  - specialize (Yes H). subst v. split; split; intros X; [exact H|reflexivity|discriminate X|contradiction].
  - specialize (False_ H). subst v. split; split; intros X; [discriminate X|contradiction|exact H|reflexivity].
Qed.
End Verdict.

(** ** Pictures of which blocks were painted over *)
Section Painted.
Context (K : ldpc) (e : nat) (Hsh : ldpc_shape K) (Hcor : corrects K e) (E : ed25519) (HE : signature_format E) (Hk : key_pair E PRIVATE_KEY PUBLIC_KEY).
Context (M : libm b64) (HM : accurate M) (gamma : b64 -> b64) (checks : bool) (pad : list bool) (Hpad : length pad = 8%nat).
Let features_of := zernike_f64 M gamma checks.
Let one : b64 := f_of_Z Bops 1.

Lemma painted_pixels bad marked received n t out rc : gray_picture marked n 3 -> gray_picture received n 3 -> painted_over bad marked received n t ->
  from_shape_vec n n (gray_raw marked) = Ok out -> from_shape_vec n n (gray_raw received) = Ok rc -> picture rc n 3 /\ pixels_within_except bad out rc n t.
Proof.
  intros Hg Hg' H E1 E2.
  destruct (gray_array marked n 3 Hg) as (o & Eo & (Ho & _) & Ho2). destruct (gray_array received n 3 Hg') as (r & Er & Hr & Hr2).
  pose proof Hg as (W & HH & _). pose proof Hg' as (W' & HH' & _). rewrite W, HH in Eo. rewrite W', HH' in Er.
  assert (o = out) by congruence. assert (r = rc) by congruence. subst o r. split; [exact Hr|].
  intros i j Hi Hj Hin. destruct Hr as ((Wr & R0 & R1 & _) & _). destruct Ho as (Wo & O0 & O1 & _).
  destruct (cell_bounds out i j Wo ltac:(lia) ltac:(lia)) as (v & Ev). destruct (cell_bounds rc i j Wr ltac:(lia) ltac:(lia)) as (w & Ew).
  unfold pixel. rewrite Ev, Ew. apply (H i j v w Hi Hj Hin); [rewrite <- Ho2 by assumption; exact Ev|rewrite <- Hr2 by assumption; exact Ew].
Qed.

Lemma painted_channel depth channel n bad t : 1 <= depth <= 4096 -> 0 <= t -> gray_picture channel n 3 -> side_ok n -> usable n 3 ->
  (stored_size n 3 (payload_size 11) <= band_capacity n 3)%nat -> at_most_per_group e (blocks_per_codeword n) bad ->
  channel_withstands_except bad depth t channel n ->
  exists marked features quantised bits sig,
    watermark_channel Bops K E equalize_histogram features_of checks pad channel (f_of_Z Bops depth) one 11 3 = Ok marked
    /\ measures equalize_histogram features_of channel 11 features
    /\ three_bit_quantization Bops checks features one = Ok (quantised, bits)
    /\ sign E (vec_i64_to_bytes quantised) PRIVATE_KEY PUBLIC_KEY = Ok sig
    /\ forall received, gray_picture received n 3 -> painted_over bad marked received n t ->
         shows_watermark K received (f_of_Z Bops depth) 3 (mkWatermark bits sig WATERMARK_TEXT).
Proof.
  intros HD Ht Hg Hs Hu Hcap Hbad Hwith. pose proof (usable_side n 3 Hu) as Hn.
  destruct (gray_array channel n 3 Hg) as (im & Eim & Him & _). pose proof Hg as (W & H & _).
  destruct (measured_exists M HM gamma checks channel n 3 11 Hg Hn Hs ltac:(lia)) as (fs & Hm).
  destruct (measured_1000 M HM gamma checks channel n 3 11 fs Hg Hn Hs ltac:(lia) Hm) as (Lf & Bf).
  destruct unit_one as (F1 & V1). fold one in F1, V1.
  assert (N1 : no_overflow Bops one checks fs).
  { apply (no_overflow_float one (unit_ordinary one V1)). eapply Forall_impl; [|exact (bounded_29 _ Bf)]. intros x (Fx & Bx). split; [exact Fx|]. rewrite V1. apply Rle_trans with (1 := Bx). simpl. lra. }
  pose proof (quantization_ok Bops one checks fs N1) as Eq. set (q := quantize Bops fs one) in *. set (bits := flat_map (bits3 Bops one) fs) in *.
  destruct (quantization_inv Bops checks fs one q bits Eq) as (_ & _ & Lb).
  destruct (sign_verify E _ _ (vec_i64_to_bytes q) HE Hk) as (sig & Es & Ls & Bs & Ev).
  destruct (payload_of pad bits sig (length fs) Hpad Bs Ls Lb ltac:(lia)) as (pl & Ep & Bp & Lp & Edp). rewrite Lf in Lp.
  pose proof (payload_size_range 11 ltac:(lia)) as Hsz.
  assert (Eim' : from_shape_vec n n (gray_raw channel) = Ok im) by congruence.
  destruct (C89_f64_painted_over_blocks_are_repaired K e Hsh Hcor im n depth pl t bad HD Ht Him Hu Bp) as (out & Eo & Po & X); [rewrite Lp; lia|rewrite Lp; exact Hcap|exact Hbad|intros bi bj Hi Hj Hin; exact (Hwith im Eim' bi bj Hi Hj Hin)|].
  destruct (array_gray out n 3 Po) as (Gout & Fout). pose proof Po as ((Hwf & D0 & D1 & _) & _).
  exists (mkGray n n (into_raw_vec out)), fs, q, bits, sig. split.
  { pose proof (watermark_run Bops K E equalize_histogram features_of checks pad channel im 11 fs one q bits sig pl out (f_of_Z Bops depth) 3 Eim Hm Eq Es Ep Eo Hwf ltac:(congruence) ltac:(congruence)) as R.
    rewrite W, H in R. exact R. }
  split; [exact Hm|]. split; [exact Eq|]. split; [exact Es|].
  intros received Grc Hpa. destruct (gray_array received n 3 Grc) as (rc & Erc & _). pose proof Grc as (W' & H' & _).
  assert (Erc' : from_shape_vec n n (gray_raw received) = Ok rc) by congruence.
  destruct (painted_pixels bad _ received n t out rc Gout Grc Hpa Fout Erc') as (Prc & Hpx).
  exists rc, pl. split; [exact Erc|]. split; [exact (X rc Prc Hpx)|exact Edp].
Qed.

(** *** Either front end, pictures whose blocks can be marked except for up to [e] per codeword ([e]: how many wrong bits the error-correcting code repairs
    in a codeword); the same blocks may be painted over in the marked picture, the other pixels may change by up to [t] levels.  The watermark is read, and the
    half bins of the features decide. *)
Theorem C99_f64_the_verdict_on_painted_over_pictures : forall fe image n t bad, In fe [command_line; web_page] -> 0 <= t ->
  well_formed image -> dimensions image = (n, n) -> (n mod 8 = 0)%nat -> side_ok n -> usable n 3 ->
  (stored_size n 3 (payload_size 11) <= band_capacity n 3)%nat -> at_most_per_group e (blocks_per_codeword n) bad ->
  (forall sel, In sel [ch1; ch2; ch3] -> channel_withstands_except bad (depth_of fe) t (component sel image) n) ->
  exists result, watermark_image Bops K E equalize_histogram features_of checks pad image (f_of_Z Bops (depth_of fe)) one 11 = Ok result
    /\ well_formed result /\ dimensions result = (n, n) /\ changes_at_most (moves_at_most fe) image result
    /\ forall sel, In sel [ch1; ch2; ch3] -> exists features sig,
         measures equalize_histogram features_of (component sel image) 11 features
         /\ sign E (vec_i64_to_bytes (integer_parts features)) PRIVATE_KEY PUBLIC_KEY = Ok sig
         /\ forall received, gray_picture received n 3 -> painted_over bad (component sel result) received n t ->
            exists noised, measures equalize_histogram features_of received 11 noised
              /\ decided_by_half_bins E features noised sig
                   (authenticate_channel Bops K E equalize_histogram features_of checks received (f_of_Z Bops (depth_of fe)) one 11 3).
Proof.
  intros fe image n t bad Hfe Ht Hw Ed Hm8 Hs Hu Hcap Hbad Hwith. pose proof (usable_side n 3 Hu) as Hn.
  assert (Hr : Z.of_nat (n * n) < 2 ^ 53) by (unfold side_ok in Hs; rewrite Nat2Z.inj_mul; nia).
  assert (Hd : 1 <= depth_of fe <= 4096) by (destruct Hfe as [ <- |[ <- |[]]]; cbn; lia).
  assert (Gc : forall sel, In sel [ch1; ch2; ch3] -> gray_picture (component sel image) n 3).
  { intros sel Hsel. apply component_picture; auto. cbn in Hsel. intuition auto. }
  assert (Ch : forall sel, In sel [ch1; ch2; ch3] -> exists marked features sig,
    watermark_channel Bops K E equalize_histogram features_of checks pad (component sel image) (f_of_Z Bops (depth_of fe)) one 11 3 = Ok marked
    /\ measures equalize_histogram features_of (component sel image) 11 features
    /\ sign E (vec_i64_to_bytes (integer_parts features)) PRIVATE_KEY PUBLIC_KEY = Ok sig
    /\ forall received, gray_picture received n 3 -> painted_over bad marked received n t ->
            exists noised, measures equalize_histogram features_of received 11 noised
              /\ decided_by_half_bins E features noised sig
                   (authenticate_channel Bops K E equalize_histogram features_of checks received (f_of_Z Bops (depth_of fe)) one 11 3)).
  { intros sel Hsel. destruct (painted_channel (depth_of fe) (component sel image) n bad t Hd Ht (Gc sel Hsel) Hs Hu Hcap Hbad (Hwith sel Hsel)) as (mk & fs & q & bits & sig & Em & Hm & Eq & Es & Sh).
    assert (V : forall received, gray_picture received n 3 -> painted_over bad mk received n t -> q = integer_parts fs /\
            exists noised, measures equalize_histogram features_of received 11 noised
              /\ decided_by_half_bins E fs noised sig
                   (authenticate_channel Bops K E equalize_histogram features_of checks received (f_of_Z Bops (depth_of fe)) one 11 3)).
    { intros received Grc Hpa.
      exact (C99_f64_the_verdict_whenever_the_watermark_is_read K E HE Hk M HM gamma checks (component sel image) received n n 3 3 (f_of_Z Bops (depth_of fe)) 3 11 fs q bits sig WATERMARK_TEXT
        (Gc sel Hsel) Hs Hn Grc Hs Hn ltac:(lia) Hm Eq Es (Sh received Grc Hpa)). }
    exists mk, fs, sig. split; [exact Em|]. split; [exact Hm|].
    assert (Q : q = integer_parts fs).
    { destruct (measured_1000 M HM gamma checks (component sel image) n 3 11 fs (Gc sel Hsel) Hn Hs ltac:(lia) Hm) as (_ & Bf). destruct unit_one as (F1 & V1). fold one in F1, V1.
      assert (N1 : no_overflow Bops one checks fs).
      { apply (no_overflow_float one (unit_ordinary one V1)). eapply Forall_impl; [|exact (bounded_29 _ Bf)]. intros x (Fx & Bx). split; [exact Fx|]. rewrite V1. apply Rle_trans with (1 := Bx). simpl. lra. }
      pose proof (quantization_ok Bops one checks fs N1) as Eq'. assert (q = quantize Bops fs one) by congruence. subst q. unfold quantize, integer_parts.
      apply map_ext_in. intros x Hin. pose proof (bounded_29 _ Bf) as B29. rewrite Forall_forall in B29. destruct (B29 x Hin) as (Fx & Bx). apply (unit_halves one x F1 V1 Fx).
      apply Rle_trans with (1 := Bx). apply bpow_le. lia. }
    split; [rewrite <- Q; exact Es|]. intros received Grc Hpa. exact (proj2 (V received Grc Hpa)). }
  destruct (Ch ch1) as (red & f1 & s1 & Er & Ar); [cbn; tauto|]. destruct (Ch ch2) as (green & f2 & s2 & Eg & Ag); [cbn; tauto|].
  destruct (Ch ch3) as (blue & f3 & s3 & Eb & Ab); [cbn; tauto|].
  destruct (C42_watermark_returns_iff_the_channels_do b64 Bops K E equalize_histogram features_of checks pad image (f_of_Z Bops (depth_of fe)) one 11) as (_ & (_ & Ret)).
  destruct Ret as (result & Eres); [split; [eauto|intros _; split; eauto]|]. exists result. split; [exact Eres|].
  destruct (C42_watermark_preserves_size_layout_and_alpha K E equalize_histogram features_of checks pad image (f_of_Z Bops (depth_of fe)) one 11 result Hw Eres) as (X1 & X2 & X3 & X4 & X5 & X6 & H1 & H2 & H3).
  split; [assumption|]. split; [congruence|]. split.
  - destruct (C59_visible_change_is_bounded K E equalize_histogram features_of checks pad image n one 11 result Hw Ed Hm8 Hr) as (A & B).
    destruct Hfe as [ <- |[ <- |[]]]; [exact (A Eres)|exact (B Eres)].
  - intros sel Hsel. cbn in Hsel. destruct Hsel as [ <- |[ <- |[ <- |[]]]].
    + assert (red = component ch1 result) by congruence. subst red. exists f1, s1. exact Ar.
    + assert (green = component ch2 result) by congruence. subst green. exists f2, s2. exact Ag.
    + assert (blue = component ch3 result) by congruence. subst blue. exists f3, s3. exact Ab.
Qed.
End Painted.

(** ** Concrete cases *)
(** Any value in the first pixel, nothing else changed: the first block is painted over. *)
Lemma first_pixel_repainted g n x t : gray_picture g n 3 -> byte x -> 0 <= t ->
  gray_picture (mkGray n n (upd (gray_raw g) 0 x)) n 3 /\ painted_over [0%nat] g (mkGray n n (upd (gray_raw g) 0 x)) n t.
Proof.
  intros (W & H & Hl & Hb & R) Hx Ht. split.
  - split; [reflexivity|]. split; [reflexivity|]. cbn [gray_raw]. split; [now rewrite upd_length|]. split; [|exact R].
    destruct (gray_raw g) as [|v l]; [exact Hb|]. inversion Hb; subst. constructor; assumption.
  - intros i j v w Hi Hj Hin Ev Ew. unfold gray_pixel in Ev, Ew. cbn [gray_raw] in Ew.
    assert (Hne : (n * i + j <> 0)%nat).
    { intros E0. apply Hin. left. assert (i = 0%nat) by nia. assert (j = 0%nat) by nia. subst i j. cbn. lia. }
    destruct (n * i + j)%nat as [|k]; [congruence|]. destruct (gray_raw g) as [|y l]; [discriminate Ev|]. cbn [upd nth_error] in Ev, Ew.
    assert (v = w) by congruence. subst w. rewrite Z.sub_diag. exact Ht.
Qed.

Lemma stained512_size : dimensions stained512 = (512, 512)%nat. Proof. reflexivity. Qed.
Opaque stained512 watermark_image.
(** The stained picture of C89, marked by either front end, its first pixel painted over with any value: there is a verdict, decided by the half bins. *)
Example C99_instance : forall fe x, In fe [command_line; web_page] -> byte x -> exists result,
  watermark_image Bops repairing_ldpc toy_ed equalize_histogram (zernike_f64 exact_libm (fun x => x) true) true (repeat false 8) stained512 (f_of_Z Bops (depth_of fe)) (f_of_Z Bops 1) 11 = Ok result
  /\ forall sel, In sel [ch1; ch2; ch3] -> let received := mkGray 512 512 (upd (gray_raw (component sel result)) 0 x) in
     gray_picture received 512 3 /\ exists features noised sig,
       measures equalize_histogram (zernike_f64 exact_libm (fun x => x) true) (component sel stained512) 11 features
       /\ measures equalize_histogram (zernike_f64 exact_libm (fun x => x) true) received 11 noised
       /\ decided_by_half_bins toy_ed features noised sig
            (authenticate_channel Bops repairing_ldpc toy_ed equalize_histogram (zernike_f64 exact_libm (fun x => x) true) true received (f_of_Z Bops (depth_of fe)) (f_of_Z Bops 1) 11 3).
Proof.
  intros fe x Hfe Hx. destruct C83_512_is_usable as (A & B & C & D).
  pose proof stained512_size as Ed.
  destruct (C99_f64_the_verdict_on_painted_over_pictures repairing_ldpc 1 repairing_shape repairing_corrects toy_ed toy_format toy_keys exact_libm exact_libm_accurate (fun x => x) true (repeat false 8) eq_refl fe stained512 512 2 [0%nat] Hfe ltac:(lia) stained512_wf Ed A B C D (one_per_group _ _) (fun sel Hsel => stained512_withstands fe sel Hfe Hsel))
    as (result & H1 & W1 & D1 & _ & H2).
  exists result. split; [exact H1|]. intros sel Hsel. cbv zeta.
  assert (G : gray_picture (component sel result) 512 3).
  { apply component_picture; [exact W1|exact D1|cbn in Hsel; intuition auto|exact A|reflexivity]. }
  destruct (first_pixel_repainted (component sel result) 512 x 2 G Hx ltac:(lia)) as (G' & P'). split; [exact G'|].
  destruct (H2 sel Hsel) as (fs & sig & Hm & _ & Hrec). destruct (Hrec _ G' P') as (ns & Hm' & Hv). exists fs, ns, sig. split; [exact Hm|]. split; [exact Hm'|exact Hv].
Qed.

Print Assumptions C99_f64_the_verdict_whenever_the_watermark_is_read.
Print Assumptions C99_f64_the_verdict_on_painted_over_pictures.
