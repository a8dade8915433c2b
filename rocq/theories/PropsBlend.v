(** Property C111: a marked channel may be mixed with its original - up to 23 percent of the original at the depth of the command line, up to 31 percent at the depth of
    the web page - and the watermark is still read and judged
    (lib/sia/rust/embedding/src/lib.rs: embed, extract; lib/sia/rust/watermarking/src/process.rs: watermark_channel, authenticate_channel). *)
From Coq Require Import Reals Lra Permutation.
From Flocq Require Import Core BinarySingleNaN.
From Verif Require Import Outcome Floats FloatFacts Bits ListFacts Quantization QuantProofs QuantReal QuantFloat PropsQuant PropsQuant2 Codecs CodecProofs WatermarkProofs PropsCodec
  Encoding EncodingProofs PropsEncoding Matrix MatrixFacts Haar HaarProofs HaarReal HaarFloat PropsHaar Stego StegoProofs StegoMarks PropsStego Embedding EmbeddingProofs EmbeddingEffect PropsEmbedding PropsEmbedding2 PropsEmbedding3 PropsRobust
  Signature Process ProcessProofs Toy Zernike ZernikeProofs PropsZernike ZernikeBound PropsZernike2 ZernikeGen PropsZernikeF64 LibmSpec LibmExact PropsZernikeAcc
  PropsProcess PropsProcess2 Image PropsImage PropsProcess3 PropsProcess4 PropsProcess5 PropsProcess6 PropsTamper Equalize PropsEqualize PropsShipped PropsShipped2 PropsInteger PropsClipping PropsClipping2 PropsRepair PropsRepair2 PropsVerdict PropsUnused PropsForged PropsBright PropsBlockwise.
Open Scope Z_scope.

(** ** Specification vocabulary *)
(** Every pixel is, rounded to a nearest integer, [percent] percent of the original and the rest of the marked channel. *)
Definition mixed (percent : Z) (original marked received : gray) : Prop :=
  forall k o m r, nth_error (gray_raw original) k = Some o -> nth_error (gray_raw marked) k = Some m -> nth_error (gray_raw received) k = Some r ->
    Z.abs (100 * r - (percent * o + (100 - percent) * m)) <= 50.
(** How much of the original may be mixed in. *)
Definition harmless_share (fe : front_end) : Z := if depth_of fe =? 100 then 23 else 31.

Lemma mixed_sums percent bound n original marked received bi bj : 0 <= percent <= 100 -> 0 <= bound ->
  gray_picture original n 3 -> gray_picture marked n 3 -> gray_picture received n 3 ->
  (forall k o m, nth_error (gray_raw original) k = Some o -> nth_error (gray_raw marked) k = Some m -> Z.abs (m - o) <= bound) ->
  mixed percent original marked received -> (bi < n / 8)%nat -> (bj < n / 8)%nat ->
  100 * Z.abs (block_sum received n bi bj - block_sum marked n bi bj) <= 64 * (percent * bound + 50).
Proof.
  intros Hp Hb0 (_ & _ & Lo & _ & Hm & _) (_ & _ & Lm & _) (_ & _ & Lr & _) Hch Hmix Hi Hj. change (2 ^ 3)%nat with 8%nat in Hm.
  rewrite !block_sum_dsum.
  set (R := fun p q : nat => nth (n * (8 * bi + p) + (8 * bj + q)) (gray_raw received) 0). set (M := fun p q : nat => nth (n * (8 * bi + p) + (8 * bj + q)) (gray_raw marked) 0).
  assert (P : forall p q, (p < 8)%nat -> (q < 8)%nat -> Z.abs (100 * R p q - 100 * M p q) <= percent * bound + 50).
  { intros p q Hp' Hq'. unfold R, M. set (k := (n * (8 * bi + p) + (8 * bj + q))%nat).
    assert (H8 : (8 * (n / 8) <= n)%nat) by (apply Nat.mul_div_le; lia). assert (Hk : (k < n * n)%nat) by (unfold k; nia).
    rewrite <- Lr in Hk. pose proof (nth_error_nth' (gray_raw received) 0 Hk) as Er. rewrite Lr, <- Lm in Hk. pose proof (nth_error_nth' (gray_raw marked) 0 Hk) as Em.
    rewrite Lm, <- Lo in Hk. pose proof (nth_error_nth' (gray_raw original) 0 Hk) as Eo. clearbody k.
    specialize (Hmix _ _ _ _ Eo Em Er). specialize (Hch _ _ _ Eo Em). revert Hmix Hch. generalize (nth k (gray_raw received) 0) (nth k (gray_raw marked) 0) (nth k (gray_raw original) 0).
    intros r m o H1 H2. assert (Z.abs (percent * (m - o)) <= percent * bound) by (rewrite Z.abs_mul, (Z.abs_eq percent) by lia; nia). lia. }
  assert (U : PropsClipping.dsum (fun p q => 100 * R p q + (-100) * M p q + 0) <= PropsClipping.dsum (fun _ _ => percent * bound + 50)) by (apply PropsClipping.dsum_le; intros p q H1 H2; specialize (P p q H1 H2); lia).
  assert (L : PropsClipping.dsum (fun p q => (-100) * R p q + 100 * M p q + 0) <= PropsClipping.dsum (fun _ _ => percent * bound + 50)) by (apply PropsClipping.dsum_le; intros p q H1 H2; specialize (P p q H1 H2); lia).
  rewrite !PropsClipping.dsum_lin in U, L. rewrite PropsClipping.dsum_const in U, L.
  change (PropsClipping.dsum (fun p q => R p q)) with (PropsClipping.dsum R) in *. change (PropsClipping.dsum (fun p q => M p q)) with (PropsClipping.dsum M) in *.
  revert U L. generalize (PropsClipping.dsum R) (PropsClipping.dsum M). intros a b U L. lia.
Qed.

Section Blend.
Context (K : ldpc) (Hsh : ldpc_shape K) (Hdec : ldpc_decodes K) (E : ed25519) (HE : signature_format E) (Hk : key_pair E PRIVATE_KEY PUBLIC_KEY).
Context (M : libm b64) (HM : accurate M) (gamma : b64 -> b64) (checks : bool) (pad : list bool) (Hpad : length pad = 8%nat).
Let features_of := zernike_f64 M gamma checks.
Let one : b64 := f_of_Z Bops 1.

Theorem C111_f64_mixing_with_the_original : forall fe image n, In fe [command_line; web_page] ->
  well_formed image -> dimensions image = (n, n) -> (n mod 8 = 0)%nat -> side_ok n -> usable n 3 ->
  (stored_size n 3 (payload_size 11) <= band_capacity n 3)%nat -> colours_within (margin_of fe) image ->
  exists result, watermark_image Bops K E equalize_histogram features_of checks pad image (f_of_Z Bops (depth_of fe)) one 11 = Ok result
    /\ forall sel, In sel [ch1; ch2; ch3] -> exists features w,
         measures equalize_histogram features_of (component sel image) 11 features
         /\ sign E (vec_i64_to_bytes (integer_parts features)) PRIVATE_KEY PUBLIC_KEY = Ok (Codecs.signature w)
         /\ forall percent received, 0 <= percent <= harmless_share fe -> gray_picture received n 3 ->
              mixed percent (component sel image) (component sel result) received ->
              reads_and_judges K E M gamma checks (depth_of fe) features w received.
Proof.
  intros fe image n Hfe Hw Ed Hm8 Hs Hu Hcap Hcol. pose proof (usable_side n 3 Hu) as Hn.
  assert (Hr : Z.of_nat (n * n) < 2 ^ 53) by (unfold side_ok in Hs; rewrite Nat2Z.inj_mul; nia).
  assert (Gc : forall sel x, In sel [ch1; ch2; ch3] -> well_formed x -> dimensions x = (n, n) -> gray_picture (component sel x) n 3).
  { intros sel x Hsel Hwx Edx. apply component_picture; auto. cbn in Hsel. intuition auto. }
  destruct (C110_f64_only_the_sums_of_the_blocks_matter K 0 Hsh (decodes_corrects K Hsh Hdec) E HE Hk M HM gamma checks pad Hpad fe image n (2 * depth_of fe - 33) [] Hfe Hw Ed Hm8 Hs Hu Hcap)
    as (result & Er & Wr & Dr & Hv).
  { intros w; cbn; lia. }
  { intros sel Hsel. now apply (margin_withstands fe image n). }
  exists result. split; [exact Er|]. intros sel Hsel. destruct (Hv sel Hsel) as (fs & w & H1 & H2 & H3). exists fs, w. split; [exact H1|]. split; [exact H2|].
  intros percent received Hpc Grc Hmix. apply H3; [exact Grc|]. intros bi bj Hi Hj _ _. exists 0.
  assert (Hch : changes_at_most (moves_at_most fe) image result).
  { destruct (C59_visible_change_is_bounded K E equalize_histogram features_of checks pad image n one 11 result Hw Ed Hm8 Hr) as (A & B).
    destruct Hfe as [ <- |[ <- |[]]]; [exact (A Er)|exact (B Er)]. }
  assert (B : 100 * Z.abs (block_sum received n bi bj - block_sum (component sel result) n bi bj) <= 64 * (percent * moves_at_most fe + 50)).
  { apply (mixed_sums percent (moves_at_most fe) n (component sel image) (component sel result) received); auto.
    - destruct Hfe as [ <- |[ <- |[]]]; cbn in Hpc; lia.
    - destruct Hfe as [ <- |[ <- |[]]]; cbn; lia.
    - intros k o m Eo Em. unfold component in Eo, Em. cbn [gray_raw] in Eo, Em. rewrite nth_error_map in Eo, Em.
      destruct (nth_error (get_pixels image) k) as [p|] eqn:Ep; [|discriminate]. destruct (nth_error (get_pixels result) k) as [q|] eqn:Eq; [|discriminate].
      cbn [option_map] in Eo, Em. destruct (Hch k p q Ep Eq) as (C1 & C2 & C3 & _). assert (o = sel p) by congruence. assert (m = sel q) by congruence. subst o m.
      cbn in Hsel. destruct Hsel as [ <- |[ <- |[ <- |[]]]]; assumption. }
  destruct Hfe as [ <- |[ <- |[]]]; cbn [moves_at_most depth_of command_line web_page harmless_share Z.eqb Pos.eqb] in *; unfold harmless_share in Hpc; cbn in Hpc; lia.
Qed.
End Blend.

(** ** The hypotheses are met: the mixture exists. *)
Definition mix (percent : Z) (original marked : gray) : gray :=
  mkGray (gwidth marked) (gheight marked) (map (fun p => (percent * fst p + (100 - percent) * snd p + 50) / 100) (combine (gray_raw original) (gray_raw marked))).
Lemma mix_mixed percent original marked n : 0 <= percent <= 100 -> gray_picture original n 3 -> gray_picture marked n 3 ->
  gray_picture (mix percent original marked) n 3 /\ mixed percent original marked (mix percent original marked).
Proof.
  intros Hp (_ & _ & Lo & Bo & _) (W & H & Lm & Bm & Hm & HL & Hr). split.
  - unfold gray_picture, mix. cbn [gwidth gheight gray_raw]. rewrite map_length, combine_length, Lo, Lm, Nat.min_id. repeat split; try assumption; try apply HL.
    unfold bytes in *. rewrite Forall_forall in *. intros v Hv. apply in_map_iff in Hv as ((o & m) & <- & Hin). cbn [fst snd].
    specialize (Bo _ (in_combine_l _ _ _ _ Hin)). specialize (Bm _ (in_combine_r _ _ _ _ Hin)). unfold byte in *.
    split; [apply Z.div_pos; nia|apply Z.div_lt_upper_bound; nia].
  - intros k o m r Eo Em Er. unfold mix in Er. cbn [gray_raw] in Er. rewrite nth_error_map in Er.
    assert (Ec : nth_error (combine (gray_raw original) (gray_raw marked)) k = Some (o, m)).
    { clear - Eo Em. revert k Eo Em. generalize (gray_raw original) (gray_raw marked). induction l as [|x l IH]; intros [|y l'] [|k]; cbn; try discriminate; [congruence|apply IH]. }
    rewrite Ec in Er. cbn [option_map fst snd] in Er. assert (r = (percent * o + (100 - percent) * m + 50) / 100) by congruence. subst r. clear Er Ec Eo Em.
    generalize (percent * o + (100 - percent) * m). intros x. pose proof (Z.div_mod (x + 50) 100 ltac:(lia)). pose proof (Z.mod_pos_bound (x + 50) 100 ltac:(lia)). lia.
Qed.

Opaque colour512 watermark_image.
Example C111_instance : forall fe percent, In (fe, percent) [(command_line, 23); (web_page, 31)] -> exists result,
  watermark_image Bops toy_ldpc toy_ed equalize_histogram (zernike_f64 exact_libm (fun x => x) true) true (repeat false 8) colour512 (f_of_Z Bops (depth_of fe)) (f_of_Z Bops 1) 11 = Ok result
  /\ forall sel, In sel [ch1; ch2; ch3] -> exists features w,
       reads_and_judges toy_ldpc toy_ed exact_libm (fun x => x) true (depth_of fe) features w (mix percent (component sel colour512) (component sel result)).
Proof.
  intros fe percent Hfp. destruct C83_512_is_usable as (A & B & C & D).
  assert (Hfe : In fe [command_line; web_page]) by (destruct Hfp as [X|[X|[]]]; injection X as <- _; cbn; auto).
  assert (Hpc : 0 <= percent <= harmless_share fe) by (destruct Hfp as [X|[X|[]]]; injection X as <- <-; unfold harmless_share; cbn; lia).
  assert (Hp : 0 <= percent <= 100) by (destruct Hfp as [X|[X|[]]]; injection X as _ <-; lia).
  assert (Ed : dimensions colour512 = (512, 512)%nat) by reflexivity.
  assert (Hcol : colours_within (margin_of fe) colour512).
  { Transparent colour512. unfold colours_within, colour512. cbn [get_pixels]. apply Forall_forall. intros p Hp'. apply repeat_spec in Hp'. subst p.
    intros sel Hsel. cbn in Hsel. destruct Hfe as [ <- |[ <- |[]]]; destruct Hsel as [ <- |[ <- |[ <- |[]]]]; cbn [margin_of command_line web_page ch1 ch2 ch3]; lia. }
  Opaque colour512.
  destruct (C111_f64_mixing_with_the_original toy_ldpc toy_shape toy_decodes toy_ed toy_format toy_keys exact_libm exact_libm_accurate (fun x => x) true (repeat false 8) eq_refl fe colour512 512 Hfe colour512_wf Ed A B C D Hcol)
    as (result & H1 & Hv).
  destruct (C42_watermark_preserves_size_layout_and_alpha toy_ldpc toy_ed equalize_histogram _ true (repeat false 8) colour512 (f_of_Z Bops (depth_of fe)) (f_of_Z Bops 1) 11 result colour512_wf H1) as (X1 & X2 & X3 & X4 & X5 & X6 & _).
  assert (Wr : well_formed result) by assumption. assert (Dr : dimensions result = (512, 512)%nat) by congruence. clear X1 X2 X3 X4 X5 X6.
  exists result. split; [exact H1|]. intros sel Hsel. destruct (Hv sel Hsel) as (fs & w & _ & _ & Hre). exists fs, w.
  assert (Gp : forall x, well_formed x -> dimensions x = (512, 512)%nat -> gray_picture (component sel x) 512 3).
  { intros x Wx Dx. apply component_picture; [exact Wx|exact Dx|cbn in Hsel; intuition auto|reflexivity|]. rewrite Nat2Z.inj_mul; lia. }
  destruct (mix_mixed percent (component sel colour512) (component sel result) 512 Hp (Gp _ colour512_wf Ed) (Gp _ Wr Dr)) as (G1 & G2).
  exact (Hre percent _ Hpc G1 G2).
Qed.

Print Assumptions C111_f64_mixing_with_the_original.
