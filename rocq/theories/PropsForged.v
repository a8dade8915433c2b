(** Property C101: forging without a key.  The watermark lies in the upper half of a picture (C100), point-symmetric pictures have features near zero (C45), and a
    watermark can be read and written by anyone (C92).  Together: whoever holds one watermarked picture with small features - any picture that looks the same
    upside down will do - can put any upper half he likes under it, and the authenticator says yes. *)
From Coq Require Import Reals Lra.
From Flocq Require Import Core BinarySingleNaN.
From Verif Require Import Outcome Floats FloatFacts Bits ListFacts Quantization QuantProofs QuantReal QuantFloat PropsQuant PropsQuant2 Codecs CodecProofs WatermarkProofs PropsCodec
  Encoding EncodingProofs PropsEncoding Matrix MatrixFacts Haar HaarProofs HaarReal HaarFloat PropsHaar Stego StegoProofs StegoMarks PropsStego Embedding EmbeddingProofs EmbeddingEffect PropsEmbedding PropsEmbedding2 PropsEmbedding3 PropsRobust
  Signature Process ProcessProofs Toy Zernike ZernikeProofs PropsZernike ZernikeBound PropsZernike2 ZernikeGen PropsZernikeF64 LibmSpec LibmExact PropsZernikeAcc
  PropsProcess PropsProcess2 Image PropsImage PropsProcess3 PropsProcess4 PropsProcess5 PropsProcess6 PropsTamper Equalize PropsEqualize PropsShipped PropsShipped2 PropsInteger PropsClipping PropsClipping2 PropsRepair PropsRepair2 PropsVerdict PropsUnused.
Open Scope Z_scope.

(** ** Specification vocabulary *)
(** The channel whose upper half is that of [a] and whose lower half is the upper half turned upside down (by 180 degrees). *)
Definition turned_below (a : gray) : gray :=
  let upper := firstn (gwidth a * (gheight a / 2)) (gray_raw a) in mkGray (gwidth a) (gheight a) (upper ++ rev upper).
(** The upper halves differ by at most [t] grey levels. *)
Definition upper_halves_within (t : Z) (a b : gray) (n : nat) : Prop :=
  forall k v w, (k < n * (n / 2))%nat -> nth_error (gray_raw a) k = Some v -> nth_error (gray_raw b) k = Some w -> Z.abs (w - v) <= t.
(** All features are small: below one and a half quantisation steps. *)
Definition small_features (features : list b64) : Prop := Forall (fun x : b64 => (toR x < 3 / 2)%R) features.
(** The upper half has room for the watermark. *)
Definition fits_upper_half (n : nat) : Prop := (n mod 16 = 0)%nat /\ (carrying_blocks n <= n / 8 * (n / 16))%nat.

Lemma half_512 : fits_upper_half 512.
Proof. split; [reflexivity|]. destruct C100_carrying_blocks_of_512 as (-> & _). apply Nat.leb_le. vm_compute. reflexivity. Qed.

(** ** Point symmetry survives the equalisation *)
Lemma equalize_rev l : rev l = l -> rev (equalize_histogram l) = equalize_histogram l.
Proof. intros H. unfold equalize_histogram. rewrite <- map_rev, H. reflexivity. Qed.

Lemma nth_error_rev {A} (l : list A) k : (k < length l)%nat -> nth_error (rev l) k = nth_error l (length l - 1 - k).
Proof.
  intros H. destruct l as [|d l']; [cbn in H; lia|]. set (l := d :: l') in *. rewrite (nth_error_nth' (rev l) d) by (now rewrite rev_length). rewrite rev_nth by exact H.
  rewrite (nth_error_nth' l d) by lia. f_equal. f_equal. lia.
Qed.

(** *** The features of a point-symmetric channel, equalised and computed in binary64, are at most 1/128. *)
Theorem C101_f64_upside_down_pictures_have_small_features : forall (M : libm b64) (HM : accurate M) (gamma : b64 -> b64) (checks : bool) ch n amount features, gray_picture ch n 3 -> (2 <= n)%nat -> side_ok n -> (1 <= amount <= 11)%nat -> rev (gray_raw ch) = gray_raw ch ->
  measures equalize_histogram (zernike_f64 M gamma checks) ch amount features -> Forall (fun x : b64 => (0 <= toR x <= / 128)%R) features.
Proof.
  intros M HM gamma checks ch n amount fs G Hn Hs Ha Hrev (eqd & A1 & A2). pose proof G as (W & H & Hl & Hb & _).
  destruct (C76_equalisation_keeps_grey _ Hb) as (El & Eb). rewrite Hl in El.
  destruct (raster_array n _ El Hn) as (A & EA & SA & RA). assert (A = eqd) by congruence. subst A.
  assert (BA : byte_pixels eqd) by (apply (PropsProcess4.raw_bytes eqd n SA); rewrite RA; exact Eb).
  destruct (C45_f64_point_symmetric_images_have_small_features M HM gamma checks eqd n amount SA Hs BA Ha) as (fs' & E1 & _ & F).
  - assert (Ge : gray_picture (mkGray n n (equalize_histogram (gray_raw ch))) n 3).
    { split; [reflexivity|]. split; [reflexivity|]. split; [exact El|]. split; [exact Eb|]. destruct G as (_ & _ & _ & _ & R). exact R. }
    destruct (gray_array _ n 3 Ge) as (A & EA' & _ & Hc). cbn [gwidth gheight gray_raw] in EA'. assert (A = eqd) by congruence. subst A.
    intros i j Hi Hj. rewrite !Hc by lia. unfold gray_pixel. cbn [gray_raw]. rewrite <- (equalize_rev _ Hrev) at 1. rewrite nth_error_rev by (rewrite El; nia). rewrite El. f_equal. nia.
  - assert (fs' = fs) by (assert (X : Ok fs' = Ok fs) by (rewrite <- E1; exact A2); congruence). subst fs'. revert F. apply Forall_impl. tauto.
Qed.

Section Forged.
Context (K : ldpc) (e : nat) (Hsh : ldpc_shape K) (Hcor : corrects K e) (E : ed25519) (HE : signature_format E) (Hk : key_pair E PRIVATE_KEY PUBLIC_KEY).
Context (M : libm b64) (HM : accurate M) (gamma : b64 -> b64) (checks : bool) (pad : list bool) (Hpad : length pad = 8%nat).
Let features_of := zernike_f64 M gamma checks.
Let one : b64 := f_of_Z Bops 1.

Lemma half_small (x : b64) : (0 <= toR x <= / 128)%R -> Zfloor (2 * toR x) = 0 /\ away (toR x) 1.
Proof.
  intros (H0 & H1). split; [apply Zfloor_imp; simpl; lra|]. intros m. destruct (Z.eq_dec m 0) as [->|Hm]; [now left|right].
  assert (B : (bpow radix2 (-20) <= / 2)%R) by (simpl; lra).
  destruct (Z_lt_le_dec m 0) as [Hneg|Hpos].
  - assert (IZR m <= -1)%R by (apply (IZR_le m (-1)); lia). rewrite Rabs_pos_eq by lra. lra.
  - assert (1 <= IZR m)%R by (apply (IZR_le 1 m); lia). rewrite Rabs_left by lra. lra.
Qed.
Lemma small_agree fs ns : length ns = length fs -> Forall (fun x : b64 => fin x /\ (0 <= toR x <= 1000)%R) fs -> small_features fs -> Forall (fun x : b64 => (0 <= toR x <= / 128)%R) ns -> features_agree fs ns.
Proof.
  intros Hl. revert ns Hl. induction fs as [|x fs IH]; intros [|y ns] Hl B S Hn; try discriminate Hl; constructor.
  - inversion B as [|? ? (_ & B0 & _) _]; subst. inversion S as [|? ? S0 _]; subst. inversion Hn as [|? ? N0 _]; subst. unfold half_bins_apart. rewrite (proj1 (half_small y N0)).
    assert (Zfloor (2 * toR x) < 3) by (apply lt_IZR; pose proof (Zfloor_lb (2 * toR x)); simpl; lra).
    assert (0 <= Zfloor (2 * toR x)) by (apply (Zfloor_lub 0); simpl; lra). lia.
  - inversion B; inversion S; inversion Hn; subst. apply IH; auto.
Qed.

Lemma turned_picture a n : gray_picture a n 3 -> fits_upper_half n -> (2 <= n)%nat ->
  gray_picture (turned_below a) n 3 /\ rev (gray_raw (turned_below a)) = gray_raw (turned_below a) /\ differs_at_most 0 [] a (turned_below a) n
  /\ forall k, (k < n * (n / 2))%nat -> nth_error (gray_raw (turned_below a)) k = nth_error (gray_raw a) k.
Proof.
  intros (W & H & Hl & Hb & R) (H16 & Hfit) Hn. unfold turned_below. rewrite W, H. cbn [gray_raw]. set (half := (n * (n / 2))%nat).
  assert (N16 : n = (16 * (n / 16))%nat) by (pose proof (Nat.div_mod n 16 ltac:(lia)); lia).
  assert (N2 : (n / 2 = 8 * (n / 16))%nat) by (rewrite N16 at 1; replace (16 * (n / 16))%nat with (8 * (n / 16) * 2)%nat by lia; apply Nat.div_mul; lia).
  assert (N8 : (n / 8 = 2 * (n / 16))%nat) by (rewrite N16 at 1; replace (16 * (n / 16))%nat with (2 * (n / 16) * 8)%nat by lia; apply Nat.div_mul; lia).
  assert (Hh : (half + half = n * n)%nat) by (unfold half; rewrite N2; nia).
  assert (Lf : length (firstn half (gray_raw a)) = half) by (rewrite firstn_length; lia).
  assert (Ku : forall k, (k < half)%nat -> nth_error (firstn half (gray_raw a) ++ rev (firstn half (gray_raw a))) k = nth_error (gray_raw a) k).
  { intros k Hlt. rewrite nth_error_app1 by lia. now apply nth_error_firstn'. }
  split; [|split; [|split; [|exact Ku]]].
  - split; [reflexivity|]. split; [reflexivity|]. cbn [gray_raw]. split; [rewrite app_length, rev_length, Lf; exact Hh|]. split; [|exact R].
    assert (Bf : bytes (firstn half (gray_raw a))) by (rewrite <- (firstn_skipn half (gray_raw a)) in Hb; apply Forall_app in Hb as (X & _); exact X).
    apply Forall_app. split; [exact Bf|]. now apply Forall_rev.
  - rewrite rev_app_distr, rev_involutive. reflexivity.
  - intros k v w Ev Ew Hblk _. cbn [gray_raw] in Ew.
    assert (Hlt : (k < half)%nat).
    { destruct (Nat.lt_ge_cases k half) as [X|X]; [exact X|]. exfalso. unfold block_of in Hblk.
      assert (D : (n / 2 <= k / n)%nat) by (apply Nat.div_le_lower_bound; [lia|exact X]).
      assert (D8 : (n / 16 <= k / n / 8)%nat) by (apply Nat.div_le_lower_bound; lia). nia. }
    rewrite (Ku k Hlt) in Ew. assert (w = v) by congruence. subst w. rewrite Z.sub_diag. lia.
Qed.

(** *** C101: [image] is a picture of the donor, marked by one of the front ends; [target] the channel of which the forger wants the upper half. *)
Theorem C101_f64_any_upper_half_can_be_forged : forall fe image n, In fe [command_line; web_page] ->
  well_formed image -> dimensions image = (n, n) -> (n mod 8 = 0)%nat -> side_ok n -> usable n 3 ->
  (stored_size n 3 (payload_size 11) <= band_capacity n 3)%nat ->
  (forall sel, In sel [ch1; ch2; ch3] -> carriers_withstand [] (depth_of fe) 0 (component sel image) n) ->
  let depth := f_of_Z Bops (depth_of fe) in
  exists result, watermark_image Bops K E equalize_histogram features_of checks pad image depth one 11 = Ok result
    /\ forall sel, In sel [ch1; ch2; ch3] -> exists donor read_bytes watermark copied features,
         from_shape_vec n n (gray_raw (component sel result)) = Ok donor
         /\ extract Bops K donor depth 3 = Ok read_bytes /\ watermark_deserialize read_bytes = Ok watermark /\ watermark_serialize pad watermark = Ok copied
         /\ measures equalize_histogram features_of (component sel image) 11 features
         /\ sign E (vec_i64_to_bytes (integer_parts features)) PRIVATE_KEY PUBLIC_KEY = Ok (Codecs.signature watermark)
         /\ (small_features features ->
            forall target m target_array, gray_picture target m 3 -> side_ok m -> usable m 3 -> fits_upper_half m ->
            carriers_withstand [] (depth_of fe) 0 target m -> from_shape_vec m m (gray_raw target) = Ok target_array ->
            exists forged_array, embed Bops K target_array copied depth 3 = Ok forged_array /\
              let forged := turned_below (mkGray m m (into_raw_vec forged_array)) in
              gray_picture forged m 3 /\ upper_halves_within (moves_at_most fe) target forged m /\ shows_watermark K forged depth 3 watermark
              /\ authenticate_channel Bops K E equalize_histogram features_of checks forged depth one 11 3 = Ok true).
Proof.
  intros fe image n Hfe Hw Ed Hm8 Hs Hu Hcap Hwith depth. pose proof (usable_side n 3 Hu) as Hn.
  assert (Hr : Z.of_nat (n * n) < 2 ^ 53) by (unfold side_ok in Hs; rewrite Nat2Z.inj_mul; nia).
  assert (Hd : 1 <= depth_of fe <= 4096) by (destruct Hfe as [ <- |[ <- |[]]]; cbn; lia).
  assert (NoBad : forall size, at_most_per_group e size []) by (intros size w; cbn; lia).
  destruct (C100_f64_the_rest_of_the_picture_is_not_read K e Hsh Hcor E HE Hk M HM gamma checks pad Hpad fe image n 0 [] Hfe ltac:(lia) Hw Ed Hm8 Hs Hu Hcap (NoBad _) Hwith) as (result & Er & Wr & Dr & _).
  exists result. split; [exact Er|]. intros sel Hsel.
  assert (Sel : sel = ch1 \/ sel = ch2 \/ sel = ch3) by (cbn in Hsel; intuition auto).
  assert (Gc : gray_picture (component sel image) n 3) by (apply component_picture; auto).
  assert (Gr : gray_picture (component sel result) n 3) by (apply component_picture; auto).
  destruct (unused_read K e Hsh Hcor E HE Hk M HM gamma checks pad Hpad (depth_of fe) (component sel image) n [] 0 Hd ltac:(lia) Gc Hs Hu Hcap (NoBad _) (Hwith sel Hsel))
    as (mk & fs & q & bits & sig & Em & Hm & Eq & Q & Es & Sh).
  destruct (C42_watermark_preserves_size_layout_and_alpha K E equalize_histogram features_of checks pad image depth one 11 result Hw Er) as (_ & _ & _ & _ & _ & _ & H1 & H2 & H3).
  assert (mk = component sel result).
  { assert (X : watermark_channel Bops K E equalize_histogram features_of checks pad (component sel image) depth one 11 3 = Ok (component sel result)) by (destruct Sel as [ -> |[ -> | -> ]]; assumption).
    assert (Y : Ok mk = Ok (component sel result)) by (rewrite <- X; symmetry; exact Em). congruence. }
  subst mk.
  destruct (Sh (component sel result) Gr) as (px & rb & Epx & Exx & Ewm).
  { intros k v w Ev Ew _ _. assert (w = v) by congruence. subst w. rewrite Z.sub_diag. lia. }
  destruct (measured_1000 M HM gamma checks (component sel image) n 3 11 fs Gc Hn Hs ltac:(lia) Hm) as (Lf & Bf).
  destruct (quantization_inv Bops checks fs one q bits Eq) as (_ & _ & Lb).
  destruct (sign_verify E _ _ (vec_i64_to_bytes q) HE Hk) as (sig' & Es' & Ls & Bs & _). assert (sig' = sig) by congruence. subst sig'.
  destruct (payload_of pad bits sig 11 Hpad Bs Ls ltac:(lia) ltac:(lia)) as (pl & Ep & Bp & Lp & Edp).
  pose proof Gr as (W0 & H0 & _). rewrite W0, H0 in Epx.
  exists px, rb, (mkWatermark bits sig WATERMARK_TEXT), pl, fs. split; [exact Epx|]. split; [exact Exx|]. split; [exact Ewm|]. split; [exact Ep|]. split; [exact Hm|].
  split; [cbn [Codecs.signature]; rewrite <- Q; exact Es|].
  intros Hsmall target m ta Gt Hst Hut Hfit Hwt Eta. pose proof (usable_side m 3 Hut) as Hm2.
  destruct (gray_array target m 3 Gt) as (im & Eim & Him & Hcell). pose proof Gt as (W & H & Lt & _). rewrite W, H in Eim. assert (im = ta) by congruence. subst im.
  pose proof (payload_size_range 11 ltac:(lia)) as Hsz.
  assert (Hcapm : (stored_size m 3 (length pl) <= band_capacity m 3)%nat).
  { rewrite Lp. destruct Hfit as (H16 & Hfit). unfold carrying_blocks in Hfit. unfold band_capacity. change (2 ^ 3)%nat with 8%nat.
    apply Nat.div_le_lower_bound; [lia|]. assert (m / 16 <= m / 8)%nat by (apply Nat.div_le_compat_l; lia). nia. }
  destruct (C89_f64_destroyed_blocks_are_repaired K e Hsh Hcor ta m (depth_of fe) pl 0 [] Hd Him Hut Bp) as (out & Eo & Po & X);
    [rewrite Lp; lia|exact Hcapm|apply NoBad|intros bi bj Hi Hj Hb Hin; rewrite Lp in Hb; exact (Hwt ta Eta bi bj Hi Hj Hb Hin)|].
  destruct (array_gray out m 3 Po) as (Gout & Fout). exists out. split; [exact Eo|]. cbv zeta.
  destruct (turned_picture (mkGray m m (into_raw_vec out)) m Gout Hfit Hm2) as (Gf & Rf & Df & Uf).
  destruct (gray_array _ m 3 Gout) as (om & Eom & _ & Hcello). cbn [gwidth gheight gray_raw] in Eom. assert (om = out) by congruence. subst om.
  split; [exact Gf|]. split.
  { intros k v w Hlt Hv Hw'. rewrite (Uf k Hlt) in Hw'. cbn [gray_raw] in Hw'.
    assert (Hkm : (k < m * m)%nat) by (rewrite <- Lt; apply nth_error_Some; congruence).
    assert (I1 : (k / m < m)%nat) by (apply Nat.div_lt_upper_bound; lia). assert (I2 : (k mod m < m)%nat) by (apply Nat.mod_upper_bound; lia).
    pose proof (Hcell _ _ I1 I2) as A1. pose proof (Hcello _ _ I1 I2) as A2. unfold gray_pixel in A1, A2. cbn [gray_raw] in A2.
    assert (Hix : (m * (k / m) + k mod m = k)%nat) by (symmetry; apply Nat.div_mod; lia). rewrite Hix in A1, A2. rewrite Hv in A1. rewrite Hw' in A2.
    destruct (C32_f64_pixel_change_of_the_front_ends K ta m pl out Him) as (C1 & C2).
    destruct Hfe as [ <- |[ <- |[]]]; [exact (C1 Eo _ _ _ _ A1 A2)|exact (C2 Eo _ _ _ _ A1 A2)]. }
  set (forged := turned_below (mkGray m m (into_raw_vec out))) in *.
  assert (Shf : shows_watermark K forged depth 3 (mkWatermark bits sig WATERMARK_TEXT)).
  { destruct (gray_array forged m 3 Gf) as (rc & Erc & Prc & Hrc). exists rc, pl. split; [exact Erc|]. split; [|exact Edp]. apply X; [exact Prc|]. rewrite Lp.
    intros bi bj Hi Hj Hb _.
    assert (Eqt : block_total rc 3 bi bj = block_total out 3 bi bj); [|rewrite Eqt, Z.sub_diag; lia].
    rewrite !block_total_dsum. apply dsum_ext. intros p r Hp Hr'.
    assert (H8s : (8 * (m / 8) <= m)%nat) by (apply Nat.mul_div_le; lia).
    assert (Hi' : (8 * bi + p < m)%nat) by lia. assert (Hj' : (8 * bj + r < m)%nat) by lia.
    destruct Prc as ((Wr' & R0 & R1 & _) & _). pose proof Po as ((Hwf & D0 & D1 & _) & _).
    destruct (cell_bounds out (8 * bi + p) (8 * bj + r) Hwf ltac:(lia) ltac:(lia)) as (v & Ev1). destruct (cell_bounds rc (8 * bi + p) (8 * bj + r) Wr' ltac:(lia) ltac:(lia)) as (w & Ew).
    unfold pixel. rewrite Ev1, Ew.
    assert (Bk : block_of m (m * (8 * bi + p) + (8 * bj + r)) = (m / 8 * bi + bj)%nat) by (rewrite block_of_pixel by exact Hj'; now rewrite !place_div8 by assumption).
    pose proof (Df (m * (8 * bi + p) + (8 * bj + r))%nat v w) as D. rewrite Bk in D.
    specialize (D ltac:(rewrite Hcello in Ev1 by assumption; exact Ev1) ltac:(rewrite Hrc in Ew by assumption; exact Ew) Hb (fun x => x)). lia. }
  split; [exact Shf|].
  destruct (C99_f64_the_verdict_whenever_the_watermark_is_read K E HE Hk M HM gamma checks (component sel image) forged n m 3 3 depth 3 11 fs q bits sig WATERMARK_TEXT
        Gc Hs Hn Gf Hst Hm2 ltac:(lia) Hm Eq Es Shf) as (_ & ns & Hm' & _ & V).
  pose proof (C101_f64_upside_down_pictures_have_small_features M HM gamma checks forged m 11 ns Gf Hm2 Hst ltac:(lia) Rf Hm') as Sn.
  destruct (measured_1000 M HM gamma checks forged m 3 11 ns Gf Hm2 Hst ltac:(lia) Hm') as (Ln & _).
  destruct V as (V & _); [revert Sn; apply Forall_impl; intros x Hx; exact (proj2 (half_small x Hx))|].
  apply V. apply small_agree; [congruence|exact Bf|exact Hsmall|exact Sn].
Qed.
End Forged.

(** ** Colours away from black and white leave room for the marks *)
Lemma roomy_carriers fe ch n : In fe [command_line; web_page] -> gray_picture ch n 3 ->
  (forall k v, (block_of n k < carrying_blocks n)%nat -> nth_error (gray_raw ch) k = Some v -> margin_of fe <= v <= 255 - margin_of fe) ->
  carriers_withstand [] (depth_of fe) 0 ch n.
Proof.
  intros Hfe Hg Hm pixels Ep bi bj Hi Hj Hb _. left.
  destruct (gray_array _ n 3 Hg) as (im & Eim & Him & Hc). destruct Hg as (W & H & _). rewrite W, H in Eim. assert (im = pixels) by congruence. subst im.
  assert (V : forall p q, (p < 8)%nat -> (q < 8)%nat -> margin_of fe <= pixel pixels (8 * bi + p) (8 * bj + q) <= 255 - margin_of fe).
  { intros p q Hp Hq. destruct (block_cell pixels n Him bi bj p q) as (v & Ev & _); [exact Hi|exact Hj|exact Hp|exact Hq|]. unfold pixel. rewrite Ev.
    assert (H8s : (8 * (n / 8) <= n)%nat) by (apply Nat.mul_div_le; lia). assert (Hi' : (8 * bi + p < n)%nat) by lia. assert (Hj' : (8 * bj + q < n)%nat) by lia.
    rewrite (Hc _ _ Hi' Hj') in Ev. unfold gray_pixel in Ev. apply (Hm (n * (8 * bi + p) + (8 * bj + q))%nat v); [|exact Ev]. rewrite block_of_pixel by exact Hj'. rewrite !place_div8 by assumption. exact Hb. }
  assert (S : 0 <= strongest (depth_of fe) <= margin_of fe /\ 33 <= 2 * depth_of fe) by (destruct Hfe as [ <- |[ <- |[]]]; vm_compute; repeat split; discriminate).
  unfold excess, lack. rewrite !over_block_dsum. destruct S as (S1 & S2).
  rewrite (dsum_ext (fun p q => Z.max 0 (pixel pixels (8 * bi + p) (8 * bj + q) + strongest (depth_of fe) - 255)) (fun _ _ => 0)) by (intros p q Hp Hq; pose proof (V p q Hp Hq); lia).
  rewrite (dsum_ext (fun p q => Z.max 0 (strongest (depth_of fe) - pixel pixels (8 * bi + p) (8 * bj + q))) (fun _ _ => 0)) by (intros p q Hp Hq; pose proof (V p q Hp Hq); lia).
  rewrite dsum_const. lia.
Qed.

Section Forged512.
Context (K : ldpc) (e : nat) (Hsh : ldpc_shape K) (Hcor : corrects K e) (E : ed25519) (HE : signature_format E) (Hk : key_pair E PRIVATE_KEY PUBLIC_KEY).
Context (M : libm b64) (HM : accurate M) (gamma : b64 -> b64) (checks : bool) (pad : list bool) (Hpad : length pad = 8%nat).
Let features_of := zernike_f64 M gamma checks.
Let one : b64 := f_of_Z Bops 1.

(** *** C101 at 512 x 512: the donor's picture looks the same upside down and keeps the usual distance from black and white; of the target, only the upper half must. *)
Theorem C101_f64_from_one_upside_down_picture_everything_is_forged : forall fe image, In fe [command_line; web_page] ->
  well_formed image -> dimensions image = (512, 512)%nat -> colours_within (margin_of fe) image -> rev (get_pixels image) = get_pixels image ->
  let depth := f_of_Z Bops (depth_of fe) in
  exists result, watermark_image Bops K E equalize_histogram features_of checks pad image depth one 11 = Ok result
    /\ forall sel, In sel [ch1; ch2; ch3] -> exists donor read_bytes watermark copied features,
         measures equalize_histogram features_of (component sel image) 11 features
         /\ sign E (vec_i64_to_bytes (integer_parts features)) PRIVATE_KEY PUBLIC_KEY = Ok (Codecs.signature watermark)
         /\ from_shape_vec 512 512 (gray_raw (component sel result)) = Ok donor
         /\ extract Bops K donor depth 3 = Ok read_bytes /\ watermark_deserialize read_bytes = Ok watermark /\ watermark_serialize pad watermark = Ok copied
         /\ forall target target_array, gray_picture target 512 3 ->
            (forall k v, (k < 512 * 256)%nat -> nth_error (gray_raw target) k = Some v -> margin_of fe <= v <= 255 - margin_of fe) ->
            from_shape_vec 512 512 (gray_raw target) = Ok target_array ->
            exists forged_array, embed Bops K target_array copied depth 3 = Ok forged_array /\
              let forged := turned_below (mkGray 512 512 (into_raw_vec forged_array)) in
              gray_picture forged 512 3 /\ upper_halves_within (moves_at_most fe) target forged 512 /\ shows_watermark K forged depth 3 watermark
              /\ authenticate_channel Bops K E equalize_histogram features_of checks forged depth one 11 3 = Ok true.
Proof.
  intros fe image Hfe Hw Ed Hcol Hrev depth. destruct C83_512_is_usable as (A & B & C & D).
  assert (Gc : forall sel, In sel [ch1; ch2; ch3] -> gray_picture (component sel image) 512 3).
  { intros sel Hsel. apply component_picture; [exact Hw|exact Ed|cbn in Hsel; intuition auto|exact A|reflexivity]. }
  destruct (C101_f64_any_upper_half_can_be_forged K e Hsh Hcor E HE Hk M HM gamma checks pad Hpad fe image 512 Hfe Hw Ed A B C D) as (result & Er & X).
  { intros sel Hsel. apply (roomy_carriers fe _ 512 Hfe (Gc sel Hsel)). intros k v _ Ev. unfold component in Ev. cbn [gray_raw] in Ev.
    apply nth_error_In, in_map_iff in Ev as (p & <- & Hp). unfold colours_within in Hcol. rewrite Forall_forall in Hcol. exact (Hcol p Hp sel Hsel). }
  exists result. split; [exact Er|]. intros sel Hsel. destruct (X sel Hsel) as (px & rb & wm & cp & fs & E1 & E2 & E3 & E4 & Hm & Hsg & F).
  exists px, rb, wm, cp, fs. split; [exact Hm|]. split; [exact Hsg|]. split; [exact E1|]. split; [exact E2|]. split; [exact E3|]. split; [exact E4|]. intros target ta Gt Hmar Eta.
  assert (Small : small_features fs).
  { pose proof (C101_f64_upside_down_pictures_have_small_features M HM gamma checks (component sel image) 512 11 fs (Gc sel Hsel) ltac:(lia) B ltac:(lia)) as S.
    specialize (S ltac:(unfold component; cbn [gray_raw]; now rewrite <- map_rev, Hrev) Hm). revert S. apply Forall_impl. intros x (_ & Hx). lra. }
  apply (F Small target 512%nat ta Gt B C half_512); [|exact Eta]. apply (roomy_carriers fe target 512 Hfe Gt). intros k v Hb Ev. apply (Hmar k v); [|exact Ev]. now apply (proj2 C100_carrying_blocks_of_512).
Qed.
End Forged512.

(** ** Concrete case: the even colour picture as donor, stripes of grey levels 60 to 159 as the picture the forger wants *)
Definition stripes512 : gray := mkGray 512 512 (map (fun k => 60 + Z.of_nat (k mod 100)) (seq 0 (512 * 512))).
Lemma stripes512_pixel k v : nth_error (gray_raw stripes512) k = Some v -> 60 <= v <= 159.
Proof.
  intros H. unfold stripes512 in H. cbn [gray_raw] in H. apply nth_error_In, in_map_iff in H as (i & <- & _). pose proof (Nat.mod_upper_bound i 100 ltac:(lia)). lia.
Qed.
Lemma stripes512_picture : gray_picture stripes512 512 3.
Proof.
  split; [reflexivity|]. split; [reflexivity|]. unfold stripes512. cbn [gray_raw]. split; [now rewrite map_length, seq_length|]. split; [|split; [reflexivity|split; [lia|reflexivity]]].
  apply Forall_forall. intros v Hv. apply In_nth_error in Hv as (k & Hk'). apply stripes512_pixel in Hk'. unfold byte. lia.
Qed.
Lemma colour512_size : dimensions colour512 = (512, 512)%nat. Proof. reflexivity. Qed.
Lemma rev_repeat {A} (x : A) n : rev (repeat x n) = repeat x n.
Proof.
  apply nth_error_ext. intros k. destruct (Nat.lt_ge_cases k n) as [H|H].
  - rewrite nth_error_rev by (rewrite repeat_length; exact H). rewrite repeat_length. rewrite !nth_error_repeat by lia. reflexivity.
  - rewrite !(proj2 (nth_error_None _ _)); [reflexivity|rewrite repeat_length; exact H|rewrite rev_length, repeat_length; exact H].
Qed.
Lemma colour512_same : rev (get_pixels colour512) = get_pixels colour512. Proof. unfold colour512. cbn [get_pixels]. apply rev_repeat. Qed.
Opaque colour512 stripes512 watermark_image.
Example C101_instance : forall fe, In fe [command_line; web_page] -> exists result copied target_array forged_array,
  watermark_image Bops repairing_ldpc toy_ed equalize_histogram (zernike_f64 exact_libm (fun x => x) true) true (repeat false 8) colour512 (f_of_Z Bops (depth_of fe)) (f_of_Z Bops 1) 11 = Ok result
  /\ from_shape_vec 512 512 (gray_raw stripes512) = Ok target_array /\ embed Bops repairing_ldpc target_array copied (f_of_Z Bops (depth_of fe)) 3 = Ok forged_array
  /\ upper_halves_within (moves_at_most fe) stripes512 (turned_below (mkGray 512 512 (into_raw_vec forged_array))) 512
  /\ authenticate_channel Bops repairing_ldpc toy_ed equalize_histogram (zernike_f64 exact_libm (fun x => x) true) true (turned_below (mkGray 512 512 (into_raw_vec forged_array))) (f_of_Z Bops (depth_of fe)) (f_of_Z Bops 1) 11 3 = Ok true.
Proof.
  intros fe Hfe.
  assert (Hcol : colours_within (margin_of fe) colour512).
  { Transparent colour512. unfold colours_within, colour512. cbn [get_pixels]. apply Forall_forall. intros p Hp. apply repeat_spec in Hp. subst p.
    intros sel Hsel. cbn in Hsel. destruct Hfe as [ <- |[ <- |[]]]; destruct Hsel as [ <- |[ <- |[ <- |[]]]]; cbn [margin_of command_line web_page ch1 ch2 ch3]; lia. }
  Opaque colour512.
  destruct (C101_f64_from_one_upside_down_picture_everything_is_forged repairing_ldpc 1 repairing_shape repairing_corrects toy_ed toy_format toy_keys exact_libm exact_libm_accurate (fun x => x) true (repeat false 8) eq_refl fe colour512 Hfe colour512_wf colour512_size Hcol colour512_same)
    as (result & H1 & H2).
  destruct (H2 ch2 ltac:(cbn; tauto)) as (px & rb & wm & cp & fs & _ & _ & _ & _ & _ & _ & X).
  destruct (gray_array stripes512 512 3 stripes512_picture) as (ta & Eta & _).
  assert (Eta' : from_shape_vec 512 512 (gray_raw stripes512) = Ok ta) by exact Eta.
  destruct (X stripes512 ta stripes512_picture) as (fo & E5 & _ & U & _ & V).
  - intros k v _ Hv. apply stripes512_pixel in Hv. destruct Hfe as [ <- |[ <- |[]]]; cbn; lia.
  - exact Eta'.
  - exists result, cp, ta, fo. split; [exact H1|]. split; [exact Eta'|]. split; [exact E5|]. split; [exact U|exact V].
Qed.

Print Assumptions C101_f64_upside_down_pictures_have_small_features.
Print Assumptions C101_f64_any_upper_half_can_be_forged.
Print Assumptions C101_f64_from_one_upside_down_picture_everything_is_forged.
