(** Property C88, whole pictures: the scheme as it is shipped (see PropsShipped) with pictures that do reach black and white. *)
From Coq Require Import Reals Lra.
From Flocq Require Import Core BinarySingleNaN.
From Verif Require Import Outcome Floats FloatFacts Bits ListFacts Quantization QuantProofs QuantReal QuantFloat PropsQuant PropsQuant2 Codecs CodecProofs WatermarkProofs PropsCodec
  Encoding EncodingProofs PropsEncoding Matrix MatrixFacts Haar HaarProofs HaarReal PropsHaar Stego StegoProofs StegoMarks PropsStego Embedding EmbeddingProofs EmbeddingEffect PropsEmbedding PropsEmbedding2 PropsRobust
  Signature Process ProcessProofs Toy Zernike ZernikeProofs PropsZernike ZernikeBound PropsZernike2 ZernikeGen PropsZernikeF64 LibmSpec LibmExact PropsZernikeAcc
  PropsProcess PropsProcess2 Image PropsImage PropsProcess3 PropsProcess4 PropsProcess5 PropsProcess6 PropsTamper Equalize PropsEqualize PropsShipped PropsInteger PropsClipping.
Open Scope Z_scope.

(** ** Specification vocabulary *)
(** Every 8x8 block of the channel keeps its bit although pixels are cut, and however the pixels are changed by up to [t] levels afterwards. *)
Definition channel_withstands (depth t : Z) (channel : gray) (n : nat) : Prop :=
  forall pixels, from_shape_vec n n (gray_raw channel) = Ok pixels ->
  forall bi bj, (bi < n / 8)%nat -> (bj < n / 8)%nat -> withstands depth (64 * t) pixels bi bj.
(** A front end with another tolerance to later changes. *)
Definition with_tolerance (fe : front_end) (t : Z) : front_end := mkFrontEnd (depth_of fe) (margin_of fe) (moves_at_most fe) t.

Section Cut.
Context (K : ldpc) (Hsh : ldpc_shape K) (Hdec : ldpc_decodes K) (E : ed25519) (HE : signature_format E) (Hk : key_pair E PRIVATE_KEY PUBLIC_KEY).
Context (M : libm b64) (HM : accurate M) (gamma : b64 -> b64) (checks : bool) (pad : list bool) (Hpad : length pad = 8%nat).
Let features_of := zernike_f64 M gamma checks.
Let one : b64 := f_of_Z Bops 1.

(** *** C88: as C83, but the colours may reach black and white: it is enough that every block withstands the cutting. *)
Theorem C88_f64_the_shipped_scheme_with_cut_pixels : forall fe image n t, In fe [command_line; web_page] ->
  well_formed image -> dimensions image = (n, n) -> (n mod 8 = 0)%nat -> side_ok n -> usable n 3 ->
  (stored_size n 3 (payload_size 11) <= band_capacity n 3)%nat ->
  (forall sel, In sel [ch1; ch2; ch3] -> channel_withstands (depth_of fe) t (component sel image) n) ->
  exists result, watermark_image Bops K E equalize_histogram features_of checks pad image (f_of_Z Bops (depth_of fe)) one 11 = Ok result
    /\ well_formed result /\ dimensions result = (n, n) /\ changes_at_most (moves_at_most fe) image result
    /\ forall sel, In sel [ch1; ch2; ch3] -> exists features quantised bits sig,
         measures equalize_histogram features_of (component sel image) 11 features /\ length features = 11%nat
         /\ three_bit_quantization Bops checks features one = Ok (quantised, bits)
         /\ sign E (vec_i64_to_bytes quantised) PRIVATE_KEY PUBLIC_KEY = Ok sig
         /\ readable K E M gamma checks (with_tolerance fe t) (component sel result) n quantised bits sig.
Proof.
  intros fe image n t Hfe Hw Ed Hm8 Hs Hu Hcap Hcut.
  assert (Hr : Z.of_nat (n * n) < 2 ^ 53) by (unfold side_ok in Hs; rewrite Nat2Z.inj_mul; nia).
  assert (Sel : forall sel, In sel [ch1; ch2; ch3] -> sel = ch1 \/ sel = ch2 \/ sel = ch3) by (intros sel Hsel; cbn in Hsel; intuition auto).
  assert (Hd : 1 <= depth_of fe <= 4096) by (destruct Hfe as [ <- |[ <- |[]]]; cbn; lia).
  apply (shipped_image K E M gamma checks pad Hpad (with_tolerance fe t)); try assumption; [destruct Hfe as [ <- |[ <- |[]]]; [left|right]; split; reflexivity|].
  intros sel Hsel. assert (Hg : gray_picture (component sel image) n 3) by (apply component_picture; auto).
  destruct (gray_array _ n 3 Hg) as (im & Eim & Him & _).
  apply (shipped_channel_gen K E HE Hk M HM gamma checks pad Hpad (with_tolerance fe t) _ n im Hg Hs Hu Eim). cbn [with_tolerance depth_of survives].
  intros pl Bp Lp. pose proof (payload_size_range 11 ltac:(lia)) as Hsz. destruct Hg as (W & H & _). rewrite W, H in Eim.
  destruct (C88_f64_how_much_cutting_is_harmless K Hsh Hdec im n (depth_of fe) pl (64 * t) Hd Him Hu Bp) as (out & Eo & Po & X); [rewrite Lp; lia|rewrite Lp; exact Hcap| |].
  - intros bi bj Hi Hj _. exact (Hcut sel Hsel im Eim bi bj Hi Hj).
  - exists out. split; [exact Eo|]. split; [exact Po|]. intros rc Prc Hn. apply X; [exact Prc|]. now apply noise_sums.
Qed.
End Cut.

(** ** Concrete case: an all white RGBA picture (which keeps no distance from white at all), both front ends, two levels of later change. *)
Definition white512 : dynimage := ImageRgba8 512 512 (repeat (255, 255, 255, 77) (512 * 512)).
Lemma white512_wf : well_formed white512.
Proof.
  unfold well_formed, white512. cbn [dimensions get_pixels has_alpha has_color]. split; [apply repeat_length|]. split; [|split; discriminate].
  apply Forall_repeat. unfold pixel8, byte. cbn. lia.
Qed.
Lemma white512_withstands fe sel : In fe [command_line; web_page] -> In sel [ch1; ch2; ch3] -> channel_withstands (depth_of fe) 2 (component sel white512) 512.
Proof.
  intros Hfe Hsel pixels Ep bi bj Hi Hj. right. split; [|split; [destruct Hfe as [ <- |[ <- |[]]]; [now left|now right]|lia]].
  intros p q Hp Hq.
  assert (Hg : gray_picture (component sel white512) 512 3).
  { apply component_picture; [exact white512_wf|reflexivity|cbn in Hsel; intuition auto|reflexivity|]. change 512%nat with (Z.to_nat 512). rewrite <- Z2Nat.inj_mul, Z2Nat.id by lia. reflexivity. }
  destruct (gray_array _ 512 3 Hg) as (im & Eim & Him & Hc). destruct Hg as (W & H & _). rewrite W, H in Eim. assert (im = pixels) by congruence. subst im.
  change (512 / 8)%nat with 64%nat in *. assert (Ha : (8 * bi + p < 512)%nat) by lia. assert (Hb : (8 * bj + q < 512)%nat) by lia.
  destruct (block_cell pixels 512 Him bi bj p q) as (v & Ev & _); [exact Hi|exact Hj|exact Hp|exact Hq|]. unfold pixel. rewrite Ev. rewrite (Hc _ _ Ha Hb) in Ev.
  unfold gray_pixel in Ev. apply nth_error_In in Ev. unfold component, white512 in Ev. cbn [gray_raw get_pixels] in Ev. apply in_map_iff in Ev as (px & <- & Hpx).
  apply repeat_spec in Hpx. subst px. cbn in Hsel. destruct Hsel as [ <- |[ <- |[ <- |[]]]]; reflexivity.
Qed.
Example C88_instance : forall fe, In fe [command_line; web_page] -> exists result,
  watermark_image Bops toy_ldpc toy_ed equalize_histogram (zernike_f64 exact_libm (fun x => x) true) true (repeat false 8) white512 (f_of_Z Bops (depth_of fe)) (f_of_Z Bops 1) 11 = Ok result
  /\ changes_at_most (moves_at_most fe) white512 result.
Proof.
  intros fe Hfe. destruct C83_512_is_usable as (A & B & C & D).
  destruct (C88_f64_the_shipped_scheme_with_cut_pixels toy_ldpc toy_shape toy_decodes toy_ed toy_format toy_keys exact_libm exact_libm_accurate (fun x => x) true (repeat false 8) eq_refl fe white512 512 2 Hfe white512_wf eq_refl A B C D)
    as (result & H1 & _ & _ & H2 & _); [|exists result; split; assumption]. intros sel Hsel. now apply white512_withstands.
Qed.

Print Assumptions C88_f64_the_shipped_scheme_with_cut_pixels.
