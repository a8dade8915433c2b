(** Property C105: the hidden bits are the sums of the 8x8 blocks modulo eight depths.  So a picture that is made brighter by the right amount, or put together from
    blocks of several pictures that hide the same data, holds them too; and as brightening keeps the order of the pixels (C76), nobody notices
    (lib/sia/rust/embedding/src/lib.rs: extract; lib/sia/rust/embedding/src/io/steganography.rs; lib/sia/rust/watermarking/src/process.rs: authenticate_channel). *)
From Coq Require Import Reals Lra.
From Flocq Require Import Core BinarySingleNaN.
From Verif Require Import Outcome Floats FloatFacts Bits ListFacts Quantization QuantProofs QuantReal QuantFloat PropsQuant PropsQuant2 Codecs CodecProofs WatermarkProofs PropsCodec
  Encoding EncodingProofs PropsEncoding Matrix MatrixFacts Haar HaarProofs HaarReal HaarFloat PropsHaar Stego StegoProofs StegoMarks PropsStego Embedding EmbeddingProofs EmbeddingEffect PropsEmbedding PropsEmbedding2 PropsEmbedding3 PropsRobust
  Signature Process ProcessProofs Toy Zernike ZernikeProofs PropsZernike ZernikeBound PropsZernike2 ZernikeGen PropsZernikeF64 LibmSpec LibmExact PropsZernikeAcc
  PropsProcess PropsProcess2 Image PropsImage PropsProcess3 PropsProcess4 PropsProcess5 PropsProcess6 PropsTamper Equalize PropsEqualize PropsShipped PropsShipped2 PropsInteger PropsClipping PropsClipping2 PropsRepair PropsRepair2 PropsVerdict PropsUnused PropsForged.
Open Scope Z_scope.

(** ** Specification vocabulary *)
(** The block (bi, bj) of [received] has, up to [t] and up to a multiple of eight depths, the sum of that block of some picture into which the payload was embedded
    (and whose block kept its bit with [t] to spare, C88). *)
Definition carries_its_bit (K : ldpc) (n : nat) (depth : Z) (payload : list Z) (t : Z) (received : array2 Z) (bi bj : nat) : Prop :=
  exists image marked periods, picture image n 3 /\ embed Bops K image payload (f_of_Z Bops depth) 3 = Ok marked /\ withstands depth t image bi bj
    /\ Z.abs (block_total received 3 bi bj - (block_total marked 3 bi bj + 8 * depth * periods)) <= t.
(** Adding [c] to all pixels moves the sums of the blocks by nearly a multiple of eight depths. *)
Definition harmless_shift (depth c : Z) : Prop := exists periods, Z.abs (64 * c - 8 * depth * periods) <= 2 * depth - 33.
(** The channel with [c] added to every pixel (a picture again only if nothing leaves 0..255). *)
Definition brighter (c : Z) (a : gray) : gray := mkGray (gwidth a) (gheight a) (map (fun v => v + c) (gray_raw a)).

(** ** Proofs *)
Lemma decodes_corrects K : ldpc_shape K -> ldpc_decodes K -> corrects K 0.
Proof.
  intros (Hs & _) Hd c m r bad Hm Hl Hr Hb (La & Hag). destruct bad; [|cbn in Hb; lia]. destruct (Hs c m Hm Hl) as (L & B).
  rewrite <- (bytes_ext (ldpc_copy_encode K c m) r B Hr La); [apply (Hd c m Hm Hl)|]. intros k Hk. apply Hag; [exact Hk|intros []].
Qed.
(** *** C105: every block may come from another picture. *)
Theorem C105_f64_blocks_of_any_marked_pictures : forall K e, ldpc_shape K -> corrects K e ->
  forall received n depth payload t bad, 1 <= depth <= 4096 -> picture received n 3 -> usable n 3 -> bytes payload -> 1 <= Z.of_nat (length payload) <= 65533 ->
  (stored_size n 3 (length payload) <= band_capacity n 3)%nat -> at_most_per_group e (blocks_per_codeword n) bad ->
  (forall bi bj, (bi < n / 8)%nat -> (bj < n / 8)%nat -> (n / 8 * bi + bj < 8 * stored_size n 3 (length payload))%nat -> ~ In (n / 8 * bi + bj)%nat bad ->
     carries_its_bit K n depth payload t received bi bj) ->
  extract Bops K received (f_of_Z Bops depth) 3 = Ok payload.
Proof.
  intros K e Hsh Hcor rc n D payload t bad HD Prc (Hcod & Hmod) Hb Hl Hfit Hbad Hw. pose proof Prc as (Hrc & H8r). pose proof (corrects_decodes K e Hsh Hcor) as Hdec.
  destruct (b_of_Z_ok D) as (Fd & Vd); [lia|]. change (b_of_Z D) with (f_of_Z Bops D) in *.
  assert (D1 : (1 <= IZR D)%R) by (apply (IZR_le 1); lia). assert (D2 : (IZR D <= 4096)%R) by (apply (IZR_le _ 4096); lia).
  assert (Hd' : (bpow radix2 (- (0)) <= toR (f_of_Z Bops D) <= bpow radix2 20)%R) by (rewrite Vd; simpl bpow; lra).
  destruct (extract_payload Bops K rc n 3 (f_of_Z Bops D) payload Hrc Hsh Hdec Hcod Hmod Hb Hl Hfit) as (ser & enc & E1 & E2 & E3 & E4 & E5 & E6 & _).
  destruct (extract_run Bops K rc n 3 (f_of_Z Bops D) Hrc E5) as (C & Hdom & C0 & C1 & GC & EX). pose proof (carrier_band rc n 3 Hrc) as (Hsn & Hrep & Hdiv & _).
  pose proof (read_ok Bops (f_of_Z Bops D) (band n 3) C Hrep Hdom) as Erd. set (got := map _ _) in Erd.
  destruct (read_bits Bops (f_of_Z Bops D) (band n 3) C _ Hrep Hdom Erd) as (Ll & Hbits). pose proof (read_bytes Bops (f_of_Z Bops D) (band n 3) C _ Hrep Hdom Erd) as Bgot.
  clearbody got.
  assert (Hs0 : (0 < band n 3)%nat) by (destruct (band n 3); [cbn in E5; lia|lia]).
  assert (Good : forall k, (k < 8 * length enc)%nat -> ~ In k bad -> payload_bit enc k = payload_bit got k).
  { intros k Hk Hin. rewrite <- (nth_bits got), Hbits by lia.
    destruct (used_cell n 3 enc k Hs0 Hk E3) as (_ & Hk2). destruct (place_lt (band n 3) k Hs0 Hk2) as (P1 & P2).
    assert (PI : (n / 8 * (k / band n 3) + k mod band n 3 = k)%nat) by (change (n / 8)%nat with (band n 3); pose proof (Nat.div_mod k (band n 3) ltac:(lia)); lia).
    rewrite cell_bit_get by assumption. rewrite GC.
    assert (HA : approx n n (bpow radix2 (-24)) (transform Bops false n n 3 (get Bops (mapv (f_of_Z Bops) rc))) (transR false n n 3 (pixR rc))).
    { destruct Hrc as (_ & X0 & X1 & _). pose proof (pixR_bounded rc H8r) as Hbd. pose proof (pix_float rc H8r) as Hpx. rewrite X0, X1 in *. apply analysis_float; try assumption. lia. }
    destruct (HA (k / band n 3)%nat (k mod band n 3)%nat ltac:(lia) ltac:(lia)) as (FC & HC). rewrite coefficient_eq in HC by assumption. rewrite coefficient_sum in HC.
    assert (Hk8 : (n / 8 * (k / band n 3) + k mod band n 3 < 8 * length enc)%nat) by (rewrite PI; exact Hk).
    assert (Hk9 : (n / 8 * (k / band n 3) + k mod band n 3 < 8 * stored_size n 3 (length payload))%nat) by (unfold stored_size, band_capacity; fold (band n 3); rewrite <- E6; exact Hk8).
    assert (Hin' : ~ In (n / 8 * (k / band n 3) + k mod band n 3)%nat bad) by (rewrite PI; exact Hin).
    destruct (Hw _ _ P1 P2 Hk9 Hin') as (m & out & periods & Hp & Eo & Hwi & Hn).
    destruct (marked_sum K m n D payload out HD Hp Eo) as (ser' & enc' & E1' & E2' & HS).
    assert (ser' = ser) by congruence. subst ser'. unfold band_capacity in E2'. fold (band n 3) in E2'. assert (enc' = enc) by congruence. subst enc'.
    destruct (HS (k / band n 3)%nat (k mod band n 3)%nat t P1 P2 Hk8 Hwi) as (r & Hr). rewrite PI in Hr.
    pose proof (block_sum_range rc (k / band n 3) (k mod band n 3) H8r) as HT.
    revert HC Hr Hn HT. generalize (block_total rc 3 (k / band n 3) (k mod band n 3)) (block_total out 3 (k / band n 3) (k mod band n 3)). intros T T' HC Hr Hn HT.
    destruct (bit_read_near D (r + periods) (payload_bit enc k) T ltac:(lia) ltac:(lia)) as (B1 & B2).
    rewrite (bit_of_sum D _ T HD HT B2 FC HC). symmetry. exact B1. }
  set (cap := (band n 3 * band n 3 / 8)%nat) in *.
  assert (Lf : length (firstn (length enc) got) = length enc) by (rewrite firstn_length; lia).
  assert (Bf : bytes (firstn (length enc) got) /\ bytes (skipn (length enc) got)) by (apply Forall_app; rewrite firstn_skipn; exact Bgot). destruct Bf as (Bf & Bt).
  destruct (data_roundtrip payload [] ltac:(lia)) as (ser' & Eser & Lser & Hrt). rewrite app_nil_r in Hrt. assert (ser' = ser) by congruence. subst ser'.
  assert (Bser : bytes ser).
  { rewrite data_serialize_ok in Eser by lia. assert (E : ser = u16_to_le (Z.of_nat (length payload)) ++ payload) by congruence.
    rewrite E. apply Forall_app. split; [apply le_bytes_bytes|exact Hb]. }
  change (band_capacity n 3) with cap in *.
  assert (Hcw : codeword_size cap <> 0%nat).
  { intros E0. destruct (code_cases cap) as [(_ & c & _ & En & _)|(N & _)]; [|contradiction]. pose proof (n_pos c). lia. }
  rewrite EX, Erd. cbn [bind]. rewrite <- (firstn_skipn (length enc) got).
  rewrite (C89_wrong_bits_are_repaired K e Hsh Hcor cap ser enc (firstn (length enc) got) (skipn (length enc) got) bad Hcod Bser Bf Bt); [exact Hrt|lia| |exact E2| |].
  - rewrite skipn_length, Ll, E6. apply Nat.mod_divides in Hmod as (q & Hq); [|exact Hcw].
    set (p := ((length payload + 4 + message_size cap - 1) / message_size cap)%nat) in *.
    rewrite Hq at 1. replace (codeword_size cap * q - p * codeword_size cap)%nat with ((q - p) * codeword_size cap)%nat by nia. apply Nat.mod_mul. exact Hcw.
  - split; [now rewrite Lf|]. intros k Hk Hin. rewrite (Good k Hk Hin). rewrite <- (firstn_skipn (length enc) got) at 1. rewrite payload_bit_app, Lf.
    now rewrite (proj2 (Nat.ltb_lt _ _) Hk).
  - exact Hbad.
Qed.

(** The shifts in question, for the two front ends. *)
Theorem C105_which_shifts_are_harmless : forall c,
  (harmless_shift 100 c <-> In (c mod 25) [0; 1; 2; 10; 11; 12; 13; 14; 15; 23; 24])
  /\ (harmless_shift 500 c <-> 0 <= c mod 125 <= 15 \/ 48 <= c mod 125 <= 77 \/ 110 <= c mod 125).
Proof.
  intros c. split.
  - pose proof (Z.div_mod c 25 ltac:(lia)) as D. pose proof (Z.mod_pos_bound c 25 ltac:(lia)) as B. set (a := c / 25) in *. set (b := c mod 25) in *. clearbody a b. unfold harmless_shift. split.
    + intros (m & H). cbn [In]. assert (Hq : m = 2 * a \/ m = 2 * a + 1 \/ m = 2 * a + 2) by lia. destruct Hq as [ -> |[ -> | -> ]]; lia.
    + intros H. exists (2 * a + (if b <=? 2 then 0 else if b <=? 15 then 1 else 2)). cbn in H.
      destruct (Z.leb_spec b 2); [lia|]. destruct (Z.leb_spec b 15); lia.
  - pose proof (Z.div_mod c 125 ltac:(lia)) as D. pose proof (Z.mod_pos_bound c 125 ltac:(lia)) as B. set (a := c / 125) in *. set (b := c mod 125) in *. clearbody a b. unfold harmless_shift. split.
    + intros (m & H). assert (Hq : m = 2 * a \/ m = 2 * a + 1 \/ m = 2 * a + 2) by lia. destruct Hq as [ -> |[ -> | -> ]]; lia.
    + intros [H|[H|H]]; [exists (2 * a)|exists (2 * a + 1)|exists (2 * a + 2)]; lia.
Qed.

Section Bright.
Context (K : ldpc) (Hsh : ldpc_shape K) (Hdec : ldpc_decodes K) (E : ed25519) (HE : signature_format E) (Hk : key_pair E PRIVATE_KEY PUBLIC_KEY).
Context (M : libm b64) (HM : accurate M) (gamma : b64 -> b64) (checks : bool) (pad : list bool) (Hpad : length pad = 8%nat).
Let features_of := zernike_f64 M gamma checks.
Let one : b64 := f_of_Z Bops 1.

Lemma roomy_block fe im n bi bj t : In fe [command_line; web_page] -> picture im n 3 -> (bi < n / 8)%nat -> (bj < n / 8)%nat -> t <= 2 * depth_of fe - 33 ->
  (forall i j v, cell im i j = Some v -> margin_of fe <= v <= 255 - margin_of fe) -> withstands (depth_of fe) t im bi bj.
Proof.
  intros Hfe Him Hi Hj Ht Hm. left.
  assert (V : forall p q, (p < 8)%nat -> (q < 8)%nat -> margin_of fe <= pixel im (8 * bi + p) (8 * bj + q) <= 255 - margin_of fe).
  { intros p q Hp Hq. destruct (block_cell im n Him bi bj p q) as (v & Ev & _); [exact Hi|exact Hj|exact Hp|exact Hq|]. unfold pixel. rewrite Ev. exact (Hm _ _ v Ev). }
  assert (S : 0 <= strongest (depth_of fe) <= margin_of fe) by (destruct Hfe as [ <- |[ <- |[]]]; vm_compute; repeat split; discriminate).
  unfold excess, lack. rewrite !over_block_dsum.
  rewrite (dsum_ext (fun p q => Z.max 0 (pixel im (8 * bi + p) (8 * bj + q) + strongest (depth_of fe) - 255)) (fun _ _ => 0)) by (intros p q Hp Hq; pose proof (V p q Hp Hq); lia).
  rewrite (dsum_ext (fun p q => Z.max 0 (strongest (depth_of fe) - pixel im (8 * bi + p) (8 * bj + q))) (fun _ _ => 0)) by (intros p q Hp Hq; pose proof (V p q Hp Hq); lia).
  rewrite dsum_const. lia.
Qed.

(** *** C105 for the shipped scheme: a watermarked channel brightened (or darkened) by a harmless amount gets the verdict of the watermarked channel. *)
Theorem C105_f64_brightened_pictures_get_the_same_verdict : forall fe image n, In fe [command_line; web_page] ->
  well_formed image -> dimensions image = (n, n) -> (n mod 8 = 0)%nat -> side_ok n -> usable n 3 ->
  (stored_size n 3 (payload_size 11) <= band_capacity n 3)%nat -> colours_within (margin_of fe) image ->
  let depth := f_of_Z Bops (depth_of fe) in
  exists result, watermark_image Bops K E equalize_histogram features_of checks pad image depth one 11 = Ok result
    /\ forall sel c, In sel [ch1; ch2; ch3] -> harmless_shift (depth_of fe) c -> bytes (gray_raw (brighter c (component sel result))) ->
       authenticate_channel Bops K E equalize_histogram features_of checks (brighter c (component sel result)) depth one 11 3
       = authenticate_channel Bops K E equalize_histogram features_of checks (component sel result) depth one 11 3
       /\ exists pixels pixels' payload, from_shape_vec n n (gray_raw (component sel result)) = Ok pixels /\ from_shape_vec n n (gray_raw (brighter c (component sel result))) = Ok pixels'
          /\ extract Bops K pixels depth 3 = Ok payload /\ extract Bops K pixels' depth 3 = Ok payload.
Proof.
  intros fe image n Hfe Hw Ed Hm8 Hs Hu Hcap Hcol depth. pose proof (usable_side n 3 Hu) as Hn.
  assert (Hr : Z.of_nat (n * n) < 2 ^ 53) by (unfold side_ok in Hs; rewrite Nat2Z.inj_mul; nia).
  assert (HD : 1 <= depth_of fe <= 4096) by (destruct Hfe as [ <- |[ <- |[]]]; cbn; lia).
  destruct (C83_f64_the_scheme_as_shipped K Hsh Hdec E HE Hk M HM gamma checks pad Hpad fe image n Hfe Hw Ed Hm8 Hs Hu Hcap Hcol) as (result & Er & Wr & Dr & _).
  exists result. split; [exact Er|]. intros sel c Hsel (m & Hm) Hby.
  assert (Sel : sel = ch1 \/ sel = ch2 \/ sel = ch3) by (cbn in Hsel; intuition auto).
  assert (Gc : gray_picture (component sel image) n 3) by (apply component_picture; auto).
  assert (Gr : gray_picture (component sel result) n 3) by (apply component_picture; auto).
  assert (Gb : gray_picture (brighter c (component sel result)) n 3).
  { destruct Gr as (A1 & A2 & A3 & _ & A4). unfold gray_picture, brighter in *. cbn [gwidth gheight gray_raw] in *. rewrite map_length. auto. }
  destruct (C42_watermark_preserves_size_layout_and_alpha K E equalize_histogram features_of checks pad image depth one 11 result Hw Er) as (_ & _ & _ & _ & _ & _ & H1 & H2 & H3).
  assert (X : watermark_channel Bops K E equalize_histogram features_of checks pad (component sel image) depth one 11 3 = Ok (component sel result)) by (destruct Sel as [ -> |[ -> | -> ]]; assumption).
  apply watermark_inv in X as (im & fs & q & bits & sig & pl & out & Eim & Hme & Eq & Es & Ep & Eo & Em).
  destruct (measured_1000 M HM gamma checks (component sel image) n 3 11 fs Gc Hn Hs ltac:(lia) Hme) as (Lf & _).
  destruct (payload_length E HE Hk checks pad Hpad fs q bits sig pl Lf Eq Es Ep) as (Bp & Lp & _).
  pose proof (payload_size_range 11 ltac:(lia)) as Hsz.
  destruct (gray_array _ n 3 Gc) as (im' & Eim' & Him & Hcell). assert (im' = im) by congruence. subst im'.
  destruct (gray_array _ n 3 Gr) as (om & Eom & Pom & Ocell). destruct (gray_array _ n 3 Gb) as (bm & Ebm & Pbm & Bcell).
  pose proof Gr as (W & H & _). rewrite W, H in Eom. pose proof Gb as (W' & H' & _). rewrite W', H' in Ebm.
  assert (om = out).
  { pose proof Him as ((Wf & D0 & D1 & P) & H8). destruct (C35_embed_keeps_the_shape K im pl depth 3 out Wf Eo) as (O8 & O0 & O1).
    assert (Hpo : picture out n 3) by (split; [split; [apply O8|]; split; [congruence|]; split; [congruence|exact P]|exact O8]).
    destruct (array_gray out n 3 Hpo) as (_ & Fm). rewrite Em in Eom. cbn [gray_raw] in Eom. congruence. }
  subst om.
  assert (Mar : forall i j v, cell im i j = Some v -> margin_of fe <= v <= 255 - margin_of fe).
  { intros i j v Ev. pose proof Him as ((Wf & D0 & D1 & _) & _). destruct (cell_some_lt im n 3 i j v (proj1 Him) Ev) as (Li & Lj).
    rewrite (Hcell i j Li Lj) in Ev. unfold gray_pixel in Ev. apply nth_error_In in Ev. unfold component in Ev. cbn [gray_raw] in Ev. apply in_map_iff in Ev as (p & <- & Hp).
    unfold colours_within in Hcol. rewrite Forall_forall in Hcol. exact (Hcol p Hp sel Hsel). }
  assert (Ext : forall rc periods t, picture rc n 3 -> 0 <= t <= 2 * depth_of fe - 33 -> (forall bi bj, (bi < n / 8)%nat -> (bj < n / 8)%nat -> Z.abs (block_total rc 3 bi bj - (block_total out 3 bi bj + 8 * depth_of fe * periods)) <= t) ->
    extract Bops K rc depth 3 = Ok pl).
  { intros rc periods t Prc Ht Hb. apply (C105_f64_blocks_of_any_marked_pictures K 0 Hsh (decodes_corrects K Hsh Hdec) rc n (depth_of fe) pl t []); auto; [rewrite Lp; lia|rewrite Lp; exact Hcap|intros w; cbn; lia|].
    intros bi bj Hi Hj _ _. exists im, out, periods. split; [exact Him|]. split; [exact Eo|]. split; [|apply Hb; assumption]. apply (roomy_block fe im n bi bj t Hfe Him Hi Hj); [lia|exact Mar]. }
  assert (E1 : extract Bops K out depth 3 = Ok pl).
  { apply (Ext out 0 0 Pom); [destruct Hfe as [ <- |[ <- |[]]]; cbn; lia|]. intros bi bj _ _. rewrite Z.mul_0_r, Z.add_0_r, Z.sub_diag. cbn. lia. }
  assert (E2 : extract Bops K bm depth 3 = Ok pl).
  { apply (Ext bm m (2 * depth_of fe - 33) Pbm); [destruct Hfe as [ <- |[ <- |[]]]; cbn; lia|]. intros bi bj Hi Hj.
    assert (T : block_total bm 3 bi bj = block_total out 3 bi bj + 64 * c).
    { rewrite !block_total_dsum. etransitivity; [apply (dsum_ext _ (fun p q => 1 * pixel out (8 * bi + p) (8 * bj + q) + 0 * 0 + c))|rewrite dsum_lin; lia].
      intros p r Hp Hr'. assert (H8s : (8 * (n / 8) <= n)%nat) by (apply Nat.mul_div_le; lia). assert (Hi' : (8 * bi + p < n)%nat) by lia. assert (Hj' : (8 * bj + r < n)%nat) by lia.
      destruct (block_cell out n Pom bi bj p r) as (v & Ev & _); [exact Hi|exact Hj|exact Hp|exact Hr'|].
      assert (Ew : cell bm (8 * bi + p) (8 * bj + r) = Some (v + c)).
      { rewrite (Bcell _ _ Hi' Hj'). rewrite (Ocell _ _ Hi' Hj') in Ev. unfold gray_pixel, brighter in *. cbn [gray_raw]. now rewrite nth_error_map, Ev. }
      unfold pixel. rewrite Ev, Ew. lia. }
    rewrite T. lia. }
  split; [|exists out, bm, pl; auto].
  apply (C76_same_order_same_payload_same_verdict Bops K E features_of checks (component sel result) (brighter c (component sel result)) n 3 depth one 11 Gr Gb).
  - unfold brighter. cbn [gray_raw]. apply C76_tone_curves_keep_the_order. intros; lia.
  - intros a b Ea Eb. assert (a = out) by congruence. assert (b = bm) by congruence. subst a b. congruence.
Qed.
End Bright.


(** ** The hypotheses are met: a picture marked by the command line and brightened by 12 or 25 levels, or marked by the web page and brightened by 50. *)
Lemma shifted_bytes c (a b : dynimage) sel bound : well_formed b -> In sel [ch1; ch2; ch3] -> changes_at_most bound a b -> length (get_pixels a) = length (get_pixels b) ->
  (forall p, In p (get_pixels a) -> bound <= sel p + c <= 255 - bound) -> bytes (gray_raw (brighter c (component sel b))).
Proof.
  intros _ Hsel Hch Hl Hp. unfold bytes, brighter, component. cbn [gray_raw]. rewrite Forall_forall. intros v Hv. apply in_map_iff in Hv as (x & <- & Hx). apply in_map_iff in Hx as (q & <- & Hq).
  apply In_nth_error in Hq as (k & Ek). assert (Hk : (k < length (get_pixels a))%nat) by (rewrite Hl; apply nth_error_Some; congruence).
  destruct (nth_error (get_pixels a) k) as [p|] eqn:Ep; [|apply nth_error_None in Ep; lia]. destruct (Hch k p q Ep Ek) as (H1 & H2 & H3 & _).
  specialize (Hp p (nth_error_In _ _ Ep)). unfold byte. cbn in Hsel. destruct Hsel as [ <- |[ <- |[ <- |[]]]]; lia.
Qed.
Opaque colour512 watermark_image.
Example C105_instance : forall fe c, In (fe, c) [(command_line, 12); (command_line, 25); (web_page, 50)] -> exists result,
  watermark_image Bops toy_ldpc toy_ed equalize_histogram (zernike_f64 exact_libm (fun x => x) true) true (repeat false 8) colour512 (f_of_Z Bops (depth_of fe)) (f_of_Z Bops 1) 11 = Ok result
  /\ forall sel, In sel [ch1; ch2; ch3] -> bytes (gray_raw (brighter c (component sel result)))
     /\ authenticate_channel Bops toy_ldpc toy_ed equalize_histogram (zernike_f64 exact_libm (fun x => x) true) true (brighter c (component sel result)) (f_of_Z Bops (depth_of fe)) (f_of_Z Bops 1) 11 3
        = authenticate_channel Bops toy_ldpc toy_ed equalize_histogram (zernike_f64 exact_libm (fun x => x) true) true (component sel result) (f_of_Z Bops (depth_of fe)) (f_of_Z Bops 1) 11 3.
Proof.
  intros fe c Hfc. destruct C83_512_is_usable as (A & B & C & D).
  assert (Hfe : In fe [command_line; web_page]) by (destruct Hfc as [X|[X|[X|[]]]]; injection X as <- _; cbn; auto).
  assert (Ed : dimensions colour512 = (512, 512)%nat) by reflexivity.
  assert (Hcs : harmless_shift (depth_of fe) c).
  { destruct Hfc as [X|[X|[X|[]]]]; injection X as <- <-; [exists 1|exists 2|exists 1]; cbn; lia. }
  assert (Hcol : colours_within (margin_of fe) colour512).
  { Transparent colour512. unfold colours_within, colour512. cbn [get_pixels]. apply Forall_forall. intros p Hp. apply repeat_spec in Hp. subst p.
    intros sel Hsel. cbn in Hsel. destruct Hfe as [ <- |[ <- |[]]]; destruct Hsel as [ <- |[ <- |[ <- |[]]]]; cbn [margin_of command_line web_page ch1 ch2 ch3]; lia. }
  assert (Hrange : forall sel p, In sel [ch1; ch2; ch3] -> In p (get_pixels colour512) -> moves_at_most fe <= sel p + c <= 255 - moves_at_most fe).
  { unfold colour512. cbn [get_pixels]. intros sel p Hsel Hp. apply repeat_spec in Hp. subst p. cbn in Hsel.
    destruct Hfc as [X|[X|[X|[]]]]; injection X as <- <-; destruct Hsel as [ <- |[ <- |[ <- |[]]]]; cbn [moves_at_most command_line web_page ch1 ch2 ch3]; lia. }
  Opaque colour512.
  destruct (C83_f64_the_scheme_as_shipped toy_ldpc toy_shape toy_decodes toy_ed toy_format toy_keys exact_libm exact_libm_accurate (fun x => x) true (repeat false 8) eq_refl fe colour512 512 Hfe colour512_wf Ed A B C D Hcol)
    as (result & H1 & Wr & Dr & Hch & _).
  destruct (C105_f64_brightened_pictures_get_the_same_verdict toy_ldpc toy_shape toy_decodes toy_ed toy_format toy_keys exact_libm exact_libm_accurate (fun x => x) true (repeat false 8) eq_refl fe colour512 512 Hfe colour512_wf Ed A B C D Hcol)
    as (result' & H1' & Hv).
  assert (result' = result) by (assert (X : Ok result' = Ok result) by (rewrite <- H1'; exact H1); congruence). subst result'.
  exists result. split; [exact H1|]. intros sel Hsel.
  assert (Hb : bytes (gray_raw (brighter c (component sel result)))).
  { apply (shifted_bytes c colour512 result sel (moves_at_most fe) Wr Hsel Hch); [|intros p Hp; exact (Hrange sel p Hsel Hp)].
    unfold well_formed in Wr. rewrite Dr in Wr. pose proof colour512_wf as Lc. unfold well_formed in Lc. rewrite Ed in Lc. exact (eq_trans (proj1 Lc) (eq_sym (proj1 Wr))). }
  split; [exact Hb|]. exact (proj1 (Hv sel c Hsel Hcs Hb)).
Qed.

Print Assumptions C105_f64_blocks_of_any_marked_pictures.
Print Assumptions C105_which_shifts_are_harmless.
Print Assumptions C105_f64_brightened_pictures_get_the_same_verdict.
