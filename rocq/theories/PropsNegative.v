(** Property C113: photographic negatives (every pixel v becomes 255 - v).  The negative of a channel marked by the command line still shows the watermark and is judged;
    in the negative of a channel marked by the web page every hidden bit is read inverted
    (lib/sia/rust/embedding/src/lib.rs: embed, extract; lib/sia/rust/watermarking/src/process.rs: watermark_channel, authenticate_channel; cli/src/main.rs and web/src/lib.rs: the depths 100 and 500). *)
From Coq Require Import Reals Lra Permutation.
From Flocq Require Import Core BinarySingleNaN.
From Verif Require Import Outcome Floats FloatFacts Bits ListFacts Quantization QuantProofs QuantReal QuantFloat PropsQuant PropsQuant2 Codecs CodecProofs WatermarkProofs PropsCodec
  Encoding EncodingProofs PropsEncoding Matrix MatrixFacts Haar HaarProofs HaarReal HaarFloat PropsHaar Stego StegoProofs StegoMarks PropsStego Embedding EmbeddingProofs EmbeddingEffect PropsEmbedding PropsEmbedding2 PropsEmbedding3 PropsRobust
  Signature Process ProcessProofs Toy Zernike ZernikeProofs PropsZernike ZernikeBound PropsZernike2 ZernikeGen PropsZernikeF64 LibmSpec LibmExact PropsZernikeAcc
  PropsProcess PropsProcess2 Image PropsImage PropsProcess3 PropsProcess4 PropsProcess5 PropsProcess6 PropsTamper Equalize PropsEqualize PropsShipped PropsShipped2 PropsInteger PropsClipping PropsClipping2 PropsRepair PropsRepair2 PropsVerdict PropsUnused PropsForged PropsBright PropsBlockwise.
Open Scope Z_scope.

(** ** Specification vocabulary *)
(** The negative of a channel, and of an array of pixels. *)
Definition negative (a : gray) : gray := mkGray (gwidth a) (gheight a) (map (fun v => 255 - v) (gray_raw a)).
Definition negative_pixels (a b : array2 Z) : Prop := forall i j v, cell a i j = Some v -> cell b i j = Some (255 - v).
(** 64 * 255 = 16320 is the sum of a white block: mirroring the sums at it keeps, or inverts, the bits of all blocks that withstand [t]. *)
Definition mirror_keeps (depth t : Z) : Prop := exists periods, Z.abs (16320 - 4 * depth - 8 * depth * periods) <= t.
Definition mirror_inverts (depth t : Z) : Prop := exists periods, Z.abs (16320 - 8 * depth * periods) <= t.

(** ** Proofs *)
Lemma mirrored_sum n a b bi bj : picture a n 3 -> negative_pixels a b -> (bi < n / 8)%nat -> (bj < n / 8)%nat -> block_total b 3 bi bj = 16320 - block_total a 3 bi bj.
Proof.
  intros Ha Hn Hi Hj. rewrite !block_total_dsum.
  etransitivity; [apply (PropsClipping.dsum_ext _ (fun p q => (-1) * pixel a (8 * bi + p) (8 * bj + q) + 0 * 0 + 255))|rewrite PropsClipping.dsum_lin; lia].
  intros p q Hp Hq. destruct (block_cell a n Ha bi bj p q) as (v & Ev & _); [exact Hi|exact Hj|exact Hp|exact Hq|].
  unfold pixel. rewrite Ev, (Hn _ _ _ Ev). lia.
Qed.

(** *** C113: the bits of a negative. *)
Theorem C113_f64_the_bits_of_a_negative : forall K image n depth payload marked received t, 1 <= depth <= 4096 -> picture image n 3 ->
  embed Bops K image payload (f_of_Z Bops depth) 3 = Ok marked -> picture received n 3 -> negative_pixels marked received ->
  exists frame stored bytes_read, data_serialize payload = Ok frame /\ encode K frame (band_capacity n 3) = Ok stored
    /\ extract Bops K received (f_of_Z Bops depth) 3 = bind (decode K bytes_read (band_capacity n 3)) data_deserialize
    /\ length bytes_read = band_capacity n 3 /\ bytes bytes_read
    /\ forall bi bj, (bi < n / 8)%nat -> (bj < n / 8)%nat -> (n / 8 * bi + bj < 8 * length stored)%nat -> withstands depth t image bi bj ->
         (mirror_keeps depth t -> payload_bit bytes_read (n / 8 * bi + bj) = payload_bit stored (n / 8 * bi + bj))
         /\ (mirror_inverts depth t -> payload_bit bytes_read (n / 8 * bi + bj) = negb (payload_bit stored (n / 8 * bi + bj))).
Proof.
  intros K m n D pl out rc t HD Hp Eo Prc Hneg. pose proof Hp as (Hc & H8).
  destruct (embed_inv Bops K m n 3 _ pl out Hc Eo) as (H9 & ser0 & enc0 & X1 & X2 & X3).
  destruct (marked_sum K m n D pl out HD Hp Eo) as (frame & stored & E1 & E2 & HS).
  destruct (C86_f64_extraction_in_integers K rc n D HD Prc H9) as (got & Lg & Bg & Hbits & EX).
  assert (Po : picture out n 3).
  { destruct (C35_embed_keeps_the_shape K m pl (f_of_Z Bops D) 3 out (proj1 Hc) Eo) as (O8 & O0 & O1). pose proof Hc as (_ & D0 & D1 & P).
    split; [split; [apply O8|]; split; [congruence|]; split; [congruence|exact P]|exact O8]. }
  exists frame, stored, got. split; [exact E1|]. split; [exact E2|]. split; [exact EX|]. split; [exact Lg|]. split; [exact Bg|].
  intros bi bj Hi Hj Hk Hw. destruct (HS bi bj t Hi Hj Hk Hw) as (r & Hr). set (k := (n / 8 * bi + bj)%nat) in *.
  assert (Ls : (length stored <= band_capacity n 3)%nat).
  { assert (ser0 = frame) by congruence. subst ser0. change (band n 3 * band n 3 / 8)%nat with (band_capacity n 3) in *. assert (enc0 = stored) by congruence. subst enc0. exact X3. }
  specialize (Hbits k ltac:(lia)). cbv zeta in Hbits.
  assert (Kd : (k / (n / 8))%nat = bi) by (unfold k; rewrite Nat.mul_comm, Nat.div_add_l, Nat.div_small by lia; lia).
  assert (Km : (k mod (n / 8))%nat = bj) by (unfold k; rewrite Nat.add_comm, Nat.mul_comm, Nat.mod_add, Nat.mod_small by lia; lia).
  rewrite Kd, Km, (mirrored_sum n out rc bi bj Po Hneg Hi Hj) in Hbits. clearbody k.
  revert Hr Hbits. generalize (block_total out 3 bi bj) (payload_bit stored k) (payload_bit got k). intros T b g Hr Hbits. split; intros (m' & Hm).
  - destruct (bit_read_near D (m' - r + (if b then 0 else 1)) b (16320 - T)) as (B1 & B2); [lia| |rewrite <- B1; auto]. destruct b; lia.
  - destruct (bit_read_near D (m' - r) (negb b) (16320 - T)) as (B1 & B2); [lia| |rewrite <- B1; auto]. destruct b; cbn [negb]; lia.
Qed.

Section Negatives.
Context (K : ldpc) (Hsh : ldpc_shape K) (Hdec : ldpc_decodes K) (E : ed25519) (HE : signature_format E) (Hk : key_pair E PRIVATE_KEY PUBLIC_KEY).
Context (M : libm b64) (HM : accurate M) (gamma : b64 -> b64) (checks : bool) (pad : list bool) (Hpad : length pad = 8%nat).
Let features_of := zernike_f64 M gamma checks.
Let one : b64 := f_of_Z Bops 1.

Lemma marked_core fe image n result sel : In fe [command_line; web_page] ->
  well_formed image -> dimensions image = (n, n) -> (n mod 8 = 0)%nat -> side_ok n -> usable n 3 -> colours_within (margin_of fe) image -> In sel [ch1; ch2; ch3] ->
  watermark_image Bops K E equalize_histogram features_of checks pad image (f_of_Z Bops (depth_of fe)) one 11 = Ok result -> well_formed result -> dimensions result = (n, n) ->
  exists im out pl, picture im n 3 /\ picture out n 3 /\ from_shape_vec n n (gray_raw (component sel result)) = Ok out
    /\ embed Bops K im pl (f_of_Z Bops (depth_of fe)) 3 = Ok out /\ bytes pl /\ length pl = payload_size 11
    /\ forall bi bj, (bi < n / 8)%nat -> (bj < n / 8)%nat -> withstands (depth_of fe) (2 * depth_of fe - 33) im bi bj.
Proof.
  intros Hfe Hw Ed Hm8 Hs Hu Hcol Hsel Er Wr Dr. pose proof (usable_side n 3 Hu) as Hn.
  assert (Hr : Z.of_nat (n * n) < 2 ^ 53) by (unfold side_ok in Hs; rewrite Nat2Z.inj_mul; nia).
  assert (Sel : sel = ch1 \/ sel = ch2 \/ sel = ch3) by (cbn in Hsel; intuition auto).
  assert (Gc : gray_picture (component sel image) n 3) by (apply component_picture; auto).
  assert (Gr : gray_picture (component sel result) n 3) by (apply component_picture; auto).
  destruct (C42_watermark_preserves_size_layout_and_alpha K E equalize_histogram features_of checks pad image (f_of_Z Bops (depth_of fe)) one 11 result Hw Er) as (_ & _ & _ & _ & _ & _ & H1 & H2 & H3).
  assert (X : watermark_channel Bops K E equalize_histogram features_of checks pad (component sel image) (f_of_Z Bops (depth_of fe)) one 11 3 = Ok (component sel result)) by (destruct Sel as [ -> |[ -> | -> ]]; assumption).
  apply watermark_inv in X as (im & fs & q & bits & sig & pl & out & Eim & Hme & Eq & Es & Ep & Eo & Em).
  destruct (measured_1000 M HM gamma checks (component sel image) n 3 11 fs Gc Hn Hs ltac:(lia) Hme) as (Lf & _).
  destruct (payload_length E HE Hk checks pad Hpad fs q bits sig pl Lf Eq Es Ep) as (Bp & Lp & _).
  destruct (gray_array _ n 3 Gc) as (im' & Eim' & Him & Hcell). assert (im' = im) by congruence. subst im'.
  destruct (gray_array _ n 3 Gr) as (om & Eom & Pom & Ocell). pose proof Gr as (W & H & _). rewrite W, H in Eom.
  assert (om = out).
  { pose proof Him as ((Wf & D0 & D1 & P) & H8). destruct (C35_embed_keeps_the_shape K im pl (f_of_Z Bops (depth_of fe)) 3 out Wf Eo) as (O8 & O0 & O1).
    assert (Hpo : picture out n 3) by (split; [split; [apply O8|]; split; [congruence|]; split; [congruence|exact P]|exact O8]).
    destruct (array_gray out n 3 Hpo) as (_ & Fm). rewrite Em in Eom. cbn [gray_raw] in Eom. congruence. }
  subst om. exists im, out, pl. split; [exact Him|]. split; [exact Pom|]. split; [exact Eom|]. split; [exact Eo|]. split; [exact Bp|]. split; [exact Lp|].
  pose proof Gc as (W0 & H0 & _). rewrite W0, H0 in Eim. intros bi bj Hi Hj.
  apply (margin_withstands fe image n (n / 8 * bi + bj + 1) [] Hfe Hw Ed Hm8 Hr Hcol sel Hsel im Eim bi bj Hi Hj); [lia|intros []].
Qed.

Lemma negative_is_a_picture g n : gray_picture g n 3 -> gray_picture (negative g) n 3.
Proof.
  intros (A1 & A2 & A3 & A4 & A5). unfold gray_picture, negative. cbn [gwidth gheight gray_raw]. rewrite map_length. split; [exact A1|]. split; [exact A2|]. split; [exact A3|]. split; [|exact A5].
  unfold bytes in *. apply Forall_forall. intros v Hv. apply in_map_iff in Hv as (x & <- & Hx). rewrite Forall_forall in A4. specialize (A4 x Hx). unfold byte in *. lia.
Qed.
Lemma negative_array g n a b : gray_picture g n 3 -> from_shape_vec n n (gray_raw g) = Ok a -> from_shape_vec n n (gray_raw (negative g)) = Ok b -> negative_pixels a b.
Proof.
  intros Hg Ea Eb i j v Ev. destruct (gray_array g n 3 Hg) as (a' & Ea' & Pa & Ca). pose proof (negative_is_a_picture g n Hg) as Hn. destruct (gray_array (negative g) n 3 Hn) as (b' & Eb' & Pb & Cb).
  pose proof Hg as (W & H & _). pose proof Hn as (W' & H' & _). rewrite W, H in Ea'. rewrite W', H' in Eb'. assert (a' = a) by congruence. assert (b' = b) by congruence. subst a' b'.
  destruct (cell_some_lt a n 3 i j v (proj1 Pa) Ev) as (Li & Lj). rewrite (Cb i j Li Lj). rewrite (Ca i j Li Lj) in Ev. unfold gray_pixel, negative in *. cbn [gray_raw]. now rewrite nth_error_map, Ev.
Qed.

(** *** C113 for the shipped scheme. *)
Theorem C113_f64_negatives_of_marked_pictures : forall fe image n, In fe [command_line; web_page] ->
  well_formed image -> dimensions image = (n, n) -> (n mod 8 = 0)%nat -> side_ok n -> usable n 3 ->
  (stored_size n 3 (payload_size 11) <= band_capacity n 3)%nat -> colours_within (margin_of fe) image ->
  exists result, watermark_image Bops K E equalize_histogram features_of checks pad image (f_of_Z Bops (depth_of fe)) one 11 = Ok result
    /\ forall sel, In sel [ch1; ch2; ch3] ->
       (fe = command_line -> exists features w,
          measures equalize_histogram features_of (component sel image) 11 features
          /\ sign E (vec_i64_to_bytes (integer_parts features)) PRIVATE_KEY PUBLIC_KEY = Ok (Codecs.signature w)
          /\ reads_and_judges K E M gamma checks (depth_of fe) features w (component sel result)
          /\ reads_and_judges K E M gamma checks (depth_of fe) features w (negative (component sel result)))
       /\ (fe = web_page -> exists pixels mirrored read read_mirrored,
          from_shape_vec n n (gray_raw (component sel result)) = Ok pixels /\ from_shape_vec n n (gray_raw (negative (component sel result))) = Ok mirrored
          /\ extract Bops K pixels (f_of_Z Bops (depth_of fe)) 3 = bind (decode K read (band_capacity n 3)) data_deserialize
          /\ extract Bops K mirrored (f_of_Z Bops (depth_of fe)) 3 = bind (decode K read_mirrored (band_capacity n 3)) data_deserialize
          /\ bytes read /\ bytes read_mirrored /\ length read = band_capacity n 3 /\ length read_mirrored = band_capacity n 3
          /\ forall k, (k < 8 * stored_size n 3 (payload_size 11))%nat -> payload_bit read_mirrored k = negb (payload_bit read k)).
Proof.
  intros fe image n Hfe Hw Ed Hm8 Hs Hu Hcap Hcol. pose proof (usable_side n 3 Hu) as Hn.
  assert (Hr : Z.of_nat (n * n) < 2 ^ 53) by (unfold side_ok in Hs; rewrite Nat2Z.inj_mul; nia).
  assert (HD : 1 <= depth_of fe <= 4096) by (destruct Hfe as [ <- |[ <- |[]]]; cbn; lia).
  destruct (C110_f64_only_the_sums_of_the_blocks_matter K 0 Hsh (decodes_corrects K Hsh Hdec) E HE Hk M HM gamma checks pad Hpad fe image n (2 * depth_of fe - 33) [] Hfe Hw Ed Hm8 Hs Hu Hcap)
    as (result & Er & Wr & Dr & Hv).
  { intros w; cbn; lia. }
  { intros sel Hsel. now apply (margin_withstands fe image n). }
  exists result. split; [exact Er|]. intros sel Hsel.
  destruct (marked_core fe image n result sel Hfe Hw Ed Hm8 Hs Hu Hcol Hsel Er Wr Dr) as (im & out & pl & Him & Pout & Eout & Eo & Bp & Lp & Hwith).
  assert (Gr : gray_picture (component sel result) n 3) by (apply component_picture; auto; cbn in Hsel; intuition auto).
  pose proof (negative_is_a_picture _ n Gr) as Gn. destruct (gray_array _ n 3 Gn) as (ng & Eng & Png & _). pose proof Gn as (W' & H' & _). rewrite W', H' in Eng.
  pose proof (negative_array _ n out ng Gr Eout Eng) as Hneg. pose proof (payload_size_range 11 ltac:(lia)) as Hsz. destruct Hu as (Hcod & Hmod).
  destruct (extract_payload Bops K out n 3 (f_of_Z Bops (depth_of fe)) pl (proj1 Pout) Hsh Hdec Hcod Hmod Bp ltac:(rewrite Lp; lia) ltac:(rewrite Lp; exact Hcap)) as (ser & enc & E1 & E2 & E3 & E4 & E5 & E6 & _).
  destruct (marked_sum K im n (depth_of fe) pl out HD Him Eo) as (frame & stored & E1' & E2' & HS).
  assert (frame = ser) by congruence. subst frame. unfold band_capacity in E2'. fold (band n 3) in E2'. assert (stored = enc) by congruence. subst stored.
  assert (LS : length enc = stored_size n 3 (payload_size 11)) by (unfold stored_size, band_capacity; fold (band n 3); rewrite <- Lp; exact E6).
  split; intros ->.
  - destruct (Hv sel Hsel) as (fs & w & V1 & V2 & V3). exists fs, w. split; [exact V1|]. split; [exact V2|]. split.
    + apply V3; [exact Gr|]. intros bi bj _ _ _ _. exists 0. cbn. lia.
    + apply V3; [exact Gn|]. intros bi bj Hi Hj Hlt _.
      rewrite <- (block_sum_total _ n ng bi bj Gn Eng Hi Hj), <- (block_sum_total _ n out bi bj Gr Eout Hi Hj), (mirrored_sum n out ng bi bj Pout Hneg Hi Hj).
      destruct (HS bi bj _ Hi Hj ltac:(rewrite LS; exact Hlt) (Hwith bi bj Hi Hj)) as (r & HR). cbn [depth_of command_line] in *.
      revert HR. generalize (block_total out 3 bi bj) (payload_bit enc (n / 8 * bi + bj)). intros T b HR. exists (20 - 2 * r + (if b then 0 else 1)). destruct b; lia.
  - destruct (C86_f64_extraction_in_integers K out n (depth_of web_page) HD Pout E5) as (rd & Lr & Br & Hbits & EX).
    destruct (C113_f64_the_bits_of_a_negative K im n (depth_of web_page) pl out ng (2 * depth_of web_page - 33) HD Him Eo Png Hneg) as (ser2 & enc2 & rm & F1 & F2 & F3 & F4 & F5 & F6).
    assert (ser2 = ser) by congruence. subst ser2. unfold band_capacity in F2. fold (band n 3) in F2. assert (enc2 = enc) by congruence. subst enc2.
    exists out, ng, rd, rm. repeat (split; [assumption|]). intros k Hkk. rewrite <- LS in Hkk.
    assert (Hs0 : (0 < band n 3)%nat) by (destruct (band n 3); [cbn in E5; lia|lia]).
    destruct (used_cell n 3 enc k Hs0 Hkk E3) as (_ & Hk2). destruct (place_lt (band n 3) k Hs0 Hk2) as (P1 & P2).
    assert (PI : (n / 8 * (k / band n 3) + k mod band n 3 = k)%nat) by (change (n / 8)%nat with (band n 3); pose proof (Nat.div_mod k (band n 3) ltac:(lia)); lia).
    change (n / 8)%nat with (band n 3) in *.
    destruct (F6 (k / band n 3)%nat (k mod band n 3)%nat P1 P2) as (_ & Inv); [rewrite PI; exact Hkk|exact (Hwith _ _ P1 P2)|]. rewrite PI in Inv. rewrite Inv by (exists 4; cbn; lia). f_equal.
    destruct (HS (k / band n 3)%nat (k mod band n 3)%nat _ P1 P2 ltac:(rewrite PI; exact Hkk) (Hwith _ _ P1 P2)) as (r & HR). rewrite PI in HR.
    specialize (Hbits k). cbv zeta in Hbits.
    destruct (bit_read_near (depth_of web_page) r (payload_bit enc k) (block_total out 3 (k / band n 3) (k mod band n 3))) as (B1 & B2); [lia|cbn [depth_of web_page] in *; lia|].
    rewrite <- B1 at 1. symmetry. apply Hbits; [|exact B2]. unfold band_capacity. fold (band n 3). lia.
Qed.
End Negatives.

(** The two front ends. *)
Example C113_the_depths : mirror_keeps 100 80 /\ mirror_inverts 500 320.
Proof. split; [exists 20|exists 4]; cbn; lia. Qed.

(** ** The hypotheses are met. *)
Opaque colour512 watermark_image.
Example C113_instance : exists result,
  watermark_image Bops toy_ldpc toy_ed equalize_histogram (zernike_f64 exact_libm (fun x => x) true) true (repeat false 8) colour512 (f_of_Z Bops 100) (f_of_Z Bops 1) 11 = Ok result
  /\ forall sel, In sel [ch1; ch2; ch3] -> exists features w,
       reads_and_judges toy_ldpc toy_ed exact_libm (fun x => x) true 100 features w (negative (component sel result)).
Proof.
  destruct C83_512_is_usable as (A & B & C & D).
  assert (Ed : dimensions colour512 = (512, 512)%nat) by reflexivity. assert (Hfe : In command_line [command_line; web_page]) by (cbn; auto).
  assert (Hcol : colours_within (margin_of command_line) colour512).
  { Transparent colour512. unfold colours_within, colour512. cbn [get_pixels]. apply Forall_forall. intros p Hp. apply repeat_spec in Hp. subst p.
    intros sel Hsel. cbn in Hsel. destruct Hsel as [ <- |[ <- |[ <- |[]]]]; cbn [margin_of command_line web_page ch1 ch2 ch3]; lia. }
  Opaque colour512.
  destruct (C113_f64_negatives_of_marked_pictures toy_ldpc toy_shape toy_decodes toy_ed toy_format toy_keys exact_libm exact_libm_accurate (fun x => x) true (repeat false 8) eq_refl command_line colour512 512 Hfe colour512_wf Ed A B C D Hcol)
    as (result & H1 & Hv).
  exists result. split; [exact H1|]. intros sel Hsel. destruct (Hv sel Hsel) as (Hc & _). destruct (Hc eq_refl) as (fs & w & _ & _ & _ & Hn). exists fs, w. exact Hn.
Qed.
Example C113_web_instance : exists result pixels mirrored read read_mirrored,
  watermark_image Bops toy_ldpc toy_ed equalize_histogram (zernike_f64 exact_libm (fun x => x) true) true (repeat false 8) colour512 (f_of_Z Bops 500) (f_of_Z Bops 1) 11 = Ok result
  /\ from_shape_vec 512 512 (gray_raw (component ch1 result)) = Ok pixels /\ from_shape_vec 512 512 (gray_raw (negative (component ch1 result))) = Ok mirrored
  /\ extract Bops toy_ldpc pixels (f_of_Z Bops 500) 3 = bind (decode toy_ldpc read (band_capacity 512 3)) data_deserialize
  /\ extract Bops toy_ldpc mirrored (f_of_Z Bops 500) 3 = bind (decode toy_ldpc read_mirrored (band_capacity 512 3)) data_deserialize
  /\ (forall k, (k < 8 * stored_size 512 3 (payload_size 11))%nat -> payload_bit read_mirrored k = negb (payload_bit read k)).
Proof.
  destruct C83_512_is_usable as (A & B & C & D).
  assert (Ed : dimensions colour512 = (512, 512)%nat) by reflexivity. assert (Hfe : In web_page [command_line; web_page]) by (cbn; auto).
  assert (Hcol : colours_within (margin_of web_page) colour512).
  { Transparent colour512. unfold colours_within, colour512. cbn [get_pixels]. apply Forall_forall. intros p Hp. apply repeat_spec in Hp. subst p.
    intros sel Hsel. cbn in Hsel. destruct Hsel as [ <- |[ <- |[ <- |[]]]]; cbn [margin_of command_line web_page ch1 ch2 ch3]; lia. }
  Opaque colour512.
  destruct (C113_f64_negatives_of_marked_pictures toy_ldpc toy_shape toy_decodes toy_ed toy_format toy_keys exact_libm exact_libm_accurate (fun x => x) true (repeat false 8) eq_refl web_page colour512 512 Hfe colour512_wf Ed A B C D Hcol)
    as (result & H1 & Hv).
  destruct (Hv ch1 ltac:(cbn; tauto)) as (_ & Hc). destruct (Hc eq_refl) as (px & mi & r1 & r2 & G1 & G2 & G3 & G4 & _ & _ & _ & _ & G5).
  exists result, px, mi, r1, r2. split; [exact H1|]. split; [exact G1|]. split; [exact G2|]. split; [exact G3|]. split; [exact G4|exact G5].
Qed.

Print Assumptions C113_f64_the_bits_of_a_negative.
Print Assumptions C113_f64_negatives_of_marked_pictures.
