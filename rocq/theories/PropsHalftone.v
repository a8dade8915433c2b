(** Properties C116 and C117: specks and halftones.  A few pixels of each block may become anything (web page: three, with all others off by three; command line: all pixels
    off by two), and a marked picture may even be reduced to black and white dots, if each 8x8 block gets the right number of white ones
    (lib/sia/rust/embedding/src/lib.rs: extract; lib/sia/rust/watermarking/src/process.rs: authenticate_channel). *)
From Coq Require Import Reals Lra Permutation.
From Flocq Require Import Core BinarySingleNaN.
From Verif Require Import Outcome Floats FloatFacts Bits ListFacts Quantization QuantProofs QuantReal QuantFloat PropsQuant PropsQuant2 Codecs CodecProofs WatermarkProofs PropsCodec
  Encoding EncodingProofs PropsEncoding Matrix MatrixFacts Haar HaarProofs HaarReal HaarFloat PropsHaar Stego StegoProofs StegoMarks PropsStego Embedding EmbeddingProofs EmbeddingEffect PropsEmbedding PropsEmbedding2 PropsEmbedding3 PropsRobust
  Signature Process ProcessProofs Toy Zernike ZernikeProofs PropsZernike ZernikeBound PropsZernike2 ZernikeGen PropsZernikeF64 LibmSpec LibmExact PropsZernikeAcc
  PropsProcess PropsProcess2 Image PropsImage PropsProcess3 PropsProcess4 PropsProcess5 PropsProcess6 PropsTamper Equalize PropsEqualize PropsShipped PropsShipped2 PropsInteger PropsClipping PropsClipping2 PropsRepair PropsRepair2 PropsVerdict PropsUnused PropsForged PropsBright PropsBlockwise.
Open Scope Z_scope.

(** ** Specification vocabulary *)
(** How many of the corresponding members of two lists are more than [small] apart. *)
Definition far_apart (small : Z) (l l' : list Z) : nat := length (filter (fun p => small <? Z.abs (fst p - snd p)) (combine l l')).
(** In every block at most [count] pixels are off by more than [small]. *)
Definition specked (small : Z) (count : nat) (n : nat) (marked received : gray) : Prop :=
  forall bi bj, (bi < n / 8)%nat -> (bj < n / 8)%nat -> (far_apart small (gray_block marked n bi bj) (gray_block received n bi bj) <= count)%nat.
(** Black and white only, and 255 times the number of white pixels of each block is as near as possible to the sum of the block. *)
Definition white_pixels (g : gray) (n bi bj : nat) : nat := length (filter (Z.eqb 255) (gray_block g n bi bj)).
Definition halftone (n : nat) (marked received : gray) : Prop :=
  Forall (fun v => v = 0 \/ v = 255) (gray_raw received)
  /\ forall bi bj, (bi < n / 8)%nat -> (bj < n / 8)%nat -> 2 * Z.abs (255 * Z.of_nat (white_pixels received n bi bj) - block_sum marked n bi bj) <= 255.

(** ** Proofs *)
Lemma far_apart_sums small l l' : 0 <= small -> length l = length l' -> bytes l -> bytes l' ->
  Z.abs (fold_right Z.add 0 l' - fold_right Z.add 0 l) <= small * Z.of_nat (length l) + 255 * Z.of_nat (far_apart small l l').
Proof.
  intros Hs. revert l'. induction l as [|x l IH]; intros [|y l'] HL B B'; try discriminate; [cbn; lia|]. apply Forall_cons_iff in B as (Bx & B). apply Forall_cons_iff in B' as (By & B').
  injection HL as HL. specialize (IH l' HL B B'). unfold far_apart in *. cbn [combine filter fst snd fold_right length]. unfold byte in *.
  destruct (Z.ltb_spec small (Z.abs (x - y))) as [H|H]; cbn [length]; rewrite ?Nat2Z.inj_succ; lia.
Qed.
Lemma gray_block_length g n bi bj : length (gray_block g n bi bj) = 64%nat.
Proof. unfold gray_block. cbn [seq flat_map map app length]. reflexivity. Qed.
Lemma gray_block_all (P : Z -> Prop) g n bi bj : P 0 -> Forall P (gray_raw g) -> Forall P (gray_block g n bi bj).
Proof.
  intros P0 Hg. apply Forall_forall. intros v Hv. unfold gray_block in Hv. apply in_flat_map in Hv as (p & _ & Hv). apply in_map_iff in Hv as (q & <- & _).
  destruct (nth_in_or_default (n * (8 * bi + p) + (8 * bj + q)) (gray_raw g) 0) as [Hin| -> ]; [|exact P0]. rewrite Forall_forall in Hg. now apply Hg.
Qed.
Lemma specked_sums small count n a b bi bj : 0 <= small -> bytes (gray_raw a) -> bytes (gray_raw b) -> specked small count n a b -> (bi < n / 8)%nat -> (bj < n / 8)%nat ->
  Z.abs (block_sum b n bi bj - block_sum a n bi bj) <= 64 * small + 255 * Z.of_nat count.
Proof.
  intros Hs Ba Bb Hsp Hi Hj. specialize (Hsp bi bj Hi Hj). unfold block_sum.
  pose proof (far_apart_sums small (gray_block a n bi bj) (gray_block b n bi bj) Hs) as H. rewrite !gray_block_length in H. change (Z.of_nat 64) with 64 in H.
  specialize (H eq_refl (gray_block_all byte a n bi bj ltac:(unfold byte; lia) Ba) (gray_block_all byte b n bi bj ltac:(unfold byte; lia) Bb)). revert H Hsp. generalize (far_apart small (gray_block a n bi bj) (gray_block b n bi bj)). intros f H Hsp. lia.
Qed.
Lemma dots_sum l : Forall (fun v => v = 0 \/ v = 255) l -> fold_right Z.add 0 l = 255 * Z.of_nat (length (filter (Z.eqb 255) l)).
Proof. induction 1 as [|x l [ -> | -> ] _ IH]; [reflexivity| |]; cbn [fold_right filter Z.eqb Pos.eqb length]; rewrite ?Nat2Z.inj_succ; lia. Qed.

Section Dots.
Context (K : ldpc) (Hsh : ldpc_shape K) (Hdec : ldpc_decodes K) (E : ed25519) (HE : signature_format E) (Hk : key_pair E PRIVATE_KEY PUBLIC_KEY).
Context (M : libm b64) (HM : accurate M) (gamma : b64 -> b64) (checks : bool) (pad : list bool) (Hpad : length pad = 8%nat).
Let features_of := zernike_f64 M gamma checks.
Let one : b64 := f_of_Z Bops 1.

(** *** C116 *)
Theorem C116_f64_specks : forall fe image n, In fe [command_line; web_page] ->
  well_formed image -> dimensions image = (n, n) -> (n mod 8 = 0)%nat -> side_ok n -> usable n 3 ->
  (stored_size n 3 (payload_size 11) <= band_capacity n 3)%nat -> colours_within (margin_of fe) image ->
  exists result, watermark_image Bops K E equalize_histogram features_of checks pad image (f_of_Z Bops (depth_of fe)) one 11 = Ok result
    /\ forall sel, In sel [ch1; ch2; ch3] -> exists features w,
         measures equalize_histogram features_of (component sel image) 11 features
         /\ sign E (vec_i64_to_bytes (integer_parts features)) PRIVATE_KEY PUBLIC_KEY = Ok (Codecs.signature w)
         /\ forall small count received, 0 <= small -> 64 * small + 255 * Z.of_nat count <= 2 * depth_of fe - 33 -> gray_picture received n 3 -> specked small count n (component sel result) received ->
              reads_and_judges K E M gamma checks (depth_of fe) features w received.
Proof.
  intros fe image n Hfe Hw Ed Hm8 Hs Hu Hcap Hcol. pose proof (usable_side n 3 Hu) as Hn.
  assert (Hr : Z.of_nat (n * n) < 2 ^ 53) by (unfold side_ok in Hs; rewrite Nat2Z.inj_mul; nia).
  destruct (C110_f64_only_the_sums_of_the_blocks_matter K 0 Hsh (decodes_corrects K Hsh Hdec) E HE Hk M HM gamma checks pad Hpad fe image n (2 * depth_of fe - 33) [] Hfe Hw Ed Hm8 Hs Hu Hcap)
    as (result & Er & Wr & Dr & Hv).
  { intros w; cbn; lia. }
  { intros sel Hsel. now apply (margin_withstands fe image n). }
  exists result. split; [exact Er|]. intros sel Hsel. destruct (Hv sel Hsel) as (fs & w & H1 & H2 & H3). exists fs, w. split; [exact H1|]. split; [exact H2|].
  intros small count received Hsm Hb Grc Hsp. apply H3; [exact Grc|]. intros bi bj Hi Hj _ _. exists 0.
  assert (Gr : gray_picture (component sel result) n 3) by (apply component_picture; auto; cbn in Hsel; intuition auto).
  pose proof Gr as (_ & _ & _ & Ba & _). pose proof Grc as (_ & _ & _ & Bb & _). pose proof (specked_sums small count n _ _ bi bj Hsm Ba Bb Hsp Hi Hj). lia.
Qed.
(** *** C117 *)
Theorem C117_f64_halftones : forall fe image n, In fe [command_line; web_page] ->
  well_formed image -> dimensions image = (n, n) -> (n mod 8 = 0)%nat -> side_ok n -> usable n 3 ->
  (stored_size n 3 (payload_size 11) <= band_capacity n 3)%nat -> colours_within (margin_of fe) image ->
  exists result, watermark_image Bops K E equalize_histogram features_of checks pad image (f_of_Z Bops (depth_of fe)) one 11 = Ok result
    /\ forall sel, In sel [ch1; ch2; ch3] -> exists features w,
         measures equalize_histogram features_of (component sel image) 11 features
         /\ sign E (vec_i64_to_bytes (integer_parts features)) PRIVATE_KEY PUBLIC_KEY = Ok (Codecs.signature w)
         /\ forall received, gray_picture received n 3 -> halftone n (component sel result) received ->
              reads_and_judges K E M gamma checks (depth_of fe) features w received.
Proof.
  intros fe image n Hfe Hw Ed Hm8 Hs Hu Hcap Hcol. pose proof (usable_side n 3 Hu) as Hn.
  assert (Hr : Z.of_nat (n * n) < 2 ^ 53) by (unfold side_ok in Hs; rewrite Nat2Z.inj_mul; nia).
  destruct (C110_f64_only_the_sums_of_the_blocks_matter K 0 Hsh (decodes_corrects K Hsh Hdec) E HE Hk M HM gamma checks pad Hpad fe image n (2 * depth_of fe - 33) [] Hfe Hw Ed Hm8 Hs Hu Hcap)
    as (result & Er & Wr & Dr & Hv).
  { intros w; cbn; lia. }
  { intros sel Hsel. now apply (margin_withstands fe image n). }
  exists result. split; [exact Er|]. intros sel Hsel. destruct (Hv sel Hsel) as (fs & w & H1 & H2 & H3). exists fs, w. split; [exact H1|]. split; [exact H2|].
  intros received Grc (Hdots & Hsums). apply H3; [exact Grc|]. intros bi bj Hi Hj _ _. exists 0. specialize (Hsums bi bj Hi Hj).
  pose proof (dots_sum (gray_block received n bi bj)) as S. specialize (S (gray_block_all _ received n bi bj (or_introl eq_refl) Hdots)). fold (block_sum received n bi bj) in S. fold (white_pixels received n bi bj) in S.
  assert (Ht : 128 <= 2 * depth_of fe - 33) by (destruct Hfe as [ <- |[ <- |[]]]; cbn; lia). lia.
Qed.
End Dots.

(** ** The hypotheses are met.  Dots: in each block the first pixels are white. *)
Definition dots_of (n : nat) (g : gray) : gray :=
  mkGray n n (map (fun k => if Z.of_nat (8 * (k / n mod 8) + k mod n mod 8) <? (2 * block_sum g n (k / n / 8) (k mod n / 8) + 255) / 510 then 255 else 0) (seq 0 (n * n))).
Lemma dots_of_halftone g n : gray_picture g n 3 -> gray_picture (dots_of n g) n 3 /\ halftone n g (dots_of n g).
Proof.
  intros Hg. pose proof Hg as (W & H & Hl & Hb & Hm & HL & Hr). change (2 ^ 3)%nat with 8%nat in Hm.
  assert (En : n = (8 * (n / 8))%nat) by (pose proof (Nat.div_mod n 8 ltac:(lia)); lia).
  assert (Dots : Forall (fun v => v = 0 \/ v = 255) (gray_raw (dots_of n g))).
  { apply Forall_forall. intros v Hv. unfold dots_of in Hv. cbn [gray_raw] in Hv. apply in_map_iff in Hv as (k & <- & _). destruct (_ <? _); auto. }
  split; [|split; [exact Dots|]].
  - unfold gray_picture, dots_of. cbn [gwidth gheight gray_raw]. rewrite map_length, seq_length. repeat split; try assumption; try apply HL.
    unfold bytes. eapply Forall_impl; [|exact Dots]. cbv beta. intros v [ -> | -> ]; unfold byte; lia.
  - intros bi bj Hi Hj. pose proof (dots_sum (gray_block (dots_of n g) n bi bj) (gray_block_all _ _ n bi bj (or_introl eq_refl) Dots)) as S.
    fold (block_sum (dots_of n g) n bi bj) in S. fold (white_pixels (dots_of n g) n bi bj) in S. rewrite <- S. rewrite block_sum_dsum.
    set (w := (2 * block_sum g n bi bj + 255) / 510).
    rewrite (PropsClipping.dsum_ext _ (fun p q => if Z.of_nat (8 * p + q) <? w then 255 else 0)).
    + pose proof (block_sum_bounds g n bi bj Hb) as B. assert (Hw : 0 <= w <= 64) by (unfold w; split; [apply Z.div_pos; lia|apply Z.lt_succ_r; apply Z.div_lt_upper_bound; lia]).
      assert (A : forallb (fun k => PropsClipping.dsum (fun p q => if Z.of_nat (8 * p + q) <? Z.of_nat k then 255 else 0) =? 255 * Z.of_nat k) (seq 0 65) = true) by (vm_compute; reflexivity).
      rewrite forallb_forall in A. specialize (A (Z.to_nat w) ltac:(apply in_seq; lia)). rewrite Z2Nat.id in A by lia. apply Z.eqb_eq in A. rewrite A.
      pose proof (Z.div_mod (2 * block_sum g n bi bj + 255) 510 ltac:(lia)) as Q1. pose proof (Z.mod_pos_bound (2 * block_sum g n bi bj + 255) 510 ltac:(lia)) as Q2. fold w in Q1. lia.
    + intros p q Hp Hq. unfold dots_of. cbn [gray_raw]. rewrite nth_map_seq by nia.
      assert (K1 : ((n * (8 * bi + p) + (8 * bj + q)) / n = 8 * bi + p)%nat) by (rewrite (Nat.mul_comm n), Nat.div_add_l, Nat.div_small by lia; lia).
      assert (K2 : ((n * (8 * bi + p) + (8 * bj + q)) mod n = 8 * bj + q)%nat) by (rewrite (Nat.add_comm (n * _)), (Nat.mul_comm n), Nat.mod_add, Nat.mod_small by lia; lia).
      rewrite K1, K2.
      assert (M1 : ((8 * bi + p) mod 8 = p)%nat) by (rewrite (Nat.add_comm (8 * bi)), (Nat.mul_comm 8 bi), Nat.mod_add, Nat.mod_small by lia; reflexivity).
      assert (M2 : ((8 * bj + q) mod 8 = q)%nat) by (rewrite (Nat.add_comm (8 * bj)), (Nat.mul_comm 8 bj), Nat.mod_add, Nat.mod_small by lia; reflexivity).
      assert (D1 : ((8 * bi + p) / 8 = bi)%nat) by (rewrite (Nat.mul_comm 8 bi), Nat.div_add_l, Nat.div_small by lia; lia).
      assert (D2 : ((8 * bj + q) / 8 = bj)%nat) by (rewrite (Nat.mul_comm 8 bj), Nat.div_add_l, Nat.div_small by lia; lia).
      rewrite M1, M2, D1, D2. reflexivity.
Qed.

Opaque colour512 watermark_image.
Example C117_instance : forall fe, In fe [command_line; web_page] -> exists result,
  watermark_image Bops toy_ldpc toy_ed equalize_histogram (zernike_f64 exact_libm (fun x => x) true) true (repeat false 8) colour512 (f_of_Z Bops (depth_of fe)) (f_of_Z Bops 1) 11 = Ok result
  /\ forall sel, In sel [ch1; ch2; ch3] -> exists features w, reads_and_judges toy_ldpc toy_ed exact_libm (fun x => x) true (depth_of fe) features w (dots_of 512 (component sel result)).
Proof.
  intros fe Hfe.
  destruct C83_512_is_usable as (A & B & C & D). assert (Ed : dimensions colour512 = (512, 512)%nat) by reflexivity.
  assert (Hcol : colours_within (margin_of fe) colour512).
  { Transparent colour512. unfold colours_within, colour512. cbn [get_pixels]. apply Forall_forall. intros p Hp. apply repeat_spec in Hp. subst p.
    intros sel Hsel. cbn in Hsel. destruct Hfe as [ <- |[ <- |[]]]; destruct Hsel as [ <- |[ <- |[ <- |[]]]]; cbn [margin_of command_line web_page ch1 ch2 ch3]; lia. }
  Opaque colour512.
  destruct (C117_f64_halftones toy_ldpc toy_shape toy_decodes toy_ed toy_format toy_keys exact_libm exact_libm_accurate (fun x => x) true (repeat false 8) eq_refl fe colour512 512 Hfe colour512_wf Ed A B C D Hcol)
    as (result & H1 & Hv).
  destruct (C42_watermark_preserves_size_layout_and_alpha toy_ldpc toy_ed equalize_histogram _ true (repeat false 8) colour512 (f_of_Z Bops (depth_of fe)) (f_of_Z Bops 1) 11 result colour512_wf H1) as (X1 & X2 & X3 & X4 & X5 & X6 & _).
  assert (Wr : well_formed result) by assumption. assert (Dr : dimensions result = (512, 512)%nat) by congruence. clear X1 X2 X3 X4 X5 X6.
  exists result. split; [exact H1|]. intros sel Hsel.
  assert (Gr : gray_picture (component sel result) 512 3).
  { apply component_picture; [exact Wr|exact Dr|cbn in Hsel; intuition auto|reflexivity|]. rewrite Nat2Z.inj_mul; lia. }
  destruct (Hv sel Hsel) as (fs & w & _ & _ & Hh). exists fs, w. destruct (dots_of_halftone _ 512 Gr) as (G & H). exact (Hh _ G H).
Qed.
(** Specks: the first pixel of each block becomes white, the others stay. *)
Definition white_corners (n : nat) (g : gray) : gray :=
  mkGray n n (map (fun k => if (k / n mod 8 =? 0)%nat && (k mod n mod 8 =? 0)%nat then 255 else nth k (gray_raw g) 0) (seq 0 (n * n))).
Lemma far_apart_tail x y l small : 0 <= small -> (far_apart small (x :: l) (y :: l) <= 1)%nat.
Proof.
  intros Hs. unfold far_apart. cbn [combine filter fst snd]. assert (Z0 : forall t, filter (fun p => small <? Z.abs (fst p - snd p)) (combine t t) = []).
  { induction t as [|z t IH]; [reflexivity|]. cbn [combine filter fst snd]. rewrite Z.sub_diag. change (Z.abs 0) with 0. rewrite (proj2 (Z.ltb_ge small 0) Hs). exact IH. }
  rewrite Z0. destruct (_ <? _); cbn; lia.
Qed.
Lemma white_corners_specked g n small : 0 <= small -> gray_picture g n 3 -> gray_picture (white_corners n g) n 3 /\ specked small 1 n g (white_corners n g).
Proof.
  intros Hs Hg. pose proof Hg as (W & H & Hl & Hb & Hm & HL & Hr). change (2 ^ 3)%nat with 8%nat in Hm.
  assert (En : n = (8 * (n / 8))%nat) by (pose proof (Nat.div_mod n 8 ltac:(lia)); lia). split.
  - unfold gray_picture, white_corners. cbn [gwidth gheight gray_raw]. rewrite map_length, seq_length. repeat split; try assumption; try apply HL.
    apply Forall_forall. intros v Hv. apply in_map_iff in Hv as (k & <- & Hk). apply in_seq in Hk. destruct (_ && _); [unfold byte; lia|].
    unfold bytes in Hb. rewrite Forall_forall in Hb. apply Hb. apply nth_In. lia.
  - intros bi bj Hi Hj.
    assert (X : forall p q, (p < 8)%nat -> (q < 8)%nat -> nth (n * (8 * bi + p) + (8 * bj + q)) (gray_raw (white_corners n g)) 0
                = if (p =? 0)%nat && (q =? 0)%nat then 255 else nth (n * (8 * bi + p) + (8 * bj + q)) (gray_raw g) 0).
    { intros p q Hp Hq. unfold white_corners. cbn [gray_raw]. rewrite nth_map_seq by nia.
      assert (K1 : ((n * (8 * bi + p) + (8 * bj + q)) / n = 8 * bi + p)%nat) by (rewrite (Nat.mul_comm n), Nat.div_add_l, Nat.div_small by lia; lia).
      assert (K2 : ((n * (8 * bi + p) + (8 * bj + q)) mod n = 8 * bj + q)%nat) by (rewrite (Nat.add_comm (n * _)), (Nat.mul_comm n), Nat.mod_add, Nat.mod_small by lia; lia).
      rewrite K1, K2. replace ((8 * bi + p) mod 8)%nat with p by (rewrite (Nat.add_comm (8 * bi)), (Nat.mul_comm 8 bi), Nat.mod_add, Nat.mod_small by lia; reflexivity).
      replace ((8 * bj + q) mod 8)%nat with q by (rewrite (Nat.add_comm (8 * bj)), (Nat.mul_comm 8 bj), Nat.mod_add, Nat.mod_small by lia; reflexivity). reflexivity. }
    assert (Y : gray_block (white_corners n g) n bi bj = 255 :: tl (gray_block g n bi bj)).
    { unfold gray_block. cbn [seq flat_map map app tl]. rewrite !X by lia. cbn [Nat.eqb andb]. reflexivity. }
    rewrite Y. pose proof (gray_block_length g n bi bj) as L. destruct (gray_block g n bi bj) as [|x l]; [discriminate|]. cbn [tl]. now apply far_apart_tail.
Qed.
Example C116_instance : exists result,
  watermark_image Bops toy_ldpc toy_ed equalize_histogram (zernike_f64 exact_libm (fun x => x) true) true (repeat false 8) colour512 (f_of_Z Bops (depth_of web_page)) (f_of_Z Bops 1) 11 = Ok result
  /\ forall sel, In sel [ch1; ch2; ch3] -> exists features w, reads_and_judges toy_ldpc toy_ed exact_libm (fun x => x) true (depth_of web_page) features w (white_corners 512 (component sel result)).
Proof.
  assert (X : exists fe, fe = web_page) by eauto. destruct X as (fe & Efe). rewrite <- Efe. assert (Hfe : In fe [command_line; web_page]) by (subst fe; cbn; auto).
  destruct C83_512_is_usable as (A & B & C & D). assert (Ed : dimensions colour512 = (512, 512)%nat) by reflexivity.
  assert (Hcol : colours_within (margin_of fe) colour512).
  { Transparent colour512. unfold colours_within, colour512. cbn [get_pixels]. apply Forall_forall. intros p Hp. apply repeat_spec in Hp. subst p.
    intros sel Hsel. cbn in Hsel. destruct Hfe as [ <- |[ <- |[]]]; destruct Hsel as [ <- |[ <- |[ <- |[]]]]; cbn [margin_of command_line web_page ch1 ch2 ch3]; lia. }
  Opaque colour512.
  destruct (C116_f64_specks toy_ldpc toy_shape toy_decodes toy_ed toy_format toy_keys exact_libm exact_libm_accurate (fun x => x) true (repeat false 8) eq_refl fe colour512 512 Hfe colour512_wf Ed A B C D Hcol)
    as (result & H1 & Hv).
  destruct (C42_watermark_preserves_size_layout_and_alpha toy_ldpc toy_ed equalize_histogram _ true (repeat false 8) colour512 (f_of_Z Bops (depth_of fe)) (f_of_Z Bops 1) 11 result colour512_wf H1) as (X1 & X2 & X3 & X4 & X5 & X6 & _).
  assert (Wr : well_formed result) by assumption. assert (Dr : dimensions result = (512, 512)%nat) by congruence. clear X1 X2 X3 X4 X5 X6.
  exists result. split; [exact H1|]. intros sel Hsel.
  assert (Gr : gray_picture (component sel result) 512 3).
  { apply component_picture; [exact Wr|exact Dr|cbn in Hsel; intuition auto|reflexivity|]. rewrite Nat2Z.inj_mul; lia. }
  destruct (Hv sel Hsel) as (fs & w & _ & _ & Hh). exists fs, w. destruct (white_corners_specked _ 512 3 ltac:(lia) Gr) as (G & H). apply (Hh 3 1%nat _ ltac:(lia)); [subst fe; vm_compute; discriminate|exact G|exact H].
Qed.
(** What the bound allows: three specks and an error of three everywhere for the web page, an error of two everywhere for the command line. *)
Example C116_bounds : 64 * 3 + 255 * Z.of_nat 3 <= 2 * depth_of web_page - 33 /\ 64 * 2 + 255 * Z.of_nat 0 <= 2 * depth_of command_line - 33.
Proof. vm_compute. split; discriminate. Qed.

Print Assumptions C116_f64_specks.
Print Assumptions C117_f64_halftones.
