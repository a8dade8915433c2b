(** Property C89, pictures: blocks of the picture that are destroyed - because they were too dark or too bright for the embedding, or because they were painted
    over later - do not harm the payload, as long as the error-correcting code can repair them. *)
From Coq Require Import Reals Lra.
From Flocq Require Import Core BinarySingleNaN.
From Verif Require Import Outcome Floats FloatFacts Bits ListFacts Quantization QuantProofs QuantReal QuantFloat PropsQuant PropsQuant2 Codecs CodecProofs WatermarkProofs PropsCodec
  Encoding EncodingProofs PropsEncoding Matrix MatrixFacts Haar HaarProofs HaarReal HaarFloat PropsHaar Stego StegoProofs StegoMarks PropsStego Embedding EmbeddingProofs EmbeddingEffect PropsEmbedding PropsEmbedding2 PropsEmbedding3 PropsRobust
  Signature Process ProcessProofs Toy Zernike ZernikeProofs PropsZernike ZernikeBound PropsZernike2 ZernikeGen PropsZernikeF64 LibmSpec LibmExact PropsZernikeAcc
  PropsProcess PropsProcess2 Image PropsImage PropsProcess3 PropsProcess4 PropsProcess5 PropsProcess6 PropsTamper Equalize PropsEqualize PropsShipped PropsInteger PropsClipping PropsClipping2 PropsRepair.
Open Scope Z_scope.

(** ** Specification vocabulary *)
(** The sums of the carrying blocks differ by at most [t], except in the listed blocks (numbered row by row), which may be anything. *)
Definition sums_within_except (bad : list nat) (a b : array2 Z) (n bits : nat) (t : Z) : Prop :=
  forall bi bj, (bi < n / 8)%nat -> (bj < n / 8)%nat -> (n / 8 * bi + bj < bits)%nat -> ~ In (n / 8 * bi + bj)%nat bad ->
    Z.abs (block_total b 3 bi bj - block_total a 3 bi bj) <= t.
(** The pixels differ by at most [t], except in the listed blocks. *)
Definition pixels_within_except (bad : list nat) (a b : array2 Z) (n : nat) (t : Z) : Prop :=
  forall i j, (i < n)%nat -> (j < n)%nat -> ~ In (n / 8 * (i / 8) + j / 8)%nat bad -> Z.abs (pixel b i j - pixel a i j) <= t.
(** The number of blocks whose bits make one codeword. *)
Definition blocks_per_codeword (n : nat) : nat := (8 * codeword_size (band_capacity n 3))%nat.

Lemma noise_sums_except bad marked received n bits t : 0 <= t -> picture marked n 3 -> picture received n 3 -> pixels_within_except bad marked received n t ->
  sums_within_except bad marked received n bits (64 * t).
Proof.
  intros Ht Hp Hr Hn bi bj Hi Hj _ Hb. rewrite !block_total_dsum.
  assert (Hs : (8 * (n / 8) <= n)%nat) by (apply Nat.mul_div_le; lia).
  assert (B : forall p q, (p < 8)%nat -> (q < 8)%nat -> pixel marked (8 * bi + p) (8 * bj + q) - t <= pixel received (8 * bi + p) (8 * bj + q) <= pixel marked (8 * bi + p) (8 * bj + q) + t).
  { intros p q Hpp Hq. pose proof (Hn (8 * bi + p)%nat (8 * bj + q)%nat ltac:(lia) ltac:(lia)) as H. rewrite !place_div8 in H by assumption. specialize (H Hb). lia. }
  pose proof (dsum_le (fun p q => pixel received (8 * bi + p) (8 * bj + q)) (fun p q => 1 * pixel marked (8 * bi + p) (8 * bj + q) + 0 * 0 + t) ltac:(intros; cbv beta; pose proof (B p q ltac:(assumption) ltac:(assumption)); lia)) as H1.
  pose proof (dsum_le (fun p q => 1 * pixel marked (8 * bi + p) (8 * bj + q) + 0 * 0 + (- t)) (fun p q => pixel received (8 * bi + p) (8 * bj + q)) ltac:(intros; cbv beta; pose proof (B p q ltac:(assumption) ltac:(assumption)); lia)) as H2.
  rewrite dsum_lin in H1. rewrite dsum_lin in H2. lia.
Qed.

(** *** C89: the payload comes back if, of the blocks that carry one codeword, at most [e] are destroyed - by the cutting at black and white or by whatever happened
    to the picture later - and the others keep [t] of their tolerance; [e] is the number of wrong bits the coder repairs. *)
Theorem C89_f64_destroyed_blocks_are_repaired : forall K e, ldpc_shape K -> corrects K e ->
  forall image n depth payload t bad, 1 <= depth <= 4096 -> picture image n 3 -> usable n 3 -> bytes payload -> 1 <= Z.of_nat (length payload) <= 65533 ->
  (stored_size n 3 (length payload) <= band_capacity n 3)%nat -> at_most_per_group e (blocks_per_codeword n) bad ->
  (forall bi bj, (bi < n / 8)%nat -> (bj < n / 8)%nat -> (n / 8 * bi + bj < 8 * stored_size n 3 (length payload))%nat -> ~ In (n / 8 * bi + bj)%nat bad ->
     withstands depth t image bi bj) ->
  exists marked, embed Bops K image payload (f_of_Z Bops depth) 3 = Ok marked /\ picture marked n 3
    /\ forall received, picture received n 3 -> sums_within_except bad marked received n (8 * stored_size n 3 (length payload)) t ->
       extract Bops K received (f_of_Z Bops depth) 3 = Ok payload.
Proof.
  intros K e Hsh Hcor m n D payload t bad HD Hp (Hcod & Hmod) Hb Hl Hfit Hbad Hw. pose proof Hp as (Hc & H8). pose proof (corrects_decodes K e Hsh Hcor) as Hdec.
  destruct (b_of_Z_ok D) as (Fd & Vd); [lia|]. change (b_of_Z D) with (f_of_Z Bops D) in *.
  assert (D1 : (1 <= IZR D)%R) by (apply (IZR_le 1); lia). assert (D2 : (IZR D <= 4096)%R) by (apply (IZR_le _ 4096); lia).
  assert (Hd' : (bpow radix2 (- (0)) <= toR (f_of_Z Bops D) <= bpow radix2 20)%R) by (rewrite Vd; simpl bpow; lra).
  destruct (extract_payload Bops K m n 3 (f_of_Z Bops D) payload Hc Hsh Hdec Hcod Hmod Hb Hl Hfit) as (ser & enc & E1 & E2 & E3 & E4 & E5 & E6 & _).
  assert (EX : exists out, embed Bops K m payload (f_of_Z Bops D) 3 = Ok out /\ picture out n 3).
  { destruct (embed_effect_float_gen 0 K m n 3 (f_of_Z Bops D) payload ser enc ltac:(lia) Hc H8 ltac:(lia) Fd Hd' E5 E1 E2 E3) as (out & Eo & Heff).
    exists out. split; [exact Eo|exact (eff_shape _ _ _ _ _ _ _ _ _ Heff)]. }
  destruct EX as (out & Eo & Pout). exists out. split; [exact Eo|]. split; [exact Pout|]. intros rc Prc Hs. pose proof Prc as (Hrc & H8r).
  destruct (marked_sum K m n D payload out HD Hp Eo) as (ser' & enc' & E1' & E2' & HS).
  assert (ser' = ser) by congruence. subst ser'. unfold band_capacity in E2'. fold (band n 3) in E2'. assert (enc' = enc) by congruence. subst enc'.
  destruct (extract_run Bops K rc n 3 (f_of_Z Bops D) Hrc E5) as (C & Hdom & C0 & C1 & GC & EX). pose proof (carrier_band rc n 3 Hrc) as (Hsn & Hrep & Hdiv & _).
  pose proof (read_ok Bops (f_of_Z Bops D) (band n 3) C Hrep Hdom) as Erd. set (got := map _ _) in Erd.
  destruct (read_bits Bops (f_of_Z Bops D) (band n 3) C _ Hrep Hdom Erd) as (Ll & Hbits). pose proof (read_bytes Bops (f_of_Z Bops D) (band n 3) C _ Hrep Hdom Erd) as Bgot.
  clearbody got.
  assert (Hs0 : (0 < band n 3)%nat) by (destruct (band n 3); [cbn in E5; lia|lia]).
  assert (Good : forall k, (k < 8 * length enc)%nat -> ~ In k bad -> payload_bit enc k = payload_bit got k).
  { intros k Hk Hin. rewrite <- (nth_bits got), Hbits by lia.
    destruct (used_cell n 3 enc k Hs0 Hk E3) as (_ & Hk2). destruct (place_lt (band n 3) k Hs0 Hk2) as (P1 & P2).
    assert (PI : (n / 8 * (k / band n 3) + k mod band n 3 = k)%nat) by (change (n / 8)%nat with (band n 3); pose proof (Nat.div_mod k (band n 3) ltac:(lia)); lia).
    rewrite cell_bit_get by assumption. rewrite GC.
    assert (HA : approx n n (bpow radix2 (-24)) (transform Bops false n n 3 (get Bops (mapv (f_of_Z Bops) rc))) (transR false n n 3 (pixR rc))).
    { destruct Hrc as (_ & X0 & X1 & _). pose proof (pixR_bounded rc H8r) as Hbd. pose proof (pix_float rc H8r) as Hpx. rewrite X0, X1 in *. apply analysis_float; try assumption. lia. }
    destruct (HA (k / band n 3)%nat (k mod band n 3)%nat ltac:(lia) ltac:(lia)) as (FC & HC). rewrite coefficient_eq in HC by assumption. rewrite coefficient_sum in HC.
    assert (Hk8 : (n / 8 * (k / band n 3) + k mod band n 3 < 8 * length enc)%nat) by (rewrite PI; exact Hk).
    assert (Hk9 : (n / 8 * (k / band n 3) + k mod band n 3 < 8 * stored_size n 3 (length payload))%nat) by (unfold stored_size, band_capacity; fold (band n 3); rewrite <- E6; exact Hk8).
    assert (Hin' : ~ In (n / 8 * (k / band n 3) + k mod band n 3)%nat bad) by (rewrite PI; exact Hin).
    destruct (HS (k / band n 3)%nat (k mod band n 3)%nat t P1 P2 Hk8 (Hw _ _ P1 P2 Hk9 Hin')) as (r & Hr). pose proof (Hs _ _ P1 P2 Hk9 Hin') as Hn. rewrite PI in Hr.
    pose proof (block_sum_range rc (k / band n 3) (k mod band n 3) H8r) as HT.
    revert HC Hr Hn HT. generalize (block_total rc 3 (k / band n 3) (k mod band n 3)) (block_total out 3 (k / band n 3) (k mod band n 3)). intros T T' HC Hr Hn HT.
    destruct (bit_read_near D r (payload_bit enc k) T ltac:(lia) ltac:(lia)) as (B1 & B2).
    rewrite (bit_of_sum D _ T HD HT B2 FC HC). symmetry. exact B1. }
  set (cap := (band n 3 * band n 3 / 8)%nat) in *.
  assert (Lf : length (firstn (length enc) got) = length enc) by (rewrite firstn_length; lia).
  assert (Bf : bytes (firstn (length enc) got) /\ bytes (skipn (length enc) got)) by (apply Forall_app; rewrite firstn_skipn; exact Bgot). destruct Bf as (Bf & Bt).
  destruct (data_roundtrip payload [] ltac:(lia)) as (ser' & Eser & Lser & Hrt). rewrite app_nil_r in Hrt. assert (ser' = ser) by congruence. subst ser'.
  assert (Bser : bytes ser).
  { rewrite data_serialize_ok in Eser by lia. assert (E : ser = u16_to_le (Z.of_nat (length payload)) ++ payload) by congruence.
    rewrite E. apply Forall_app. split; [apply le_bytes_bytes|exact Hb]. }
  change (band_capacity n 3) with cap in *.
  assert (Hcw : codeword_size cap <> 0%nat).
  { intros E0. destruct (code_cases cap) as [(_ & c & _ & En & _)|(N & _)]; [|contradiction]. pose proof (n_pos c). lia. }
  rewrite EX, Erd. cbn [bind]. rewrite <- (firstn_skipn (length enc) got).
  rewrite (C89_wrong_bits_are_repaired K e Hsh Hcor cap ser enc (firstn (length enc) got) (skipn (length enc) got) bad Hcod Bser Bf Bt); [exact Hrt|lia| |exact E2| |].
  - rewrite skipn_length, Ll, E6. apply Nat.mod_divides in Hmod as (q & Hq); [|exact Hcw].
    set (p := ((length payload + 4 + message_size cap - 1) / message_size cap)%nat) in *.
    rewrite Hq at 1. replace (codeword_size cap * q - p * codeword_size cap)%nat with ((q - p) * codeword_size cap)%nat by nia. apply Nat.mod_mul. exact Hcw.
  - split; [now rewrite Lf|]. intros k Hk Hin. rewrite (Good k Hk Hin). rewrite <- (firstn_skipn (length enc) got) at 1. rewrite payload_bit_app, Lf.
    now rewrite (proj2 (Nat.ltb_lt _ _) Hk).
  - exact Hbad.
Qed.

(** The same in terms of pixels: blocks of the marked picture are painted over, the other pixels change by up to [t] levels. *)
Theorem C89_f64_painted_over_blocks_are_repaired : forall K e, ldpc_shape K -> corrects K e ->
  forall image n depth payload t bad, 1 <= depth <= 4096 -> 0 <= t -> picture image n 3 -> usable n 3 -> bytes payload -> 1 <= Z.of_nat (length payload) <= 65533 ->
  (stored_size n 3 (length payload) <= band_capacity n 3)%nat -> at_most_per_group e (blocks_per_codeword n) bad ->
  (forall bi bj, (bi < n / 8)%nat -> (bj < n / 8)%nat -> ~ In (n / 8 * bi + bj)%nat bad -> withstands depth (64 * t) image bi bj) ->
  exists marked, embed Bops K image payload (f_of_Z Bops depth) 3 = Ok marked /\ picture marked n 3
    /\ forall received, picture received n 3 -> pixels_within_except bad marked received n t -> extract Bops K received (f_of_Z Bops depth) 3 = Ok payload.
Proof.
  intros K e Hsh Hcor m n D pl t bad HD Ht Hp Hu Hb Hl Hfit Hbad Hw.
  destruct (C89_f64_destroyed_blocks_are_repaired K e Hsh Hcor m n D pl (64 * t) bad HD Hp Hu Hb Hl Hfit Hbad) as (out & Eo & Po & X); [auto|].
  exists out. split; [exact Eo|]. split; [exact Po|]. intros rc Prc Hn. apply X; [exact Prc|]. now apply noise_sums_except.
Qed.

(** ** Whole pictures, the scheme as it is shipped *)
Definition channel_withstands_except (bad : list nat) (depth t : Z) (channel : gray) (n : nat) : Prop :=
  forall pixels, from_shape_vec n n (gray_raw channel) = Ok pixels ->
  forall bi bj, (bi < n / 8)%nat -> (bj < n / 8)%nat -> ~ In (n / 8 * bi + bj)%nat bad -> withstands depth (64 * t) pixels bi bj.

Section Repaired.
Context (K : ldpc) (e : nat) (Hsh : ldpc_shape K) (Hcor : corrects K e) (E : ed25519) (HE : signature_format E) (Hk : key_pair E PRIVATE_KEY PUBLIC_KEY).
Context (M : libm b64) (HM : accurate M) (gamma : b64 -> b64) (checks : bool) (pad : list bool) (Hpad : length pad = 8%nat).
Let features_of := zernike_f64 M gamma checks.
Let one : b64 := f_of_Z Bops 1.

(** *** C89: as C88, but in every channel up to [e] blocks per codeword may be beyond saving. *)
Theorem C89_f64_the_shipped_scheme_with_destroyed_blocks : forall fe image n t, In fe [command_line; web_page] ->
  well_formed image -> dimensions image = (n, n) -> (n mod 8 = 0)%nat -> side_ok n -> usable n 3 ->
  (stored_size n 3 (payload_size 11) <= band_capacity n 3)%nat ->
  (forall sel, In sel [ch1; ch2; ch3] -> exists bad, at_most_per_group e (blocks_per_codeword n) bad
     /\ channel_withstands_except bad (depth_of fe) t (component sel image) n) ->
  exists result, watermark_image Bops K E equalize_histogram features_of checks pad image (f_of_Z Bops (depth_of fe)) one 11 = Ok result
    /\ well_formed result /\ dimensions result = (n, n) /\ changes_at_most (moves_at_most fe) image result
    /\ forall sel, In sel [ch1; ch2; ch3] -> exists features quantised bits sig,
         measures equalize_histogram features_of (component sel image) 11 features /\ length features = 11%nat
         /\ three_bit_quantization Bops checks features one = Ok (quantised, bits)
         /\ sign E (vec_i64_to_bytes quantised) PRIVATE_KEY PUBLIC_KEY = Ok sig
         /\ readable K E M gamma checks (with_tolerance fe t) (component sel result) n quantised bits sig.
Proof.
  intros fe image n t Hfe Hw Ed Hm8 Hs Hu Hcap Hcut.
  assert (Hr : Z.of_nat (n * n) < 2 ^ 53) by (unfold side_ok in Hs; rewrite Nat2Z.inj_mul; nia).
  assert (Sel : forall sel, In sel [ch1; ch2; ch3] -> sel = ch1 \/ sel = ch2 \/ sel = ch3) by (intros sel Hsel; cbn in Hsel; intuition auto).
  assert (Hd : 1 <= depth_of fe <= 4096) by (destruct Hfe as [ <- |[ <- |[]]]; cbn; lia).
  apply (shipped_image K E M gamma checks pad Hpad (with_tolerance fe t)); try assumption; [destruct Hfe as [ <- |[ <- |[]]]; [left|right]; split; reflexivity|].
  intros sel Hsel. assert (Hg : gray_picture (component sel image) n 3) by (apply component_picture; auto). destruct (Hcut sel Hsel) as (bad & Hbad & Hcut').
  destruct (gray_array _ n 3 Hg) as (im & Eim & Him & _).
  apply (shipped_channel_gen K E HE Hk M HM gamma checks pad Hpad (with_tolerance fe t) _ n im Hg Hs Hu Eim). cbn [with_tolerance depth_of survives].
  intros pl Bp Lp. pose proof (payload_size_range 11 ltac:(lia)) as Hsz. destruct Hg as (W & H & _). rewrite W, H in Eim.
  destruct (C89_f64_destroyed_blocks_are_repaired K e Hsh Hcor im n (depth_of fe) pl (64 * t) bad Hd Him Hu Bp) as (out & Eo & Po & X); [rewrite Lp; lia|rewrite Lp; exact Hcap|exact Hbad| |].
  - intros bi bj Hi Hj _ Hin. exact (Hcut' im Eim bi bj Hi Hj Hin).
  - exists out. split; [exact Eo|]. split; [exact Po|]. intros rc Prc Hn. apply X; [exact Prc|].
    pose proof (noise_sums out rc n (8 * stored_size n 3 (length pl)) t Po Prc Hn) as S. intros bi bj Hi Hj Hk' _. now apply S.
Qed.
End Repaired.

(** ** Concrete cases *)
(** A grey picture with one black block in it, which has no room for a zero; that block is painted over later, all other pixels change by up to two levels. *)
Definition spoiled128 : array2 Z := mkArray2 128 128
  (map (fun i => map (fun j => if (i <? 8)%nat && (24 <=? j)%nat && (j <? 32)%nat then 0 else 131) (seq 0 128)) (seq 0 128)).
Lemma spoiled128_picture : picture spoiled128 128 3.
Proof.
  assert (W : wf spoiled128) by (split; [reflexivity|]; apply Forall_forall; intros r Hr; apply in_map_iff in Hr as (i & <- & _); now rewrite map_length, seq_length).
  split; [split; [exact W|]; repeat split; lia|].
  assert (B : forallb (forallb (fun v => (0 <=? v) && (v <=? 255))) (rows spoiled128) = true) by (vm_compute; reflexivity).
  apply image8_cells; [exact W|]. intros i j v Ec. unfold cell in Ec. destruct (nth_error (rows spoiled128) i) as [r|] eqn:Er; [|discriminate].
  apply nth_error_In in Er. apply nth_error_In in Ec. rewrite forallb_forall in B. specialize (B r Er). rewrite forallb_forall in B. specialize (B v Ec).
  apply andb_true_iff in B as (B1 & B2). apply Z.leb_le in B1. apply Z.leb_le in B2. unfold byte. lia.
Qed.
Lemma spoiled128_withstands depth bi bj : depth = 100 \/ depth = 500 -> (bi < 16)%nat -> (bj < 16)%nat -> ~ In (16 * bi + bj)%nat [3%nat] -> withstands depth 128 spoiled128 bi bj.
Proof.
  intros HD Hi Hj Hin. left.
  assert (B : forallb (fun a => forallb (fun b => (16 * a + b =? 3)%nat || (excess spoiled128 9 a b <=? 39) && (lack spoiled128 9 a b <=? 39) && (excess spoiled128 47 a b <=? 839) && (lack spoiled128 47 a b <=? 839)) (seq 0 16)) (seq 0 16) = true)
    by (vm_compute; reflexivity).
  rewrite forallb_forall in B. specialize (B bi ltac:(apply in_seq; lia)). rewrite forallb_forall in B. specialize (B bj ltac:(apply in_seq; lia)).
  apply orb_true_iff in B as [B|B]; [apply Nat.eqb_eq in B; exfalso; apply Hin; left; lia|].
  apply andb_true_iff in B as (B & B4). apply andb_true_iff in B as (B & B3). apply andb_true_iff in B as (B1 & B2). apply Z.leb_le in B1, B2, B3, B4.
  destruct HD as [-> | ->].
  - change (strongest 100) with 9. change (2 * 100 - 33 - 128) with 39. split; assumption.
  - change (strongest 500) with 47. change (2 * 500 - 33 - 128) with 839. split; assumption.
Qed.
Lemma one_per_group size x : at_most_per_group 1 size [x].
Proof. intros w. cbn [filter]. destruct (_ =? _)%nat; cbn; lia. Qed.
Example C89_painted_instance : forall depth, depth = 100 \/ depth = 500 ->
  exists marked, embed Bops repairing_ldpc spoiled128 (repeat 65 12) (f_of_Z Bops depth) 3 = Ok marked
    /\ forall received, picture received 128 3 -> pixels_within_except [3%nat] marked received 128 2 ->
       extract Bops repairing_ldpc received (f_of_Z Bops depth) 3 = Ok (repeat 65 12).
Proof.
  intros D HD. destruct C30_witness as (_ & _ & _ & H4 & H5 & _).
  destruct (C89_f64_painted_over_blocks_are_repaired repairing_ldpc 1 repairing_shape repairing_corrects spoiled128 128 D (repeat 65 12) 2 [3%nat]) as (mk & Em & P & X).
  - lia.
  - lia.
  - exact spoiled128_picture.
  - exact H4.
  - apply Forall_forall. intros x Hx. apply repeat_spec in Hx. subst x. unfold byte. lia.
  - rewrite repeat_length. lia.
  - rewrite repeat_length. exact H5.
  - apply one_per_group.
  - intros bi bj Hi Hj Hin. now apply spoiled128_withstands.
  - exists mk. split; [exact Em|exact X].
Qed.
(** That black block fails the condition of C88: it is not harmless in itself. *)
Example C89_black_block : ~ withstands 500 0 spoiled128 0 3.
Proof.
  intros [(_ & H)|(H & _)].
  - assert (B : lack spoiled128 47 0 3 = 3008) by (vm_compute; reflexivity). change (strongest 500) with 47 in H. rewrite B in H. lia.
  - specialize (H 0%nat 0%nat ltac:(lia) ltac:(lia)). vm_compute in H. discriminate.
Qed.

(** A white picture with eight black pixels in its first row: its first block cannot be saved, all others can. *)
Definition stained512 : dynimage := ImageRgba8 512 512 (repeat (0, 0, 0, 77) 8 ++ repeat (255, 255, 255, 77) (512 * 512 - 8)).
Lemma stained512_wf : well_formed stained512.
Proof.
  unfold well_formed, stained512. cbn [dimensions get_pixels has_alpha has_color]. split; [rewrite app_length, !repeat_length; change 8%nat with (Z.to_nat 8); change 512%nat with (Z.to_nat 512); lia|]. split; [|split; discriminate].
  apply Forall_app. split; apply Forall_repeat; unfold pixel8, byte; cbn; lia.
Qed.
Lemma stained512_withstands fe sel : In fe [command_line; web_page] -> In sel [ch1; ch2; ch3] -> channel_withstands_except [0%nat] (depth_of fe) 2 (component sel stained512) 512.
Proof.
  intros Hfe Hsel pixels Ep bi bj Hi Hj Hin. right. split; [|split; [destruct Hfe as [ <- |[ <- |[]]]; [now left|now right]|lia]].
  intros p q Hp Hq.
  assert (Hg : gray_picture (component sel stained512) 512 3).
  { apply component_picture; [exact stained512_wf|reflexivity|cbn in Hsel; intuition auto|reflexivity|]. change 512%nat with (Z.to_nat 512). rewrite <- Z2Nat.inj_mul, Z2Nat.id by lia. reflexivity. }
  destruct (gray_array _ 512 3 Hg) as (im & Eim & Him & Hc). destruct Hg as (W & H & _). rewrite W, H in Eim. assert (im = pixels) by congruence. subst im.
  change (512 / 8)%nat with 64%nat in *. assert (Ha : (8 * bi + p < 512)%nat) by lia. assert (Hb : (8 * bj + q < 512)%nat) by lia.
  destruct (block_cell pixels 512 Him bi bj p q) as (v & Ev & _); [exact Hi|exact Hj|exact Hp|exact Hq|]. unfold pixel. rewrite Ev. rewrite (Hc _ _ Ha Hb) in Ev.
  unfold gray_pixel in Ev. unfold component, stained512 in Ev. cbn [gray_raw get_pixels] in Ev. rewrite map_app in Ev.
  rewrite nth_error_app2 in Ev.
  2:{ rewrite map_length, repeat_length. cbn [In] in Hin. assert (bi <> 0%nat \/ bj <> 0%nat) by lia. lia. }
  apply nth_error_In, in_map_iff in Ev as (px & <- & Hpx).
  apply repeat_spec in Hpx. subst px. cbn in Hsel. destruct Hsel as [ <- |[ <- |[ <- |[]]]]; reflexivity.
Qed.
Example C89_shipped_instance : forall fe, In fe [command_line; web_page] -> exists result,
  watermark_image Bops repairing_ldpc toy_ed equalize_histogram (zernike_f64 exact_libm (fun x => x) true) true (repeat false 8) stained512 (f_of_Z Bops (depth_of fe)) (f_of_Z Bops 1) 11 = Ok result
  /\ changes_at_most (moves_at_most fe) stained512 result.
Proof.
  intros fe Hfe. destruct C83_512_is_usable as (A & B & C & D).
  destruct (C89_f64_the_shipped_scheme_with_destroyed_blocks repairing_ldpc 1 repairing_shape repairing_corrects toy_ed toy_format toy_keys exact_libm exact_libm_accurate (fun x => x) true (repeat false 8) eq_refl fe stained512 512 2 Hfe stained512_wf eq_refl A B C D)
    as (result & H1 & _ & _ & H2 & _); [|exists result; split; assumption]. intros sel Hsel. exists [0%nat]. split; [apply one_per_group|now apply stained512_withstands].
Qed.

Print Assumptions C89_f64_destroyed_blocks_are_repaired.
Print Assumptions C89_f64_painted_over_blocks_are_repaired.
Print Assumptions C89_f64_the_shipped_scheme_with_destroyed_blocks.
