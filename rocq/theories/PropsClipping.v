(** Property C88: pixels that are cut at black or white.  How much cutting the hidden data survive, in double precision
    (lib/sia/rust/embedding/src/lib.rs: embed, extract; three levels as both front ends use). *)
From Coq Require Import Reals Lra.
From Flocq Require Import Core BinarySingleNaN.
From Verif Require Import Outcome Floats FloatFacts Bits ListFacts IndexArithProofs Codecs CodecProofs WatermarkProofs Encoding EncodingProofs PropsEncoding
  Matrix MatrixFacts Haar HaarProofs HaarReal HaarFloat PropsHaar QuantFloat Stego StegoProofs StegoMarks PropsStego Embedding EmbeddingProofs EmbeddingEffect
  PropsEmbedding PropsEmbedding2 PropsEmbedding3 Toy PropsRobust PropsInteger.
Open Scope Z_scope.

(** ** Specification vocabulary *)
(** The sum over the 64 pixels of block (bi, bj) of what [f] makes of a pixel. *)
Definition over_block (image : array2 Z) (bi bj : nat) (f : Z -> Z) : Z :=
  zsum 8 (fun p => zsum 8 (fun q => f (pixel image (8 * bi + p) (8 * bj + q)))).
(** What all the pixels of the block together would exceed white by, if each were made [m] levels brighter. *)
Definition excess (image : array2 Z) (m : Z) (bi bj : nat) : Z := over_block image bi bj (fun v => Z.max 0 (v + m - 255)).
(** What they would fall short of black by, if each were made [m] levels darker. *)
Definition lack (image : array2 Z) (m : Z) (bi bj : nat) : Z := over_block image bi bj (fun v => Z.max 0 (m - v)).
(** The most a pixel is moved at this depth: 9 for depth 100, 47 for depth 500. *)
Definition strongest (depth : Z) : Z := (6 * depth + 32) / 64.
(** Every pixel of the block is white. *)
Definition all_white (image : array2 Z) (bi bj : nat) : Prop :=
  forall p q, (p < 8)%nat -> (q < 8)%nat -> pixel image (8 * bi + p) (8 * bj + q) = 255.
(** The sums of the carrying blocks of two pictures differ by at most [t]. *)
Definition sums_within (a b : array2 Z) (n bits : nat) (t : Z) : Prop :=
  forall bi bj, (bi < n / 8)%nat -> (bj < n / 8)%nat -> (n / 8 * bi + bj < bits)%nat -> Z.abs (block_total b 3 bi bj - block_total a 3 bi bj) <= t.

(** ** Sums *)
Lemma zsum_le n f g : (forall k, (k < n)%nat -> f k <= g k) -> zsum n f <= zsum n g.
Proof. induction n; intros H; cbn [zsum]; [lia|]. specialize (IHn ltac:(auto)). specialize (H n ltac:(lia)). lia. Qed.
Lemma zsum_lin n a f b g c : zsum n (fun k => a * f k + b * g k + c) = a * zsum n f + b * zsum n g + Z.of_nat n * c.
Proof. induction n; cbn [zsum]; [change (Z.of_nat 0) with 0; ring|]. rewrite IHn, Nat2Z.inj_succ. ring. Qed.
Lemma zsum2_lin n a f b g c : zsum n (fun p => zsum n (fun q => a * f p q + b * g p q + c))
  = a * zsum n (fun p => zsum n (fun q => f p q)) + b * zsum n (fun p => zsum n (fun q => g p q)) + Z.of_nat n * (Z.of_nat n * c).
Proof.
  rewrite (zsum_ext n _ (fun p => a * zsum n (fun q => f p q) + b * zsum n (fun q => g p q) + Z.of_nat n * c)) by (intros p _; apply zsum_lin).
  rewrite zsum_lin. ring.
Qed.
(** Double sums over a block, abstractly. *)
Definition dsum (f : nat -> nat -> Z) : Z := zsum 8 (fun p => zsum 8 (fun q => f p q)).
Lemma dsum_le f g : (forall p q, (p < 8)%nat -> (q < 8)%nat -> f p q <= g p q) -> dsum f <= dsum g.
Proof. intros H. unfold dsum. apply zsum_le. intros p Hp. apply zsum_le. auto. Qed.
Lemma dsum_ext f g : (forall p q, (p < 8)%nat -> (q < 8)%nat -> f p q = g p q) -> dsum f = dsum g.
Proof. intros H. unfold dsum. apply zsum_ext. intros p Hp. apply zsum_ext. auto. Qed.
Lemma dsum_lin a f b g c : dsum (fun p q => a * f p q + b * g p q + c) = a * dsum f + b * dsum g + 8 * (8 * c).
Proof. exact (zsum2_lin 8 a f b g c). Qed.
Lemma dsum_const c : dsum (fun _ _ => c) = 8 * (8 * c).
Proof. unfold dsum. rewrite !zsum_const. reflexivity. Qed.
Lemma block_total_dsum m bi bj : block_total m 3 bi bj = dsum (fun p q => pixel m (8 * bi + p) (8 * bj + q)).
Proof. unfold block_total. change (2 ^ 3)%nat with 8%nat. unfold dsum. reflexivity. Qed.
Lemma over_block_dsum m bi bj f : over_block m bi bj f = dsum (fun p q => f (pixel m (8 * bi + p) (8 * bj + q))).
Proof. unfold over_block, dsum. reflexivity. Qed.
Opaque dsum.

(** ** One block: 64 pixels [v], moved by amounts near N/64, cut to 0..255 *)
Lemma one_sided a N : Z.abs (64 * a - N) <= 32 -> (0 <= N -> 0 <= a) /\ (N <= 0 -> a <= 0).
Proof. lia. Qed.
Lemma clipped_block (v w : nat -> nat -> Z) N m :
  (forall p q, (p < 8)%nat -> (q < 8)%nat -> 0 <= v p q <= 255) ->
  (forall p q, (p < 8)%nat -> (q < 8)%nat -> exists a, Z.abs (64 * a - N) <= 32 /\ w p q = clamp 0 255 (v p q + a)) ->
  Z.abs N + 32 < 64 * (m + 1) ->
  dsum v + N - 32 - dsum (fun p q => Z.max 0 (v p q + m - 255)) <= dsum w <= dsum v + N + 32 + dsum (fun p q => Z.max 0 (m - v p q)).
Proof.
  intros Hv Hw Hm.
  assert (E0 : 0 <= dsum (fun p q => Z.max 0 (v p q + m - 255))) by (change 0 with (8 * (8 * 0)) at 1; rewrite <- dsum_const; apply dsum_le; intros; lia).
  assert (E1 : 0 <= dsum (fun p q => Z.max 0 (m - v p q))) by (change 0 with (8 * (8 * 0)) at 1; rewrite <- dsum_const; apply dsum_le; intros; lia).
  assert (L : dsum (fun p q => 64 * v p q + (-64) * Z.max 0 (v p q + m - 255) + (N - 32)) <= dsum (fun p q => 64 * w p q + 0 * v p q + 0)).
  { apply dsum_le. intros p q Hp Hq. destruct (Hw p q Hp Hq) as (a & Ha & ->). specialize (Hv p q Hp Hq). unfold clamp. lia. }
  assert (R : dsum (fun p q => 64 * w p q + 0 * v p q + 0) <= dsum (fun p q => 64 * v p q + 64 * Z.max 0 (m - v p q) + (N + 32))).
  { apply dsum_le. intros p q Hp Hq. destruct (Hw p q Hp Hq) as (a & Ha & ->). specialize (Hv p q Hp Hq). unfold clamp. lia. }
  rewrite !dsum_lin in L, R. lia.
Qed.

Lemma bit_read_near D r (b : bool) T : 0 < D -> Z.abs (T - (8 * D * r + (if b then 2 * D else - (2 * D)))) <= 2 * D - 1 -> bit_read D T = b /\ ~ border D T.
Proof.
  intros HD H. unfold bit_read, border. destruct b.
  - assert (E : T mod (8 * D) = T - 8 * D * r) by (symmetry; apply (Z.mod_unique_pos _ _ r); lia). rewrite E. split; [apply Z.ltb_lt; lia|].
    assert (E2 : T mod (4 * D) = T - 8 * D * r) by (symmetry; apply (Z.mod_unique_pos _ _ (2 * r)); lia). lia.
  - assert (E : T mod (8 * D) = T - 8 * D * r + 8 * D) by (symmetry; apply (Z.mod_unique_pos _ _ (r - 1)); lia). rewrite E. split; [apply Z.ltb_ge; lia|].
    assert (E2 : T mod (4 * D) = T - 8 * D * r + 4 * D) by (symmetry; apply (Z.mod_unique_pos _ _ (2 * r - 1)); lia). lia.
Qed.

(** ** What embedding does to the sum of a carrying block *)
Section Embedded.
Context (K : ldpc) (image : array2 Z) (n : nat) (depth : Z) (payload : list Z) (marked : array2 Z).
Context (HD : 1 <= depth <= 4096) (Hp : picture image n 3) (Em : embed Bops K image payload (f_of_Z Bops depth) 3 = Ok marked).

Lemma block_cell bi bj p q : (bi < n / 8)%nat -> (bj < n / 8)%nat -> (p < 8)%nat -> (q < 8)%nat ->
  exists v, cell image (8 * bi + p) (8 * bj + q) = Some v /\ 0 <= v <= 255.
Proof.
  intros Hi Hj Hpp Hq. destruct Hp as (Hc & H8). assert (Hm : (n mod 2 ^ 3 = 0)%nat) by apply Hc.
  pose proof (place_lt_n n 3 bi p Hm Hi Hpp) as Hx. pose proof (place_lt_n n 3 bj q Hm Hj Hq) as Hy. change (2 ^ 3)%nat with 8%nat in *.
  destruct (cell_bounds image (8 * bi + p) (8 * bj + q)) as (v & Ev); [apply Hc|destruct Hc as (_ & -> & _); exact Hx|destruct Hc as (_ & _ & -> & _); exact Hy|].
  exists v. split; [exact Ev|]. pose proof (image8_cell image _ _ v H8 Ev) as Hb. unfold byte in Hb. lia.
Qed.
Lemma place_div8 b p : (p < 8)%nat -> ((8 * b + p) / 8 = b)%nat.
Proof. intros H. symmetry. apply (Nat.div_unique _ _ _ p); lia. Qed.

Lemma embedded_block : exists frame stored, data_serialize payload = Ok frame /\ encode K frame (band_capacity n 3) = Ok stored
  /\ forall bi bj, (bi < n / 8)%nat -> (bj < n / 8)%nat -> let k := (n / 8 * bi + bj)%nat in (k < 8 * length stored)%nat ->
     exists r N, Z.abs (block_total image 3 bi bj - 8 * depth * r) <= 4 * depth
       /\ N = 8 * depth * r + (if payload_bit stored k then 2 * depth else - (2 * depth)) - block_total image 3 bi bj
       /\ forall p q, (p < 8)%nat -> (q < 8)%nat -> exists a, Z.abs (64 * a - N) <= 32
            /\ pixel marked (8 * bi + p) (8 * bj + q) = clamp 0 255 (pixel image (8 * bi + p) (8 * bj + q) + a).
Proof.
  destruct (C86_f64_every_block K image n depth payload marked HD Hp Em) as (ser & enc & E1 & E2 & H). exists ser, enc. split; [exact E1|]. split; [exact E2|].
  intros bi bj Hi Hj k Hk. destruct (H bi bj Hi Hj) as (_ & H2). destruct (H2 Hk) as (r & Hr & Ha). eexists r, _. split; [exact Hr|]. split; [reflexivity|].
  intros p q Hpp Hq. destruct (block_cell bi bj p q Hi Hj Hpp Hq) as (v & Ev & _).
  destruct (Ha _ _ v (place_div8 bi p Hpp) (place_div8 bj q Hq) Ev) as (a & Hb & Ew). exists a. split; [exact Hb|]. unfold pixel. now rewrite Ev, Ew.
Qed.
End Embedded.

Lemma sum_after D r N (b : bool) T (v w : nat -> nat -> Z) c : 1 <= D ->
  Z.abs (T - 8 * D * r) <= 4 * D -> N = 8 * D * r + (if b then 2 * D else - (2 * D)) - T -> T = dsum v ->
  (forall p q, (p < 8)%nat -> (q < 8)%nat -> 0 <= v p q <= 255) ->
  (forall p q, (p < 8)%nat -> (q < 8)%nat -> exists a, Z.abs (64 * a - N) <= 32 /\ w p q = clamp 0 255 (v p q + a)) ->
  dsum (fun p q => Z.max 0 (v p q + strongest D - 255)) <= c -> dsum (fun p q => Z.max 0 (strongest D - v p q)) <= c ->
  Z.abs (dsum w - (8 * D * r + (if b then 2 * D else - (2 * D)))) <= 32 + c.
Proof.
  intros HD Hr HN HT Hv Hw H1 H2.
  assert (Hm : Z.abs N + 32 < 64 * (strongest D + 1)).
  { unfold strongest. pose proof (Z.div_mod (6 * D + 32) 64 ltac:(lia)). pose proof (Z.mod_pos_bound (6 * D + 32) 64 ltac:(lia)). destruct b; lia. }
  pose proof (clipped_block v w N (strongest D) Hv Hw Hm). lia.
Qed.

(** A block that keeps its bit although pixels are cut, with [t] to spare: what is cut is little; or the whole block is white (depths of the front ends). *)
Definition withstands (depth t : Z) (image : array2 Z) (bi bj : nat) : Prop :=
  (excess image (strongest depth) bi bj <= 2 * depth - 33 - t /\ lack image (strongest depth) bi bj <= 2 * depth - 33 - t)
  \/ (all_white image bi bj /\ (depth = 100 \/ depth = 500) /\ t <= 191).

Lemma white_after D r N (b : bool) T (v w : nat -> nat -> Z) t : D = 100 \/ D = 500 -> t <= 191 ->
  Z.abs (T - 8 * D * r) <= 4 * D -> N = 8 * D * r + (if b then 2 * D else - (2 * D)) - T -> T = dsum v ->
  (forall p q, (p < 8)%nat -> (q < 8)%nat -> v p q = 255) ->
  (forall p q, (p < 8)%nat -> (q < 8)%nat -> exists a, Z.abs (64 * a - N) <= 32 /\ w p q = clamp 0 255 (v p q + a)) ->
  Z.abs (dsum w - (8 * D * r + (if b then 2 * D else - (2 * D)))) <= 2 * D - 1 - t.
Proof.
  intros Hd Ht Hr HN HT Hv Hw.
  assert (ET : T = 16320) by (rewrite HT, (dsum_ext v (fun _ _ => 255) Hv), dsum_const; reflexivity). clear HT. subst T.
  assert (W : forall x, (forall a, Z.abs (64 * a - N) <= 32 -> clamp 0 255 (255 + a) = x) -> dsum w = 8 * (8 * x)).
  { intros x Hx. rewrite <- dsum_const. apply dsum_ext. intros p q Hp Hq. destruct (Hw p q Hp Hq) as (a & Ha & ->). rewrite Hv by assumption. now apply Hx. }
  destruct Hd as [-> | ->].
  - assert (r = 20) by lia. subst r. destruct b.
    + rewrite (W 253) by (intros a Ha; unfold clamp; lia). lia.
    + rewrite (W 247) by (intros a Ha; unfold clamp; lia). lia.
  - assert (r = 4) by lia. subst r. destruct b.
    + rewrite (W 255) by (intros a Ha; unfold clamp; lia). lia.
    + rewrite (W 234) by (intros a Ha; unfold clamp; lia). lia.
Qed.
Lemma loss_after D r N (b : bool) T (v w : nat -> nat -> Z) t : 1 <= D ->
  Z.abs (T - 8 * D * r) <= 4 * D -> N = 8 * D * r + (if b then 2 * D else - (2 * D)) - T -> T = dsum v ->
  (forall p q, (p < 8)%nat -> (q < 8)%nat -> 0 <= v p q <= 255) ->
  (forall p q, (p < 8)%nat -> (q < 8)%nat -> exists a, Z.abs (64 * a - N) <= 32 /\ w p q = clamp 0 255 (v p q + a)) ->
  dsum (fun p q => Z.max 0 (v p q + strongest D - 255)) <= 2 * D - 33 - t -> dsum (fun p q => Z.max 0 (strongest D - v p q)) <= 2 * D - 33 - t ->
  Z.abs (dsum w - (8 * D * r + (if b then 2 * D else - (2 * D)))) <= 2 * D - 1 - t.
Proof.
  intros HD Hr HN HT Hv Hw H1 H2. pose proof (sum_after D r N b T v w (2 * D - 33 - t) HD Hr HN HT Hv Hw H1 H2). lia.
Qed.

Lemma excess_le image m bi bj c : excess image m bi bj <= c -> dsum (fun p q => Z.max 0 (pixel image (8 * bi + p) (8 * bj + q) + m - 255)) <= c.
Proof. unfold excess. rewrite over_block_dsum. exact (fun H => H). Qed.
Lemma lack_le image m bi bj c : lack image m bi bj <= c -> dsum (fun p q => Z.max 0 (m - pixel image (8 * bi + p) (8 * bj + q))) <= c.
Proof. unfold lack. rewrite over_block_dsum. exact (fun H => H). Qed.
Lemma marked_sum K image n depth payload marked : 1 <= depth <= 4096 -> picture image n 3 ->
  embed Bops K image payload (f_of_Z Bops depth) 3 = Ok marked ->
  exists frame stored, data_serialize payload = Ok frame /\ encode K frame (band_capacity n 3) = Ok stored
  /\ forall bi bj t, (bi < n / 8)%nat -> (bj < n / 8)%nat -> (n / 8 * bi + bj < 8 * length stored)%nat -> withstands depth t image bi bj ->
     exists r, Z.abs (block_total marked 3 bi bj - (8 * depth * r + (if payload_bit stored (n / 8 * bi + bj) then 2 * depth else - (2 * depth)))) <= 2 * depth - 1 - t.
Proof.
  intros HD Hp Em. destruct (embedded_block K image n depth payload marked HD Hp Em) as (ser & enc & E1 & E2 & H). exists ser, enc. split; [exact E1|]. split; [exact E2|].
  intros bi bj t Hi Hj Hk Hw. destruct (H bi bj Hi Hj Hk) as (r & N & Hr & HN & Ha). exists r. revert Ha HN. set (b := payload_bit enc (n / 8 * bi + bj)). clearbody b. intros Ha HN.
  assert (Hv : forall p q, (p < 8)%nat -> (q < 8)%nat -> 0 <= pixel image (8 * bi + p) (8 * bj + q) <= 255) by (intros; apply pixel_range, Hp).
  destruct Hw as [(W1 & W2)|(W & Hd & Ht)].
  - rewrite (block_total_dsum marked).
    exact (loss_after depth r N b _ _ _ t (proj1 HD) Hr HN (block_total_dsum image bi bj) Hv Ha (excess_le _ _ _ _ _ W1) (lack_le _ _ _ _ _ W2)).
  - rewrite (block_total_dsum marked). exact (white_after depth r N b _ _ _ t Hd Ht Hr HN (block_total_dsum image bi bj) W Ha).
Qed.

(** *** C88: the payload comes back, and survives further changes of the block sums by [t], if every carrying block withstands the cutting. *)
Theorem C88_f64_how_much_cutting_is_harmless : forall K, ldpc_shape K -> ldpc_decodes K ->
  forall image n depth payload t, 1 <= depth <= 4096 -> picture image n 3 -> usable n 3 -> bytes payload -> 1 <= Z.of_nat (length payload) <= 65533 ->
  (stored_size n 3 (length payload) <= band_capacity n 3)%nat ->
  (forall bi bj, (bi < n / 8)%nat -> (bj < n / 8)%nat -> (n / 8 * bi + bj < 8 * stored_size n 3 (length payload))%nat -> withstands depth t image bi bj) ->
  exists marked, embed Bops K image payload (f_of_Z Bops depth) 3 = Ok marked /\ picture marked n 3
    /\ forall received, picture received n 3 -> sums_within marked received n (8 * stored_size n 3 (length payload)) t ->
       extract Bops K received (f_of_Z Bops depth) 3 = Ok payload.
Proof.
  intros K Hsh Hdec m n D payload t HD Hp (Hcod & Hmod) Hb Hl Hfit Hw. pose proof Hp as (Hc & H8).
  destruct (b_of_Z_ok D) as (Fd & Vd); [lia|]. change (b_of_Z D) with (f_of_Z Bops D) in *.
  assert (D1 : (1 <= IZR D)%R) by (apply (IZR_le 1); lia). assert (D2 : (IZR D <= 4096)%R) by (apply (IZR_le _ 4096); lia).
  assert (Hd' : (bpow radix2 (- (0)) <= toR (f_of_Z Bops D) <= bpow radix2 20)%R) by (rewrite Vd; simpl bpow; lra).
  assert (EX : exists out, embed Bops K m payload (f_of_Z Bops D) 3 = Ok out /\ picture out n 3).
  { destruct (extract_payload Bops K m n 3 (f_of_Z Bops D) payload Hc Hsh Hdec Hcod Hmod Hb Hl Hfit) as (ser & enc & E1 & E2 & E3 & E4 & E5 & E6 & _).
    destruct (embed_effect_float_gen 0 K m n 3 (f_of_Z Bops D) payload ser enc ltac:(lia) Hc H8 ltac:(lia) Fd Hd' E5 E1 E2 E3) as (out & Eo & Heff).
    exists out. split; [exact Eo|exact (eff_shape _ _ _ _ _ _ _ _ _ Heff)]. }
  destruct EX as (out & Eo & Pout). exists out. split; [exact Eo|]. split; [exact Pout|]. intros rc Prc Hs. pose proof Prc as (Hrc & H8r).
  destruct (extract_payload Bops K rc n 3 (f_of_Z Bops D) payload Hrc Hsh Hdec Hcod Hmod Hb Hl Hfit) as (ser & enc & E1 & E2 & E3 & E4 & E5 & E6 & HX).
  destruct (marked_sum K m n D payload out HD Hp Eo) as (ser' & enc' & E1' & E2' & HS).
  assert (ser' = ser) by congruence. subst ser'. unfold band_capacity in E2'. fold (band n 3) in E2'. assert (enc' = enc) by congruence. subst enc'.
  apply HX. intros C Hdom C0 C1 GC k Hk.
  assert (Hs0 : (0 < band n 3)%nat) by (destruct (band n 3); [cbn in E5; lia|lia]).
  destruct (used_cell n 3 enc k Hs0 Hk E3) as (_ & Hk2). destruct (place_lt (band n 3) k Hs0 Hk2) as (P1 & P2).
  assert (PI : (n / 8 * (k / band n 3) + k mod band n 3 = k)%nat) by (change (n / 8)%nat with (band n 3); pose proof (Nat.div_mod k (band n 3) ltac:(lia)); lia).
  pose proof (carrier_band rc n 3 Hrc) as (Hsn & _ & Hdiv & _).
  rewrite cell_bit_get by assumption. rewrite GC.
  assert (HA : approx n n (bpow radix2 (-24)) (transform Bops false n n 3 (get Bops (mapv (f_of_Z Bops) rc))) (transR false n n 3 (pixR rc))).
  { destruct Hrc as (_ & X0 & X1 & _). pose proof (pixR_bounded rc H8r) as Hbd. pose proof (pix_float rc H8r) as Hpx. rewrite X0, X1 in *. apply analysis_float; try assumption. lia. }
  destruct (HA (k / band n 3)%nat (k mod band n 3)%nat ltac:(lia) ltac:(lia)) as (FC & HC). rewrite coefficient_eq in HC by assumption. rewrite coefficient_sum in HC.
  assert (Hk8 : (n / 8 * (k / band n 3) + k mod band n 3 < 8 * length enc)%nat) by (rewrite PI; exact Hk).
  assert (Hk9 : (n / 8 * (k / band n 3) + k mod band n 3 < 8 * stored_size n 3 (length payload))%nat) by (unfold stored_size, band_capacity; fold (band n 3); rewrite <- E6; exact Hk8).
  destruct (HS (k / band n 3)%nat (k mod band n 3)%nat t P1 P2 Hk8 (Hw _ _ P1 P2 Hk9)) as (r & Hr). pose proof (Hs _ _ P1 P2 Hk9) as Hn. rewrite PI in Hr.
  pose proof (block_sum_range rc (k / band n 3) (k mod band n 3) H8r) as HT.
  revert HC Hr Hn HT. generalize (block_total rc 3 (k / band n 3) (k mod band n 3)) (block_total out 3 (k / band n 3) (k mod band n 3)). intros T T' HC Hr Hn HT.
  destruct (bit_read_near D r (payload_bit enc k) T ltac:(lia) ltac:(lia)) as (B1 & B2).
  rewrite (bit_of_sum D _ T HD HT B2 FC HC). exact B1.
Qed.

(** *** A block that is dark altogether cannot hold a zero: all its pixels become black, and black is read as a one. *)
Theorem C88_f64_dark_blocks_turn_zeros_into_ones : forall K image n depth payload marked, 1 <= depth <= 4096 ->
  picture image n 3 -> embed Bops K image payload (f_of_Z Bops depth) 3 = Ok marked ->
  exists frame stored received, data_serialize payload = Ok frame /\ encode K frame (band_capacity n 3) = Ok stored
    /\ extract Bops K marked (f_of_Z Bops depth) 3 = bind (decode K received (band_capacity n 3)) data_deserialize
    /\ forall bi bj, (bi < n / 8)%nat -> (bj < n / 8)%nat -> let k := (n / 8 * bi + bj)%nat in (k < 8 * length stored)%nat ->
       payload_bit stored k = false -> block_total image 3 bi bj < 4 * depth ->
       (forall p q, (p < 8)%nat -> (q < 8)%nat -> 64 * pixel image (8 * bi + p) (8 * bj + q) <= block_total image 3 bi bj + 2 * depth - 32) ->
       (forall p q, (p < 8)%nat -> (q < 8)%nat -> pixel marked (8 * bi + p) (8 * bj + q) = 0) /\ payload_bit received k = true.
Proof.
  intros K m n D payload out HD Hp E. pose proof Hp as (Hc & H8). destruct (embed_inv Bops K m n 3 (f_of_Z Bops D) payload out Hc E) as (H9 & ser & enc & Hser & Henc & Hlen).
  destruct (embedded_block K m n D payload out HD Hp E) as (ser' & enc' & E1 & E2 & HB). assert (ser' = ser) by congruence. subst ser'.
  unfold band_capacity in E2. fold (band n 3) in E2. assert (enc' = enc) by congruence. subst enc'.
  destruct (b_of_Z_ok D) as (Fd & Vd); [lia|]. change (b_of_Z D) with (f_of_Z Bops D) in *.
  assert (D1 : (1 <= IZR D)%R) by (apply (IZR_le 1); lia). assert (D2 : (IZR D <= 4096)%R) by (apply (IZR_le _ 4096); lia).
  assert (Hd' : (bpow radix2 (- (0)) <= toR (f_of_Z Bops D) <= bpow radix2 20)%R) by (rewrite Vd; simpl bpow; lra).
  assert (Pout : picture out n 3).
  { destruct (embed_effect_float_gen 0 K m n 3 (f_of_Z Bops D) payload ser enc ltac:(lia) Hc H8 ltac:(lia) Fd Hd' H9 Hser Henc Hlen) as (out' & Eo & Heff).
    assert (out' = out) by congruence. subst out'. exact (eff_shape _ _ _ _ _ _ _ _ _ Heff). }
  pose proof Pout as (Hco & H8o).
  destruct (extract_run Bops K out n 3 (f_of_Z Bops D) Hco H9) as (C & Hdom & C0 & C1 & GC & EX). pose proof (carrier_band out n 3 Hco) as (Hsn & Hrep & Hdiv & _).
  pose proof (read_ok Bops (f_of_Z Bops D) (band n 3) C Hrep Hdom) as Erd. set (rc := map _ _) in Erd.
  destruct (read_bits Bops (f_of_Z Bops D) (band n 3) C _ Hrep Hdom Erd) as (Ll & Hbits).
  exists ser, enc, rc. split; [exact Hser|]. split; [exact Henc|]. split; [rewrite EX, Erd; reflexivity|].
  intros bi bj Hi Hj k Hk Hbit Hdark Hpx. destruct (HB bi bj Hi Hj Hk) as (r & N & Hr & HN & Ha). fold k in HN. rewrite Hbit in HN.
  pose proof (block_sum_range m bi bj H8) as HT.
  assert (Z0 : forall p q, (p < 8)%nat -> (q < 8)%nat -> pixel out (8 * bi + p) (8 * bj + q) = 0).
  { intros p q Hpp Hq. specialize (Hpx p q Hpp Hq). destruct (Ha p q Hpp Hq) as (a & Haa & ->). pose proof (pixel_range m (8 * bi + p) (8 * bj + q) H8) as Hv.
    revert Hr HN Hdark Hpx HT Hv. generalize (block_total m 3 bi bj) (pixel m (8 * bi + p) (8 * bj + q)). intros T v Hr HN Hdark Hpx HT Hv.
    assert (r = 0) by nia. subst r. unfold clamp. lia. }
  split; [exact Z0|]. change (n / 8)%nat with (band n 3) in *.
  assert (Hk2 : (k < 8 * length rc)%nat) by (rewrite Ll; unfold band_capacity in *; lia).
  rewrite <- nth_bits, Hbits by exact Hk2.
  assert (Hs0 : (0 < band n 3)%nat) by lia. destruct (used_cell n 3 enc k Hs0 Hk Hlen) as (_ & Hk3).
  rewrite cell_bit_get by assumption. rewrite GC.
  assert (Q1 : (k / band n 3 = bi)%nat) by (unfold k; symmetry; apply (Nat.div_unique _ _ _ bj); lia).
  assert (Q2 : (k mod band n 3 = bj)%nat) by (unfold k; symmetry; apply (Nat.mod_unique _ _ bi); lia). rewrite Q1, Q2.
  destruct (band_cells out n 3 Pout ltac:(lia) bi bj Hi Hj) as (Fx & Px & Ax). rewrite coefficient_eq, coefficient_sum in Ax by assumption.
  assert (S0 : block_total out 3 bi bj = 0) by (rewrite block_total_dsum, (dsum_ext _ (fun _ _ => 0) Z0), dsum_const; reflexivity). rewrite S0 in Ax.
  apply bit_of_small_float; try assumption; rewrite Vd; apply Rabs_le_inv in Ax; simpl bpow in *; lra.
Qed.

(** Flat dark areas: with depth 100 every flat block of value 0..6, with depth 500 every flat block of value 0..31 loses its zeros. *)
Theorem C88_flat_dark_blocks : forall image bi bj depth v, 16 <= depth -> 16 * v < depth ->
  (forall p q, (p < 8)%nat -> (q < 8)%nat -> pixel image (8 * bi + p) (8 * bj + q) = v) ->
  block_total image 3 bi bj < 4 * depth
  /\ forall p q, (p < 8)%nat -> (q < 8)%nat -> 64 * pixel image (8 * bi + p) (8 * bj + q) <= block_total image 3 bi bj + 2 * depth - 32.
Proof.
  intros m bi bj D v HD Hv H. assert (S : block_total m 3 bi bj = 8 * (8 * v)) by (rewrite block_total_dsum, (dsum_ext _ (fun _ _ => v) H); apply dsum_const).
  rewrite S. split; [lia|]. intros p q Hp Hq. rewrite H by assumption. lia.
Qed.

(** The number of pixels of a block that satisfy a test. *)
Definition how_many (image : array2 Z) (bi bj : nat) (test : Z -> bool) : Z := over_block image bi bj (fun v => if test v then 1 else 0).
Lemma how_many_dsum m bi bj f : how_many m bi bj f = dsum (fun p q => if f (pixel m (8 * bi + p) (8 * bj + q)) then 1 else 0).
Proof. exact (over_block_dsum m bi bj (fun v => if f v then 1 else 0)). Qed.
Lemma excess_dsum m s bi bj : excess m s bi bj = dsum (fun p q => Z.max 0 (pixel m (8 * bi + p) (8 * bj + q) + s - 255)).
Proof. exact (over_block_dsum m bi bj (fun v => Z.max 0 (v + s - 255))). Qed.
Lemma lack_dsum m s bi bj : lack m s bi bj = dsum (fun p q => Z.max 0 (s - pixel m (8 * bi + p) (8 * bj + q))).
Proof. exact (over_block_dsum m bi bj (fun v => Z.max 0 (s - v))). Qed.
(** A few very bright or very dark pixels do no harm: up to 18 of each kind in a block at depth 100, up to 20 at depth 500. *)
Theorem C88_a_few_bright_or_dark_pixels_are_harmless : forall image bi bj depth t, image8 image -> 1 <= depth ->
  strongest depth * how_many image bi bj (fun v => 255 - strongest depth <? v) <= 2 * depth - 33 - t ->
  strongest depth * how_many image bi bj (fun v => v <? strongest depth) <= 2 * depth - 33 - t -> withstands depth t image bi bj.
Proof.
  intros m bi bj D t H8 HD H1 H2. left. rewrite how_many_dsum in H1, H2. rewrite excess_dsum, lack_dsum.
  assert (S0 : 0 <= strongest D) by (unfold strongest; apply Z.div_pos; lia). set (s := strongest D) in *. clearbody s.
  assert (V : forall p q, 0 <= pixel m (8 * bi + p) (8 * bj + q) <= 255) by (intros; now apply pixel_range).
  assert (A : forall f g : nat -> nat -> Z, (forall p q, f p q <= s * g p q) -> dsum f <= s * dsum g).
  { intros f g H. pose proof (dsum_le f (fun p q => s * g p q + 0 * g p q + 0) ltac:(intros p q _ _; cbv beta; specialize (H p q); lia)) as X. rewrite dsum_lin in X. lia. }
  split.
  - eapply Z.le_trans; [apply A|exact H1]. intros p q. specialize (V p q). cbv beta. destruct (Z.ltb_spec (255 - s) (pixel m (8 * bi + p) (8 * bj + q))); lia.
  - eapply Z.le_trans; [apply A|exact H2]. intros p q. specialize (V p q). cbv beta. destruct (Z.ltb_spec (pixel m (8 * bi + p) (8 * bj + q)) s); lia.
Qed.
Theorem C88_strongest : strongest 100 = 9 /\ strongest 500 = 47 /\ (forall k, 9 * k <= 2 * 100 - 33 - 0 <-> k <= 18) /\ (forall k, 47 * k <= 2 * 500 - 33 - 0 <-> k <= 20).
Proof. repeat split; try reflexivity; lia. Qed.

Lemma noise_sums out rc n bits t : picture out n 3 -> picture rc n 3 -> pixel_noise out rc t -> sums_within out rc n bits (64 * t).
Proof.
  intros Po Pr Hn bi bj Hi Hj _. rewrite !block_total_dsum.
  assert (C : forall p q, (p < 8)%nat -> (q < 8)%nat -> Z.abs (pixel rc (8 * bi + p) (8 * bj + q) - pixel out (8 * bi + p) (8 * bj + q)) <= t).
  { intros p q Hp Hq. destruct (block_cell out n Po bi bj p q Hi Hj Hp Hq) as (v & Ev & _). destruct (block_cell rc n Pr bi bj p q Hi Hj Hp Hq) as (w & Ew & _).
    unfold pixel. rewrite Ev, Ew. exact (Hn _ _ _ _ Ev Ew). }
  assert (A : forall f g : nat -> nat -> Z, (forall p q, (p < 8)%nat -> (q < 8)%nat -> f p q <= g p q + t) -> dsum f <= dsum g + 64 * t).
  { intros f g H. pose proof (dsum_le f (fun p q => 1 * g p q + 0 * g p q + t) ltac:(intros p q Hp Hq; cbv beta; specialize (H p q Hp Hq); lia)) as X. rewrite dsum_lin in X. lia. }
  assert (X1 : dsum (fun p q => pixel rc (8 * bi + p) (8 * bj + q)) <= dsum (fun p q => pixel out (8 * bi + p) (8 * bj + q)) + 64 * t) by (apply A; intros p q Hp Hq; specialize (C p q Hp Hq); lia).
  assert (X2 : dsum (fun p q => pixel out (8 * bi + p) (8 * bj + q)) <= dsum (fun p q => pixel rc (8 * bi + p) (8 * bj + q)) + 64 * t) by (apply A; intros p q Hp Hq; specialize (C p q Hp Hq); lia).
  lia.
Qed.

(** ** Concrete cases *)
Lemma flat128_picture v : 0 <= v <= 255 -> picture (wit_matrix v 128 128) 128 3.
Proof.
  intros Hv. assert (W : wf (wit_matrix v 128 128)) by apply wit_wf. split.
  - split; [exact W|]. repeat split; lia.
  - apply image8_cells; [exact W|]. intros i j x E. apply cell_wit in E. subst x. unfold byte. lia.
Qed.
Lemma flat128_pixel v i j : (i < 128)%nat -> (j < 128)%nat -> pixel (wit_matrix v 128 128) i j = v.
Proof.
  intros Hi Hj. unfold pixel. destruct (cell_bounds (wit_matrix v 128 128) i j) as (x & E); [apply wit_wf|exact Hi|exact Hj|]. rewrite E. now apply cell_wit in E.
Qed.
(** A white picture keeps the payload at the depths of both front ends, and with every pixel changed by up to two levels. *)
Example C88_white_instance : forall depth, depth = 100 \/ depth = 500 ->
  exists marked, embed Bops toy_ldpc (wit_matrix 255 128 128) (repeat 65 12) (f_of_Z Bops depth) 3 = Ok marked
    /\ forall received, picture received 128 3 -> pixel_noise marked received 2 -> extract Bops toy_ldpc received (f_of_Z Bops depth) 3 = Ok (repeat 65 12).
Proof.
  intros D HD. destruct C30_witness as (H1 & H2 & _ & H4 & H5 & _).
  destruct (C88_f64_how_much_cutting_is_harmless toy_ldpc H1 H2 (wit_matrix 255 128 128) 128 D (repeat 65 12) (64 * 2)) as (mk & E & P & X).
  - lia.
  - apply flat128_picture. lia.
  - exact H4.
  - apply Forall_forall. intros x Hx. apply repeat_spec in Hx. subst x. unfold byte. lia.
  - rewrite repeat_length. lia.
  - rewrite repeat_length. exact H5.
  - intros bi bj Hi Hj _. right. split; [|split; [exact HD|lia]]. intros p q Hp Hq. change (128 / 8)%nat with 16%nat in *. apply flat128_pixel; lia.
  - exists mk. split; [exact E|]. intros rc Prc Hn. apply X; [exact Prc|]. now apply noise_sums.
Qed.
(** A grey picture with a white, two nearly white and two black pixels in each block (they are cut when the others are not). *)
Definition speckled128 : array2 Z := mkArray2 128 128
  (map (fun i => map (fun j => match (i mod 8, j mod 8)%nat with (0, 0)%nat => 255 | (0, 1)%nat => 252 | (3, 3)%nat => 250 | (5, 1)%nat => 0 | (6, 6)%nat => 0 | _ => 131 end) (seq 0 128)) (seq 0 128)).
Lemma speckled128_picture : picture speckled128 128 3.
Proof.
  assert (W : wf speckled128) by (split; [reflexivity|]; apply Forall_forall; intros r Hr; apply in_map_iff in Hr as (i & <- & _); now rewrite map_length, seq_length).
  split; [split; [exact W|]; repeat split; lia|].
  assert (B : forallb (forallb (fun v => (0 <=? v) && (v <=? 255))) (rows speckled128) = true) by (vm_compute; reflexivity).
  apply image8_cells; [exact W|]. intros i j v E. unfold cell in E. destruct (nth_error (rows speckled128) i) as [r|] eqn:Er; [|discriminate].
  apply nth_error_In in Er. apply nth_error_In in E. rewrite forallb_forall in B. specialize (B r Er). rewrite forallb_forall in B. specialize (B v E).
  apply andb_true_iff in B as (B1 & B2). apply Z.leb_le in B1. apply Z.leb_le in B2. unfold byte. lia.
Qed.
Lemma speckled128_withstands depth bi bj : depth = 100 \/ depth = 500 -> (bi < 16)%nat -> (bj < 16)%nat -> withstands depth 128 speckled128 bi bj.
Proof.
  intros HD Hi Hj. left.
  assert (B : forallb (fun a => forallb (fun b => (excess speckled128 9 a b <=? 39) && (lack speckled128 9 a b <=? 39) && (excess speckled128 47 a b <=? 839) && (lack speckled128 47 a b <=? 839)) (seq 0 16)) (seq 0 16) = true)
    by (vm_compute; reflexivity).
  rewrite forallb_forall in B. specialize (B bi ltac:(apply in_seq; lia)). rewrite forallb_forall in B. specialize (B bj ltac:(apply in_seq; lia)).
  apply andb_true_iff in B as (B & B4). apply andb_true_iff in B as (B & B3). apply andb_true_iff in B as (B1 & B2). apply Z.leb_le in B1, B2, B3, B4.
  destruct HD as [-> | ->].
  - change (strongest 100) with 9. change (2 * 100 - 33 - 128) with 39. split; assumption.
  - change (strongest 500) with 47. change (2 * 500 - 33 - 128) with 839. split; assumption.
Qed.
Example C88_speckled_instance : forall depth, depth = 100 \/ depth = 500 ->
  exists marked, embed Bops toy_ldpc speckled128 (repeat 65 12) (f_of_Z Bops depth) 3 = Ok marked
    /\ forall received, picture received 128 3 -> pixel_noise marked received 2 -> extract Bops toy_ldpc received (f_of_Z Bops depth) 3 = Ok (repeat 65 12).
Proof.
  intros D HD. destruct C30_witness as (H1 & H2 & _ & H4 & H5 & _).
  destruct (C88_f64_how_much_cutting_is_harmless toy_ldpc H1 H2 speckled128 128 D (repeat 65 12) (64 * 2)) as (mk & E & P & X).
  - lia.
  - exact speckled128_picture.
  - exact H4.
  - apply Forall_forall. intros x Hx. apply repeat_spec in Hx. subst x. unfold byte. lia.
  - rewrite repeat_length. lia.
  - rewrite repeat_length. exact H5.
  - intros bi bj Hi Hj _. now apply speckled128_withstands.
  - exists mk. split; [exact E|]. intros rc Prc Hn. apply X; [exact Prc|]. now apply noise_sums.
Qed.
(** A flat picture of grey value 31 at the depth of the web page: the fourth stored bit is a zero and is read back as a one. *)
Example C88_dark_instance : exists marked, embed Bops toy_ldpc (wit_matrix 31 128 128) (repeat 65 12) (f_of_Z Bops 500) 3 = Ok marked
  /\ exists stored received, payload_bit stored 3 = false /\ payload_bit received 3 = true
    /\ extract Bops toy_ldpc marked (f_of_Z Bops 500) 3 = bind (decode toy_ldpc received 32) data_deserialize.
Proof.
  assert (X : exists mk, embed Bops toy_ldpc (wit_matrix 31 128 128) (repeat 65 12) (f_of_Z Bops 500) 3 = Ok mk).
  { destruct (data_serialize (repeat 65 12)) as [ser| |] eqn:Eser; [|discriminate|discriminate]. destruct (encode toy_ldpc ser (band 128 3 * band 128 3 / 8)) as [enc| |] eqn:Eenc.
    - destruct (embed_run Bops toy_ldpc _ 128 3 (f_of_Z Bops 500) (repeat 65 12) ser enc (proj1 (flat128_picture 31 ltac:(lia)))) as (H & _); [vm_compute; lia|exact Eser|exact Eenc|].
      destruct H as (R & ER & _); [|eauto]. vm_compute in Eser. assert (Es : ser = match data_serialize (repeat 65 12) with Ok s => s | _ => [] end) by (vm_compute; congruence). subst ser.
      assert (Ee : length enc = length (match encode toy_ldpc (match data_serialize (repeat 65 12) with Ok s => s | _ => [] end) (band 128 3 * band 128 3 / 8) with Ok s => s | _ => [] end)) by (rewrite Eenc; reflexivity).
      rewrite Ee. vm_compute. lia.
    - exfalso. vm_compute in Eser. assert (Es : ser = match data_serialize (repeat 65 12) with Ok s => s | _ => [] end) by (vm_compute; congruence). subst ser. vm_compute in Eenc. discriminate.
    - exfalso. vm_compute in Eser. assert (Es : ser = match data_serialize (repeat 65 12) with Ok s => s | _ => [] end) by (vm_compute; congruence). subst ser. vm_compute in Eenc. discriminate. }
  destruct X as (mk & E). exists mk. split; [exact E|]. destruct (C88_f64_dark_blocks_turn_zeros_into_ones toy_ldpc (wit_matrix 31 128 128) 128 500 (repeat 65 12) mk ltac:(lia) (flat128_picture 31 ltac:(lia)) E) as (ser & enc & rc & E1 & E2 & EX & H).
  exists enc, rc. assert (Eser : ser = match data_serialize (repeat 65 12) with Ok s => s | _ => [] end) by (rewrite E1; reflexivity). vm_compute in Eser. subst ser.
  change (band_capacity 128 3) with 32%nat in *.
  match type of E2 with ?l = _ => let v := eval vm_compute in l in change (v = Ok enc) in E2 end.
  assert (B : payload_bit enc 3 = false /\ (3 < 8 * length enc)%nat).
  { match type of E2 with Ok ?v = _ => assert (Ee : enc = v) by congruence end. subst enc. vm_compute. split; [reflexivity|lia]. }
  destruct B as (B1 & B2). split; [exact B1|]. split; [|exact EX].
  destruct (C88_flat_dark_blocks (wit_matrix 31 128 128) 0 3 500 31 ltac:(lia) ltac:(lia)) as (D1 & D2); [intros; apply flat128_pixel; lia|].
  destruct (H 0%nat 3%nat ltac:(apply Nat.ltb_lt; reflexivity) ltac:(apply Nat.ltb_lt; reflexivity)) as (_ & Hb); [exact B2|exact B1|exact D1|exact D2|exact Hb].
Qed.

Print Assumptions C88_f64_how_much_cutting_is_harmless.
Print Assumptions C88_f64_dark_blocks_turn_zeros_into_ones.
Print Assumptions C88_flat_dark_blocks.
Print Assumptions C88_a_few_bright_or_dark_pixels_are_harmless.
Print Assumptions C88_strongest.
