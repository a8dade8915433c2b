(** Property C85: embedding again and again (lib/sia/rust/embedding/src/lib.rs: embed, extract).  Whatever was embedded before, the picture is
    the one that embedding the last payload into the original gives: nothing of the earlier payloads is left, and the changes do not add up. *)
From Coq Require Import Reals Lra.
From Flocq Require Import Core BinarySingleNaN.
From Verif Require Import Outcome Floats FloatFacts Bits ListFacts IndexArithProofs Codecs CodecProofs WatermarkProofs Encoding EncodingProofs PropsEncoding
  Matrix MatrixFacts Haar HaarProofs HaarReal HaarFloat PropsHaar QuantFloat Stego StegoProofs StegoMarks PropsStego Embedding EmbeddingProofs EmbeddingEffect
  PropsEmbedding PropsEmbedding2 Toy PropsRobust.
Open Scope R_scope.

(** ** Specification vocabulary *)
(** Embedding the payloads one after the other, each into the picture the previous one gave. *)
Fixpoint embed_all {F} (O : FOps F) (K : ldpc) (image : array2 Z) (payloads : list (list Z)) (depth : F) (levels : nat) : outcome (array2 Z) :=
  match payloads with
  | [] => Ok image
  | p :: rest => marked <- embed O K image p depth levels ;; embed_all O K marked rest depth levels
  end.
(** A payload the embedder takes. *)
Definition embeddable (payload : list Z) : Prop := bytes payload /\ (1 <= Z.of_nat (length payload) <= 65533)%Z.
(** Off the ties of rounding, for the bits that [payload] is stored as (C61). *)
Definition off_ties (K : ldpc) (image : array2 Z) (n levels : nat) (depth : R) (payload : list Z) : Prop :=
  forall frame stored, data_serialize payload = Ok frame -> encode K frame (band_capacity n levels) = Ok stored ->
    forall i j, (i < n)%nat -> (j < n)%nat -> clear_of_ties image n levels depth stored i j.

(** ** Proofs *)
(** [m] is [m0] with its blocks moved by whole grey levels, the coefficients staying in their bins. *)
Definition rel (m0 m : array2 Z) (n L : nat) (depth : R) (mv : nat -> nat -> Z) : Prop :=
  (forall i j v, cell m0 i j = Some v -> cell m i j = Some (v + mv (i / 2 ^ L)%nat (j / 2 ^ L)%nat)%Z)
  /\ (forall bi bj, (bi < band n L)%nat -> (bj < band n L)%nat -> nearest (coefficient m L bi bj / depth) = nearest (coefficient m0 L bi bj / depth))
  /\ (forall bi bj, (bi < band n L)%nat -> (bj < band n L)%nat -> mv bi bj = 0%Z \/ exists (r : Z) b, Rabs (coefficient m L bi bj / depth - (IZR r + quarter b)) <= 2 ^ L / (2 * depth)).

Lemma rel_refl m n L depth : rel m m n L depth (fun _ _ => 0%Z).
Proof. split; [intros i j v E; rewrite Z.add_0_r; exact E|]. split; [reflexivity|]. intros. now left. Qed.

Definition usedb (n L : nat) (enc : list Z) (bi bj : nat) : bool := (n / 2 ^ L * bi + bj <? 8 * length enc)%nat.

Section Step.
Context (m0 m m' : array2 Z) (n L : nat) (depth : R) (enc : list Z) (mv : nat -> nat -> Z).
Context (Hc0 : carrier m0 n L) (H80 : image8 m0) (Hc : carrier m n L) (H8 : image8 m) (Hc' : carrier m' n L) (Hd : 2 ^ (L + 1) < depth).
Context (Hroom : room m0 n L (8 * length enc) (3 * depth / 2 ^ (L + 2))) (Hrel : rel m0 m n L depth mv).

Lemma depth_pos : 0 < depth.
Proof. assert (0 < 2 ^ (L + 1)) by (apply pow_lt; lra). lra. Qed.

Lemma shift_again i j : (i < n)%nat -> (j < n)%nat ->
  pixel_shift m n L depth enc i j = if usedb n L enc (i / 2 ^ L) (j / 2 ^ L) then pixel_shift m0 n L depth enc i j - IZR (mv (i / 2 ^ L)%nat (j / 2 ^ L)%nat) else 0.
Proof.
  intros Hi Hj. assert (Hm : (n mod 2 ^ L = 0)%nat) by apply Hc0. assert (HpL : 0 < 2 ^ L) by (apply pow_lt; lra). pose proof depth_pos as Hd0.
  destruct Hrel as (R1 & R2 & _). pose proof (moved_total m0 m n L mv Hc0 R1 _ _ (block_lt n L i Hm Hi) (block_lt n L j Hm Hj)) as Ec.
  specialize (R2 _ _ (block_lt n L i Hm Hi) (block_lt n L j Hm Hj)).
  unfold pixel_shift, usedb. fold (block_number n L i j). destruct (block_number n L i j <? 8 * length enc)%nat; [|reflexivity].
  rewrite R2, Ec. field. lra.
Qed.

(** The closed form of one step, in terms of [m0]. *)
Lemma step_cells : (forall i j v, cell m i j = Some v -> cell m' i j = Some (clamp 0 255 (nearest (IZR v + pixel_shift m n L depth enc i j)))) ->
  rel m0 m' n L depth (fun bi bj => if usedb n L enc bi bj then block_move m0 n L depth enc bi bj else mv bi bj).
Proof.
  intros Hpix. assert (Hm : (n mod 2 ^ L = 0)%nat) by apply Hc0. assert (HpL : 0 < 2 ^ L) by (apply pow_lt; lra). pose proof depth_pos as Hd0. pose proof (pow2_pos L) as Hp2.
  pose proof Hrel as (R1 & R2 & R3).
  assert (Blk : forall i j, pixel_shift m0 n L depth enc (2 ^ L * (i / 2 ^ L)) (2 ^ L * (j / 2 ^ L)) = pixel_shift m0 n L depth enc i j).
  { intros i j. apply pixel_shift_block; rewrite (Nat.mul_comm (2 ^ L)), Nat.div_mul by lia; reflexivity. }
  assert (Mv : forall i j v, cell m0 i j = Some v -> cell m' i j = Some (v + (if usedb n L enc (i / 2 ^ L) (j / 2 ^ L) then block_move m0 n L depth enc (i / 2 ^ L) (j / 2 ^ L) else mv (i / 2 ^ L)%nat (j / 2 ^ L)%nat))%Z).
  { intros i j v Ev. destruct (cell_some_lt m0 n L i j v Hc0 Ev) as (Hi & Hj). pose proof (R1 i j v Ev) as Ew. rewrite (Hpix i j _ Ew). f_equal.
    rewrite shift_again by assumption. destruct (usedb n L enc (i / 2 ^ L) (j / 2 ^ L)) eqn:Eu.
    - rewrite plus_IZR. destruct (uniform_move m0 n L depth enc i j v Hc0 H80 Hd0 Hroom Ev) as (_ & HU).
      unfold block_move. rewrite Blk. rewrite <- HU. f_equal. f_equal. ring.
    - rewrite Rplus_0_r. rewrite (nearest_imp _ (v + mv (i / 2 ^ L)%nat (j / 2 ^ L)%nat)) by (rewrite Rminus_eq_0, Rabs_R0; lra).
      apply clamp_id. pose proof (image8_cell m i j _ H8 Ew) as (A & B). lia. }
  split; [exact Mv|].
  assert (Fin : forall bi bj, (bi < band n L)%nat -> (bj < band n L)%nat -> nearest (coefficient m' L bi bj / depth) = nearest (coefficient m0 L bi bj / depth)
    /\ ((if usedb n L enc bi bj then block_move m0 n L depth enc bi bj else mv bi bj) = 0%Z \/ exists (r : Z) b, Rabs (coefficient m' L bi bj / depth - (IZR r + quarter b)) <= 2 ^ L / (2 * depth)));
    [|split; intros bi bj Hbi Hbj; apply (Fin bi bj Hbi Hbj)].
  intros bi bj Hbi Hbj.
  pose proof (moved_total m0 m' n L (fun bi bj => if usedb n L enc bi bj then block_move m0 n L depth enc bi bj else mv bi bj) Hc0 Mv bi bj Hbi Hbj) as Ec. cbv beta in Ec.
  destruct (usedb n L enc bi bj) eqn:Eu.
  - set (k := block_move m0 n L depth enc bi bj) in *. set (s := pixel_shift m0 n L depth enc (2 ^ L * bi) (2 ^ L * bj)).
    assert (D1 : (2 ^ L * bi / 2 ^ L = bi)%nat) by (rewrite Nat.mul_comm; apply Nat.div_mul; lia). assert (D2 : (2 ^ L * bj / 2 ^ L = bj)%nat) by (rewrite Nat.mul_comm; apply Nat.div_mul; lia).
    assert (Hks : Rabs (IZR k - s) <= / 2).
    { unfold k, block_move. fold s. pose proof (Zfloor_lb (s + / 2)). pose proof (Zfloor_ub (s + / 2)). apply Rabs_le. lra. }
    set (r := nearest (coefficient m0 L bi bj / depth)) in *.
    assert (Es : exists b, coefficient m0 L bi bj + 2 ^ L * s = depth * (IZR r + quarter b)).
    { exists (payload_bit enc (n / 2 ^ L * bi + bj)). unfold s, pixel_shift, block_number. rewrite D1, D2. unfold usedb in Eu. rewrite Eu. fold r. field. lra. }
    destruct Es as (b & Es). rewrite Ec.
    rewrite pow_add in Hd. simpl (2 ^ 1) in Hd.
    assert (Dif : (coefficient m0 L bi bj + 2 ^ L * IZR k) / depth - (IZR r + quarter b) = 2 ^ L * (IZR k - s) / depth)
      by (replace (coefficient m0 L bi bj) with (depth * (IZR r + quarter b) - 2 ^ L * s) by lra; field; lra).
    assert (B0 : Rabs (2 ^ L * (IZR k - s) / depth) <= 2 ^ L / (2 * depth)).
    { unfold Rdiv. rewrite !Rabs_mult, (Rabs_pos_eq (2 ^ L)), (Rabs_pos_eq (/ depth)) by (try (left; apply Rinv_0_lt_compat); lra).
      apply Rmult_le_reg_r with depth; [exact Hd0|]. rewrite Rmult_assoc, Rinv_l, Rmult_1_r by lra.
      replace (2 ^ L * / (2 * depth) * depth) with (2 ^ L * / 2) by (field; lra). nra. }
    split; [|right; exists r, b; rewrite Dif; exact B0].
    assert (B : Rabs (2 ^ L * (IZR k - s) / depth) < / 4).
    { eapply Rle_lt_trans; [exact B0|]. apply Rmult_lt_reg_r with (2 * depth); [lra|]. unfold Rdiv. rewrite Rmult_assoc, Rinv_l by lra. lra. }
    apply nearest_imp. apply Rabs_def2 in B. unfold quarter in Dif. apply Rabs_def1; destruct b; lra.
  - assert (Ec' : coefficient m' L bi bj = coefficient m L bi bj) by (rewrite Ec; symmetry; exact (moved_total m0 m n L mv Hc0 R1 bi bj Hbi Hbj)).
    rewrite Ec'. split; [exact (R2 bi bj Hbi Hbj)|exact (R3 bi bj Hbi Hbj)].
Qed.

Lemma step_ties : 65 / 64 * 2 ^ (L + 1) <= depth -> (forall i j, (i < n)%nat -> (j < n)%nat -> clear_of_ties m0 n L depth enc i j) ->
  forall i j, (i < n)%nat -> (j < n)%nat -> clear_of_ties m n L depth enc i j.
Proof.
  intros Hd2 H i j Hi Hj Hu k. assert (Hm : (n mod 2 ^ L = 0)%nat) by apply Hc0. assert (HpL : 0 < 2 ^ L) by (apply pow_lt; lra). pose proof depth_pos as Hd0.
  rewrite pow_add in Hd2. simpl (2 ^ 1) in Hd2.
  split.
  - destruct Hrel as (R1 & _ & R3). set (bi := (i / 2 ^ L)%nat). set (bj := (j / 2 ^ L)%nat).
    pose proof (block_lt n L i Hm Hi) as Bi. pose proof (block_lt n L j Hm Hj) as Bj.
    destruct (R3 bi bj Bi Bj) as [Z0|(r & b & Hr)].
    + rewrite (moved_total m0 m n L mv Hc0 R1 bi bj Bi Bj), Z0, Rmult_0_r, Rplus_0_r. apply (H i j Hi Hj Hu).
    + assert (Hq : 2 ^ L / (2 * depth) <= 16 / 65).
      { apply Rmult_le_reg_r with (2 * depth); [lra|]. unfold Rdiv at 1. rewrite Rmult_assoc, Rinv_l by lra. lra. }
      set (y := coefficient m L bi bj / depth) in *. apply Rabs_le_inv in Hr.
      assert (Hk : IZR k + / 2 <= IZR r - / 2 \/ IZR r + / 2 <= IZR k + / 2).
      { destruct (Z.le_gt_cases r k) as [Hrk|Hrk]; [right; apply IZR_le in Hrk; lra|left].
        assert (Hrk' : (k + 1 <= r)%Z) by lia. apply IZR_le in Hrk'. rewrite plus_IZR in Hrk'. lra. }
      apply Rlt_le_trans with (/ 1024); [simpl; lra|].
      destruct Hk as [Hk|Hk]; [rewrite Rabs_pos_eq|rewrite Rabs_left1]; unfold quarter in Hr; destruct b; lra.
  - rewrite shift_again by assumption. unfold usedb. fold (block_number n L i j). rewrite (proj2 (Nat.ltb_lt _ _) Hu).
    set (d := mv _ _). replace (pixel_shift m0 n L depth enc i j - IZR d - (IZR k + / 2)) with (pixel_shift m0 n L depth enc i j - (IZR (k + d) + / 2)) by (rewrite plus_IZR; ring).
    apply (H i j Hi Hj Hu).
Qed.
End Step.

Lemma stored_size_mono n L a b : (a <= b)%nat -> (stored_size n L a <= stored_size n L b)%nat.
Proof.
  intros H. unfold stored_size. set (k := message_size _). set (w := codeword_size _). apply Nat.mul_le_mono_r.
  destruct k as [|k]; [cbn; lia|]. apply Nat.div_le_mono; lia.
Qed.

Section Run.
Context {F : Type} (O : FOps F) (K : ldpc) (Hsh : ldpc_shape K) (Hdec : ldpc_decodes K) (depth : F) (d : R) (n L : nat) (m0 : array2 Z) (last : list Z).
Context (ties : list Z -> Prop).
Context (Hp0 : picture m0 n L) (Hu : usable n L) (Hd : 2 ^ (L + 1) < d).
Context (Hfit : (stored_size n L (length last) <= band_capacity n L)%nat).
Context (Hroom : room m0 n L (8 * stored_size n L (length last)) (3 * d / 2 ^ (L + 2))).
Context (Hstep : forall m mv p out ser enc, picture m n L -> rel m0 m n L d mv -> embed O K m p depth L = Ok out -> data_serialize p = Ok ser ->
  encode K ser (band_capacity n L) = Ok enc -> room m0 n L (8 * length enc) (3 * d / 2 ^ (L + 2)) -> ties p ->
  picture out n L /\ forall i j v, cell m i j = Some v -> cell out i j = Some (clamp 0 255 (nearest (IZR v + pixel_shift m n L d enc i j)))).

Definition clean (mv : nat -> nat -> Z) : Prop := forall bi bj, (8 * stored_size n L (length last) <= n / 2 ^ L * bi + bj)%nat -> mv bi bj = 0%Z.

Lemma run_step m mv p : picture m n L -> rel m0 m n L d mv -> clean mv -> embeddable p -> (length p <= length last)%nat -> ties p ->
  exists out ser enc, embed O K m p depth L = Ok out /\ picture out n L /\ data_serialize p = Ok ser /\ encode K ser (band_capacity n L) = Ok enc
    /\ length enc = stored_size n L (length p)
    /\ rel m0 out n L d (fun bi bj => if usedb n L enc bi bj then block_move m0 n L d enc bi bj else mv bi bj)
    /\ clean (fun bi bj => if usedb n L enc bi bj then block_move m0 n L d enc bi bj else mv bi bj).
Proof.
  intros Hp Hr Hcl (Hb & Hl) Hlen Ht. pose proof Hp as (Hc & H8). destruct Hu as (Hcod & Hmod).
  pose proof (stored_size_mono n L _ _ Hlen) as Hmono.
  assert (Hfp : (stored_size n L (length p) <= band_capacity n L)%nat) by lia.
  destruct (extract_payload O K m n L depth p Hc Hsh Hdec Hcod Hmod Hb Hl Hfp) as (ser & enc & E1 & E2 & E3 & E4 & E5 & E6 & _).
  change (length enc = stored_size n L (length p)) in E6.
  destruct (embed_run O K m n L depth p ser enc Hc E5 E1 E2) as (Hrun & _). destruct (Hrun E3) as (R & ER & _). clear Hrun.
  assert (Hroom' : room m0 n L (8 * length enc) (3 * d / 2 ^ (L + 2))).
  { intros i j v Ev Hblk. apply (Hroom i j v Ev). unfold in_first_blocks in *. lia. }
  set (out := mapv _ R) in ER. clearbody out.
  destruct (Hstep m mv p out ser enc Hp Hr ER E1 E2 Hroom' Ht) as (Po & Hpix).
  exists out, ser, enc. split; [exact ER|]. split; [exact Po|]. split; [exact E1|]. split; [exact E2|]. split; [exact E6|]. destruct Hp0 as (Hc0 & H80). split.
  - apply (step_cells m0 m out n L d enc mv Hc0 H80 H8 Hd Hroom' Hr Hpix).
  - intros bi bj Hout. unfold usedb. destruct (Nat.ltb_spec (n / 2 ^ L * bi + bj) (8 * length enc)); [lia|]. now apply Hcl.
Qed.

Lemma run_all history : forall m mv, picture m n L -> rel m0 m n L d mv -> clean mv ->
  Forall (fun p => embeddable p /\ (length p <= length last)%nat /\ ties p) history ->
  exists out mv', embed_all O K m history depth L = Ok out /\ picture out n L /\ rel m0 out n L d mv' /\ clean mv'.
Proof.
  induction history as [|p rest IH]; intros m mv Hp Hr Hcl H; cbn [embed_all]; [exists m, mv; auto|].
  inversion H as [|? ? (Hb & Hl & Ht) H']; subst.
  destruct (run_step m mv p Hp Hr Hcl Hb Hl Ht) as (out & ser & enc & E & Po & _ & _ & _ & Ro & Co). rewrite E. cbn [bind]. exact (IH out _ Po Ro Co H').
Qed.

Lemma run_same m mv p : picture m n L -> rel m0 m n L d mv -> clean mv -> embeddable p -> length p = length last -> ties p ->
  exists out mv', embed O K m p depth L = Ok out /\ embed O K m0 p depth L = Ok out /\ picture out n L /\ rel m0 out n L d mv' /\ clean mv'.
Proof.
  intros Pm Rm Cm Hb El Ht.
  destruct (run_step m0 _ p Hp0 (rel_refl m0 n L d) ltac:(intros bi bj _; reflexivity) Hb ltac:(lia) Ht) as (direct & ser & enc & E & Pd & S1 & S2 & S3 & (Rd & _) & _).
  destruct (run_step m mv p Pm Rm Cm Hb ltac:(lia) Ht) as (out & ser' & enc' & E' & Po & S1' & S2' & S3' & Ro' & Co').
  assert (ser' = ser) by congruence. subst ser'. assert (enc' = enc) by congruence. subst enc'. pose proof Ro' as (Ro & _).
  exists out. eexists. split; [exact E'|]. split; [|split; [exact Po|split; [exact Ro'|exact Co']]].
  rewrite E. f_equal. destruct Po as ((W1 & A0 & A1 & _) & _). destruct Pd as ((W2 & B0 & B1 & _) & _). destruct Hp0 as (Hc0 & _).
  apply array2_ext; [exact W2|exact W1|congruence|congruence|]. intros i j Hi Hj. rewrite B0 in Hi. rewrite B1 in Hj.
  destruct (cell_bounds m0 i j) as (v & Ev); [apply Hc0|destruct Hc0 as (_ & -> & _); exact Hi|destruct Hc0 as (_ & _ & -> & _); exact Hj|].
  rewrite (Ro i j v Ev), (Rd i j v Ev). unfold usedb. destruct (Nat.ltb_spec (n / 2 ^ L * (i / 2 ^ L) + j / 2 ^ L) (8 * length enc)) as [_|Hge]; [reflexivity|].
  rewrite Cm; [reflexivity|]. rewrite <- El. lia.
Qed.

Lemma run_last history : embeddable last -> ties last -> Forall (fun p => embeddable p /\ (length p <= length last)%nat /\ ties p) history ->
  exists out, embed_all O K m0 (history ++ [last]) depth L = Ok out /\ embed O K m0 last depth L = Ok out /\ picture out n L.
Proof.
  intros Hb Ht H.
  destruct (run_all history m0 _ Hp0 (rel_refl m0 n L d) ltac:(intros bi bj _; reflexivity) H) as (m & mv & Em & Pm & Rm & Cm).
  destruct (run_same m mv last Pm Rm Cm Hb eq_refl Ht) as (out & mv' & E' & E & Po & _).
  exists out. split; [|split; [exact E|exact Po]].
  assert (App : embed_all O K m0 (history ++ [last]) depth L = embed O K m last depth L).
  { clear - Em. revert m0 Em. induction history as [|p rest IH]; intros m1 Em; cbn [embed_all app] in *.
    - assert (m1 = m) by congruence. subst m1. destruct (embed O K m last depth L); reflexivity.
    - destruct (embed O K m1 p depth L) as [m2| |]; try discriminate. cbn [bind] in *. now apply IH. }
  rewrite App. exact E'.
Qed.
End Run.

(** *** C85, exact arithmetic: after any number of embeddings of payloads no longer than the last one, the picture is the one the last payload
    alone gives; so that payload is read back, and no pixel is further from the original than after a single embedding. *)
Theorem C85_embedding_forgets_the_history : forall K, ldpc_shape K -> ldpc_decodes K -> forall image n levels depth history last,
  picture image n levels -> usable n levels -> 2 ^ (levels + 1) < depth ->
  embeddable last -> Forall (fun p => embeddable p /\ (length p <= length last)%nat) history ->
  (stored_size n levels (length last) <= band_capacity n levels)%nat ->
  room image n levels (8 * stored_size n levels (length last)) (3 * depth / 2 ^ (levels + 2)) ->
  exists marked, embed_all Rops K image (history ++ [last]) depth levels = Ok marked
    /\ embed Rops K image last depth levels = Ok marked
    /\ extract Rops K marked depth levels = Ok last
    /\ forall i j v w, cell image i j = Some v -> cell marked i j = Some w -> Rabs (IZR w - IZR v) <= 3 * depth / 2 ^ (levels + 2) + / 2.
Proof.
  intros K Hsh Hdec m0 n L depth history last Hp Hu Hd Hl Hh Hfit Hroom.
  assert (Hd0 : 0 < depth) by (assert (0 < 2 ^ (L + 1)) by (apply pow_lt; lra); lra).
  destruct (run_last Rops K Hsh Hdec depth depth n L m0 last (fun _ => True) Hp Hu Hd Hfit Hroom) with (history := history) as (out & E1 & E2 & Po).
  - intros m mv p out ser enc (Hc & H8) _ E S1 S2 _ _. destruct (embed_pixels_real K m n L depth p out Hc E) as (C1 & C2 & ser' & enc' & S1' & S2' & _ & Hpix).
    unfold band_capacity in S2. fold (band n L) in S2. assert (ser' = ser) by congruence. subst ser'. assert (enc' = enc) by congruence. subst enc'. split; [split; assumption|exact Hpix].
  - exact Hl.
  - exact I.
  - eapply Forall_impl; [|exact Hh]. cbv beta. tauto.
  - exists out. split; [exact E1|]. split; [exact E2|]. split.
    + destruct Hl as (Hb & Hn). destruct (C30_embed_then_extract_returns_the_payload K Hsh Hdec m0 n L depth last Hp Hu Hb Hn Hfit Hd Hroom) as (out' & Eo & _ & Ex). congruence.
    + exact (C32_pixel_change_bound K m0 n L depth last out Hp Hd0 E2).
Qed.

Lemma float_step K (depth : b64) n L m0 : carrier m0 n L -> (L <= 10)%nat -> fin depth -> 65 / 64 * 2 ^ (L + 1) <= toR depth <= 4096 ->
  forall m mv p out ser enc, picture m n L -> rel m0 m n L (toR depth) mv -> embed Bops K m p depth L = Ok out -> data_serialize p = Ok ser ->
  encode K ser (band_capacity n L) = Ok enc -> room m0 n L (8 * length enc) (3 * toR depth / 2 ^ (L + 2)) -> off_ties K m0 n L (toR depth) p ->
  picture out n L /\ forall i j v, cell m i j = Some v -> cell out i j = Some (clamp 0 255 (nearest (IZR v + pixel_shift m n L (toR depth) enc i j))).
Proof.
  intros Hc0 HL Fd Hd m mv p out ser enc (Hc & H8) Hr E S1 S2 Hr' Ht. assert (HpL : 1 <= 2 ^ L) by (apply pow_R1_Rle; lra).
  assert (HdL : 65 / 32 * 2 ^ L <= toR depth) by (rewrite pow_add in Hd; simpl (2 ^ 1) in Hd; lra).
  assert (Hd1 : 1 <= toR depth <= 4096) by lra. assert (Hd2 : 2 ^ (L + 1) < toR depth) by (rewrite pow_add; simpl (2 ^ 1); lra).
  destruct (embed_pixels_float K m n L depth p out Hc H8 HL Fd Hd1 E) as (C1 & C2 & ser' & enc' & S1' & S2' & _ & Hpix).
  pose proof S2 as S2b. unfold band_capacity in S2b. fold (band n L) in S2b. assert (ser' = ser) by congruence. subst ser'. assert (enc' = enc) by congruence. subst enc'. split; [split; assumption|].
  intros i j v Ev. destruct (cell_some_lt m n L i j v Hc Ev) as (Hi & Hj). apply (Hpix i j v Ev).
  exact (step_ties m0 m n L (toR depth) enc mv Hc0 Hd2 Hr (proj1 Hd) (Ht ser enc S1 S2) i j Hi Hj).
Qed.

(** *** C85 in binary64, off the ties of rounding of the original picture *)
Theorem C85_f64_embedding_forgets_the_history : forall K, ldpc_shape K -> ldpc_decodes K -> forall image n levels (depth : b64) history last,
  picture image n levels -> (levels <= 10)%nat -> usable n levels -> fin depth -> 65 / 64 * 2 ^ (levels + 1) <= toR depth <= 4096 ->
  embeddable last -> Forall (fun p => embeddable p /\ (length p <= length last)%nat) history ->
  (stored_size n levels (length last) <= band_capacity n levels)%nat ->
  room image n levels (8 * stored_size n levels (length last)) (3 * toR depth / 2 ^ (levels + 2)) ->
  Forall (off_ties K image n levels (toR depth)) (history ++ [last]) ->
  exists marked, embed_all Bops K image (history ++ [last]) depth levels = Ok marked
    /\ embed Bops K image last depth levels = Ok marked
    /\ extract Bops K marked depth levels = Ok last
    /\ forall i j v w, cell image i j = Some v -> cell marked i j = Some w -> Rabs (IZR w - IZR v) <= (3 / 4 + / 1024) * toR depth / 2 ^ levels + / 2 + / 1024.
Proof.
  intros K Hsh Hdec m0 n L depth history last Hp HL Hu Fd Hd Hl Hh Hfit Hroom Hties. pose proof Hp as (Hc0 & H80).
  assert (HpL : 1 <= 2 ^ L) by (apply pow_R1_Rle; lra).
  assert (HdL : 65 / 32 * 2 ^ L <= toR depth) by (rewrite pow_add in Hd; simpl (2 ^ 1) in Hd; lra).
  assert (Hd1 : 1 <= toR depth <= 4096) by lra. assert (Hd2 : 2 ^ (L + 1) < toR depth) by (rewrite pow_add; simpl (2 ^ 1); lra).
  apply Forall_app in Hties as (T1 & T2). assert (T2' : off_ties K m0 n L (toR depth) last) by now inversion T2.
  destruct (run_last Bops K Hsh Hdec depth (toR depth) n L m0 last (off_ties K m0 n L (toR depth)) Hp Hu Hd2 Hfit Hroom) with (history := history) as (out & E1 & E2 & Po).
  - exact (float_step K depth n L m0 Hc0 HL Fd Hd).
  - exact Hl.
  - exact T2'.
  - rewrite Forall_forall in *. intros p Hin. destruct (Hh p Hin). split; [assumption|]. split; [assumption|]. now apply T1.
  - exists out. split; [exact E1|]. split; [exact E2|]. split.
    + destruct Hl as (Hb & Hn). destruct (C31_f64_embed_then_extract_returns_the_payload K Hsh Hdec m0 n L depth last Hp HL Hu Hb Hn Hfit Fd ltac:(simpl; lra) Hroom) as (out' & Eo & _ & Ex). congruence.
    + apply (C32_f64_pixel_change_bound K m0 n L depth last out Hp HL Fd ltac:(simpl; lra) E2).
Qed.

(** A flat grey picture, marked with three payloads of different lengths, in the f64 model: the picture is the one the third alone gives. *)
Example C85_instance : exists marked, embed_all Bops toy_ldpc grey128 [[1]; [2; 3; 4; 5; 6]; wit_payload]%Z (f_of_Z Bops 100) 3 = Ok marked
  /\ embed Bops toy_ldpc grey128 wit_payload (f_of_Z Bops 100) 3 = Ok marked /\ extract Bops toy_ldpc marked (f_of_Z Bops 100) 3 = Ok wit_payload.
Proof.
  destruct C30_witness as (H1 & H2 & H3 & H4 & H5 & _). destruct wit_payload_ok as (P1 & P2 & P3).
  destruct (b_of_Z_ok 100) as (F1 & V1); [lia|]. change (b_of_Z 100) with (f_of_Z Bops 100) in *.
  destruct (C85_f64_embedding_forgets_the_history toy_ldpc H1 H2 grey128 128 3 (f_of_Z Bops 100) [[1]; [2; 3; 4; 5; 6]]%Z wit_payload) as (mk & E1 & E2 & X & _);
    try assumption; try lia.
  - rewrite V1. simpl. lra.
  - split; assumption.
  - assert (B : forall p, forallb (fun x => (0 <=? x) && (x <=? 255))%Z p = true -> bytes p).
    { intros p H. apply Forall_forall. intros x Hx. rewrite forallb_forall in H. specialize (H x Hx). unfold byte. lia. }
    constructor; [split; [split; [now apply B|cbn; lia]|cbn; lia]|]. constructor; [split; [split; [now apply B|cbn; lia]|cbn; lia]|]. constructor.
  - rewrite V1. intros i j v Ev _. apply cell_wit in Ev. subst v. simpl. lra.
  - apply Forall_forall. intros p _ frame stored _ _ i j Hi Hj. rewrite V1. now apply grey128_clear.
  - exists mk. split; [exact E1|]. split; [exact E2|exact X].
Qed.

Print Assumptions C85_embedding_forgets_the_history.
Print Assumptions C85_f64_embedding_forgets_the_history.
