(** The numeric effect of [embed] on the pixels, exact and in f64. *)
From Coq Require Import Reals Lra.
From Flocq Require Import Core BinarySingleNaN.
From Verif Require Import Outcome Floats FloatFacts Bits ListFacts IndexArithProofs Codecs CodecProofs WatermarkProofs Encoding EncodingProofs PropsEncoding
  Matrix MatrixFacts Haar HaarProofs HaarReal HaarFloat PropsHaar QuantFloat Stego StegoProofs StegoMarks PropsStego Embedding EmbeddingProofs.
Open Scope R_scope.

Definition used (s : nat) (enc : list Z) (i j : nat) : bool := ((i <? s) && (j <? s) && (s * i + j <? 8 * length enc))%nat.

Record effect (m out : array2 Z) (n L : nat) (depth : R) (enc : list Z) (e eta : R) (Q : nat -> nat -> Z -> Prop) : Prop := mkEffect {
  eff_shape : carrier out n L /\ image8 out;
  eff_delta : exists D : nat -> nat -> R,
    (forall i j, used (band n L) enc i j = false -> D i j = 0) /\
    (forall i j, (i < n)%nat -> (j < n)%nat -> exists x,
       Rabs (x - (pixR m i j + (/ 2) ^ L * D (i / 2 ^ L)%nat (j / 2 ^ L)%nat)) <= e /\ cell out i j = Some (clamp 0 255 (nearest x))) /\
    (forall i j, used (band n L) enc i j = true -> exists r, Q i j r /\
       Rabs (transR false n n L (pixR m) i j + D i j - depth * (IZR r + quarter (payload_bit enc (band n L * i + j)%nat))) <= eta * depth /\
       Rabs (D i j) <= (3 / 4 + 4 * eta) * depth)
}.

Lemma clamp_byte k : byte (clamp 0 255 k).
Proof. unfold byte, clamp. lia. Qed.

Lemma image8_cells (m : array2 Z) : wf m -> (forall i j v, cell m i j = Some v -> byte v) -> image8 m.
Proof.
  intros Hwf H. split; [exact Hwf|]. apply Forall_forall. intros r Hr. apply In_nth_error in Hr as (i & Ei).
  apply Forall_forall. intros v Hv. apply In_nth_error in Hv as (j & Ej). apply (H i j). unfold cell. rewrite Ei. exact Ej.
Qed.

Lemma carrier_mapv {A B} (f : A -> B) m n L : carrier m n L -> carrier (mapv f m) n L.
Proof. intros (H & H0 & H1 & H2). split; [now apply mapv_wf|]. split; [exact H0|]. split; [exact H1|exact H2]. Qed.

(** ** exact *)
Lemma get_pixR (m : array2 Z) i j : get Rops (mapv (f_of_Z Rops) m) i j = pixR m i j.
Proof. unfold get, pixR. rewrite cell_mapv. destruct (cell m i j); reflexivity. Qed.

Lemma embed_effect_real K m n L depth payload ser enc : carrier m n L -> image8 m -> 0 < depth ->
  let s := band n L in
  (9 <= s * s / 8)%nat -> data_serialize payload = Ok ser -> encode K ser (s * s / 8) = Ok enc -> (length enc <= s * s / 8)%nat ->
  exists out, embed Rops K m payload depth L = Ok out /\ effect m out n L depth enc 0 0
    (fun i j r => r = nearest (transR false n n L (pixR m) i j / depth)).
Proof.
  intros Hc H8 Hd s H9 Hser Henc Hlen.
  destruct (embed_run Rops K m n L depth payload ser enc Hc H9 Hser Henc) as (Hrun & _).
  destruct (Hrun Hlen) as (R & ER & WR & R0 & R1 & GR). fold s in GR.
  pose proof (carrier_band m n L Hc) as (Hs & Hrep & Hdiv & Hn).
  set (C := transR false n n L (pixR m)) in *.
  set (D := fun i j => marked_coefficient Rops depth s enc C i j - C i j).
  assert (HD0 : forall i j, used s enc i j = false -> D i j = 0).
  { intros i j Hu. unfold D, marked_coefficient. fold (used s enc i j). rewrite Hu. ring. }
  assert (GR' : forall i j, (i < n)%nat -> (j < n)%nat -> get Rops R i j = pixR m i j + (/ 2) ^ L * D (i / 2 ^ L)%nat (j / 2 ^ L)%nat).
  { intros i j Hi Hj. rewrite GR by assumption.
    transitivity (transR true n n L (lin 1 1 C D) i j).
    - apply transform_ext; [exact Hdiv|]. intros a b. unfold lin, D.
      assert (E : forall a b, transR false n n L (get Rops (mapv (f_of_Z Rops) m)) a b = C a b).
      { intros a' b'. apply transform_ext; [exact Hdiv|]. intros. apply get_pixR. }
      unfold marked_coefficient. rewrite E. destruct (_ && _)%bool; ring.
    - rewrite trans_lin. unfold lin at 1. unfold C. rewrite trans_bwd_fwd by exact Hdiv.
      rewrite trans_bwd_LL; try assumption; [ring|]. intros a b Hab. apply HD0. unfold used.
      destruct (Nat.ltb_spec a s), (Nat.ltb_spec b s); try reflexivity. exfalso. apply Hab. split; assumption. }
  eexists. split; [exact ER|]. constructor.
  - split; [apply carrier_mapv; destruct Hc as (_ & _ & _ & Hc'); repeat split; try assumption; try apply WR; apply Hc'|].
    apply image8_cells; [now apply mapv_wf|]. intros i j v E. rewrite cell_mapv in E. destruct (cell R i j); [|discriminate].
    cbn [option_map] in E. assert (Ev : v = f_to_u8 Rops (f_round Rops r)) by congruence. rewrite Ev. apply clamp_byte.
  - exists D. split; [exact HD0|]. split.
    + intros i j Hi Hj. exists (get Rops R i j). rewrite GR' by assumption. rewrite Rminus_self, Rabs_R0. split; [lra|].
      rewrite cell_mapv, (cell_get Rops) by (try exact WR; lia). cbn [option_map]. rewrite GR' by assumption.
      unfold f_to_u8. cbn [f_cast f_round Rops]. rewrite Ztrunc_IZR. reflexivity.
    + intros i j Hu. fold s in Hu |- *. exists (nearest (C i j / depth)).
      split; [reflexivity|].
      assert (E : C i j + D i j = depth * (IZR (nearest (C i j / depth)) + quarter (payload_bit enc (s * i + j)%nat))).
      { unfold D, marked_coefficient. fold (used s enc i j). rewrite Hu, mark_real. ring. }
      split; [fold C; rewrite E, Rminus_self, Rabs_R0; lra|].
      replace (D i j) with (mark Rops depth (payload_bit enc (s * i + j)) (C i j) - C i j).
      * eapply Rle_trans; [apply mark_real_err; lra|]. rewrite (Rabs_pos_eq depth) by lra. lra.
      * unfold D, marked_coefficient. fold (used s enc i j). rewrite Hu. reflexivity.
Qed.

(** ** f64 *)
Lemma coefficient_bound m n L i j : carrier m n L -> image8 m -> (L <= 10)%nat -> (i < n)%nat -> (j < n)%nat ->
  Rabs (transR false n n L (pixR m) i j) <= bpow radix2 20.
Proof.
  intros Hc H8 HL Hi Hj. pose proof (carrier_band m n L Hc) as (_ & _ & Hdiv & _). destruct Hc as (_ & E0 & E1 & _).
  pose proof (pixR_bounded m H8) as Hb. rewrite E0, E1 in Hb.
  pose proof (trans_bound false n n L 255 (pixR m) Hdiv Hb i j Hi Hj) as H. pose proof (pow94_10 L HL).
  eapply Rle_trans; [exact H|]. simpl bpow. nra.
Qed.

(** The integer chosen by the f64 code is within 1/2 + tol of the exact quotient. *)
Definition float_index (m : array2 Z) (n L : nat) (depth tol : R) (i j : nat) (r : Z) : Prop :=
  (Z.abs r <= 2 ^ 41)%Z /\ Rabs (transR false n n L (pixR m) i j / depth - IZR r) <= / 2 + tol.

Lemma embed_effect_float_gen lo K m n L (depth : b64) payload ser enc : (0 <= lo <= 10)%Z -> carrier m n L -> image8 m -> (L <= 10)%nat ->
  fin depth -> bpow radix2 (- lo) <= toR depth <= bpow radix2 20 ->
  let s := band n L in
  (9 <= s * s / 8)%nat -> data_serialize payload = Ok ser -> encode K ser (s * s / 8) = Ok enc -> (length enc <= s * s / 8)%nat ->
  exists out, embed Bops K m payload depth L = Ok out /\
    effect m out n L (toR depth) enc (bpow radix2 (-10)) (bpow radix2 (lo - 24)) (float_index m n L (toR depth) (bpow radix2 (lo - 23))).
Proof.
  intros Hlo Hc H8 HL Fd Hd s H9 Hser Henc Hlen.
  set (lam := bpow radix2 lo). assert (Hlam : 1 <= lam <= 1024).
  { unfold lam. split; [apply Rle_trans with (bpow radix2 0); [simpl bpow; lra|apply bpow_le; lia]|].
    apply Rle_trans with (bpow radix2 10); [apply bpow_le; lia|simpl bpow; lra]. }
  assert (Hlam24 : bpow radix2 (lo - 24) = lam * bpow radix2 (-24)) by (unfold lam; rewrite <- bpow_plus; f_equal; lia).
  assert (Hlam23 : bpow radix2 (lo - 23) = lam * bpow radix2 (-23)) by (unfold lam; rewrite <- bpow_plus; f_equal; lia).
  assert (Hlam31 : bpow radix2 (lo + 21 - 52) = lam * bpow radix2 (-31)) by (unfold lam; rewrite <- bpow_plus; f_equal; lia).
  assert (Hlam21 : bpow radix2 (lo + 21) = lam * bpow radix2 21) by (unfold lam; rewrite <- bpow_plus; f_equal; lia).
  assert (Hlamd : 1 <= lam * toR depth).
  { apply Rle_trans with (lam * bpow radix2 (- lo)); [right; unfold lam; rewrite <- bpow_plus; replace (lo + - lo)%Z with 0%Z by lia; reflexivity|].
    apply Rmult_le_compat_l; lra. }
  assert (Hdd : 0 < toR depth) by (pose proof (bpow_gt_0 radix2 (- lo)); lra).
  destruct (embed_run Bops K m n L depth payload ser enc Hc H9 Hser Henc) as (Hrun & _).
  destruct (Hrun Hlen) as (R & ER & WR & R0 & R1 & GR). fold s in GR.
  pose proof (carrier_band m n L Hc) as (Hs & Hrep & Hdiv & Hn). fold s in Hs.
  set (C := transR false n n L (pixR m)) in *.
  set (Cf := transform Bops false n n L (get Bops (mapv (f_of_Z Bops) m))) in *.
  set (D := fun i j => if used s enc i j then toR (marked_coefficient Bops depth s enc Cf i j) - C i j else 0).
  assert (HA : approx n n (bpow radix2 (-24)) Cf C).
  { destruct Hc as (_ & E0 & E1 & _). pose proof (pixR_bounded m H8) as Hb. pose proof (pix_float m H8) as Hp. rewrite E0, E1 in *.
    apply analysis_float; assumption. }
  assert (Hord : bpow radix2 (-500) <= toR depth <= bpow radix2 500).
  { split; [apply Rle_trans with (bpow radix2 (- lo)); [apply bpow_le; lia|apply Hd]|]. apply Rle_trans with (bpow radix2 20); [apply Hd|apply bpow_le; lia]. }
  assert (Hused : forall i j, used s enc i j = true -> (i < s)%nat /\ (j < s)%nat).
  { intros i j. unfold used. destruct (Nat.ltb_spec i s), (Nat.ltb_spec j s); try discriminate. auto. }
  assert (Hmark : forall i j, used s enc i j = true -> exists r, float_index m n L (toR depth) (bpow radix2 (lo - 23)) i j r /\ fin (marked_coefficient Bops depth s enc Cf i j)
     /\ Rabs (C i j + D i j - toR depth * (IZR r + quarter (payload_bit enc (s * i + j)%nat))) <= bpow radix2 (lo - 24) * toR depth
     /\ Rabs (D i j) <= (3 / 4 + 4 * bpow radix2 (lo - 24)) * toR depth).
  { intros i j Hu. destruct (Hused i j Hu) as (Hi & Hj). destruct (HA i j ltac:(lia) ltac:(lia)) as (FC & HC).
    pose proof (coefficient_bound m n L i j Hc H8 HL ltac:(lia) ltac:(lia)) as HB. fold C in HB.
    assert (HCf : Rabs (toR (Cf i j)) <= bpow radix2 (lo + 21) * toR depth).
    { replace (toR (Cf i j)) with ((toR (Cf i j) - C i j) + C i j) by ring. eapply Rle_trans; [apply Rabs_triang|].
      rewrite Hlam21. apply Rle_trans with (bpow radix2 21 * 1); [simpl bpow in *; lra|].
      rewrite (Rmult_comm lam), Rmult_assoc. apply Rmult_le_compat_l; [apply bpow_ge_0|exact Hlamd]. }
    unfold D. rewrite Hu. unfold marked_coefficient. fold (used s enc i j). rewrite Hu.
    destruct (mark_float_nearest depth Fd Hord (lo + 21) (payload_bit enc (s * i + j)) (Cf i j) ltac:(lia) FC HCf) as (r & Hr & FM & HM & HM2 & HM3).
    exists r. split.
    { split; [|fold C].
      { eapply Z.le_trans; [exact Hr|]. assert (2 ^ (lo + 21) <= 2 ^ 31)%Z by (apply Z.pow_le_mono_r; lia). lia. }
      assert (Hdq : Rabs (C i j / toR depth - toR (Cf i j) / toR depth) <= lam * bpow radix2 (-24)).
      { replace (C i j / toR depth - toR (Cf i j) / toR depth) with (- ((toR (Cf i j) - C i j) / toR depth)) by (field; lra).
        rewrite Rabs_Ropp. unfold Rdiv. rewrite Rabs_mult, (Rabs_pos_eq (/ toR depth)) by (left; now apply Rinv_0_lt_compat).
        rewrite (Rmult_comm lam).
        apply Rmult_le_compat; [apply Rabs_pos|left; now apply Rinv_0_lt_compat|exact HC|].
        apply Rmult_le_reg_r with (toR depth); [exact Hdd|]. rewrite Rinv_l by lra. exact Hlamd. }
      rewrite Hlam31 in HM3. rewrite Hlam23.
      apply Rabs_le_inv in Hdq. apply Rabs_le_inv in HM3. apply Rabs_le. simpl bpow in *. lra. }
    split; [exact FM|]. set (mk := toR (mark Bops depth (payload_bit enc (s * i + j)) (Cf i j))) in *.
    assert (HC24 : Rabs (toR (Cf i j) - C i j) <= bpow radix2 (-24) * (lam * toR depth)).
    { eapply Rle_trans; [exact HC|]. rewrite <- (Rmult_1_r (bpow radix2 (-24))) at 1. apply Rmult_le_compat_l; [apply bpow_ge_0|exact Hlamd]. }
    assert (Hld : 0 < lam * toR depth) by lra. rewrite Hlam31 in HM, HM2. rewrite Hlam24.
    split; [replace (C i j + (mk - C i j)) with mk by ring; eapply Rle_trans; [exact HM|]; simpl bpow; nra|].
    set (q := toR depth * (IZR r + quarter (payload_bit enc (s * i + j)))) in *.
    replace (mk - C i j) with ((mk - q) + ((q - toR (Cf i j)) + (toR (Cf i j) - C i j))) by ring.
    eapply Rle_trans; [apply Rabs_triang|]. pose proof (Rabs_triang (q - toR (Cf i j)) (toR (Cf i j) - C i j)).
    simpl bpow in *. nra. }
  assert (HD0 : forall i j, used s enc i j = false -> D i j = 0).
  { intros i j Hu. unfold D. rewrite Hu. reflexivity. }
  assert (GR' : approx n n (bpow radix2 (-10)) (get Bops R) (fun i j => pixR m i j + (/ 2) ^ L * D (i / 2 ^ L)%nat (j / 2 ^ L)%nat)).
  { assert (HS : approx n n (bpow radix2 (-10)) (transform Bops true n n L (marked_coefficient Bops depth s enc Cf))
        (fun i j => pixR m i j + (/ 2) ^ L * D (i / 2 ^ L)%nat (j / 2 ^ L)%nat)).
    { apply synthesis_float; try assumption.
      - pose proof (pixR_bounded m H8) as Hb. destruct Hc as (_ & E0 & E1 & _). rewrite E0, E1 in Hb. exact Hb.
      - intros a b Hab. apply HD0. unfold used. fold (band n L) in Hab. fold s in Hab.
        destruct (Nat.ltb_spec a s), (Nat.ltb_spec b s); try reflexivity. exfalso. apply Hab. split; assumption.
      - intros a b _ _. destruct (used s enc a b) eqn:Hu.
        + destruct (Hmark a b Hu) as (_ & _ & _ & _ & H). eapply Rle_trans; [exact H|]. rewrite Hlam24.
          apply Rle_trans with (1 * toR depth); [apply Rmult_le_compat_r; [lra|]|]; simpl bpow in *; lra.
        + rewrite HD0 by exact Hu. rewrite Rabs_R0. apply bpow_ge_0.
      - intros a b Ha Hb. unfold lin. fold C. destruct (used s enc a b) eqn:Hu.
        + destruct (Hmark a b Hu) as (_ & _ & FM & _). split; [exact FM|]. unfold D. rewrite Hu.
          match goal with |- Rabs ?x <= _ => replace x with 0 by ring end. rewrite Rabs_R0. apply bpow_ge_0.
        + rewrite HD0 by exact Hu. unfold marked_coefficient. fold (used s enc a b). rewrite Hu.
          destruct (HA a b Ha Hb) as (F1 & H1). split; [exact F1|].
          replace (1 * C a b + 1 * 0) with (C a b) by ring. exact H1. }
    intros i j Hi Hj. rewrite GR by assumption. apply HS; assumption. }
  eexists. split; [exact ER|]. constructor.
  - split; [apply carrier_mapv; destruct Hc as (_ & _ & _ & Hc'); repeat split; try assumption; try apply WR; apply Hc'|].
    apply image8_cells; [now apply mapv_wf|]. intros i j v E. rewrite cell_mapv in E.
    destruct (Nat.lt_ge_cases i n) as [Hi|Hi]; [|rewrite cell_none in E by (try exact WR; lia); discriminate].
    destruct (Nat.lt_ge_cases j n) as [Hj|Hj]; [|rewrite cell_none in E by (try exact WR; lia); discriminate].
    rewrite (cell_get Bops) in E by (try exact WR; lia). destruct (GR' i j Hi Hj) as (F1 & _).
    cbn [option_map] in E. assert (Ev : v = f_to_u8 Bops (f_round Bops (get Bops R i j))) by congruence. rewrite Ev.
    unfold f_to_u8. rewrite b_cast_ok by (apply b_round_ok; exact F1). apply clamp_byte.
  - exists D. split; [exact HD0|]. split.
    + intros i j Hi Hj. destruct (GR' i j Hi Hj) as (F1 & H1). exists (toR (get Bops R i j)). split; [exact H1|].
      rewrite cell_mapv, (cell_get Bops) by (try exact WR; lia). cbn [option_map]. f_equal.
      unfold f_to_u8. destruct (b_round_ok _ F1) as (F2 & V2). rewrite (b_cast_ok _ _ _ F2), V2, Ztrunc_IZR. reflexivity.
    + intros i j Hu. destruct (Hmark i j Hu) as (r & Hr & _ & H1 & H2). exists r. auto.
Qed.

Lemma effect_weaken m out n L depth enc e eta eta' (Q Q' : nat -> nat -> Z -> Prop) : 0 <= depth -> eta <= eta' -> (forall i j r, Q i j r -> Q' i j r) ->
  effect m out n L depth enc e eta Q -> effect m out n L depth enc e eta' Q'.
Proof.
  intros Hd Heta HQ [H1 (D & HD0 & Hpix & HD)]. constructor; [exact H1|]. exists D. split; [exact HD0|]. split; [exact Hpix|].
  intros i j Hu. destruct (HD i j Hu) as (r & A & B & C). exists r. split; [now apply HQ|]. split.
  - eapply Rle_trans; [exact B|]. apply Rmult_le_compat_r; assumption.
  - eapply Rle_trans; [exact C|]. apply Rmult_le_compat_r; lra.
Qed.

Lemma embed_effect_float K m n L (depth : b64) payload ser enc : carrier m n L -> image8 m -> (L <= 10)%nat ->
  fin depth -> / 1024 <= toR depth <= bpow radix2 20 ->
  let s := band n L in
  (9 <= s * s / 8)%nat -> data_serialize payload = Ok ser -> encode K ser (s * s / 8) = Ok enc -> (length enc <= s * s / 8)%nat ->
  exists out, embed Bops K m payload depth L = Ok out /\
    effect m out n L (toR depth) enc (bpow radix2 (-10)) (bpow radix2 (-12)) (fun _ _ r => (Z.abs r <= 2 ^ 41)%Z).
Proof.
  intros Hc H8 HL Fd Hd s H9 Hser Henc Hlen.
  assert (Hd' : bpow radix2 (- (10)) <= toR depth <= bpow radix2 20) by (simpl bpow in *; lra).
  destruct (embed_effect_float_gen 10 K m n L depth payload ser enc ltac:(lia) Hc H8 HL Fd Hd' H9 Hser Henc Hlen) as (out & Eo & Heff).
  exists out. split; [exact Eo|]. eapply effect_weaken; [lra| | |exact Heff]; [apply bpow_le; lia|]. intros i j r (H & _). exact H.
Qed.

(** ** consequences *)
Section Effect.
Context (m out : array2 Z) (n L : nat) (depth : R) (enc : list Z) (e eta : R) (Q : nat -> nat -> Z -> Prop).
Context (Hc : carrier m n L) (H8 : image8 m) (He : 0 <= e < / 2) (Heta : 0 <= eta) (Hd : 0 < depth) (Heff : effect m out n L depth enc e eta Q).
Let s := band n L.

Lemma in_range i j v : cell m i j = Some v -> 0 <= IZR v <= 255.
Proof. intros E. pose proof (image8_cell m i j v H8 E) as (H1 & H2). split; [apply (IZR_le 0); lia|apply (IZR_le v 255); lia]. Qed.

Lemma cells_of i j : (i < n)%nat -> (j < n)%nat -> exists v w, cell m i j = Some v /\ cell out i j = Some w /\ pixR m i j = IZR v /\ pixR out i j = IZR w.
Proof.
  intros Hi Hj. destruct Hc as (Hwf & E0 & E1 & _). destruct Heff as [((Hwf' & E0' & E1' & _) & _) _].
  destruct (cell_bounds m i j Hwf) as (v & Ev); [lia|lia|]. destruct (cell_bounds out i j Hwf') as (w & Ew); [lia|lia|].
  exists v, w. unfold pixR. rewrite Ev, Ew. auto.
Qed.

Lemma half_pow_pos : 0 < (/ 2) ^ L. Proof. apply pow_lt. lra. Qed.

Lemma pixel_change i j v w : cell m i j = Some v -> cell out i j = Some w ->
  Rabs (IZR w - IZR v) <= (/ 2) ^ L * ((3 / 4 + 4 * eta) * depth) + / 2 + e.
Proof.
  intros Ev Ew. destruct Hc as (Hwf & E0 & E1 & _).
  assert (Hi : (i < n)%nat /\ (j < n)%nat).
  { destruct (Nat.lt_ge_cases i n), (Nat.lt_ge_cases j n); try (rewrite cell_none in Ev by (try exact Hwf; lia); discriminate). auto. }
  destruct Hi as (Hi & Hj). destruct Heff as [_ (D & HD0 & Hpix & HD)]. destruct (Hpix i j Hi Hj) as (x & Hx & Ecell).
  assert (Ewx : w = clamp 0 255 (nearest x)) by congruence. rewrite Ewx.
  pose proof (in_range i j v Ev) as Hr. unfold pixR in Hx. rewrite Ev in Hx.
  set (DD := D (i / 2 ^ L)%nat (j / 2 ^ L)%nat) in *.
  assert (HDD : Rabs DD <= (3 / 4 + 4 * eta) * depth).
  { unfold DD. destruct (used s enc (i / 2 ^ L) (j / 2 ^ L)) eqn:Hu; [destruct (HD _ _ Hu) as (? & _ & _ & HH); exact HH|]. rewrite HD0 by exact Hu. rewrite Rabs_R0. nra. }
  assert (Hxv : Rabs (x - IZR v) <= e + (/ 2) ^ L * ((3 / 4 + 4 * eta) * depth)).
  { replace (x - IZR v) with ((x - (IZR v + (/ 2) ^ L * DD)) + (/ 2) ^ L * DD) by ring.
    eapply Rle_trans; [apply Rabs_triang|]. apply Rplus_le_compat; [exact Hx|].
    rewrite Rabs_mult, (Rabs_pos_eq ((/ 2) ^ L)) by (left; apply half_pow_pos). apply Rmult_le_compat_l; [left; apply half_pow_pos|exact HDD]. }
  pose proof (pixel_close x (IZR v) _ 0 Hxv ltac:(lra) ltac:(lra)). lra.
Qed.

Lemma unused_unchanged i j : (i < n)%nat -> (j < n)%nat -> used s enc (i / 2 ^ L) (j / 2 ^ L) = false -> cell out i j = cell m i j.
Proof.
  intros Hi Hj Hu. destruct Heff as [_ (D & HD0 & Hpix & HD)]. destruct (Hpix i j Hi Hj) as (x & Hx & Ecell).
  destruct (cells_of i j Hi Hj) as (v & w & Ev & Ew & Pv & Pw). rewrite (HD0 _ _ Hu), Pv in Hx. rewrite Ecell, Ev. f_equal.
  rewrite (nearest_imp x v) by (replace (IZR v) with (IZR v + (/ 2) ^ L * 0) by ring; lra).
  pose proof (image8_cell m i j v H8 Ev) as (H1 & H2). unfold clamp. lia.
Qed.

(** Low-pass coefficients of the marked picture, if no used pixel saturates. *)
Lemma marked_coefficients :
  (forall i j v, cell m i j = Some v -> used s enc (i / 2 ^ L) (j / 2 ^ L) = true ->
     (/ 2) ^ L * (3 / 4 * depth) <= IZR v <= 255 - (/ 2) ^ L * (3 / 4 * depth)) ->
  forall i j, used s enc i j = true -> exists r, Q i j r /\
    Rabs (transR false n n L (pixR out) i j - depth * (IZR r + quarter (payload_bit enc (s * i + j)%nat)))
      <= 2 ^ L * (/ 2 + e) + 5 * eta * depth.
Proof.
  intros Hroom i j Hu. destruct Heff as [_ (D & HD0 & Hpix & HD)].
  pose proof (carrier_band m n L Hc) as (_ & _ & Hdiv & _).
  destruct (HD i j Hu) as (r & HQ & Hr & _). exists r. split; [exact HQ|].
  pose proof half_pow_pos as Hpp.
  assert (Hij : (i < s)%nat /\ (j < s)%nat).
  { unfold used in Hu. destruct (Nat.ltb_spec i s), (Nat.ltb_spec j s); try discriminate. auto. }
  assert (Hbs : Rabs (transR false n n L (pixR out) i j - (transR false n n L (pixR m) i j + D i j)) <= 2 ^ L * (/ 2 + e + (/ 2) ^ L * (4 * eta * depth))).
  { apply (block_shift n L (pixR m) (pixR out) D); try assumption; try apply Hij.
    intros a b Ha Hb. destruct (Hpix a b Ha Hb) as (x & Hx & Ecell). destruct (cells_of a b Ha Hb) as (v & w & Ev & Ew & Pv & Pw).
    rewrite Pw. assert (Ewx : w = clamp 0 255 (nearest x)) by congruence. rewrite Ewx.
    apply pixel_close; [exact Hx|assert (0 <= 4 * eta * depth) by nra; nra|]. rewrite Pv.
    destruct (used s enc (a / 2 ^ L) (b / 2 ^ L)) eqn:Hub.
    - pose proof (Hroom a b v Ev Hub) as Hrm. destruct (HD _ _ Hub) as (_ & _ & _ & HDb). set (DD := D (a / 2 ^ L)%nat (b / 2 ^ L)%nat) in *.
      apply Rabs_le_inv in HDb.
      assert (- ((/ 2) ^ L * ((3 / 4 + 4 * eta) * depth)) <= (/ 2) ^ L * DD <= (/ 2) ^ L * ((3 / 4 + 4 * eta) * depth)).
      { rewrite <- Ropp_mult_distr_r_reverse. split; apply Rmult_le_compat_l; lra. }
      nra.
    - rewrite (HD0 _ _ Hub). pose proof (in_range a b v Ev). assert (0 <= 4 * eta * depth) by nra. assert (0 <= (/ 2) ^ L * (4 * eta * depth)) by nra. lra. }
  fold s in Hr. set (t := transR false n n L (pixR m) i j + D i j) in *. set (q := depth * (IZR r + _)) in *.
  replace (transR false n n L (pixR out) i j - q) with ((transR false n n L (pixR out) i j - t) + (t - q)) by ring.
  eapply Rle_trans; [apply Rabs_triang|]. eapply Rle_trans; [apply Rplus_le_compat; [exact Hbs|exact Hr]|]. right.
  rewrite pow_inv. field. apply pow_nonzero. lra.
Qed.
End Effect.
