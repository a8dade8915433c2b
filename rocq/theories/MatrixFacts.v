(** Lemmas about the matrix model. *)
From Verif Require Import Outcome Bits ListFacts Matrix.
Open Scope nat_scope.

Definition cell {A} (m : array2 A) (i j : nat) : option A :=
  match nth_error (rows m) i with Some r => nth_error r j | None => None end.

Lemma upd_length {A} (l : list A) i x : length (upd l i x) = length l.
Proof. revert i; induction l as [|a t IH]; intros [|i]; simpl; auto. Qed.

Lemma nth_error_upd {A} (l : list A) i x k :
  nth_error (upd l i x) k = if Nat.eqb i k then (match nth_error l k with Some _ => Some x | None => None end) else nth_error l k.
Proof.
  revert i k; induction l as [|a t IH]; intros i k.
  - simpl. destruct k; destruct (Nat.eqb i _); reflexivity.
  - destruct i as [|i], k as [|k]; simpl; try reflexivity. apply IH.
Qed.

Lemma view_get_cell {A} (m : array2 A) w h i j :
  view_get m w h i j = if Nat.ltb i w && Nat.ltb j h then cell m i j else None.
Proof. reflexivity. Qed.

Lemma cell_bounds {A} (m : array2 A) i j : wf m -> i < dim0 m -> j < dim1 m -> exists x, cell m i j = Some x.
Proof.
  intros (Hl & Hr) Hi Hj. unfold cell. destruct (nth_error (rows m) i) as [r|] eqn:E.
  - rewrite Forall_forall in Hr. assert (length r = dim1 m) by (apply Hr; eapply nth_error_In; exact E).
    destruct (nth_error r j) eqn:E2; [eauto|]. apply nth_error_None in E2. lia.
  - apply nth_error_None in E. lia.
Qed.

Lemma cell_none {A} (m : array2 A) i j : wf m -> ~ (i < dim0 m /\ j < dim1 m) -> cell m i j = None.
Proof.
  intros (Hl & Hr) H. unfold cell. destruct (nth_error (rows m) i) as [r|] eqn:E; [|reflexivity].
  assert (i < dim0 m) by (rewrite <- Hl; apply nth_error_Some; congruence).
  rewrite Forall_forall in Hr. assert (length r = dim1 m) by (apply Hr; eapply nth_error_In; exact E).
  apply nth_error_None. lia.
Qed.

Lemma set_cell_dims {A} (m : array2 A) i j x : dim0 (set_cell m i j x) = dim0 m /\ dim1 (set_cell m i j x) = dim1 m.
Proof. split; reflexivity. Qed.

Lemma set_cell_wf {A} (m : array2 A) i j x : wf m -> wf (set_cell m i j x).
Proof.
  intros (Hl & Hr). unfold wf, set_cell. cbn [dim0 dim1 rows].
  destruct (nth_error (rows m) i) as [r|] eqn:E; [|split; assumption].
  split; [now rewrite upd_length|].
  apply Forall_forall. intros r' Hin. apply In_nth_error in Hin as (k & Hk). rewrite nth_error_upd in Hk.
  rewrite Forall_forall in Hr.
  destruct (Nat.eqb i k).
  - destruct (nth_error (rows m) k); [|discriminate]. injection Hk as <-. rewrite upd_length. apply Hr. eapply nth_error_In; exact E.
  - apply Hr. eapply nth_error_In; exact Hk.
Qed.

Lemma cell_set_cell {A} (m : array2 A) i j x i' j' :
  cell (set_cell m i j x) i' j' =
  if Nat.eqb i i' && Nat.eqb j j' then (match cell m i j with Some _ => Some x | None => None end) else cell m i' j'.
Proof.
  unfold cell, set_cell. cbn [rows].
  destruct (Nat.eqb i i') eqn:Ei; cbn [andb].
  - apply Nat.eqb_eq in Ei. subst i'. destruct (nth_error (rows m) i) as [r|] eqn:E; cbn [rows].
    + rewrite nth_error_upd, Nat.eqb_refl, E. rewrite nth_error_upd.
      destruct (Nat.eqb j j') eqn:Ej; [apply Nat.eqb_eq in Ej; subst; reflexivity|reflexivity].
    + rewrite E. destruct (Nat.eqb j j'); reflexivity.
  - destruct (nth_error (rows m) i) as [r|] eqn:E; cbn [rows]; [|reflexivity].
    rewrite nth_error_upd, Ei. reflexivity.
Qed.

(** Two matrices of the same shape with the same cells are equal. *)
Lemma nth_error_ext {A} (l l' : list A) : (forall k, nth_error l k = nth_error l' k) -> l = l'.
Proof.
  revert l'; induction l as [|a t IH]; intros [|b t'] H; try reflexivity.
  - specialize (H 0). discriminate.
  - specialize (H 0). discriminate.
  - f_equal; [specialize (H 0); cbn in H; congruence|]. apply IH. intros k. exact (H (S k)).
Qed.

Lemma array2_ext {A} (m m' : array2 A) : wf m -> wf m' -> dim0 m = dim0 m' -> dim1 m = dim1 m' ->
  (forall i j, i < dim0 m -> j < dim1 m -> cell m i j = cell m' i j) -> m = m'.
Proof.
  intros (Hl & Hr) (Hl' & Hr') E0 E1 H. destruct m as [a b rs], m' as [a' b' rs']. cbn [dim0 dim1 rows] in *.
  rewrite <- E0 in Hl'. rewrite <- E1 in Hr'. f_equal; [exact E0|exact E1|]. apply nth_error_ext. intros i. destruct (le_lt_dec a i) as [Hi|Hi].
  - rewrite (proj2 (nth_error_None rs i)), (proj2 (nth_error_None rs' i)) by lia. reflexivity.
  - destruct (nth_error rs i) as [r|] eqn:E; [|apply nth_error_None in E; lia].
    destruct (nth_error rs' i) as [r'|] eqn:E'; [|apply nth_error_None in E'; lia].
    f_equal. apply nth_error_ext. intros j.
    rewrite Forall_forall in Hr, Hr'.
    assert (length r = b) by (apply Hr; eapply nth_error_In; exact E).
    assert (length r' = b) by (apply Hr'; eapply nth_error_In; exact E').
    destruct (le_lt_dec b j) as [Hj|Hj].
    + rewrite (proj2 (nth_error_None r j)), (proj2 (nth_error_None r' j)) by lia. reflexivity.
    + specialize (H i j Hi Hj). unfold cell in H. cbn [rows] in H. rewrite E, E' in H. exact H.
Qed.

(** mapv *)
Lemma mapv_wf {A B} (f : A -> B) m : wf m -> wf (mapv f m).
Proof.
  intros (Hl & Hr). split; cbn [mapv rows dim0 dim1]; [now rewrite map_length|].
  apply Forall_map. eapply Forall_impl; [|exact Hr]. intros r E. now rewrite map_length.
Qed.
Lemma cell_mapv {A B} (f : A -> B) m i j : cell (mapv f m) i j = option_map f (cell m i j).
Proof.
  unfold cell. cbn [mapv rows]. rewrite nth_error_map. destruct (nth_error (rows m) i); cbn [option_map]; [|reflexivity].
  apply nth_error_map.
Qed.

(** raw vectors *)
Lemma split_rows_length {A} d0 d1 (v : list A) : length (split_rows d0 d1 v) = d0.
Proof. revert v; induction d0 as [|d IH]; intros v; simpl; auto. Qed.
Lemma split_rows_wf {A} d0 d1 (v : list A) : length v = d0 * d1 -> Forall (fun r => length r = d1) (split_rows d0 d1 v).
Proof.
  revert v; induction d0 as [|d IH]; intros v H; simpl; constructor.
  - rewrite firstn_length. simpl in H. lia.
  - apply IH. rewrite skipn_length. simpl in H. lia.
Qed.
Lemma split_rows_concat {A} d0 d1 (v : list A) : length v = d0 * d1 -> concat (split_rows d0 d1 v) = v.
Proof.
  revert v; induction d0 as [|d IH]; intros v H; simpl in *.
  - destruct v; [reflexivity|simpl in H; lia].
  - rewrite IH by (rewrite skipn_length; lia). apply firstn_skipn.
Qed.
Lemma from_shape_vec_ok {A} d0 d1 (v : list A) m : from_shape_vec d0 d1 v = Ok m ->
  length v = d0 * d1 /\ wf m /\ dim0 m = d0 /\ dim1 m = d1 /\ into_raw_vec m = v.
Proof.
  unfold from_shape_vec. destruct (Nat.eqb (length v) (d0 * d1)) eqn:E; [|discriminate].
  apply Nat.eqb_eq in E. intros H. injection H as <-. split; [exact E|].
  split; [split; cbn; [apply split_rows_length|now apply split_rows_wf]|].
  split; [reflexivity|]. split; [reflexivity|]. apply split_rows_concat. exact E.
Qed.
Lemma from_shape_vec_total {A} d0 d1 (v : list A) : length v = d0 * d1 -> exists m, from_shape_vec d0 d1 v = Ok m.
Proof. intros H. unfold from_shape_vec. rewrite H, Nat.eqb_refl. eauto. Qed.
Lemma into_raw_vec_length {A} (m : array2 A) : wf m -> length (into_raw_vec m) = dim0 m * dim1 m.
Proof. intros (Hl & Hr). unfold into_raw_vec. rewrite (length_concat_const (dim1 m)) by exact Hr. now rewrite Hl. Qed.
Lemma from_into {A} (m : array2 A) : wf m -> from_shape_vec (dim0 m) (dim1 m) (into_raw_vec m) = Ok m.
Proof.
  intros H. destruct (from_shape_vec_total (dim0 m) (dim1 m) (into_raw_vec m) (into_raw_vec_length m H)) as (m' & E).
  rewrite E. f_equal. destruct (from_shape_vec_ok _ _ _ _ E) as (_ & (Hl' & Hr') & E0 & E1 & Ev).
  destruct H as (Hl & Hr). destruct m as [a b rs], m' as [a' b' rs']. cbn [dim0 dim1 rows into_raw_vec] in *. unfold into_raw_vec in Ev. cbn [rows] in Ev.
  f_equal; [exact E0|exact E1|]. rewrite E1 in Hr'. rewrite E0 in Hl'. clear - Hl Hl' Hr Hr' Ev.
  assert (Hlen : length rs' = length rs) by congruence. clear Hl Hl'.
  revert rs Hr Ev Hlen. induction Hr' as [|r' t' H' Ht' IH]; intros rs Hr Ev Hlen.
  - destruct rs; [reflexivity|discriminate].
  - destruct rs as [|r t]; [discriminate|]. inversion Hr as [|? ? Hr1 Hr2]; subst. cbn [concat] in Ev.
    assert (Hll : length r' = length r) by congruence.
    assert (r' = r /\ concat t' = concat t) as (-> & Ec).
    { clear - Ev Hll.
      revert r Hll Ev. induction r' as [|x r' IHr]; intros [|y r] Hl Ev; try discriminate; [auto|].
      cbn in Ev. injection Ev as -> Ev. destruct (IHr r ltac:(cbn in Hl; lia) Ev) as (-> & ->). auto. }
    f_equal. apply IH; auto.
Qed.
