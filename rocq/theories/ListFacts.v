(** Lemmas on [chunks], bits and bytes. *)
From Verif Require Import Outcome Bits.
Open Scope nat_scope.

Lemma len_pos_nonnil {A} (l : list A) : 0 < length l -> l <> [].
Proof. destruct l; simpl; [lia|discriminate]. Qed.

Lemma skipn_skipn {A} a b (l : list A) : skipn a (skipn b l) = skipn (a + b) l.
Proof.
  revert l; induction b as [|b IH]; intros l; [now rewrite Nat.add_0_r|].
  destruct l as [|x t]; [now rewrite !skipn_nil|]. rewrite Nat.add_succ_r. simpl. apply IH.
Qed.

Section Chunks.
Context {A : Type}.

Lemma chunks_fuel_enough n (l : list A) f : 0 < n -> length l <= f -> chunks_fuel f n l = chunks n l.
Proof.
  intros Hn. unfold chunks. revert l. induction f as [f IH] using lt_wf_ind. intros l Hl.
  destruct l as [|a t]; [destruct f; reflexivity|].
  destruct f as [|f]; [simpl in Hl; lia|].
  cbn [chunks_fuel length] in *. f_equal.
  assert (Hs : length (skipn n (a :: t)) <= length t) by (rewrite skipn_length; cbn [length]; lia).
  rewrite (IH f) by (try lia). symmetry.
  destruct (Nat.eq_dec (length t) f) as [E|N].
  - rewrite E. apply IH; lia.
  - apply (IH (length t)); lia.
Qed.

Lemma chunks_nil n : chunks n (@nil A) = [].
Proof. reflexivity. Qed.

Lemma chunks_step n (l : list A) : 0 < n -> l <> [] -> chunks n l = firstn n l :: chunks n (skipn n l).
Proof.
  intros Hn Hl. destruct l as [|a t]; [congruence|].
  unfold chunks at 1. cbn [chunks_fuel length]. f_equal.
  apply chunks_fuel_enough; [assumption|]. rewrite skipn_length; cbn [length]; lia.
Qed.

Lemma chunks_app_full n (a b : list A) : 0 < n -> length a = n -> chunks n (a ++ b) = a :: chunks n b.
Proof.
  intros Hn Ha. rewrite chunks_step; [|assumption|apply len_pos_nonnil; rewrite app_length; lia].
  rewrite firstn_app, skipn_app, Ha, Nat.sub_diag, firstn_O, skipn_O, app_nil_r.
  rewrite firstn_all2 by lia. rewrite skipn_all2 by lia. reflexivity.
Qed.

Lemma chunks_short n (l : list A) : l <> [] -> length l <= n -> chunks n l = [l].
Proof.
  intros H0 Hl. assert (0 < n) by (destruct l; [congruence|simpl in Hl; lia]).
  rewrite chunks_step by assumption. rewrite firstn_all2, skipn_all2 by assumption. reflexivity.
Qed.

Lemma chunks_concat n (ls : list (list A)) : 0 < n -> Forall (fun c => length c = n) ls -> chunks n (concat ls) = ls.
Proof.
  intros Hn. induction 1 as [|c t Hc Ht IH]; simpl; [reflexivity|].
  rewrite chunks_app_full by assumption. f_equal; assumption.
Qed.

Lemma chunks_concat_app n (ls : list (list A)) r : 0 < n -> Forall (fun c => length c = n) ls ->
  chunks n (concat ls ++ r) = ls ++ chunks n r.
Proof.
  intros Hn. induction 1 as [|c t Hc Ht IH]; simpl; [reflexivity|].
  rewrite <- app_assoc, chunks_app_full by assumption. f_equal; assumption.
Qed.

Lemma chunks_ind n (Hn : 0 < n) (P : list A -> Prop) : P [] ->
  (forall l, l <> [] -> P (skipn n l) -> P l) -> forall l, P l.
Proof.
  intros H0 Hs l. remember (length l) as k eqn:E. revert l E.
  induction k as [k IH] using lt_wf_ind; intros l E.
  destruct l as [|a t]; [assumption|].
  apply Hs; [discriminate|]. eapply IH; [|reflexivity].
  rewrite skipn_length, E; cbn [length]; lia.
Qed.

Lemma concat_chunks n (l : list A) : 0 < n -> concat (chunks n l) = l.
Proof.
  intros Hn. induction l as [|l Hl IH] using (chunks_ind n Hn); [reflexivity|].
  rewrite chunks_step by assumption. simpl. rewrite IH. apply firstn_skipn.
Qed.

Lemma chunks_length n (l : list A) : 0 < n -> length (chunks n l) = (length l + n - 1) / n.
Proof.
  intros Hn. induction l as [|l Hl IH] using (chunks_ind n Hn).
  - simpl. symmetry. apply Nat.div_small. lia.
  - rewrite chunks_step by assumption. simpl. rewrite IH, skipn_length.
    assert (0 < length l) by (destruct l; [congruence|simpl; lia]).
    destruct (le_lt_dec n (length l)) as [H1|H1].
    + replace (length l + n - 1) with ((length l - n + n - 1) + 1 * n) by lia.
      rewrite Nat.div_add by lia. lia.
    + replace (length l - n + n - 1) with (n - 1) by lia. rewrite Nat.div_small by lia.
      apply (Nat.div_unique _ _ 1 (length l - 1)); lia.
Qed.

Lemma chunks_lengths n (l : list A) : 0 < n -> Forall (fun c => 0 < length c <= n) (chunks n l).
Proof.
  intros Hn. induction l as [|l Hl IH] using (chunks_ind n Hn).
  - constructor.
  - rewrite chunks_step by assumption. constructor; [|assumption].
    rewrite firstn_length. destruct l; [congruence|]. cbn [length]. lia.
Qed.

Lemma chunks_full n (l : list A) : 0 < n -> length l mod n = 0 -> Forall (fun c => length c = n) (chunks n l).
Proof.
  intros Hn. induction l as [|l Hl IH] using (chunks_ind n Hn).
  - constructor.
  - intros Hm. rewrite chunks_step by assumption.
    assert (Hge : n <= length l).
    { destruct (le_lt_dec n (length l)); [assumption|]. rewrite Nat.mod_small in Hm by assumption.
      destruct l; [congruence|simpl in Hm; lia]. }
    constructor; [rewrite firstn_length; lia|].
    apply IH. rewrite skipn_length.
    rewrite <- (Nat.mod_add (length l - n) 1 n) by lia.
    replace (length l - n + 1 * n) with (length l) by lia. assumption.
Qed.

(** The last chunk of a ragged list is the short one. *)
Lemma chunks_ragged n (l : list A) : 0 < n -> length l mod n <> 0 -> ~ Forall (fun c => length c = n) (chunks n l).
Proof.
  intros Hn. induction l as [|l Hl IH] using (chunks_ind n Hn).
  - rewrite Nat.mod_0_l by lia. congruence.
  - intros Hm Hf. rewrite chunks_step in Hf by assumption. inversion Hf as [|c t Hc Ht]; subst.
    rewrite firstn_length in Hc.
    apply IH; [|assumption]. rewrite skipn_length.
    intros H0. apply Hm.
    rewrite <- (Nat.mod_add (length l - n) 1 n) in H0 by lia.
    replace (length l - n + 1 * n) with (length l) in H0 by lia. assumption.
Qed.

Lemma nth_error_chunks n (l : list A) i : 0 < n -> i * n < length l ->
  nth_error (chunks n l) i = Some (firstn n (skipn (i * n) l)).
Proof.
  intros Hn. revert l; induction i as [|i IH]; intros l Hi.
  - rewrite chunks_step; [|assumption|apply len_pos_nonnil; lia]. reflexivity.
  - rewrite chunks_step; [|assumption|apply len_pos_nonnil; lia].
    cbn [nth_error]. rewrite IH by (rewrite skipn_length; lia).
    f_equal. f_equal. rewrite skipn_skipn. f_equal; lia.
Qed.
End Chunks.

Lemma length_concat_const {A} n (ls : list (list A)) : Forall (fun c => length c = n) ls -> length (concat ls) = length ls * n.
Proof. induction 1 as [|c t Hc Ht IH]; simpl; [reflexivity|]. rewrite app_length, Hc, IH; lia. Qed.

(** ** bits *)
Lemma bits_of_bytes_length l : length (bits_of_bytes l) = 8 * length l.
Proof. unfold bits_of_bytes. induction l as [|a t IH]; simpl in *; lia. Qed.

Lemma bits_of_bytes_app a b : bits_of_bytes (a ++ b) = bits_of_bytes a ++ bits_of_bytes b.
Proof. apply flat_map_app. Qed.

Open Scope Z_scope.
Lemma byte_bits_value b : byte b -> bits_value (byte_bits b) = b.
Proof.
  intros Hb. unfold byte_bits, bits_value.
  rewrite !Z.testbit_odd, !Z.shiftr_div_pow2 by lia.
  assert (Hodd : forall x, Z.b2z (Z.odd x) = x mod 2) by (intros x; symmetry; apply Zmod_odd).
  rewrite !Hodd. unfold byte in Hb.
  change (2 ^ 0) with 1; change (2 ^ 1) with 2; change (2 ^ 2) with 4; change (2 ^ 3) with 8;
  change (2 ^ 4) with 16; change (2 ^ 5) with 32; change (2 ^ 6) with 64; change (2 ^ 7) with 128.
  Z.to_euclidean_division_equations. lia.
Qed.

Lemma bits_value_range l : 0 <= bits_value l < 2 ^ Z.of_nat (length l).
Proof.
  induction l as [|b t IH]; cbn [bits_value]; [cbn; lia|].
  replace (Z.of_nat (length (b :: t))) with (Z.of_nat (length t) + 1) by (simpl length; lia).
  rewrite Z.pow_add_r by lia. change (2 ^ 1) with 2. destruct b; unfold Z.b2z; lia.
Qed.

Lemma byte_bits_of_value b0 b1 b2 b3 b4 b5 b6 b7 :
  byte_bits (bits_value [b0;b1;b2;b3;b4;b5;b6;b7]) = [b0;b1;b2;b3;b4;b5;b6;b7].
Proof. destruct b0, b1, b2, b3, b4, b5, b6, b7; reflexivity. Qed.

Lemma byte_bits_bits_value l : length l = 8%nat -> byte_bits (bits_value l) = l.
Proof.
  intros H. do 8 (destruct l as [|? l]; [discriminate|]). destruct l; [|discriminate].
  apply byte_bits_of_value.
Qed.

Lemma bits_value_byte l : (length l <= 8)%nat -> byte (bits_value l).
Proof.
  intros H. pose proof (bits_value_range l). unfold byte. split; [lia|].
  apply Z.lt_le_trans with (2 ^ Z.of_nat (length l)); [lia|].
  change 256 with (2 ^ 8). apply Z.pow_le_mono_r; lia.
Qed.

Lemma bits_of_bytes_raw pad bits : length pad = 8%nat ->
  exists rest, bits_of_bytes (raw_bytes pad bits) = bits ++ rest /\ (length rest < 8)%nat.
Proof.
  intros Hp. unfold raw_bytes.
  induction bits as [|l Hl IH] using (chunks_ind 8 ltac:(lia)).
  - exists []. split; [reflexivity|simpl; lia].
  - rewrite chunks_step by (try assumption; lia). cbn [map].
    set (c := firstn 8 l).
    assert (Hc : (0 < length c <= 8)%nat).
    { unfold c. rewrite firstn_length. destruct l; [congruence|]. cbn [length]; lia. }
    change (bits_of_bytes (?x :: ?y)) with (byte_bits x ++ bits_of_bytes y).
    rewrite byte_bits_bits_value by (rewrite app_length, firstn_length; lia).
    destruct (le_lt_dec 8 (length l)) as [Hlong|Hshort].
    + destruct IH as (rest & IH & Hr). exists rest. split; [|exact Hr].
      rewrite IH. assert (length c = 8%nat) by (unfold c; rewrite firstn_length; lia).
      replace (8 - length c)%nat with 0%nat by lia. rewrite firstn_O, app_nil_r, app_assoc.
      f_equal. apply firstn_skipn.
    + assert (Hcl : c = l) by (unfold c; apply firstn_all2; lia).
      clearbody c; subst c. rewrite (skipn_all2 l) by lia.
      exists (firstn (8 - length l) pad). split; [|rewrite firstn_length; lia].
      change (bits_of_bytes (map (fun c => bits_value (c ++ firstn (8 - length c) pad)) (chunks 8 []))) with (@nil bool).
      rewrite app_nil_r. reflexivity.
Qed.

Lemma raw_bytes_length pad bits : length (raw_bytes pad bits) = ((length bits + 7) / 8)%nat.
Proof. unfold raw_bytes. rewrite map_length, chunks_length by lia. f_equal; lia. Qed.

Lemma raw_bytes_bytes pad bits : length pad = 8%nat -> bytes (raw_bytes pad bits).
Proof.
  intros Hp. unfold raw_bytes, bytes. apply Forall_map.
  eapply Forall_impl; [|apply chunks_lengths; lia].
  intros c Hc. apply bits_value_byte. rewrite app_length, firstn_length. cbn beta in Hc. lia.
Qed.

Lemma raw_bytes_bits_of_bytes pad l : bytes l -> raw_bytes pad (bits_of_bytes l) = l.
Proof.
  unfold bits_of_bytes, raw_bytes. intros H. induction H as [|b t Hb Ht IH]; [reflexivity|].
  cbn [flat_map]. rewrite chunks_app_full by (try lia; reflexivity). cbn [map]. rewrite IH.
  f_equal. change (length (byte_bits b)) with 8%nat. rewrite Nat.sub_diag, firstn_O, app_nil_r.
  apply byte_bits_value; assumption.
Qed.

Lemma mapM_app {A B} (f : A -> outcome B) a b :
  mapM f (a ++ b) = (x <- mapM f a ;; y <- mapM f b ;; Ok (x ++ y)).
Proof.
  induction a as [|h t IH]; simpl.
  - destruct (mapM f b); reflexivity.
  - destruct (f h); simpl; auto. rewrite IH. destruct (mapM f t); simpl; auto. destruct (mapM f b); reflexivity.
Qed.

Lemma mapM_Forall2 {A B} (f : A -> outcome B) l bs : mapM f l = Ok bs <-> Forall2 (fun a b => f a = Ok b) l bs.
Proof.
  revert bs; induction l as [|a t IH]; intros bs; simpl.
  - split; [intros [= <-]; constructor|inversion 1; reflexivity].
  - rewrite bind_ok. split.
    + intros (b & Hb & H). apply bind_ok in H as (bs' & H1 & [= <-]). constructor; [assumption|]. apply IH; assumption.
    + inversion 1; subst. eexists; split; [eassumption|]. apply bind_ok. eexists; split; [apply IH; eassumption|reflexivity].
Qed.

Lemma mapM_ext {A B} (f g : A -> outcome B) l : (forall a, In a l -> f a = g a) -> mapM f l = mapM g l.
Proof.
  induction l as [|a t IH]; intros H; simpl; [reflexivity|].
  rewrite H by (left; reflexivity). rewrite IH by (intros; apply H; right; assumption). reflexivity.
Qed.

Lemma mapM_map {A B C} (f : B -> outcome C) (g : A -> B) l : mapM f (map g l) = mapM (fun a => f (g a)) l.
Proof. induction l as [|a t IH]; simpl; [reflexivity|]. rewrite IH; reflexivity. Qed.

(** If one element panics and none is Outside, the whole map panics. *)
Lemma mapM_not_ok {A B} (f : A -> outcome B) l a : In a l -> is_ok (f a) = false -> is_ok (mapM f l) = false.
Proof.
  induction l as [|h t IH]; intros Hin Hf; [destruct Hin|]. simpl.
  destruct Hin as [->|Hin].
  - destruct (f a); [discriminate|reflexivity|reflexivity].
  - destruct (f h); simpl; auto. specialize (IH Hin Hf). destruct (mapM f t); [discriminate|reflexivity|reflexivity].
Qed.

Lemma is_ok_iff {A} (x : outcome A) : is_ok x = true <-> exists a, x = Ok a.
Proof. destruct x; simpl; split; eauto; try discriminate; intros (? & ?); discriminate. Qed.

Lemma Forall2_length {A B} (P : A -> B -> Prop) l m : Forall2 P l m -> length l = length m.
Proof. induction 1; simpl; congruence. Qed.
