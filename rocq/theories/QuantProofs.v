(** Structure of the quantiser and dequantiser (Quantization.v), for any arithmetic. *)
From Verif Require Import Outcome Floats Bits ListFacts Quantization CodecProofs.
Open Scope Z_scope.


Lemma mod_four_eq q : mod_four q = q mod 4.
Proof.
  unfold mod_four. pose proof (Z.mod_pos_bound q 4 ltac:(lia)).
  rewrite ltb_f by lia. apply Z.mod_small. lia.
Qed.

Lemma two_bits_eq r : two_bits_from_integer r = (Z.testbit r 1, Z.testbit r 0).
Proof. unfold two_bits_from_integer, funty_as_bool. rewrite !negb_involutive. reflexivity. Qed.

Lemma four_cases r : 0 <= r < 4 -> r = 0 \/ r = 1 \/ r = 2 \/ r = 3. Proof. lia. Qed.

Lemma two_bits_roundtrip q :
  integer_from_two_bits (funty_as_u8 (Z.testbit (q mod 4) 1)) (funty_as_u8 (Z.testbit (q mod 4) 0)) = q mod 4.
Proof.
  pose proof (Z.mod_pos_bound q 4 ltac:(lia)) as H.
  destruct (four_cases _ H) as [-> |[-> |[-> | ->]]]; reflexivity.
Qed.

Lemma wrap_minus_1_mod4 checks q q' : i64_minus_1 checks q = Ok q' -> q' mod 4 = (q - 1) mod 4.
Proof.
  unfold i64_minus_1. destruct (q =? i64_min) eqn:E.
  - apply Z.eqb_eq in E. subst q. destruct checks; [discriminate|]. intros H. injection H as <-. reflexivity.
  - intros H. injection H as <-. reflexivity.
Qed.

Lemma skipn_nth_cons {A} (l : list A) k x : nth_error l k = Some x -> skipn k l = x :: skipn (S k) l.
Proof.
  revert l; induction k as [|k IH]; intros [|a t] H; cbn [nth_error] in H; try discriminate.
  - injection H as ->. reflexivity.
  - cbn [skipn]. rewrite (IH _ H). reflexivity.
Qed.

Section Structure.
Context {F : Type} (O : FOps F).
Context (step : F).

(** Threshold between the lower and the upper half of the bin. *)
Definition upper_half (x : F) : bool :=
  f_ge O x (f_mul O step (f_add O (f_of_Z O (quantize1 O step x)) (f_dyadic O 1 (-1)))).
Definition bits3 (x : F) : list bool :=
  let q := quantize1 O step x in
  [Z.testbit ((q - 1) mod 4) 1; Z.testbit ((q - 1) mod 4) 0; upper_half x].

(** No feature is quantised to i64::MIN, or overflow checks are off. *)
Definition no_overflow (checks : bool) (xs : list F) : Prop :=
  checks = true -> Forall (fun x => quantize1 O step x <> i64_min) xs.

Lemma reminder_bits_ok checks x : (checks = true -> quantize1 O step x <> i64_min) ->
  reminder_bits O checks step x (quantize1 O step x) = Ok (bits3 x).
Proof.
  intros H. unfold reminder_bits.
  assert (exists q', i64_minus_1 checks (quantize1 O step x) = Ok q') as (q' & Hq').
  { unfold i64_minus_1. destruct (quantize1 O step x =? i64_min) eqn:E; [|eauto].
    apply Z.eqb_eq in E. destruct checks; [exfalso; now apply H|eauto]. }
  rewrite Hq'. cbn [bind]. rewrite two_bits_eq, mod_four_eq, (wrap_minus_1_mod4 _ _ _ Hq'). reflexivity.
Qed.

Lemma combine_map_r {A B} (f : A -> B) l : combine l (map f l) = map (fun x => (x, f x)) l.
Proof. induction l as [|a t IH]; simpl; [reflexivity|]. rewrite IH; reflexivity. Qed.

Lemma quantization_ok checks xs : no_overflow checks xs ->
  three_bit_quantization O checks xs step = Ok (quantize O xs step, flat_map bits3 xs).
Proof.
  intros H. unfold three_bit_quantization, quantize. rewrite combine_map_r, mapM_map.
  rewrite (mapM_ok_map _ bits3).
  - cbn [bind]. rewrite <- flat_map_concat_map. reflexivity.
  - intros x Hx. cbn [fst snd]. apply reminder_bits_ok. intros Hc. specialize (H Hc). rewrite Forall_forall in H. now apply H.
Qed.

Lemma quantization_overflow xs : ~ Forall (fun x => quantize1 O step x <> i64_min) xs ->
  three_bit_quantization O true xs step = Panic ArithOverflow.
Proof.
  intros H. unfold three_bit_quantization, quantize. rewrite combine_map_r, mapM_map.
  assert (E : mapM (fun a => reminder_bits O true step (fst (a, quantize1 O step a)) (snd (a, quantize1 O step a))) xs = Panic ArithOverflow).
  { induction xs as [|x t IH]; [exfalso; apply H; constructor|]. cbn [mapM fst snd].
    destruct (Z.eq_dec (quantize1 O step x) i64_min) as [E|N].
    - unfold reminder_bits, i64_minus_1. rewrite E. reflexivity.
    - rewrite reminder_bits_ok by (intros _; exact N). cbn [bind].
      cbn [fst snd] in IH. rewrite IH; [reflexivity|]. intros Ht; apply H; constructor; assumption. }
  rewrite E. reflexivity.
Qed.

(** What the dequantiser does with one noised feature and the three given bits. *)
Definition restore (x' : F) (g1 g2 g3 : bool) : F :=
  let giv := integer_from_two_bits (funty_as_u8 g1) (funty_as_u8 g2) in
  let cal := (quantize1 O step x' - 1) mod 4 in
  let b' := upper_half x' in
  if cal =? (giv - 1) mod 4 then (if negb g3 || b' then f_add O x' step else x')
  else if cal =? (giv + 1) mod 4 then (if g3 || negb b' then f_sub O x' step else x')
  else x'.
Definition restore_l (x' : F) (g : list bool) : F := restore x' (nth 0 g false) (nth 1 g false) (nth 2 g false).

Lemma bits3_length x : length (bits3 x) = 3%nat. Proof. reflexivity. Qed.

Lemma chunks_flat_bits3 xs : chunks 3 (flat_map bits3 xs) = map bits3 xs.
Proof.
  rewrite flat_map_concat_map. apply chunks_concat; [lia|]. apply Forall_map, Forall_forall. intros; reflexivity.
Qed.

Lemma dequantize1_ok xs i x' g1 g2 g3 : nth_error xs i = Some x' ->
  dequantize1 O step xs (map bits3 xs) i [g1; g2; g3] = Ok (restore x' g1 g2 g3).
Proof.
  intros H. unfold dequantize1. rewrite nth_error_map, H. cbn [option_map unwrap bind nth_error bits3].
  rewrite two_bits_roundtrip. unfold restore. f_equal.
  set (giv := integer_from_two_bits (funty_as_u8 g1) (funty_as_u8 g2)).
  set (cal := (quantize1 O step x' - 1) mod 4).
  destruct (cal =? (giv - 1) mod 4) eqn:E1; [|destruct (cal =? (giv + 1) mod 4) eqn:E2];
    destruct g3, (upper_half x'); reflexivity.
Qed.

Lemma dequantize1_few xs i g : (length xs <= i)%nat -> dequantize1 O step xs (map bits3 xs) i g = Panic UnwrapNone.
Proof.
  intros H. unfold dequantize1. rewrite nth_error_map. rewrite (proj2 (nth_error_None xs i)) by exact H. reflexivity.
Qed.
Lemma dequantize1_short xs i g : (length g < 3)%nat -> dequantize1 O step xs (map bits3 xs) i g = Panic UnwrapNone.
Proof.
  intros H. unfold dequantize1. destruct (nth_error (map bits3 xs) i) eqn:E1; [|reflexivity]. cbn [unwrap bind].
  destruct (nth_error xs i) eqn:E2; [|reflexivity]. cbn [unwrap bind].
  destruct g as [|g1 [|g2 [|g3 g]]]; cbn [length] in H; try lia; reflexivity.
Qed.

Definition restore_all (xs : list F) (gs : list (list bool)) : list F :=
  map (fun p => restore_l (fst p) (snd p)) (combine xs gs).

Lemma mapM_dequantize xs gs k : (length gs + k <= length xs)%nat -> Forall (fun g => length g = 3%nat) gs ->
  mapM (fun p => dequantize1 O step xs (map bits3 xs) (fst p) (snd p)) (combine (seq k (length gs)) gs)
  = Ok (restore_all (skipn k xs) gs).
Proof.
  intros Hl Hg. revert k Hl. induction Hg as [|g t Hg Ht IH]; intros k Hl; cbn [length seq combine mapM].
  - unfold restore_all. rewrite combine_nil. reflexivity.
  - cbn [length] in Hl. destruct g as [|g1 [|g2 [|g3 [|? ?]]]]; try discriminate. cbn [fst snd].
    assert (Hk : (k < length xs)%nat) by lia.
    destruct (nth_error xs k) as [x'|] eqn:E; [|apply nth_error_None in E; lia].
    rewrite (dequantize1_ok xs k x' g1 g2 g3 E). cbn [bind]. rewrite IH by lia. cbn [bind].
    rewrite (skipn_nth_cons xs k x' E). reflexivity.
Qed.

Lemma dequantization_ok checks xs given : no_overflow checks xs ->
  (length given mod 3 = 0)%nat -> (length given <= 3 * length xs)%nat ->
  three_bit_dequantization O checks xs given step =
  Ok (map (quantize1 O step) (restore_all xs (chunks 3 given))).
Proof.
  intros Ho Hm Hl. unfold three_bit_dequantization. rewrite quantization_ok by exact Ho. cbn [bind].
  rewrite chunks_flat_bits3.
  rewrite mapM_dequantize.
  - cbn [bind skipn]. reflexivity.
  - rewrite chunks_length by lia. rewrite Nat.add_0_r.
    apply Nat.lt_succ_r. apply Nat.div_lt_upper_bound; lia.
  - apply chunks_full; [lia|exact Hm].
Qed.

Lemma mapM_dequantize_bad xs gs k : (length xs < length gs + k)%nat \/ ~ Forall (fun g => length g = 3%nat) gs ->
  Forall (fun g => length g <= 3)%nat gs -> (k <= length xs)%nat ->
  mapM (fun p => dequantize1 O step xs (map bits3 xs) (fst p) (snd p)) (combine (seq k (length gs)) gs) = Panic UnwrapNone.
Proof.
  intros Hb H3. revert k Hb. induction H3 as [|g t Hg Ht IH]; intros k Hb Hk.
  - cbn [length] in Hb. destruct Hb as [Hb|Hb]; [lia|exfalso; apply Hb; constructor].
  - cbn [length seq combine mapM fst snd]. destruct (le_lt_dec (length xs) k) as [H|H].
    + rewrite dequantize1_few by exact H. reflexivity.
    + destruct (le_lt_dec 3 (length g)) as [Hg3|Hg3].
      * destruct g as [|g1 [|g2 [|g3 [|? ?]]]]; cbn [length] in *; try lia.
        destruct (nth_error xs k) as [x'|] eqn:E; [|apply nth_error_None in E; lia].
        rewrite (dequantize1_ok xs k x' g1 g2 g3 E). cbn [bind].
        rewrite IH; [reflexivity| |lia].
        destruct Hb as [Hb|Hb]; [left; lia|right]. intros Hf; apply Hb; constructor; [reflexivity|exact Hf].
      * rewrite dequantize1_short by exact Hg3. reflexivity.
Qed.

Lemma dequantization_panics checks xs given : no_overflow checks xs ->
  (length given mod 3 <> 0)%nat \/ (3 * length xs < length given)%nat ->
  three_bit_dequantization O checks xs given step = Panic UnwrapNone.
Proof.
  intros Ho Hb. unfold three_bit_dequantization. rewrite quantization_ok by exact Ho. cbn [bind].
  rewrite chunks_flat_bits3. rewrite mapM_dequantize_bad; [reflexivity| | |lia].
  - destruct Hb as [Hb|Hb]; [right; apply chunks_ragged; [lia|exact Hb]|left].
    rewrite Nat.add_0_r, chunks_length by lia.
    apply Nat.div_le_lower_bound; [lia|]. lia.
  - eapply Forall_impl; [|apply chunks_lengths; lia]. cbn beta. intros; lia.
Qed.
(** If the half-bin indices of x and x' differ by at most two, the dequantiser shifts x' by the right number of steps. *)
Lemma restore_cases x x' :
  let q := quantize1 O step x in let q' := quantize1 O step x' in
  Z.abs ((2 * q' + Z.b2z (upper_half x')) - (2 * q + Z.b2z (upper_half x))) <= 2 ->
  (q' = q /\ restore_l x' (bits3 x) = x') \/
  (q' = q - 1 /\ restore_l x' (bits3 x) = f_add O x' step) \/
  (q' = q + 1 /\ restore_l x' (bits3 x) = f_sub O x' step).
Proof.
  intros q q' H. unfold restore_l, bits3. cbn [nth]. unfold restore. rewrite two_bits_roundtrip. fold q q'.
  set (b := upper_half x) in *. set (b' := upper_half x') in *.
  pose proof (Z.mod_pos_bound (q - 1) 4 ltac:(lia)).
  assert (D : q' = q \/ q' = q - 1 \/ q' = q + 1) by (destruct b, b'; cbn [Z.b2z] in H; lia).
  assert (M0 : ((q' - 1) mod 4 =? ((q - 1) mod 4 - 1) mod 4) = (q' =? q - 1)).
  { apply eq_true_iff_eq. rewrite !Z.eqb_eq. Z.to_euclidean_division_equations. lia. }
  assert (M1 : ((q' - 1) mod 4 =? ((q - 1) mod 4 + 1) mod 4) = (q' =? q + 1)).
  { apply eq_true_iff_eq. rewrite !Z.eqb_eq. Z.to_euclidean_division_equations. lia. }
  rewrite M0, M1. destruct D as [D|[D|D]].
  - left. split; [exact D|]. rewrite (proj2 (Z.eqb_neq _ _)) by lia. rewrite (proj2 (Z.eqb_neq _ _)) by lia. reflexivity.
  - right; left. split; [exact D|]. rewrite (proj2 (Z.eqb_eq _ _)) by lia.
    destruct b, b'; cbn [negb orb Z.b2z] in *; try reflexivity; lia.
  - right; right. split; [exact D|]. rewrite (proj2 (Z.eqb_neq _ _)) by lia. rewrite (proj2 (Z.eqb_eq _ _)) by lia.
    destruct b, b'; cbn [negb orb Z.b2z] in *; try reflexivity; lia.
Qed.
End Structure.
