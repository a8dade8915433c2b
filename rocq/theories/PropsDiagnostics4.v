(** Property C93: how numbers and lists of numbers look in what the library prints. *)
From Coq Require Import String Ascii DecimalString DecimalN DecimalFacts.
From Verif Require Import Outcome Floats Bits Timer PropsTimer Console PropsConsole Diagnostics.
Open Scope Z_scope.
Open Scope list_scope.

(** ** Specification: decimal numerals and lists of them *)
(** A minus sign for negative numbers, then the digits from the highest, without leading zeros. *)
Definition numeral (t : list Z) (n : Z) : Prop := exists ds,
  t = (if n <? 0 then bytes_of_string "-" else []) ++ ds /\ Forall (fun d => 48 <= d <= 57) ds /\ ds <> []
  /\ (hd 0 ds = 48 -> ds = [48]) /\ fold_left (fun v d => 10 * v + (d - 48)) ds 0 = Z.abs n.
(** The items of a list, a comma and a space between neighbours. *)
Inductive items : list Z -> list Z -> Prop :=
  | items_none : items [] []
  | items_one t n : numeral t n -> items t [n]
  | items_more t n r m l : numeral t n -> items r (m :: l) -> items (t ++ bytes_of_string ", " ++ r) (n :: m :: l).
Definition bracketed (t : list Z) (l : list Z) : Prop := exists r, t = bytes_of_string "[" ++ r ++ bytes_of_string "]" /\ items r l.

(** ** helpers *)
Notation horner := (fold_left (fun v d => 10 * v + (d - 48))).
Lemma horner_acc d : forall acc, horner (bytes_of_string (NilEmpty.string_of_uint d)) (Zpos acc) = Zpos (Pos.of_uint_acc d acc).
Proof. induction d; intros acc; cbn [NilEmpty.string_of_uint bytes_of_string fold_left Pos.of_uint_acc]; [reflexivity|..]; rewrite <- IHd; f_equal;
    (let v := fresh in match goal with |- context [Z.of_N (N_of_ascii ?c)] => set (v := Z.of_N (N_of_ascii c)); vm_compute in v; subst v end); lia. Qed.
Lemma horner_of d : horner (bytes_of_string (NilEmpty.string_of_uint d)) 0 = Z.of_N (N.of_uint d).
Proof.
  induction d; unfold N.of_uint in *; cbn [NilEmpty.string_of_uint bytes_of_string fold_left Pos.of_uint]; [reflexivity|..].
  1: exact IHd.
  all: cbn [Z.of_N]; rewrite <- horner_acc; f_equal.
Qed.
Lemma show_horner n : 0 <= n -> horner (bytes_of_string (show n)) 0 = n.
Proof.
  intros H. unfold show. transitivity (Z.of_N (N.of_uint (N.to_uint (Z.to_N n)))).
  - pose proof (to_uint_not_nil (Z.to_N n)) as Hn. unfold NilZero.string_of_uint. destruct (N.to_uint (Z.to_N n)); [congruence|..]; apply horner_of.
  - rewrite DecimalN.Unsigned.of_to. lia.
Qed.
Lemma show_head n : hd 0 (bytes_of_string (show n)) = 48 -> bytes_of_string (show n) = [48].
Proof.
  unfold show. assert (U : N.to_uint (Z.to_N n) = Decimal.unorm (N.to_uint (Z.to_N n))) by (rewrite <- DecimalN.Unsigned.to_of, DecimalN.Unsigned.of_to; reflexivity).
  revert U. generalize (N.to_uint (Z.to_N n)). intros d U. rewrite U. unfold Decimal.unorm.
  assert (N0 : forall e e', Decimal.nzhead e <> Decimal.D0 e') by (induction e; intros e'; cbn [Decimal.nzhead]; congruence).
  specialize (N0 d). destruct (Decimal.nzhead d); cbn; intros H; try reflexivity; try discriminate H. now elim (N0 u).
Qed.
Lemma show_range n : Forall (fun d => 48 <= d <= 57) (bytes_of_string (show n)).
Proof.
  pose proof (show_digits n) as H. revert H. generalize (show n). intros s. induction s as [|c t IH]; cbn [bytes_of_string all_digits]; intros H; constructor.
  - apply andb_prop in H as (H & _). unfold digit in H. apply andb_prop in H as (H1 & H2). apply Z.leb_le in H1, H2. lia.
  - apply IH. now apply andb_prop in H as (_ & H).
Qed.
Lemma show_not_nil n : bytes_of_string (show n) <> [].
Proof. unfold show, NilZero.string_of_uint. destruct (N.to_uint (Z.to_N n)); discriminate. Qed.
Lemma debug_int_numeral n : numeral (debug_int n) n.
Proof.
  unfold numeral, debug_int. destruct (n <? 0) eqn:E.
  - apply Z.ltb_lt in E. exists (bytes_of_string (show (- n))). split; [reflexivity|]. split; [apply show_range|]. split; [apply show_not_nil|]. split; [apply show_head|]. rewrite show_horner; lia.
  - apply Z.ltb_ge in E. exists (bytes_of_string (show n)). split; [reflexivity|]. split; [apply show_range|]. split; [apply show_not_nil|]. split; [apply show_head|]. rewrite show_horner; lia.
Qed.
Lemma join_items l : items (join (map debug_int l)) l.
Proof.
  induction l as [|n [|m l] IH]; cbn [map join]; [constructor|constructor; apply debug_int_numeral|].
  apply items_more; [apply debug_int_numeral|exact IH].
Qed.
Lemma digits_then_comma (a b a' b' : list Z) : Forall (fun d => d <> 44) a -> Forall (fun d => d <> 44) a' -> a ++ 44 :: b = a' ++ 44 :: b' -> a = a' /\ b = b'.
Proof.
  revert a'. induction a as [|x a IH]; intros [|y a'] Ha Ha' H; cbn [app] in H.
  - split; congruence.
  - inversion Ha'; subst. congruence.
  - inversion Ha; subst. congruence.
  - inversion Ha as [|? ? _ Ha2]; inversion Ha' as [|? ? _ Ha2']; subst. assert (x = y /\ a ++ 44 :: b = a' ++ 44 :: b') as (-> & E) by (split; congruence). destruct (IH a' Ha2 Ha2' E) as (-> & ->). split; reflexivity.
Qed.
Lemma numeral_no_comma t n : numeral t n -> Forall (fun d => d <> 44) t /\ t <> [].
Proof.
  intros (ds & -> & R & N & _). split.
  - apply Forall_app. split; [destruct (n <? 0); cbn; repeat constructor; discriminate|]. revert R. apply Forall_impl. intros d Hd. lia.
  - destruct (n <? 0); [discriminate|exact N].
Qed.
Lemma numeral_value t n n' : numeral t n -> numeral t n' -> n = n'.
Proof.
  intros (ds & E & R & N & _ & V) (ds' & E' & R' & N' & _ & V').
  destruct (n <? 0) eqn:S, (n' <? 0) eqn:S'; cbn in E, E'; rewrite E in E'.
  - assert (ds = ds') by congruence. subst ds'. apply Z.ltb_lt in S, S'. lia.
  - exfalso. destruct ds' as [|d ds']; [congruence|]. assert (d = 45) by congruence. inversion R'; subst. lia.
  - exfalso. destruct ds as [|d ds]; [congruence|]. assert (d = 45) by congruence. inversion R; subst. lia.
  - assert (ds = ds') by congruence. subst ds'. apply Z.ltb_ge in S, S'. lia.
Qed.
Lemma items_value t l : items t l -> forall l', items t l' -> l = l'.
Proof.
  induction 1 as [|t n Hn|t n r m l Hn Hr IH]; intros l' H'.
  - inversion H' as [| ? ? Hn' | ? ? ? ? ? Hn' ? E]; subst; [reflexivity|apply numeral_no_comma in Hn' as (_ & X); congruence|]. apply numeral_no_comma in Hn' as (_ & X). destruct t; [congruence|discriminate].
  - inversion H' as [ E | t' ? Hn' | t' ? ? ? ? Hn' ? E]; subst.
    + apply numeral_no_comma in Hn as (_ & X). congruence.
    + f_equal. exact (numeral_value _ _ _ Hn Hn').
    + apply numeral_no_comma in Hn as (C & _). rewrite Forall_app in C. destruct C as (_ & C). inversion C; subst. congruence.
  - inversion H' as [ E | t' ? Hn' | t' n' r' m' k Hn' Hr' E]; subst.
    + apply numeral_no_comma in Hn as (_ & X). destruct t; [congruence|discriminate].
    + apply numeral_no_comma in Hn' as (C & _). rewrite Forall_app in C. destruct C as (_ & C). inversion C; subst. congruence.
    + cbn [bytes_of_string app] in E. destruct (digits_then_comma _ _ _ _ (proj1 (numeral_no_comma _ _ Hn')) (proj1 (numeral_no_comma _ _ Hn)) E) as (E1 & E2). subst t'. assert (r' = r) by congruence. subst r'.
      rewrite (numeral_value _ _ _ Hn Hn'). f_equal. exact (IH _ Hr').
Qed.

(** *** C93: every number the library prints is a plain decimal numeral and every list of numbers is in brackets; reading them back is unambiguous *)
Theorem C93_how_numbers_look : forall n l,
  numeral (debug_int n) n /\ bracketed (debug_ints l) l
  /\ (forall t m, numeral t n -> numeral t m -> n = m) /\ (forall t k, bracketed t l -> bracketed t k -> l = k).
Proof.
  intros n l. split; [apply debug_int_numeral|]. split; [exists (join (map debug_int l)); split; [reflexivity|apply join_items]|]. split; [intros t m; apply numeral_value|].
  intros t k (r & E & I) (r' & E' & I'). rewrite E in E'. apply app_inv_head in E'. apply app_inv_tail in E'. subst r'. exact (items_value _ _ I _ I').
Qed.
(** The structures around the hidden bytes. *)
Theorem C93_how_structures_look : forall F (D : debug_text F) payload w, exists payload_text signature_text,
  bracketed payload_text payload /\ bracketed signature_text (Codecs.signature w)
  /\ debug_data payload = bytes_of_string "Data { bytes: " ++ payload_text ++ bytes_of_string " }"
  /\ debug_watermark D w = bytes_of_string "Watermark { perturbation_vector: " ++ debug_bits D (Codecs.perturbation_vector w) ++ bytes_of_string ", signature: " ++ signature_text
       ++ bytes_of_string ", text: " ++ debug_str D (Codecs.text w) ++ bytes_of_string " }".
Proof.
  intros F D payload w. exists (debug_ints payload), (debug_ints (Codecs.signature w)). split; [apply (C93_how_numbers_look 0)|]. split; [apply (C93_how_numbers_look 0)|]. split; reflexivity.
Qed.

Example C93_numbers_instance : bracketed (bytes_of_string "[7, -10, 0]") [7; -10; 0] /\ ~ numeral (bytes_of_string "07") 7.
Proof.
  split.
  - change (bytes_of_string "[7, -10, 0]") with (debug_ints [7; -10; 0]). apply (C93_how_numbers_look 0).
  - intros (ds & E & _ & _ & H & _). cbn in E. subst ds. specialize (H eq_refl). discriminate H.
Qed.

Print Assumptions C93_how_numbers_look.
Print Assumptions C93_how_structures_look.
