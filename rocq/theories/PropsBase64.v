(** Property C70: which texts the page accepts as pictures, and which bytes they stand for. *)
From Coq Require Import String Ascii.
From Verif Require Import Outcome Bits ListFacts Front PropsFront.
Open Scope Z_scope.
Open Scope list_scope.

(** ** Specification: base64 by bits *)
Definition alphabet : list Z := str "ABCDEFGHIJKLMNOPQRSTUVWXYZabcdefghijklmnopqrstuvwxyz0123456789+/".
Definition blanks : list Z := [9; 10; 12; 13; 32].
(** [n] bits of a number, the most significant first *)
Definition bits_of (n : nat) (v : Z) : list bool := map (fun i => Z.testbit v (Z.of_nat (n - 1 - i))) (seq 0 n).
(** The text without its blanks is digits of the alphabet, not one more than a multiple of four, then up to two '=' which only complete a group of
    four; the bytes are the bits of the digits, six each, cut after the last whole byte. *)
Definition base64_text (text : list Z) (content : list Z) : Prop := exists chars ds padding,
  filter (fun c => if in_dec Z.eq_dec c blanks then false else true) text = chars ++ repeat 61 padding
  /\ (padding = 0 \/ padding <= 2 /\ (length chars + padding) mod 4 = 0)%nat /\ (length chars mod 4 <> 1)%nat
  /\ Forall2 (fun c d => 0 <= d /\ nth_error alphabet (Z.to_nat d) = Some c) chars ds
  /\ bytes content /\ length content = (6 * length ds / 8)%nat
  /\ concat (map (bits_of 8) content) = firstn (8 * length content) (concat (map (bits_of 6) ds)).
(** What is left of a text once the prefix of a plain image type is removed. *)
Definition payload_text (text payload : list Z) : Prop :=
  (exists mime, plain_image_type mime /\ text = str "data:" ++ mime ++ str ";base64," ++ payload)
  \/ payload = text /\ forall mime rest, plain_image_type mime -> text <> str "data:" ++ mime ++ str ";base64," ++ rest.

(** ** helpers *)
Lemma white_iff c : white c = if in_dec Z.eq_dec c blanks then true else false.
Proof.
  destruct (in_dec Z.eq_dec c blanks) as [H|H].
  - cbn in H. unfold white. rewrite !orb_true_iff, !Z.eqb_eq. intuition.
  - unfold white. apply not_true_iff_false. rewrite !orb_true_iff, !Z.eqb_eq. intros X. apply H. cbn. intuition.
Qed.
Lemma value_iff c d : value64 c = Some d <-> 0 <= d /\ nth_error alphabet (Z.to_nat d) = Some c.
Proof.
  assert (B : forallb (fun k => match value64 (nth k alphabet 0) with Some e => e =? Z.of_nat k | None => false end) (seq 0 64) = true) by (vm_compute; reflexivity).
  assert (A : forallb (fun k => let c := Z.of_nat k in match value64 c with Some e => (0 <=? e) && (e <? 64) && (nth (Z.to_nat e) alphabet 0 =? c) | None => true end) (seq 0 128) = true) by (vm_compute; reflexivity).
  rewrite forallb_forall in A, B. assert (L : length alphabet = 64%nat) by reflexivity. split.
  - intros H. assert (R : 0 <= c < 128).
    { unfold value64 in H. destruct ((65 <=? c) && (c <=? 90)) eqn:E1; [lia|]. destruct ((97 <=? c) && (c <=? 122)) eqn:E2; [lia|]. destruct ((48 <=? c) && (c <=? 57)) eqn:E3; [lia|].
      destruct (c =? 43) eqn:E4; [lia|]. destruct (c =? 47) eqn:E5; [lia|discriminate]. }
    specialize (A (Z.to_nat c)). cbv zeta in A. rewrite Z2Nat.id in A by lia. rewrite H in A. specialize (A ltac:(apply in_seq; lia)). apply andb_prop in A as (A & A3). apply andb_prop in A as (A1 & A2).
    apply Z.leb_le in A1. apply Z.ltb_lt in A2. apply Z.eqb_eq in A3. split; [exact A1|]. rewrite <- A3. apply nth_error_nth'. rewrite L. lia.
  - intros (H0 & H). assert (Hl : (Z.to_nat d < 64)%nat) by (rewrite <- L; apply nth_error_Some; congruence).
    specialize (B (Z.to_nat d) ltac:(apply in_seq; lia)). rewrite (nth_error_nth _ _ 0 H) in B. destruct (value64 c); [|discriminate]. apply Z.eqb_eq in B. f_equal. lia.
Qed.
Lemma all_some_iff chars : forall ds, all_some value64 chars = Some ds <-> Forall2 (fun c d => 0 <= d /\ nth_error alphabet (Z.to_nat d) = Some c) chars ds.
Proof.
  induction chars as [|c t IH]; intros ds; cbn [all_some].
  - split; [intros H; assert (ds = []) by congruence; subst; constructor|intros H; inversion H; reflexivity].
  - split.
    + intros H. destruct (value64 c) as [d|] eqn:V; [|discriminate]. destruct (all_some value64 t) as [e|] eqn:S; [|discriminate]. assert (ds = d :: e) by congruence. subst ds. constructor; [now apply value_iff|now apply IH].
    + intros H. inversion H as [|? d ? e Hd He]; subst. apply value_iff in Hd. apply IH in He. now rewrite Hd, He.
Qed.
Definition six (d : Z) : Prop := 0 <= d < 64.
Lemma alphabet_six c d : 0 <= d /\ nth_error alphabet (Z.to_nat d) = Some c -> six d.
Proof. intros (H0 & H). assert ((Z.to_nat d < 64)%nat) by (change 64%nat with (length alphabet); apply nth_error_Some; congruence). unfold six. lia. Qed.
Lemma pairs (P : Z -> Z -> bool) : forallb (fun a => forallb (fun b => P (Z.of_nat a) (Z.of_nat b)) (seq 0 64)) (seq 0 64) = true -> forall a b, six a -> six b -> P a b = true.
Proof.
  intros H a b Ha Hb. rewrite forallb_forall in H. specialize (H (Z.to_nat a) ltac:(apply in_seq; unfold six in *; lia)). rewrite forallb_forall in H.
  specialize (H (Z.to_nat b) ltac:(apply in_seq; unfold six in *; lia)). unfold six in *. now rewrite !Z2Nat.id in H by lia.
Qed.
Definition same (a b : list bool) : bool := if list_eq_dec bool_dec a b then true else false.
Lemma same_eq a b : same a b = true -> a = b.
Proof. unfold same. destruct (list_eq_dec bool_dec a b); [auto|discriminate]. Qed.
Lemma byte1 a b : six a -> six b -> bits_of 8 (a * 4 + b / 16) = bits_of 6 a ++ firstn 2 (bits_of 6 b) /\ 0 <= a * 4 + b / 16 < 256.
Proof.
  intros Ha Hb. split.
  - apply same_eq. revert a b Ha Hb. apply (pairs (fun a b => same (bits_of 8 (a * 4 + b / 16)) (bits_of 6 a ++ firstn 2 (bits_of 6 b)))). vm_compute. reflexivity.
  - unfold six in *. assert (0 <= b / 16 < 4) by (split; [apply Z.div_pos; lia|apply Z.div_lt_upper_bound; lia]). lia.
Qed.
Lemma byte2 b c : six b -> six c -> bits_of 8 (b mod 16 * 16 + c / 4) = skipn 2 (bits_of 6 b) ++ firstn 4 (bits_of 6 c) /\ 0 <= b mod 16 * 16 + c / 4 < 256.
Proof.
  intros Ha Hb. split.
  - apply same_eq. revert b c Ha Hb. apply (pairs (fun b c => same (bits_of 8 (b mod 16 * 16 + c / 4)) (skipn 2 (bits_of 6 b) ++ firstn 4 (bits_of 6 c)))). vm_compute. reflexivity.
  - unfold six in *. assert (0 <= c / 4 < 16) by (split; [apply Z.div_pos; lia|apply Z.div_lt_upper_bound; lia]). pose proof (Z.mod_pos_bound b 16 ltac:(lia)). lia.
Qed.
Lemma byte3 c d : six c -> six d -> bits_of 8 (c mod 4 * 64 + d) = skipn 4 (bits_of 6 c) ++ bits_of 6 d /\ 0 <= c mod 4 * 64 + d < 256.
Proof.
  intros Ha Hb. split.
  - apply same_eq. revert c d Ha Hb. apply (pairs (fun c d => same (bits_of 8 (c mod 4 * 64 + d)) (skipn 4 (bits_of 6 c) ++ bits_of 6 d))). vm_compute. reflexivity.
  - unfold six in *. pose proof (Z.mod_pos_bound c 4 ltac:(lia)). lia.
Qed.
Lemma bits_length n v : length (bits_of n v) = n.
Proof. unfold bits_of. now rewrite map_length, seq_length. Qed.
Lemma firstn_six v r k : firstn (6 + k) (bits_of 6 v ++ r) = bits_of 6 v ++ firstn k r.
Proof. rewrite firstn_app, bits_length, firstn_all2 by (rewrite bits_length; lia). f_equal. f_equal. lia. Qed.
Lemma pack_spec : forall n ds, (length ds <= n)%nat -> Forall six ds -> (length ds mod 4 <> 1)%nat ->
  bytes (pack64 ds) /\ length (pack64 ds) = (6 * length ds / 8)%nat /\ concat (map (bits_of 8) (pack64 ds)) = firstn (8 * length (pack64 ds)) (concat (map (bits_of 6) ds)).
Proof.
  induction n as [|n IH]; intros ds Hn Hs Hm.
  - destruct ds; [|cbn in Hn; lia]. repeat split. constructor.
  - destruct ds as [|a [|b [|c [|d t]]]].
    + repeat split. constructor.
    + now elim Hm.
    + inversion Hs as [|? ? Ha Hs1]; inversion Hs1 as [|? ? Hb _]; subst. destruct (byte1 a b Ha Hb) as (E1 & R1). cbn [pack64]. split; [constructor; [exact R1|constructor]|]. split; [reflexivity|].
      cbn [map concat length]. rewrite E1, !app_nil_r. change (8 * 1)%nat with (6 + 2)%nat. now rewrite firstn_six.
    + inversion Hs as [|? ? Ha Hs1]; inversion Hs1 as [|? ? Hb Hs2]; inversion Hs2 as [|? ? Hc _]; subst. destruct (byte1 a b Ha Hb) as (E1 & R1). destruct (byte2 b c Hb Hc) as (E2 & R2).
      cbn [pack64]. split; [apply Forall_cons; [exact R1|]; apply Forall_cons; [exact R2|]; apply Forall_nil|]. split; [reflexivity|]. cbn [map concat length]. rewrite E1, E2, !app_nil_r.
      rewrite <- !app_assoc. rewrite (app_assoc (firstn 2 (bits_of 6 b))), firstn_skipn.
      change (8 * 2)%nat with (6 + (6 + 4))%nat. now rewrite !firstn_six.
    + inversion Hs as [|? ? Ha Hs1]; inversion Hs1 as [|? ? Hb Hs2]; inversion Hs2 as [|? ? Hc Hs3]; inversion Hs3 as [|? ? Hd Ht]; subst.
      destruct (byte1 a b Ha Hb) as (E1 & R1). destruct (byte2 b c Hb Hc) as (E2 & R2). destruct (byte3 c d Hc Hd) as (E3 & R3).
      assert (Ht4 : (length t mod 4 <> 1)%nat).
      { cbn [length] in Hm. replace (S (S (S (S (length t))))) with (length t + 1 * 4)%nat in Hm by lia. now rewrite Nat.mod_add in Hm by lia. }
      destruct (IH t) as (I1 & I2 & I3); [cbn [length] in Hn; lia|exact Ht|exact Ht4|].
      cbn [pack64]. split; [apply Forall_cons; [exact R1|]; apply Forall_cons; [exact R2|]; apply Forall_cons; [exact R3|]; exact I1|]. split.
      * cbn [length]. rewrite I2. replace (6 * S (S (S (S (length t)))))%nat with (6 * length t + 3 * 8)%nat by lia. rewrite Nat.div_add by lia. lia.
      * cbn [map concat length]. rewrite E1, E2, E3, I3. replace (8 * S (S (S (length (pack64 t)))))%nat with (6 + (6 + (6 + (6 + 8 * length (pack64 t)))))%nat by lia.
        rewrite <- !app_assoc. rewrite (app_assoc (firstn 2 (bits_of 6 b))), firstn_skipn. rewrite (app_assoc (firstn 4 (bits_of 6 c))), firstn_skipn.
        now rewrite !firstn_six.
Qed.
Lemma drop_pad l : (drop_eq l = l /\ forall r, l <> r ++ [61]) \/ exists r, l = r ++ [61] /\ drop_eq l = r.
Proof.
  unfold drop_eq. destruct (rev l) as [|c r] eqn:E.
  - left. split; [reflexivity|]. intros r ->. rewrite rev_app_distr in E. discriminate E.
  - assert (El : l = rev r ++ [c]) by (rewrite <- (rev_involutive l), E; reflexivity).
    destruct (Z.eq_dec c 61) as [->|N]; [right; exists (rev r); split; [exact El|reflexivity]|]. left. split.
    + destruct c as [|p|p]; try reflexivity. do 6 (destruct p as [p|p|]; try reflexivity). now elim N.
    + intros q Eq. rewrite Eq in E. rewrite rev_app_distr in E. cbn in E. congruence.
Qed.
Lemma drop_snoc r : drop_eq (r ++ [61]) = r.
Proof. destruct (drop_pad (r ++ [61])) as [(_ & H)|(q & E & H)]; [now elim (H r)|]. rewrite H. now apply app_inj_tail in E as (-> & _). Qed.
Lemma drop_none l : ~ In 61 l -> drop_eq l = l.
Proof. intros H. destruct (drop_pad l) as [(E & _)|(r & E & _)]; [exact E|]. elim H. rewrite E. apply in_or_app. right. now left. Qed.
Lemma drop_twice l : exists k, (k <= 2)%nat /\ l = drop_eq (drop_eq l) ++ repeat 61 k.
Proof.
  destruct (drop_pad l) as [(E & _)|(r & E & H)].
  - exists 0%nat. rewrite !E, app_nil_r. split; [lia|reflexivity].
  - rewrite H. destruct (drop_pad r) as [(E' & _)|(q & E' & H')].
    + exists 1%nat. split; [lia|]. rewrite E'. exact E.
    + exists 2%nat. split; [lia|]. rewrite H'. rewrite E, E', <- app_assoc. reflexivity.
Qed.
Lemma chars_no_pad chars ds : Forall2 (fun c d => 0 <= d /\ nth_error alphabet (Z.to_nat d) = Some c) chars ds -> ~ In 61 chars.
Proof. intros H Hi. induction H as [|c d cs ds (Hd & Hn) H IH]; [inversion Hi|]. destruct Hi as [->|Hi]; [|now apply IH]. apply nth_error_In in Hn. cbn in Hn. repeat (destruct Hn as [Hn|Hn]; [discriminate Hn|]). exact Hn. Qed.
Lemma same_length chars ds : Forall2 (fun c d => 0 <= d /\ nth_error alphabet (Z.to_nat d) = Some c) chars ds -> length chars = length ds.
Proof. intros H. induction H as [|? ? ? ? _ _ IH]; [reflexivity|]. cbn [length]. now rewrite IH. Qed.
Lemma Forall2_six chars ds : Forall2 (fun c d => 0 <= d /\ nth_error alphabet (Z.to_nat d) = Some c) chars ds -> Forall six ds.
Proof. intros H. induction H as [|c d cs ds Hd H IH]; constructor; [exact (alphabet_six _ _ Hd)|exact IH]. Qed.
Lemma bits_inj v w : 0 <= v < 256 -> 0 <= w < 256 -> bits_of 8 v = bits_of 8 w -> v = w.
Proof.
  intros Hv Hw E. apply Z.bits_inj'. intros i Hi. destruct (Z_lt_le_dec i 8) as [L|L].
  - assert (G : nth (Z.to_nat (7 - i)) (bits_of 8 v) false = nth (Z.to_nat (7 - i)) (bits_of 8 w) false) by now rewrite E.
    unfold bits_of in G. rewrite !(nth_indep _ false (Z.testbit 0 0)) in G by (rewrite map_length, seq_length; lia).
    assert (M : forall u, nth (Z.to_nat (7 - i)) (map (fun j => Z.testbit u (Z.of_nat (8 - 1 - j))) (seq 0 8)) (Z.testbit 0 0) = Z.testbit u i).
    { intros u. set (g := fun j : nat => Z.testbit u (Z.of_nat (8 - 1 - j))). rewrite (nth_indep _ _ (g 0%nat)) by (rewrite map_length, seq_length; lia). rewrite (map_nth g), seq_nth by lia. subst g. cbv beta. f_equal. lia. }
    rewrite !M in G. exact G.
  - assert (T : forall u, 0 <= u < 256 -> Z.testbit u i = false).
    { intros u Hu. destruct (Z.eq_dec u 0) as [->|N]; [apply Z.bits_0|]. apply Z.bits_above_log2; [lia|]. apply Z.lt_le_trans with 8; [|exact L]. apply Z.log2_lt_pow2; lia. }
    now rewrite !T.
Qed.
Lemma bytes_from_bits : forall a b, bytes a -> bytes b -> length a = length b -> concat (map (bits_of 8) a) = concat (map (bits_of 8) b) -> a = b.
Proof.
  induction a as [|x a IH]; intros [|y b] Ha Hb L H; try discriminate L; [reflexivity|]. cbn [map concat] in H. inversion Ha as [|? ? Hx Ha']; inversion Hb as [|? ? Hy Hb']; subst.
  assert (H1 : bits_of 8 x = bits_of 8 y) by (apply (f_equal (firstn 8)) in H; rewrite !firstn_app, !bits_length, !firstn_all2 in H by (rewrite bits_length; lia); cbn [Nat.sub firstn] in H; now rewrite !app_nil_r in H).
  assert (H2 : concat (map (bits_of 8) a) = concat (map (bits_of 8) b)) by (rewrite H1 in H; now apply app_inv_head in H).
  unfold byte in *. rewrite (bits_inj x y Hx Hy H1). f_equal. apply IH; [assumption|assumption|cbn [length] in L; lia|exact H2].
Qed.
Lemma atob_iff text content : atob text = Some content <-> base64_text text content.
Proof.
  assert (Fl : filter (fun c => negb (white c)) text = filter (fun c => if in_dec Z.eq_dec c blanks then false else true) text).
  { apply filter_ext. intros c. rewrite white_iff. destruct (in_dec Z.eq_dec c blanks); reflexivity. }
  unfold atob, base64_text. rewrite Fl. generalize (filter (fun c => if in_dec Z.eq_dec c blanks then false else true) text). intros data.
  cbv zeta. set (chars := if (length data mod 4 =? 0)%nat then drop_eq (drop_eq data) else data). split.
  - intros H. destruct (length chars mod 4 =? 1)%nat eqn:M; [discriminate|]. apply Nat.eqb_neq in M. destruct (all_some value64 chars) as [ds|] eqn:S; [|discriminate].
    assert (content = pack64 ds) by congruence. subst content. apply all_some_iff in S. pose proof (same_length _ _ S) as Ll.
    assert (P : exists k, data = chars ++ repeat 61 k /\ (k = 0 \/ k <= 2 /\ (length chars + k) mod 4 = 0)%nat).
    { subst chars. destruct (length data mod 4 =? 0)%nat eqn:D.
      - apply Nat.eqb_eq in D. destruct (drop_twice data) as (k & K1 & K2). exists k. split; [exact K2|]. right. split; [exact K1|]. rewrite K2, app_length, repeat_length in D. exact D.
      - exists 0%nat. split; [now rewrite app_nil_r|now left]. }
    destruct P as (k & P1 & P2). destruct (pack_spec (length ds) ds (le_n _) (Forall2_six _ _ S) ltac:(rewrite <- Ll; exact M)) as (Q1 & Q2 & Q3).
    exists chars, ds, k. auto 10.
  - intros (cs & ds & k & E & Hk & M & S & B & L & C). pose proof (chars_no_pad _ _ S) as N. pose proof (same_length _ _ S) as Ll.
    assert (Ec : chars = cs).
    { subst chars. rewrite E at 1. rewrite app_length, repeat_length. destruct ((length cs + k) mod 4 =? 0)%nat eqn:D.
      - rewrite E. destruct k as [|[|[|k]]]; [|..|exfalso; lia].
        + cbn [repeat]. rewrite app_nil_r. rewrite (drop_none cs N). now apply drop_none.
        + cbn [repeat]. rewrite drop_snoc. now apply drop_none.
        + change (repeat 61 2) with ([61] ++ [61]). rewrite app_assoc, drop_snoc. apply drop_snoc.
      - apply Nat.eqb_neq in D. destruct Hk as [->|(_ & Hk)]; [|congruence]. rewrite E. cbn [repeat]. now rewrite app_nil_r. }
    rewrite Ec. apply Nat.eqb_neq in M. rewrite M. apply Nat.eqb_neq in M. apply all_some_iff in S as S'. rewrite S'. f_equal.
    destruct (pack_spec (length ds) ds (le_n _) (Forall2_six _ _ S) ltac:(rewrite <- Ll; exact M)) as (Q1 & Q2 & Q3).
    apply bytes_from_bits; [exact Q1|exact B|congruence|]. rewrite Q3, C, Q2, L. reflexivity.
Qed.
Lemma span_some f : forall s x y, span f s = (x, y) -> s = x ++ y /\ Forall (fun c => f c = true) x.
Proof.
  induction s as [|a t IH]; intros x y H; cbn [span] in H.
  - assert (x = [] /\ y = []) as (-> & ->) by (split; congruence). split; [reflexivity|constructor].
  - destruct (f a) eqn:Fa.
    + destruct (span f t) as (u, v) eqn:E. assert (x = a :: u /\ y = v) as (-> & ->) by (split; congruence). destruct (IH u v eq_refl) as (-> & Fu). split; [reflexivity|now constructor].
    + assert (x = [] /\ y = a :: t) as (-> & ->) by (split; congruence). split; [reflexivity|constructor].
Qed.
Lemma remove_iff text payload : remove_mime text = payload <-> payload_text text payload.
Proof.
  assert (A : forall mime rest, plain_image_type mime -> remove_mime (str "data:" ++ mime ++ str ";base64," ++ rest) = rest).
  { intros mime rest H. apply plain_iff in H as (t & Hne & Ht & ->). unfold remove_mime.
    change (str "data:" ++ (str "image/" ++ t) ++ str ";base64," ++ rest)%list with (str "data:image/" ++ t ++ str ";base64," ++ rest)%list.
    rewrite strip_app, span_app; [|exact Ht|intros c r E; cbn in E; injection E as <- _; reflexivity]. rewrite strip_app. destruct t; [congruence|reflexivity]. }
  assert (B : (exists mime, plain_image_type mime /\ text = str "data:" ++ mime ++ str ";base64," ++ remove_mime text) \/ remove_mime text = text).
  { unfold remove_mime. destruct (strip_prefix (str "data:image/") text) as [r|] eqn:E1; [|now right]. destruct (span alphanumeric r) as (x, y) eqn:E2. destruct x as [|c x]; [now right|].
    destruct (strip_prefix (str ";base64,") y) as [p|] eqn:E3; [|now right]. left. apply strip_some in E1, E3. apply span_some in E2 as (E2 & F2). exists (str "image/" ++ (c :: x)). split.
    - apply plain_iff. exists (c :: x). split; [discriminate|]. split; [exact F2|reflexivity].
    - rewrite E1, E2, E3. reflexivity. }
  split.
  - intros <-. destruct B as [B|B]; [left; exact B|right]. split; [exact B|]. intros mime rest Hm E. pose proof (A mime rest Hm) as R. rewrite <- E, B in R. rewrite R in E. apply (f_equal (@length Z)) in E. rewrite !app_length in E. cbn in E. lia.
  - intros [(mime & Hm & ->)|(-> & H)]; [now apply A|]. destruct B as [(mime & Hm & E)|B]; [|exact B]. now elim (H mime (remove_mime text) Hm).
Qed.

(** *** C70: exactly which texts are accepted, and as which bytes *)
Theorem C70_what_any_text_stands_for : forall text content,
  base64_to_uint8_array text = Some content <-> exists payload, payload_text text payload /\ base64_text payload content.
Proof.
  intros text content. unfold base64_to_uint8_array. rewrite atob_iff. split.
  - intros H. exists (remove_mime text). split; [now apply remove_iff|exact H].
  - intros (p & Hp & H). apply remove_iff in Hp. now rewrite Hp.
Qed.
(** The bytes are determined by the text, and a file's own text is one of many texts for the same bytes: blanks anywhere in it and a missing padding change nothing. *)
Theorem C70_one_reading_of_a_text : forall text content content', (exists p, payload_text text p /\ base64_text p content) -> (exists p, payload_text text p /\ base64_text p content') -> content = content'.
Proof. intros text c c' H H'. apply C70_what_any_text_stands_for in H, H'. congruence. Qed.
Theorem C70_blanks_change_nothing : forall mime before after blank, plain_image_type mime -> In blank blanks ->
  base64_to_uint8_array (str "data:" ++ mime ++ str ";base64," ++ before ++ blank :: after) = base64_to_uint8_array (str "data:" ++ mime ++ str ";base64," ++ before ++ after).
Proof.
  intros mime before after blank Hm Hb. unfold base64_to_uint8_array.
  assert (R : forall p, remove_mime (str "data:" ++ mime ++ str ";base64," ++ p) = p) by (intros p; apply remove_iff; left; exists mime; split; [exact Hm|reflexivity]).
  rewrite !R. unfold atob. rewrite !filter_app. cbn [filter]. rewrite (white_iff blank). destruct (in_dec Z.eq_dec blank blanks) as [_|N]; [reflexivity|now elim N].
Qed.

Example C70_texts_instance :
  base64_text (str "TWFu" ++ 10 :: str "TQ") [77; 97; 110; 77] /\ base64_text (str "TWFuTQ==") [77; 97; 110; 77] /\ (forall content, ~ base64_text (str "TWFuTQ=") content)
  /\ payload_text (str "data:image/png;base64,TWFu") (str "TWFu").
Proof.
  split; [apply atob_iff; vm_compute; reflexivity|]. split; [apply atob_iff; vm_compute; reflexivity|]. split; [intros c H; apply atob_iff in H; vm_compute in H; discriminate H|].
  apply remove_iff. vm_compute. reflexivity.
Qed.

Print Assumptions C70_what_any_text_stands_for.
Print Assumptions C70_one_reading_of_a_text.
Print Assumptions C70_blanks_change_nothing.
