(** Properties C70 and C71: the web page (src/Content/utils.ts, src/Content/Content.tsx, src/Canvas/Canvas.tsx). *)
From Coq Require Import String.
From Verif Require Import Outcome Bits ListFacts Front.
Open Scope Z_scope.

(** ** Specification vocabulary *)
(** Base64 (RFC 4648, section 4). *)
Definition digit64 (d : Z) : Z := nth (Z.to_nat d) (str "ABCDEFGHIJKLMNOPQRSTUVWXYZabcdefghijklmnopqrstuvwxyz0123456789+/") 0.
Fixpoint base64 (bytes : list Z) : list Z :=
  match bytes with
  | a :: b :: c :: t => let n := a * 65536 + b * 256 + c in
      digit64 (n / 262144) :: digit64 (n / 4096 mod 64) :: digit64 (n / 64 mod 64) :: digit64 (n mod 64) :: base64 t
  | [a; b] => let n := a * 65536 + b * 256 in digit64 (n / 262144) :: digit64 (n / 4096 mod 64) :: digit64 (n / 64 mod 64) :: str "="
  | [a] => let n := a * 65536 in digit64 (n / 262144) :: digit64 (n / 4096 mod 64) :: str "=="
  | [] => []
  end.
(** What FileReader.readAsDataURL yields for a blob of this type and content. *)
Definition data_url (mime bytes : list Z) : list Z := (str "data:" ++ mime ++ str ";base64," ++ base64 bytes)%list.
(** image/<letters and digits> *)
Definition letters_and_digits : list Z := str "abcdefghijklmnopqrstuvwxyzABCDEFGHIJKLMNOPQRSTUVWXYZ0123456789".
Definition plain_image_type (mime : list Z) : Prop :=
  exists subtype, subtype <> [] /\ Forall (fun c => In c letters_and_digits) subtype /\ mime = (str "image/" ++ subtype)%list.

(** ** helpers *)
Lemma alphanumeric_iff c : alphanumeric c = true <-> In c letters_and_digits.
Proof.
  split.
  - intros H. assert (Hc : 48 <= c <= 122) by (unfold alphanumeric in H; rewrite !orb_true_iff, !andb_true_iff, !Z.leb_le in H; lia).
    assert (Hin : In c (map Z.of_nat (seq 48 75))) by (apply in_map_iff; exists (Z.to_nat c); rewrite in_seq; lia).
    clear Hc. revert H. revert c Hin. apply (proj1 (Forall_forall (fun c => alphanumeric c = true -> In c letters_and_digits) _)). repeat (constructor; [intros H; first [discriminate H|cbn; tauto]|]). constructor.
  - revert c. apply (proj1 (Forall_forall (fun c => alphanumeric c = true) _)). repeat (constructor; [reflexivity|]). constructor.
Qed.
Lemma plain_iff mime : plain_image_type mime <->
  exists subtype, subtype <> [] /\ Forall (fun c => alphanumeric c = true) subtype /\ mime = (str "image/" ++ subtype)%list.
Proof. split; intros (t & A & B & C); exists t; (split; [exact A|]); (split; [|exact C]); revert B; apply Forall_impl; intros c; apply alphanumeric_iff. Qed.
Definition digits (ds : list Z) : Prop := Forall (fun d => 0 <= d < 64) ds.
Lemma digit_facts d : 0 <= d < 64 -> value64 (digit64 d) = Some d /\ white (digit64 d) = false /\ digit64 d <> 61.
Proof.
  intros H. assert (Hin : In d (map Z.of_nat (seq 0 64))).
  { apply in_map_iff. exists (Z.to_nat d). rewrite in_seq. lia. }
  clear H. revert d Hin. apply Forall_forall.
  assert (Hb : forallb (fun d => match value64 (digit64 d) with Some e => e =? d | None => false end && negb (white (digit64 d)) && negb (digit64 d =? 61)) (map Z.of_nat (seq 0 64)) = true) by (vm_compute; reflexivity).
  rewrite forallb_forall in Hb. apply Forall_forall. intros d Hd. specialize (Hb d Hd). apply andb_prop in Hb as (Hb & H3). apply andb_prop in Hb as (H1 & H2).
  destruct (value64 (digit64 d)) as [e|]; [|discriminate]. apply Z.eqb_eq in H1. apply negb_true_iff in H2, H3. apply Z.eqb_neq in H3. split; [congruence|]. split; assumption.
Qed.
Lemma digits_value ds : digits ds -> all_some value64 (map digit64 ds) = Some ds.
Proof.
  induction 1 as [|d t Hd _ IH]; [reflexivity|]. cbn [map all_some]. destruct (digit_facts d Hd) as (-> & _). now rewrite IH.
Qed.
Lemma digits_black ds : digits ds -> filter (fun c => negb (white c)) (map digit64 ds) = map digit64 ds.
Proof.
  induction 1 as [|d t Hd _ IH]; [reflexivity|]. cbn [map filter]. destruct (digit_facts d Hd) as (_ & -> & _). cbn [negb]. now rewrite IH.
Qed.
Lemma drop_eq_snoc l : drop_eq (l ++ [61]) = l.
Proof. unfold drop_eq. rewrite rev_app_distr. cbn [rev app]. apply rev_involutive. Qed.
Lemma drop_eq_digits ds : digits ds -> drop_eq (map digit64 ds) = map digit64 ds.
Proof.
  intros H. destruct ds as [|d t] using rev_ind; [reflexivity|]. clear IHt. apply Forall_app in H as (_ & H). inversion H as [|? ? Hd _]; subst. destruct (digit_facts d Hd) as (_ & _ & Hne).
  rewrite map_app. cbn [map]. unfold drop_eq. rewrite rev_app_distr. cbn [rev app].
  destruct (digit64 d) as [|p|p]; try reflexivity. repeat (destruct p as [p|p|]; try reflexivity). congruence.
Qed.
Lemma bytes3_ind (Q : list Z -> Prop) : Q [] -> (forall a, Q [a]) -> (forall a b, Q [a; b]) -> (forall a b c t, Q t -> Q (a :: b :: c :: t)) -> forall l, Q l.
Proof.
  intros H0 H1 H2 H3. fix F 1. intros [|a [|b [|c t]]]; [exact H0|apply H1|apply H2|apply H3, F].
Qed.
Lemma base64_digits b : bytes b -> exists ds k, digits ds /\ base64 b = (map digit64 ds ++ repeat 61 k)%list /\ (k <= 2)%nat
  /\ ((length ds + k) mod 4 = 0)%nat /\ (length ds mod 4 <> 1)%nat /\ pack64 ds = b.
Proof.
  induction b as [|a|a b|a b c t IH] using bytes3_ind; intros Hb.
  - exists [], 0%nat. repeat split; try lia; try constructor; vm_compute; congruence.
  - inversion Hb as [|? ? Ha _]; subst. unfold byte in Ha. exists [a * 65536 / 262144; a * 65536 / 4096 mod 64], 2%nat.
    split; [|split; [reflexivity|]]; [repeat constructor; Z.to_euclidean_division_equations; lia|]. split; [lia|]. split; [reflexivity|]. split; [vm_compute; congruence|].
    cbn [pack64]. f_equal. Z.to_euclidean_division_equations; lia.
  - inversion Hb as [|? ? Ha Hb']; subst. inversion Hb' as [|? ? Hb1 _]; subst. unfold byte in Ha, Hb1. set (n := a * 65536 + b * 256).
    exists [n / 262144; n / 4096 mod 64; n / 64 mod 64], 1%nat. unfold n.
    split; [|split; [reflexivity|]]; [repeat constructor; Z.to_euclidean_division_equations; lia|]. split; [lia|]. split; [reflexivity|]. split; [vm_compute; congruence|].
    cbn [pack64]. f_equal; [|f_equal]; Z.to_euclidean_division_equations; lia.
  - inversion Hb as [|? ? Ha Hb']; subst. inversion Hb' as [|? ? Hb1 Hb'']; subst. inversion Hb'' as [|? ? Hc Ht]; subst. unfold byte in Ha, Hb1, Hc.
    destruct (IH Ht) as (ds & k & D & Eb & Hk & Hm & Hm1 & Hp). set (n := a * 65536 + b * 256 + c).
    exists (n / 262144 :: n / 4096 mod 64 :: n / 64 mod 64 :: n mod 64 :: ds), k. unfold n.
    split; [repeat (constructor; [Z.to_euclidean_division_equations; lia|]); exact D|]. split; [cbn [base64 map app]; now rewrite Eb|].
    split; [exact Hk|]. cbn [length].
    split; [replace (S (S (S (S (length ds)))) + k)%nat with (length ds + k + 1 * 4)%nat by lia; now rewrite Nat.mod_add by lia|].
    split; [replace (S (S (S (S (length ds)))))%nat with (length ds + 1 * 4)%nat by lia; now rewrite Nat.mod_add by lia|].
    cbn [pack64]. rewrite Hp. f_equal; [|f_equal; [|f_equal]]; Z.to_euclidean_division_equations; lia.
Qed.
Lemma atob_base64 b : bytes b -> atob (base64 b) = Some b.
Proof.
  intros Hb. destruct (base64_digits b Hb) as (ds & k & D & Eb & Hk & Hm & Hm1 & Hp). unfold atob. rewrite Eb.
  assert (Ef : filter (fun c => negb (white c)) (map digit64 ds ++ repeat 61 k) = (map digit64 ds ++ repeat 61 k)%list).
  { rewrite filter_app, digits_black by exact D. f_equal. clear. induction k as [|k IH]; [reflexivity|]. cbn [repeat filter]. change (negb (white 61)) with true. cbn match. now rewrite IH. }
  rewrite Ef. rewrite app_length, map_length, repeat_length, Hm. cbn [Nat.eqb].
  assert (E2 : drop_eq (drop_eq (map digit64 ds ++ repeat 61 k)) = map digit64 ds).
  { destruct k as [|[|[|k]]]; [..|lia]; cbn [repeat].
    - rewrite app_nil_r, !drop_eq_digits by exact D. reflexivity.
    - rewrite drop_eq_snoc. now apply drop_eq_digits.
    - change [61; 61] with ([61] ++ [61])%list. rewrite app_assoc, !drop_eq_snoc. reflexivity. }
  rewrite E2, map_length. apply Nat.eqb_neq in Hm1. rewrite Hm1, digits_value by exact D. now rewrite Hp.
Qed.
Lemma strip_app (p s : list Z) : strip_prefix p (p ++ s) = Some s.
Proof. induction p as [|a p IH]; [reflexivity|]. cbn [app strip_prefix]. now rewrite Z.eqb_refl. Qed.
Lemma strip_some p s r : strip_prefix p s = Some r -> s = (p ++ r)%list.
Proof.
  revert s. induction p as [|a p IH]; intros s H; [cbn in *; congruence|]. destruct s as [|b s]; cbn in H; [discriminate|].
  destruct (Z.eqb_spec a b) as [E|E]; [|discriminate]. rewrite (IH _ H), E. reflexivity.
Qed.
Lemma span_app f t s : Forall (fun c => f c = true) t -> (forall c r, s = c :: r -> f c = false) -> span f (t ++ s) = (t, s).
Proof.
  induction 1 as [|c t Hc _ IH]; intros Hs; cbn [app span].
  - destruct s as [|c r]; [reflexivity|]. cbn [span]. now rewrite (Hs c r eq_refl).
  - rewrite Hc, IH by exact Hs. reflexivity.
Qed.
Lemma remove_plain mime b : plain_image_type mime -> remove_mime (data_url mime b) = base64 b.
Proof.
  intros H. apply plain_iff in H as (t & Hne & Ht & ->). unfold remove_mime, data_url.
  change (str "data:" ++ (str "image/" ++ t) ++ str ";base64," ++ base64 b)%list with (str "data:image/" ++ t ++ str ";base64," ++ base64 b)%list.
  rewrite strip_app, span_app; [|exact Ht|intros c r E; cbn in E; injection E as <- _; reflexivity].
  rewrite strip_app. destruct t; [congruence|reflexivity].
Qed.
(** A string with a colon in it is not base64, and has no MIME prefix unless it starts with "data:image/". *)
Lemma atob_colon s : In 58 s -> atob s = None.
Proof.
  intros H. unfold atob. set (data := filter _ s).
  assert (Hd : In 58 data) by (apply filter_In; split; [exact H|reflexivity]).
  assert (Hdrop : forall l, In 58 l -> In 58 (drop_eq l)).
  { intros l Hl. unfold drop_eq. destruct (rev l) as [|x r] eqn:E; [exact Hl|]. apply in_rev in Hl. rewrite E in Hl.
    destruct x as [|p|p]; try (apply in_rev; rewrite E; exact Hl). repeat (destruct p as [p|p|]; try (apply in_rev; rewrite E; exact Hl)).
    destruct Hl as [Hl|Hl]; [discriminate|]. now apply in_rev in Hl. }
  match goal with |- context [if (_ =? 0)%nat then ?a else ?b] => set (data' := if (_ =? 0)%nat then a else b) end. assert (Hd' : In 58 data') by (unfold data'; destruct (_ =? _)%nat; [now apply Hdrop, Hdrop|exact Hd]).
  destruct (_ =? 1)%nat; [reflexivity|]. replace (all_some value64 data') with (@None (list Z)); [reflexivity|]. symmetry.
  revert Hd'. clear. induction data' as [|x t IH]; [contradiction|]. cbn [In all_some]. intros [ -> |Hx]; [reflexivity|]. rewrite (IH Hx). now destruct (value64 x).
Qed.
Lemma base64_no_colon b : bytes b -> ~ In 58 (base64 b).
Proof. intros Hb H. pose proof (atob_base64 b Hb). pose proof (atob_colon _ H). congruence. Qed.
Lemma remove_base64 b : bytes b -> remove_mime (base64 b) = base64 b.
Proof.
  intros Hb. unfold remove_mime. destruct (strip_prefix _ _) as [r|] eqn:E; [|reflexivity]. exfalso. apply strip_some in E. apply (base64_no_colon b Hb). rewrite E.
  apply in_or_app. left. cbn. tauto.
Qed.
Lemma remove_other mime b : ~ In 59 mime -> ~ plain_image_type mime -> remove_mime (data_url mime b) = data_url mime b.
Proof.
  intros H59 Hnp. unfold remove_mime. destruct (strip_prefix (str "data:image/") (data_url mime b)) as [r|] eqn:E; [|reflexivity]. apply strip_some in E.
  unfold data_url in E. change (str "data:image/" ++ r)%list with (str "data:" ++ str "image/" ++ r)%list in E. apply app_inv_head in E.
  assert (Hs : exists m, mime = (str "image/" ++ m)%list /\ r = (m ++ str ";base64," ++ base64 b)%list).
  { revert H59 E. generalize (base64 b). intros tl H59 E. change (str ";base64," ++ tl)%list with (59 :: str "base64," ++ tl)%list in *. generalize dependent (str "base64," ++ tl)%list. intros q E.
    cbn in E. do 6 (destruct mime as [|? mime]; cbn [app] in E; [discriminate E|]; injection E as -> E). exists mime. split; [reflexivity|now symmetry]. }
  destruct Hs as (m & -> & ->).
  assert (Hm : ~ In 59 m) by (intros X; apply H59, in_or_app; now right).
  destruct (Forall_Exists_dec (fun c => alphanumeric c = true) (fun c => bool_dec (alphanumeric c) true) m) as [Ha|Ha].
  - rewrite span_app; [|exact Ha|intros c q Ec; cbn in Ec; injection Ec as <- _; reflexivity].
    destruct m as [|c m]; [reflexivity|]. exfalso. apply Hnp, plain_iff. exists (c :: m). split; [discriminate|]. split; [exact Ha|reflexivity].
  - assert (Hsp : exists t c q, m = (t ++ c :: q)%list /\ Forall (fun c => alphanumeric c = true) t /\ alphanumeric c = false).
    { clear - Ha. induction Ha as [c q Hc|c q _ (t & d & q' & -> & Ht & Hd)].
      - exists [], c, q. split; [reflexivity|]. split; [constructor|]. now apply not_true_is_false.
      - destruct (alphanumeric c) eqn:Ec; [exists (c :: t), d, q'|exists [], c, (t ++ d :: q')%list]; (split; [reflexivity|]); (split; [|assumption]); [constructor; assumption|constructor]. }
    destruct Hsp as (t & c & q & -> & Ht & Hc). rewrite <- app_assoc. cbn [app]. rewrite span_app; [|exact Ht|intros c' q' Ec; injection Ec as <- _; exact Hc].
    destruct t as [|x t]; [reflexivity|]. cbn [strip_prefix str]. change (str ";base64,") with (59 :: str "base64,"). cbn [strip_prefix].
    destruct (Z.eqb_spec 59 c) as [E59|_]; [|reflexivity]. exfalso. apply Hm. rewrite E59. apply in_or_app. right. now left.
Qed.

(** *** C70: the bytes that reach the library *)
(** A file whose type is image/<letters and digits> reaches the library byte for byte, whether it is the built-in picture or a selected
    file (whose prefix is removed twice). *)
Theorem C70_the_library_gets_the_bytes_of_the_file : forall mime content, plain_image_type mime -> bytes content ->
  base64_to_uint8_array (data_url mime content) = Some content
  /\ base64_to_uint8_array (file_to_base64 (data_url mime content)) = Some content.
Proof.
  intros mime b Hm Hb. unfold base64_to_uint8_array, file_to_base64. rewrite remove_plain by exact Hm. rewrite remove_base64 by exact Hb. split; now apply atob_base64.
Qed.
(** Files of any other type (no parameters in the type) never reach it, whatever their content: decoding throws. *)
Theorem C70_other_file_types_are_refused : forall mime content, ~ In 59 mime -> bytes content ->
  forall received, base64_to_uint8_array (file_to_base64 (data_url mime content)) = Some received <-> plain_image_type mime /\ received = content.
Proof.
  intros mime b H59 Hb received. split.
  - intros E. assert (D : plain_image_type mime \/ ~ plain_image_type mime).
    { rewrite plain_iff. destruct (strip_prefix (str "image/") mime) as [r|] eqn:Es.
      - apply strip_some in Es. destruct r as [|c r]; [right; intros (t & Ht & _ & Em); rewrite Es in Em; apply app_inv_head in Em; congruence|].
        destruct (Forall_dec (fun c => alphanumeric c = true) (fun c => bool_dec (alphanumeric c) true) (c :: r)) as [Ha|Ha].
        + left. exists (c :: r). split; [discriminate|]. split; assumption.
        + right. intros (t & _ & Ht & Em). rewrite Es in Em. apply app_inv_head in Em. congruence.
      - right. intros (t & _ & _ & ->). rewrite strip_app in Es. discriminate. }
    destruct D as [D|D].
    + split; [exact D|]. destruct (C70_the_library_gets_the_bytes_of_the_file mime b D Hb) as (_ & E'). congruence.
    + exfalso. unfold base64_to_uint8_array, file_to_base64 in E. rewrite !(remove_other mime b H59 D) in E. rewrite atob_colon in E; [discriminate|]. unfold data_url. apply in_or_app. left. cbn. tauto.
  - intros (Hm & ->). now apply C70_the_library_gets_the_bytes_of_the_file.
Qed.
Example C70_instance : plain_image_type (str "image/png") /\ base64_to_uint8_array (data_url (str "image/png") [137; 80; 78; 71; 13]) = Some [137; 80; 78; 71; 13]
  /\ data_url (str "image/png") [77; 97; 110] = str "data:image/png;base64,TWFu"
  /\ ~ plain_image_type (str "image/svg+xml") /\ base64_to_uint8_array (file_to_base64 (data_url (str "image/x-ms-bmp") [66; 77])) = None.
Proof.
  split; [apply plain_iff; exists (str "png"); split; [discriminate|]; split; [repeat constructor|reflexivity]|]. split; [vm_compute; reflexivity|]. split; [vm_compute; reflexivity|]. split; [|vm_compute; reflexivity].
  intros H. apply plain_iff in H as (t & _ & Ht & E). change (str "image/svg+xml") with (str "image/" ++ str "svg+xml")%list in E. apply app_inv_head in E. subst t. rewrite Forall_forall in Ht. specialize (Ht 43). cbn in Ht. intuition discriminate.
Qed.

Print Assumptions C70_the_library_gets_the_bytes_of_the_file.
Print Assumptions C70_other_file_types_are_refused.
