(** Properties C93, C80 and C94, continued: what the messages of the library give away, the whole of standard output of the command line tool, and
    what happens when standard output breaks. *)
From Coq Require Import String Ascii.
From Verif Require Import Outcome Floats Bits Quantization Codecs Encoding Matrix Haar Stego Embedding Signature Process Zernike ProcessProofs Image Cli PropsCli Getopts PropsCli2 Timer PropsTimer
  Console PropsConsole Diagnostics PropsDiagnostics.
Open Scope Z_scope.
Open Scope list_scope.
Open Scope logged_scope.

(** ** Numbers can be read back *)
Lemma show_chars n c : In c (bytes_of_string (show n)) -> 48 <= c <= 57.
Proof.
  pose proof (show_digits n) as H. revert H. generalize (show n). intros s. induction s as [|a t IH]; cbn [bytes_of_string all_digits]; [intros _ []|].
  intros H [Hc|Hc]; apply andb_prop in H as (H1 & H2); [|now apply IH]. unfold digit in H1. apply andb_prop in H1 as (H3 & H4). apply Z.leb_le in H3, H4. lia.
Qed.
Lemma show_nonempty n : bytes_of_string (show n) <> [].
Proof.
  unfold show, DecimalString.NilZero.string_of_uint. destruct (N.to_uint (Z.to_N n)); cbn; discriminate.
Qed.
Lemma show_inj a b : 0 <= a -> 0 <= b -> bytes_of_string (show a) = bytes_of_string (show b) -> a = b.
Proof.
  intros Ha Hb H. apply bytes_of_string_inj in H. pose proof (digits_value_show a Ha) as Va. pose proof (digits_value_show b Hb) as Vb. rewrite H, Vb in Va. congruence.
Qed.
Lemma debug_int_chars n c : In c (debug_int n) -> c = 45 \/ 48 <= c <= 57.
Proof. unfold debug_int. destruct (n <? 0); [intros [H|H]|intros H]; [left; congruence|right|right]; eapply show_chars; exact H. Qed.
Lemma debug_int_nonempty n : debug_int n <> [].
Proof. unfold debug_int. destruct (n <? 0); [discriminate|apply show_nonempty]. Qed.
Lemma debug_int_inj a b : debug_int a = debug_int b -> a = b.
Proof.
  unfold debug_int. intros H. destruct (a <? 0) eqn:Ha, (b <? 0) eqn:Hb; rewrite ?Z.ltb_lt, ?Z.ltb_ge in *.
  - assert (- a = - b) by (apply show_inj; [lia|lia|congruence]). lia.
  - assert (X : In 45 (bytes_of_string (show b))) by (rewrite <- H; now left). apply show_chars in X. lia.
  - assert (X : In 45 (bytes_of_string (show a))) by (rewrite H; now left). apply show_chars in X. lia.
  - apply show_inj; assumption.
Qed.
Lemma split_comma (a b a' b' : list Z) : ~ In 44 a -> ~ In 44 a' -> a ++ 44 :: b = a' ++ 44 :: b' -> a = a' /\ b = b'.
Proof.
  revert a'. induction a as [|x a IH]; intros [|y a'] Ha Ha' H; cbn [app] in H.
  - split; congruence.
  - elim Ha'. left. congruence.
  - elim Ha. left. congruence.
  - assert (x = y /\ a ++ 44 :: b = a' ++ 44 :: b') as (-> & E) by (split; congruence). destruct (IH a') as (-> & ->); [intros Hi; apply Ha; now right|intros Hi; apply Ha'; now right|exact E|]. split; reflexivity.
Qed.
Lemma debug_int_no_comma n : ~ In 44 (debug_int n).
Proof. intros H. apply debug_int_chars in H. lia. Qed.
Lemma join_inj a b : join (map debug_int a) = join (map debug_int b) -> a = b.
Proof.
  revert b. induction a as [|x a IH]; intros b H.
  - destruct b as [|y [|z b]]; [reflexivity| |]; cbn [map join] in H.
    + elim (debug_int_nonempty y). congruence.
    + apply (f_equal (@List.length Z)) in H. rewrite !app_length in H. cbn [List.length] in H. lia.
  - destruct b as [|y b].
    { destruct a as [|z a]; cbn [map join] in H; [now elim (debug_int_nonempty x)|]. apply (f_equal (@List.length Z)) in H. rewrite !app_length in H. cbn [List.length] in H. lia. }
    destruct a as [|x' a], b as [|y' b].
    + cbn [map join] in H. now rewrite (debug_int_inj x y H).
    + elim (debug_int_no_comma x). change (join (map debug_int [x])) with (debug_int x) in H. rewrite H. change (join (map debug_int (y :: y' :: b))) with (debug_int y ++ [44; 32] ++ join (map debug_int (y' :: b))).
      apply in_or_app. right. now left.
    + elim (debug_int_no_comma y). change (join (map debug_int [y])) with (debug_int y) in H. rewrite <- H. change (join (map debug_int (x :: x' :: a))) with (debug_int x ++ [44; 32] ++ join (map debug_int (x' :: a))).
      apply in_or_app. right. now left.
    + change (join (map debug_int (y :: y' :: b))) with (debug_int y ++ 44 :: 32 :: join (map debug_int (y' :: b))) in H.
      change (join (map debug_int (x :: x' :: a))) with (debug_int x ++ 44 :: 32 :: join (map debug_int (x' :: a))) in H.
      apply split_comma in H as (H1 & H2); try apply debug_int_no_comma. rewrite (debug_int_inj x y H1). f_equal. apply IH. congruence.
Qed.
Lemma debug_ints_inj a b : debug_ints a = debug_ints b -> a = b.
Proof. unfold debug_ints. intros H. apply join_inj. apply app_inv_head in H. apply app_inv_tail in H. exact H. Qed.
Lemma named_ints_inj label a b : named label (debug_ints a) = named label (debug_ints b) -> a = b.
Proof. unfold named. intros H. apply app_inv_head in H. apply app_inv_tail in H. now apply debug_ints_inj. Qed.

(** ** Every message of the library starts with one of these words *)
Definition library_labels : list string :=
  ["Zernike moments indices: "; "Zernike moments: "; "features: "; "quantized_features: "; "perturbation_vector: "; "signature: "; "watermark: "; "watermark data: ";
   "domain capacity: "; "data: "; "serialized data bytes: "; "bytes to be encoded with length header: "; "binary length of the data to be encoded: ";
   "use LDPC code: ("; "words to be encoded: "; "bits length: "; "codewords to be decoded: "; "expected data bytes length: "; "data length: "; "data bytes: (";
   "deserialized data: "; "extracted watermark data: "; "deserialized watermark data: "; "restored quantized features: "; "restored quantized features bytes: "]%string.
Definition labelled (m : message) : Prop := exists label value, In label library_labels /\ m = bytes_of_string label ++ value ++ [10].

Lemma fst_lbind_all {A B} (P : message -> Prop) (x : logged A) (k : A -> logged B) :
  Forall P (fst x) -> (forall a, snd x = Ok a -> Forall P (fst (k a))) -> Forall P (fst (lbind x k)).
Proof. intros H1 H2. unfold lbind. destruct (snd x) eqn:E; [|exact H1|exact H1]. apply Forall_app. split; [exact H1|now apply H2]. Qed.
Lemma quiet_all {A B} P (x : outcome A) (k : A -> logged B) : (forall a, x = Ok a -> Forall P (fst (k a))) -> Forall P (fst (lbind (quiet x) k)).
Proof. intros H. apply fst_lbind_all; [constructor|exact H]. Qed.
Lemma say_labelled label value : In label library_labels -> Forall labelled (fst (say (bytes_of_string label ++ value))).
Proof. intros H. constructor; [|constructor]. exists label, value. split; [exact H|]. unfold newline. now rewrite app_assoc. Qed.
Lemma print_labelled {B} label value (k : unit -> logged B) : In label library_labels -> Forall labelled (fst (k tt)) -> Forall labelled (fst (lbind (say (bytes_of_string label ++ value)) k)).
Proof. intros H1 H2. apply fst_lbind_all; [now apply say_labelled|]. intros [] _. exact H2. Qed.
Ltac find_label := repeat (first [left; reflexivity | right]).
Ltac labels := repeat first [apply Forall_nil | apply quiet_all; intros ? ? | apply print_labelled; [find_label|]].

Section Console.
Context {F : Type} (O : FOps F) (K : ldpc) (E : ed25519) (D : debug_text F).
Context (equalize : list Z -> list Z) (features_of : array2 Z -> nat -> outcome (list F)) (checks : bool) (pad : list bool).

Lemma data_serialize_labelled payload : Forall labelled (fst (data_serialize_logged payload)).
Proof. unfold data_serialize_logged. labels. Qed.
Lemma data_deserialize_labelled bytes : Forall labelled (fst (data_deserialize_logged bytes)).
Proof. unfold data_deserialize_logged. labels. destruct (Nat.ltb _ 3); labels. Qed.
Lemma encode_labelled input n : Forall labelled (fst (encode_logged K input n)).
Proof.
  unfold encode_logged. destruct (u16_to_bytes _) as (a, b). labels. unfold ldpc_line. destruct (get_code_by_codeword_length n); labels.
Qed.
Lemma decode_labelled bytes n : Forall labelled (fst (decode_logged K bytes n)).
Proof.
  unfold decode_logged. labels. unfold ldpc_line. destruct (get_code_by_codeword_length n); labels. cbn zeta. destruct (concat _) as [|x [|y t]]; labels.
Qed.
Lemma capacity_labelled w h : Forall labelled (fst (get_domain_capacity_logged w h)).
Proof. unfold get_domain_capacity_logged. labels. Qed.
Lemma embed_labelled m bytes depth levels : Forall labelled (fst (embed_logged O K m bytes depth levels)).
Proof.
  unfold embed_logged. labels. apply fst_lbind_all; [apply capacity_labelled|]. intros ? _. apply fst_lbind_all; [apply data_serialize_labelled|]. intros ? _.
  apply fst_lbind_all; [apply encode_labelled|]. intros ? _. labels.
Qed.
Lemma extract_labelled m depth levels : Forall labelled (fst (extract_logged O K m depth levels)).
Proof.
  unfold extract_logged. labels. apply fst_lbind_all; [apply capacity_labelled|]. intros ? _. apply fst_lbind_all; [apply decode_labelled|]. intros ? _. apply data_deserialize_labelled.
Qed.
Lemma channel_features_labelled ch amount : Forall labelled (fst (channel_features_logged D equalize features_of checks ch amount)).
Proof.
  unfold channel_features_logged. labels. apply fst_lbind_all; [|intros ? _; labels]. unfold indices_logged. destruct (get_order_by_features_amount _ _); try constructor; [|constructor].
  exists "Zernike moments indices: "%string, (debug_ints (map Z.of_nat (moments_indices a1))). split; [find_label|]. unfold newline. now rewrite app_assoc.
Qed.
Lemma watermark_channel_labelled ch depth step amount levels : Forall labelled (fst (watermark_channel_logged O K E D equalize features_of checks pad ch depth step amount levels)).
Proof.
  unfold watermark_channel_logged. apply fst_lbind_all; [apply channel_features_labelled|]. intros (px, fs) _. apply quiet_all. intros (q, b) _. labels.
  apply fst_lbind_all; [apply embed_labelled|]. intros ? _. labels.
Qed.
Lemma authenticate_channel_labelled ch depth step amount levels : Forall labelled (fst (authenticate_channel_logged O K E D equalize features_of checks ch depth step amount levels)).
Proof.
  unfold authenticate_channel_logged. apply fst_lbind_all; [apply channel_features_labelled|]. intros (px, fs) _. apply fst_lbind_all; [apply extract_labelled|]. intros ? _. labels.
Qed.

(** *** C93: every message of the library, also of a run that panics, is a line that starts with one of the words of the list *)
Theorem C93_every_message_is_labelled : forall image channel depth step amount levels,
  Forall labelled (fst (watermark_logged O K E D equalize features_of checks pad image depth step amount))
  /\ Forall labelled (fst (watermark_channel_logged O K E D equalize features_of checks pad channel depth step amount levels))
  /\ Forall labelled (fst (authenticate_channel_logged O K E D equalize features_of checks channel depth step amount levels)).
Proof.
  intros image ch depth step amount levels. split; [|split; [apply watermark_channel_labelled|apply authenticate_channel_labelled]].
  unfold watermark_logged. destruct (dimensions image) as (w, h). apply fst_lbind_all; [apply watermark_channel_labelled|]. intros ? _.
  apply fst_lbind_all; [destruct (has_color image); [apply watermark_channel_labelled|constructor]|]. intros ? _.
  apply fst_lbind_all; [destruct (has_color image); [apply watermark_channel_labelled|constructor]|]. intros ? _. constructor.
Qed.

(** *** C93: whoever reads the messages knows what was signed, the signature and the hidden bytes: two runs that print the same agree in all three *)
Theorem C93_messages_give_the_payload_away : forall channel channel' depth depth' step step' amount amount' levels levels' marked marked',
  Z.of_nat (gwidth channel * gheight channel) < 2 ^ 53 -> Z.of_nat (gwidth channel' * gheight channel') < 2 ^ 53 -> (1 <= amount)%nat -> (1 <= amount')%nat ->
  watermark_channel O K E equalize features_of checks pad channel depth step amount levels = Ok marked ->
  watermark_channel O K E equalize features_of checks pad channel' depth' step' amount' levels' = Ok marked' ->
  fst (watermark_channel_logged O K E D equalize features_of checks pad channel depth step amount levels)
  = fst (watermark_channel_logged O K E D equalize features_of checks pad channel' depth' step' amount' levels') ->
  exists pixels pixels' features features' bits bits' quantised sig payload out out',
    measures equalize features_of channel amount features /\ measures equalize features_of channel' amount' features'
    /\ three_bit_quantization O checks features step = Ok (quantised, bits) /\ three_bit_quantization O checks features' step' = Ok (quantised, bits')
    /\ sign E (vec_i64_to_bytes quantised) PRIVATE_KEY PUBLIC_KEY = Ok sig
    /\ watermark_serialize pad (mkWatermark bits sig WATERMARK_TEXT) = Ok payload /\ watermark_serialize pad (mkWatermark bits' sig WATERMARK_TEXT) = Ok payload
    /\ from_shape_vec (gwidth channel) (gheight channel) (gray_raw channel) = Ok pixels /\ from_shape_vec (gwidth channel') (gheight channel') (gray_raw channel') = Ok pixels'
    /\ embed O K pixels payload depth levels = Ok out /\ gray_raw marked = into_raw_vec out
    /\ embed O K pixels' payload depth' levels' = Ok out' /\ gray_raw marked' = into_raw_vec out'.
Proof.
  intros ch ch' depth depth' step step' amount amount' levels levels' marked marked' Hsz Hsz' Ha Ha' H H' Heq.
  destruct (C93_what_a_watermarked_channel_prints O K E D equalize features_of checks pad ch depth step amount levels marked Hsz Ha H)
    as (px & fs & q & bits & sig & pl & fr & a & b & A1 & A2 & A3 & A4 & A5 & (out & A6 & A7) & _ & _ & A8).
  destruct (C93_what_a_watermarked_channel_prints O K E D equalize features_of checks pad ch' depth' step' amount' levels' marked' Hsz' Ha' H')
    as (px' & fs' & q' & bits' & sig' & pl' & fr' & a' & b' & B1 & B2 & B3 & B4 & B5 & (out' & B6 & B7) & _ & _ & B8).
  cbn zeta in A8, B8. rewrite A8, B8 in Heq. cbn [app] in Heq.
  assert (Eq : q = q') by (apply (named_ints_inj "quantized_features: "); congruence).
  assert (Es : sig = sig') by (apply (named_ints_inj "signature: "); congruence).
  assert (Ep : pl = pl') by (apply (named_ints_inj "watermark data: "); congruence).
  subst q' sig' pl'. exists px, px', fs, fs', bits, bits', q, sig, pl, out, out'. repeat (split; [assumption|]). assumption.
Qed.

(** ** Standard output of the command line tool *)
Context {format : Type} (os : platform format) (clock : list (list Z) -> Z * Z).
Notation process := (Cli.process O K E equalize features_of checks pad os).
Notation process_inputs := (Cli.process_inputs O K E equalize features_of checks pad os).
Notation process_input := (Cli.process_input O K E equalize features_of checks pad os).
Notation prepare := (Cli.prepare O K E equalize features_of checks pad os).
Notation diagnostics_of_input := (Diagnostics.diagnostics_of_input O K E D equalize features_of checks pad os).
Notation announcement_of_input := (Diagnostics.announcement_of_input O K E equalize features_of checks pad os).
Notation messages_of_inputs := (Diagnostics.messages_of_inputs O K E D equalize features_of checks pad os clock).
Notation messages_of_process := (Diagnostics.messages_of_process O K E D equalize features_of checks pad os clock).
Notation process_inputs_until := (Diagnostics.process_inputs_until O K E D equalize features_of checks pad os).
Notation process_until := (Diagnostics.process_until O K E D equalize features_of checks pad os).

(** A line of the tool itself: it starts with "Watermarked ". *)
Fixpoint starts_with (prefix l : list Z) : bool :=
  match prefix, l with [], _ => true | _, [] => false | a :: p, b :: t => (a =? b) && starts_with p t end.
Definition is_announcement (m : message) : bool := starts_with (bytes_of_string "Watermarked ") m.
Definition announcements (l : list message) : list message := filter is_announcement l.

Lemma labelled_not m : labelled m -> is_announcement m = false.
Proof.
  intros (l & v & H & ->). unfold library_labels in H. repeat (destruct H as [H|H]; [subst l; reflexivity|]). destruct H.
Qed.
Lemma line_is_announcement path n m t : is_announcement (watermarked_line path n m t) = true.
Proof. reflexivity. Qed.
Lemma no_announcement l : Forall labelled l -> announcements l = [].
Proof. induction 1 as [|m l Hm _ IH]; [reflexivity|]. unfold announcements in *. cbn [filter]. now rewrite (labelled_not m Hm). Qed.
Lemma announcements_app a b : announcements (a ++ b) = announcements a ++ announcements b.
Proof. unfold announcements. induction a as [|x a IH]; [reflexivity|]. cbn [app filter]. rewrite IH. destruct (is_announcement x); reflexivity. Qed.
Lemma diagnostics_labelled w input : Forall labelled (diagnostics_of_input w input).
Proof. unfold Diagnostics.diagnostics_of_input. destruct (open_image os w input); try constructor. apply (C93_every_message_is_labelled _ (mkGray 0 0 []) _ _ _ 0%nat). Qed.

Lemma announcement_done w input suffix output w1 t : process_input w input suffix output = (w1, Done) ->
  exists picture path stem ext, open_image os w input = Ok picture /\ names input stem ext /\ output_path os suffix output stem ext path
    /\ announcement_of_input w input suffix output t = [watermarked_line path (channel_count picture) (channel_count picture) t].
Proof.
  intros H. unfold Diagnostics.announcement_of_input. destruct (process_input_done O K E equalize features_of checks pad os w input suffix output w1 t H) as (pic & path & stem & ext & P1 & P2 & P3 & P4).
  exists pic, path, stem, ext. split; [exact P1|]. split; [exact P2|]. split; [exact P3|]. unfold Console.lines_of_input in P4. rewrite P1, H in *.
  destruct (prepare w input suffix output) as [(m, p)| |]; [now rewrite P4| |]; exfalso; revert P4; unfold watermarked_line; discriminate.
Qed.
Lemma announcement_not w input suffix output w1 e t : process_input w input suffix output = (w1, e) -> e <> Done -> announcement_of_input w input suffix output t = [].
Proof.
  intros H Hn. unfold Diagnostics.announcement_of_input. rewrite H. destruct (open_image os w input); try reflexivity. destruct (prepare w input suffix output) as [(m, p)| |]; try reflexivity.
  destruct e; try reflexivity. congruence.
Qed.

Lemma messages_inputs suffix output : forall inputs w, exists completed rest (entries : list entry),
  inputs = completed ++ rest /\ (snd (process_inputs w inputs suffix output) = Done <-> rest = [])
  /\ snd (process_inputs w completed suffix output) = Done
  /\ announcements (messages_of_inputs w inputs suffix output) = map line_of entries /\ length entries = length completed
  /\ Forall (fun m => is_announcement m = true \/ labelled m) (messages_of_inputs w inputs suffix output)
  /\ forall before input after, completed = before ++ input :: after ->
     exists w1 picture path stem ext t, process_inputs w before suffix output = (w1, Done) /\ open_image os w1 input = Ok picture
       /\ names input stem ext /\ output_path os suffix output stem ext path /\ nth_error entries (length before) = Some (path, channel_count picture, t).
Proof.
  assert (Q : forall w i, Forall (fun m => is_announcement m = true \/ labelled m) (diagnostics_of_input w i)).
  { intros w i. eapply Forall_impl; [|apply diagnostics_labelled]. intros m Hm. now right. }
  induction inputs as [|i r IH]; intros w.
  - exists [], [], []. repeat split; try reflexivity; try constructor; try (intros [|? ?] ? ? Heq; discriminate Heq).
  - cbn [Cli.process_inputs Diagnostics.messages_of_inputs]. destruct (process_input w i suffix output) as (w1, st) eqn:Ei.
    assert (Stop : st <> Done -> exists completed rest (entries : list entry), i :: r = completed ++ rest /\ (st = Done <-> rest = [])
      /\ snd (process_inputs w completed suffix output) = Done
      /\ announcements (diagnostics_of_input w i ++ announcement_of_input w i suffix output (clock (i :: r)) ++ []) = map line_of entries /\ length entries = length completed
      /\ Forall (fun m => is_announcement m = true \/ labelled m) (diagnostics_of_input w i ++ announcement_of_input w i suffix output (clock (i :: r)) ++ [])
      /\ forall before input after, completed = before ++ input :: after ->
        exists w1 picture path stem ext t, process_inputs w before suffix output = (w1, Done) /\ open_image os w1 input = Ok picture
       /\ names input stem ext /\ output_path os suffix output stem ext path /\ nth_error entries (length before) = Some (path, channel_count picture, t)).
    { intros Hst. exists [], (i :: r), []. rewrite (announcement_not w i suffix output w1 st _ Ei Hst). split; [reflexivity|]. split; [split; [congruence|discriminate]|]. split; [reflexivity|].
      cbn [app]. rewrite app_nil_r. split; [apply no_announcement, diagnostics_labelled|]. split; [reflexivity|]. split; [apply Q|]. intros [|? ?] ? ? Heq; discriminate Heq. }
    destruct st; try (apply Stop; discriminate). clear Stop.
    destruct (announcement_done w i suffix output w1 (clock (i :: r)) Ei) as (pic & path & stem & ext & P1 & P2 & P3 & P4).
    destruct (IH w1) as (completed & rest & entries & H1 & H2 & H3 & H4 & H5 & H5' & H6).
    exists (i :: completed), rest, ((path, channel_count pic, clock (i :: r)) :: entries). rewrite H1 at 1. split; [reflexivity|]. split; [exact H2|].
    cbn [Cli.process_inputs]. rewrite Ei. split; [exact H3|]. split.
    { rewrite P4, !announcements_app, H4, no_announcement by apply diagnostics_labelled. reflexivity. }
    split; [cbn [length]; now rewrite H5|]. split.
    { rewrite P4. apply Forall_app. split; [apply Q|]. constructor; [left; apply line_is_announcement|exact H5']. }
    intros [|b before] input after Heq.
    + cbn [app] in Heq. assert (input = i) by congruence. subst input. exists w, pic, path, stem, ext, (clock (i :: r)). repeat split; auto.
    + cbn [app] in Heq. assert (b = i /\ completed = before ++ input :: after) as (-> & Hc) by (split; congruence).
      destruct (H6 before input after Hc) as (w2 & pic2 & path2 & stem2 & ext2 & t2 & R1 & R2 & R3 & R4 & R5). exists w2, pic2, path2, stem2, ext2, t2.
      cbn [Cli.process_inputs]. rewrite Ei. auto.
Qed.

(** *** C80: on the whole of standard output, the lines that start with "Watermarked " are one for each completed input, in order, with its path and
    channel counts; every other line is a diagnostic of the library *)
Theorem C80_lines_among_all_messages : forall w inputs suffix output, folder_ok os output ->
  exists completed rest (entries : list entry),
  inputs = completed ++ rest /\ (snd (process w inputs (Some suffix) output) = Done <-> rest = [])
  /\ snd (process w completed (Some suffix) output) = Done
  /\ announcements (messages_of_process w inputs (Some suffix) output) = map (fun '(path, n, t) => watermarked_line path n n t) entries /\ length entries = length completed
  /\ Forall (fun m => is_announcement m = true \/ labelled m) (messages_of_process w inputs (Some suffix) output)
  /\ forall before input after, completed = before ++ input :: after ->
     exists w1 picture path stem ext t, process w before (Some suffix) output = (w1, Done) /\ open_image os w1 input = Ok picture
       /\ names input stem ext /\ output_path os suffix output stem ext path /\ nth_error entries (length before) = Some (path, channel_count picture, t).
Proof.
  intros w inputs suffix output Hf. unfold Cli.process, Diagnostics.messages_of_process.
  destruct output as [o|]; [|exact (messages_inputs suffix None inputs w)]. destruct Hf as (Hk & Hm). rewrite Hm.
  destruct (messages_inputs suffix (Some o) inputs (mkWorld (content w) (o :: folders_requested w))) as (completed & rest & entries & H). exists completed, rest, entries.
  destruct (kind os o); [exact H|exact H|congruence].
Qed.

(** ** Standard output that breaks *)
Lemma until_enough suffix output : forall inputs w limit, (length (messages_of_inputs w inputs suffix output) <= limit)%nat ->
  process_inputs_until limit w inputs suffix output = (fst (process_inputs w inputs suffix output), Ended (snd (process_inputs w inputs suffix output))).
Proof.
  induction inputs as [|i r IH]; intros w limit H; [reflexivity|]. cbn [Cli.process_inputs Diagnostics.messages_of_inputs Diagnostics.process_inputs_until] in *. rewrite !app_length in H.
  destruct (Nat.ltb_spec limit (length (diagnostics_of_input w i))) as [Hl|Hl]; [lia|].
  destruct (process_input w i suffix output) as (w1, st) eqn:Ei. destruct st; try reflexivity.
  destruct (announcement_done w i suffix output w1 (clock (i :: r)) Ei) as (pic & path & stem & ext & _ & _ & _ & P4). rewrite P4 in H. cbn [length] in H.
  destruct (Nat.eqb_spec limit (length (diagnostics_of_input w i))) as [He|He]; [lia|]. apply IH. lia.
Qed.
Lemma until_broken suffix output : forall inputs w limit, (limit < length (messages_of_inputs w inputs suffix output))%nat ->
  let k := length (announcements (firstn (S limit) (messages_of_inputs w inputs suffix output))) in
  exists w1, process_inputs w (firstn k inputs) suffix output = (w1, Done) /\ process_inputs_until limit w inputs suffix output = (w1, OutputBroken).
Proof.
  induction inputs as [|i r IH]; intros w limit H; [cbn in H; lia|]. cbn [Cli.process_inputs Diagnostics.messages_of_inputs Diagnostics.process_inputs_until] in *. rewrite !app_length in H.
  pose proof (diagnostics_labelled w i) as Hd. revert H Hd. generalize (diagnostics_of_input w i). intros d H Hd.
  destruct (Nat.ltb_spec limit (length d)) as [Hl|Hl].
  - rewrite firstn_app. replace (S limit - length d)%nat with 0%nat by lia. rewrite firstn_O, app_nil_r.
    assert (N : announcements (firstn (S limit) d) = []).
    { apply no_announcement. apply Forall_forall. intros m Hm. apply (proj1 (Forall_forall _ _) Hd). rewrite <- (firstn_skipn (S limit) d). apply in_or_app. now left. }
    rewrite N. cbn [length firstn Cli.process_inputs]. exists w. split; reflexivity.
  - destruct (process_input w i suffix output) as (w1, st) eqn:Ei.
    assert (Hdone : st = Done) by (destruct st; try reflexivity; rewrite (announcement_not w i suffix output w1 _ _ Ei) in H by discriminate; cbn [length] in H; lia). subst st.
    destruct (announcement_done w i suffix output w1 (clock (i :: r)) Ei) as (pic & path & stem & ext & _ & _ & _ & P4). rewrite P4 in *. cbn [length] in H.
    rewrite firstn_app. rewrite (firstn_all2 d) by lia. rewrite announcements_app, (no_announcement d Hd). cbn [app].
    destruct (Nat.eqb_spec limit (length d)) as [He|He].
    + replace (S limit - length d)%nat with 1%nat by lia. cbn [firstn app]. cbn [announcements filter]. rewrite line_is_announcement. cbn [length firstn Cli.process_inputs]. rewrite Ei. exists w1. split; reflexivity.
    + replace (S limit - length d)%nat with (S (S (limit - length d - 1)))%nat by lia. rewrite firstn_cons. unfold announcements at 1. cbn [filter]. rewrite line_is_announcement. cbn [length firstn Cli.process_inputs]. rewrite Ei.
      apply (IH w1). lia.
Qed.

(** *** C94: if every message gets through, nothing changes *)
Theorem C94_output_that_holds : forall w inputs suffix output limit, (length (messages_of_process w inputs suffix output) <= limit)%nat ->
  process_until limit w inputs suffix output = (fst (process w inputs suffix output), Ended (snd (process w inputs suffix output))).
Proof.
  intros w inputs suffix output limit. unfold Diagnostics.messages_of_process, Diagnostics.process_until, Cli.process.
  destruct suffix as [s|]; [|cbn [length]; destruct limit; [lia|]; intros _; reflexivity]. destruct output as [o|]; [|apply until_enough].
  destruct (kind os o); [|destruct (can_make_folder os o); [apply until_enough|reflexivity]|cbn [length]; destruct limit; [lia|]; intros _; reflexivity].
  destruct (can_make_folder os o); [apply until_enough|reflexivity].
Qed.

(** *** C94: if it breaks after [limit] messages, the run stops there; the files are those of a run on the inputs whose line was reached - those whose
    line was printed, and the one whose line could not be printed any more, if it is the first lost message *)
Theorem C94_output_that_breaks : forall w inputs suffix output limit, folder_ok os output ->
  let messages := messages_of_process w inputs (Some suffix) output in
  (limit < length messages)%nat ->
  let printed_lines := length (announcements (firstn limit messages)) in
  exists finished w1, process w (firstn finished inputs) (Some suffix) output = (w1, Done)
    /\ process_until limit w inputs (Some suffix) output = (w1, OutputBroken)
    /\ (finished = printed_lines \/ finished = S printed_lines)
    /\ (finished = S printed_lines <-> exists lost, nth_error messages limit = Some lost /\ is_announcement lost = true).
Proof.
  intros w inputs suffix output limit Hf messages Hlt printed_lines.
  assert (M : exists w1, process w (firstn (length (announcements (firstn (S limit) messages))) inputs) (Some suffix) output = (w1, Done) /\ process_until limit w inputs (Some suffix) output = (w1, OutputBroken)).
  { subst messages. unfold Diagnostics.messages_of_process, Diagnostics.process_until, Cli.process in *. destruct output as [o|]; [|apply until_broken; exact Hlt].
    destruct Hf as (Hk & Hm). rewrite Hm in *. destruct (kind os o); [apply until_broken; exact Hlt|apply until_broken; exact Hlt|congruence]. }
  destruct M as (w1 & M1 & M2). exists (length (announcements (firstn (S limit) messages))), w1. split; [exact M1|]. split; [exact M2|].
  destruct (nth_error messages limit) as [lost|] eqn:En; [|apply nth_error_None in En; lia].
  assert (S1 : firstn (S limit) messages = firstn limit messages ++ [lost]).
  { clear - En. revert limit En. induction messages as [|m t IH]; intros [|l] En; cbn [nth_error] in En; try discriminate; [cbn [firstn app]; congruence|]. rewrite (firstn_cons (S l)), firstn_cons, (IH l En). reflexivity. }
  rewrite S1, announcements_app, app_length. fold printed_lines. unfold announcements. cbn [filter]. destruct (is_announcement lost) eqn:Ea; cbn [length].
  - split; [right; lia|]. split; [intros _; exists lost; auto|lia].
  - split; [left; lia|]. split; [lia|]. intros (l & El & Hl). congruence.
Qed.

(** *** C94: the two messages without a run: a broken output turns success, and the exit code 1, into a panic; the files are untouched either way *)
Theorem C94_messages_without_a_run : forall w inputs output limit,
  process_until limit w inputs None output = (w, if Nat.eqb limit 0 then OutputBroken else Ended Done)
  /\ (forall suffix folder, kind os folder = OtherKind -> process_until limit w inputs (Some suffix) (Some folder) = (w, if Nat.eqb limit 0 then OutputBroken else Ended (ExitCode 1))).
Proof. intros w inputs output limit. split; [reflexivity|]. intros suffix folder Hk. unfold Diagnostics.process_until. now rewrite Hk. Qed.
End Console.

(** ** Witnesses *)
(** A grey picture of 512x512 pixels prints 15 messages, whatever the texts of floats, bits and strings look like; the seventh and the eighth
    are the signed numbers' watermark and the hidden bytes. *)
Example C93_instance : forall D, exists marked payload,
  watermark_channel Bops Toy.toy_ldpc PropsProcess2.toy_ed (fun l => l) PropsProcess2.toy_features_f64 true (repeat false 8) PropsProcess2.grey512 (f_of_Z Bops 100) (f_of_Z Bops 1) 11 3 = Ok marked
  /\ let messages := fst (watermark_channel_logged Bops Toy.toy_ldpc PropsProcess2.toy_ed D (fun l => l) PropsProcess2.toy_features_f64 true (repeat false 8) PropsProcess2.grey512 (f_of_Z Bops 100) (f_of_Z Bops 1) 11 3) in
     length messages = 15%nat
     /\ nth_error messages 0 = Some (bytes_of_string "Zernike moments indices: [1, 3, 5, 7, 9, 11, 13, 15, 17, 19, 21]" ++ [10])
     /\ nth_error messages 7 = Some (bytes_of_string "watermark data: " ++ debug_ints payload ++ [10])
     /\ nth_error messages 8 = Some (bytes_of_string "domain capacity: 512 bytes" ++ [10]).
Proof.
  intros D. destruct PropsProcess2.C36_f64_instance as (marked & Em & _). exists marked.
  assert (Hn : Z.of_nat (gwidth PropsProcess2.grey512 * gheight PropsProcess2.grey512) < 2 ^ 53) by (change (Z.of_nat (512 * 512) < 2 ^ 53); rewrite Nat2Z.inj_mul; lia).
  destruct (C93_what_a_watermarked_channel_prints Bops Toy.toy_ldpc PropsProcess2.toy_ed D (fun l => l) PropsProcess2.toy_features_f64 true (repeat false 8) PropsProcess2.grey512 (f_of_Z Bops 100) (f_of_Z Bops 1) 11 3 marked Hn ltac:(lia) Em)
    as (px & fs & q & bits & sig & pl & fr & a & b & _ & _ & _ & _ & _ & _ & _ & _ & H).
  exists pl. split; [exact Em|]. cbn zeta in *. rewrite H. clear H.
  replace (gwidth PropsProcess2.grey512 / 2 ^ 3 * (gheight PropsProcess2.grey512 / 2 ^ 3) / 8)%nat with 512%nat by (vm_compute; reflexivity).
  split; [reflexivity|]. cbn [app nth_error]. split; [|split]; reflexivity.
Qed.

Lemma last_hit {A} (f : A -> bool) l n : length (filter f l) = S n ->
  exists i x, (i < length l)%nat /\ length (filter f (firstn i l)) = n /\ nth_error l i = Some x /\ f x = true.
Proof.
  revert n. induction l as [|a l IH] using rev_ind; intros n H; [discriminate H|]. rewrite filter_app, app_length in H. cbn [filter] in H. destruct (f a) eqn:Ea; cbn [length] in H.
  - exists (length l), a. rewrite app_length, firstn_app, firstn_all, Nat.sub_diag. cbn [firstn length]. rewrite app_nil_r. split; [lia|]. split; [lia|].
    split; [|exact Ea]. rewrite nth_error_app2 by lia. now rewrite Nat.sub_diag.
  - destruct (IH n) as (i & x & H1 & H2 & H3 & H4); [lia|]. exists i, x. rewrite app_length, firstn_app. replace (i - length l)%nat with 0%nat by lia. rewrite firstn_O, app_nil_r.
    split; [lia|]. split; [exact H2|]. split; [|exact H4]. now rewrite nth_error_app1.
Qed.

(** A run of several pictures with an output that breaks: at the first message nothing has been written; at the last line all files are there and one is not announced. *)
Lemma breaking_run {F} (O : FOps F) K E D equalize features_of checks pad {format} (os : platform format) clock w inputs suffix w' n :
  Cli.process O K E equalize features_of checks pad os w inputs (Some suffix) None = (w', Done) -> length inputs = S n ->
  (exists m t, messages_of_process O K E D equalize features_of checks pad os clock w inputs (Some suffix) None = m :: t /\ is_announcement m = false) ->
  let run_until limit := process_until O K E D equalize features_of checks pad os limit w inputs (Some suffix) None in
  let messages := messages_of_process O K E D equalize features_of checks pad os clock w inputs (Some suffix) None in
  length (announcements messages) = S n
  /\ run_until (length messages) = (w', Ended Done)
  /\ run_until 0%nat = (w, OutputBroken)
  /\ exists limit, (limit < length messages)%nat /\ run_until limit = (w', OutputBroken) /\ length (announcements (firstn limit messages)) = n.
Proof.
  intros Er Hn Hfirst. cbn zeta.
  destruct (C80_lines_among_all_messages O K E D equalize features_of checks pad os clock w inputs suffix None Logic.I) as (completed & rest & entries & H1 & H2 & H3 & H4 & H5 & H6 & _).
  pose proof (C94_output_that_holds O K E D equalize features_of checks pad os clock w inputs (Some suffix) None _ (le_n _)) as Hh.
  pose proof (C94_output_that_breaks O K E D equalize features_of checks pad os clock w inputs suffix None) as B. cbn zeta in B.
  revert H4 H6 Hh B Hfirst. generalize (messages_of_process O K E D equalize features_of checks pad os clock w inputs (Some suffix) None). intros messages H4 H6 Hh B (m & t & Emt & Hm).
  rewrite Er in H2. cbn [snd] in H2. assert (rest = []) by now apply H2. subst rest. rewrite app_nil_r in H1. subst completed.
  assert (L3 : length (announcements messages) = S n) by (rewrite H4, map_length, <- Hn; exact H5). split; [exact L3|]. rewrite Er in Hh. split; [exact Hh|]. split.
  - destruct (B 0%nat Logic.I) as (fin & w1 & Q1 & Q2 & Q3 & Q4); [rewrite Emt; cbn [length]; lia|]. rewrite Q2. f_equal. cbn [firstn announcements filter length] in Q3, Q4. destruct Q3 as [-> | ->].
    + cbn [firstn] in Q1. cbn [Cli.process Cli.process_inputs] in Q1. congruence.
    + destruct (proj1 Q4 eq_refl) as (lost & L1 & L2). rewrite Emt in L1. cbn [nth_error] in L1. congruence.
  - destruct (last_hit is_announcement messages n L3) as (limit & x & X1 & X2 & X3 & X4). exists limit. split; [exact X1|].
    destruct (B limit Logic.I X1) as (fin & w1 & Q1 & Q2 & Q3 & Q4). unfold announcements in *. rewrite X2 in *. assert (fin = S n) by (apply Q4; exists x; auto). subst fin.
    rewrite <- Hn, firstn_all, Er in Q1. split; [rewrite Q2; congruence|reflexivity].
Qed.
Lemma first_message {F} (O : FOps F) K E D equalize features_of checks pad {format} (os : platform format) clock w inputs suffix input picture result :
  open_image os w input = Ok picture -> Z.of_nat (fst (dimensions picture) * snd (dimensions picture)) < 2 ^ 53 ->
  watermark_image O K E equalize features_of checks pad picture (f_of_Z O 100) (f_of_Z O 1) 11 = Ok result ->
  exists m t, messages_of_process O K E D equalize features_of checks pad os clock w (input :: inputs) (Some suffix) None = m :: t /\ is_announcement m = false.
Proof.
  intros Ho Hd H. cbn [messages_of_process messages_of_inputs]. unfold diagnostics_of_input at 1. rewrite Ho.
  unfold watermark_logged, watermark_image, watermark in *. destruct (dimensions picture) as (iw, ih). cbn [fst snd] in Hd. apply bind_ok in H as (red & Hr & _).
  destruct (C93_what_a_watermarked_channel_prints O K E D equalize features_of checks pad (mkGray iw ih (channel_of true ch1 (get_pixels picture))) _ _ 11 DWT_LEVELS red Hd ltac:(lia) Hr)
    as (px & fs & q & bits & sig & pl & fr & a & b & _ & _ & _ & _ & _ & _ & _ & _ & Hm). cbn zeta in Hm.
  destruct (C93_printing_changes_nothing O K E D equalize features_of checks pad (mkGray iw ih (channel_of true ch1 (get_pixels picture))) (f_of_Z O 100) (f_of_Z O 1) 11 DWT_LEVELS picture) as (Hs & _).
  rewrite Hr in Hs. cbn zeta. rewrite (fst_lbind_ok _ _ red Hs). rewrite Hm. cbn [app]. eexists. eexists. split; [reflexivity|]. reflexivity.
Qed.
(** The run of C52_instance (three pictures). *)
Lemma toy_opens : open_image toy_os toy_world str_a_p = Ok PropsImage.colour512.
Proof. reflexivity. Qed.
Lemma toy_size : Z.of_nat (fst (dimensions PropsImage.colour512) * snd (dimensions PropsImage.colour512)) < 2 ^ 53.
Proof. change (dimensions PropsImage.colour512) with (512%nat, 512%nat). cbn [fst snd]. rewrite Nat2Z.inj_mul. lia. Qed.
Example C94_instance : forall D clock, exists w',
  let run := Cli.process Bops Toy.toy_ldpc PropsProcess2.toy_ed (fun l => l) PropsProcess2.toy_features_f64 true (repeat false 8) toy_os toy_world [str_a_p; str_q; str_b_p] (Some [119]) None in
  let run_until limit := process_until Bops Toy.toy_ldpc PropsProcess2.toy_ed D (fun l => l) PropsProcess2.toy_features_f64 true (repeat false 8) toy_os limit toy_world [str_a_p; str_q; str_b_p] (Some [119]) None in
  let messages := messages_of_process Bops Toy.toy_ldpc PropsProcess2.toy_ed D (fun l => l) PropsProcess2.toy_features_f64 true (repeat false 8) toy_os clock toy_world [str_a_p; str_q; str_b_p] (Some [119]) None in
  run = (w', Done) /\ content w' str_q_w = Some [8] /\ length (announcements messages) = 3%nat
  /\ run_until (length messages) = (w', Ended Done)
  /\ run_until 0%nat = (toy_world, OutputBroken)
  /\ exists limit, (limit < length messages)%nat /\ run_until limit = (w', OutputBroken) /\ length (announcements (firstn limit messages)) = 2%nat.
Proof.
  intros D clock. destruct C52_instance as (w' & Er & _ & Hq & _). exists w'. cbn zeta. split; [exact Er|]. split; [exact Hq|].
  destruct PropsImage.C42_C59_C60_instance as (m & Em & _).
  apply (breaking_run Bops Toy.toy_ldpc PropsProcess2.toy_ed D (fun l => l) PropsProcess2.toy_features_f64 true (repeat false 8) toy_os clock toy_world [str_a_p; str_q; str_b_p] [119] w' 2 Er eq_refl).
  apply (first_message Bops Toy.toy_ldpc PropsProcess2.toy_ed D (fun l => l) PropsProcess2.toy_features_f64 true (repeat false 8) toy_os clock toy_world [str_q; str_b_p] [119] str_a_p PropsImage.colour512 m toy_opens toy_size Em).
Qed.

Print Assumptions C93_every_message_is_labelled.
Print Assumptions C93_messages_give_the_payload_away.
Print Assumptions C80_lines_among_all_messages.
Print Assumptions C94_output_that_holds.
Print Assumptions C94_output_that_breaks.
Print Assumptions C94_messages_without_a_run.
