(** Property C80: what the command line tool prints (lib/sia/rust/cli/src/main.rs:16-110). *)
From Coq Require Import String Ascii.
From Verif Require Import Outcome Floats Bits Encoding Matrix Signature Process Image Cli PropsCli Getopts PropsCli2 Timer PropsTimer Console.
Open Scope Z_scope.
Open Scope list_scope.

(** ** The line can be read back *)
Definition OPEN := 40.
Fixpoint no_open (s : string) : bool := match s with EmptyString => true | String c t => negb (Z.of_N (N_of_ascii c) =? OPEN) && no_open t end.
Lemma no_open_bytes s : no_open s = true -> ~ In OPEN (bytes_of_string s).
Proof.
  induction s as [|c t IH]; cbn [no_open bytes_of_string]; [intros _ []|]. intros H. apply andb_prop in H as (H1 & H2). intros [H|H]; [|now apply IH].
  apply negb_true_iff, Z.eqb_neq in H1. congruence.
Qed.
Lemma no_open_app a b : no_open (a ++ b)%string = no_open a && no_open b.
Proof. induction a as [|c t IH]; [reflexivity|]. cbn [append no_open]. rewrite IH. apply andb_assoc. Qed.
Lemma digits_no_open s : all_digits s = true -> no_open s = true.
Proof.
  induction s as [|c t IH]; [reflexivity|]. cbn [all_digits no_open]. intros H. apply andb_prop in H as (H1 & H2). rewrite IH by exact H2. rewrite andb_true_r.
  apply negb_true_iff, Z.eqb_neq. unfold digit in H1. apply andb_prop in H1 as (H1 & _). apply Z.leb_le in H1. unfold OPEN. lia.
Qed.
Lemma show_no_open n : no_open (show n) = true.
Proof. apply digits_no_open, show_digits. Qed.
Lemma elapsed_no_open s n : no_open (fmt_elapsed s n) = true.
Proof.
  unfold fmt_elapsed, show02. repeat match goal with |- context [if ?b then _ else _] => destruct b end; rewrite ?no_open_app, ?show_no_open; reflexivity.
Qed.
Lemma last_open_split (a b a' b' : list Z) : ~ In OPEN b -> ~ In OPEN b' -> a ++ OPEN :: b = a' ++ OPEN :: b' -> a = a' /\ b = b'.
Proof.
  revert a'. induction a as [|x a IH]; intros a' Hb Hb' H.
  - destruct a' as [|y a']; cbn [app] in H; [split; congruence|]. elim Hb. assert (E : b = a' ++ OPEN :: b') by congruence. rewrite E. apply in_or_app. right. now left.
  - destruct a' as [|y a']; cbn [app] in H; [elim Hb'; assert (E : b' = a ++ OPEN :: b) by congruence; rewrite E; apply in_or_app; right; now left|].
    assert (x = y /\ a ++ OPEN :: b = a' ++ OPEN :: b') as (-> & E) by (split; congruence). destruct (IH a' Hb Hb' E) as (-> & ->). split; reflexivity.
Qed.
Definition after_open (before after : Z) (elapsed : Z * Z) : list Z :=
  bytes_of_string (show before) ++ bytes_of_string " -> " ++ bytes_of_string (show after) ++ bytes_of_string " channels) in " ++ bytes_of_string (fmt_elapsed (fst elapsed) (snd elapsed)) ++ newline.
Lemma line_split path n m t : watermarked_line path n m t = (bytes_of_string "Watermarked " ++ path ++ [32]) ++ OPEN :: after_open n m t.
Proof. unfold watermarked_line, after_open. rewrite <- !app_assoc. reflexivity. Qed.
Lemma after_open_no n m t : ~ In OPEN (after_open n m t).
Proof.
  unfold after_open. intros H. repeat (apply in_app_or in H as [H|H]); revert H; try (apply no_open_bytes; first [apply show_no_open | apply elapsed_no_open | reflexivity]).
  intros [H|[]]. discriminate H.
Qed.
Lemma bytes_of_string_app a b : bytes_of_string (a ++ b)%string = bytes_of_string a ++ bytes_of_string b.
Proof. induction a as [|c t IH]; [reflexivity|]. cbn [append bytes_of_string app]. now rewrite IH. Qed.
Lemma bytes_of_string_inj a b : bytes_of_string a = bytes_of_string b -> a = b.
Proof.
  revert b. induction a as [|c t IH]; intros [|d u] H; cbn [bytes_of_string] in H; try discriminate; [reflexivity|].
  assert (E1 : Z.of_N (N_of_ascii c) = Z.of_N (N_of_ascii d) /\ bytes_of_string t = bytes_of_string u) by (split; congruence). destruct E1 as (E1 & E2).
  apply N2Z.inj in E1. rewrite <- (ascii_N_embedding c), <- (ascii_N_embedding d), E1. now rewrite (IH u E2).
Qed.
Lemma digits_space (a b a' b' : list Z) : ~ In 32 a -> ~ In 32 a' -> a ++ 32 :: b = a' ++ 32 :: b' -> a = a' /\ b = b'.
Proof.
  revert a'. induction a as [|x a IH]; intros [|y a'] Ha Ha' H; cbn [app] in H.
  - split; congruence.
  - elim Ha'. left. congruence.
  - elim Ha. left. congruence.
  - assert (x = y /\ a ++ 32 :: b = a' ++ 32 :: b') as (-> & E) by (split; congruence). destruct (IH a') as (-> & ->); [intros Hi; apply Ha; now right|intros Hi; apply Ha'; now right|exact E|]. split; reflexivity.
Qed.
Lemma show_no_space n : ~ In 32 (bytes_of_string (show n)).
Proof.
  pose proof (show_digits n) as H. revert H. generalize (show n). intros s. induction s as [|c t IH]; cbn [bytes_of_string all_digits]; [intros _ []|].
  intros H. apply andb_prop in H as (H1 & H2). intros [Hc|Hc]; [|now apply IH]. unfold digit in H1. rewrite Hc in H1. discriminate H1.
Qed.

(** *** C80: a line says which file was written, and how many channels, whatever characters the path contains *)
Theorem C80_a_line_can_be_read_back : forall path n m t path' n' m' t', 0 <= n -> 0 <= n' -> 0 <= m -> 0 <= m' ->
  watermarked_line path n m t = watermarked_line path' n' m' t' ->
  path = path' /\ n = n' /\ m = m' /\ fmt_elapsed (fst t) (snd t) = fmt_elapsed (fst t') (snd t').
Proof.
  intros path n m t path' n' m' t' Hn Hn' Hm Hm' H. rewrite !line_split in H. apply last_open_split in H as (H1 & H2); try apply after_open_no.
  apply app_inv_head in H1. apply app_inv_tail in H1. split; [exact H1|]. unfold after_open in H2.
  change (bytes_of_string " -> ") with (32 :: [45; 62; 32]) in H2. cbn [app] in H2. apply digits_space in H2 as (E1 & H2); try apply show_no_space.
  assert (H3 : bytes_of_string (show m) ++ bytes_of_string " channels) in " ++ bytes_of_string (fmt_elapsed (fst t) (snd t)) ++ newline
             = bytes_of_string (show m') ++ bytes_of_string " channels) in " ++ bytes_of_string (fmt_elapsed (fst t') (snd t')) ++ newline) by congruence.
  change (bytes_of_string " channels) in ") with (32 :: bytes_of_string "channels) in ") in H3. cbn [app] in H3. apply digits_space in H3 as (E2 & H3); try apply show_no_space.
  apply app_inv_head in H3. apply app_inv_tail in H3. apply bytes_of_string_inj in E1, E2, H3.
  assert (I : forall a b, 0 <= a -> 0 <= b -> show a = show b -> a = b).
  { intros a b Ha Hb Hs. pose proof (digits_value_show a Ha) as Va. pose proof (digits_value_show b Hb) as Vb. rewrite Hs, Vb in Va. congruence. }
  split; [now apply I|]. split; [now apply I|exact H3].
Qed.

Section Props.
Context {F : Type} (O : FOps F) (K : ldpc) (E : ed25519) (equalize : list Z -> list Z)
  (features_of : array2 Z -> nat -> outcome (list F)) (checks : bool) (pad : list bool) {format : Type} (os : platform format)
  (layout : list Z -> list Z) (clock : list (list Z) -> Z * Z).
Notation process := (Cli.process O K E equalize features_of checks pad os).
Notation process_inputs := (Cli.process_inputs O K E equalize features_of checks pad os).
Notation process_input := (Cli.process_input O K E equalize features_of checks pad os).
Notation prepare := (Cli.prepare O K E equalize features_of checks pad os).
Notation run := (Getopts.run O K E equalize features_of checks pad os).
Notation lines_of_input := (Console.lines_of_input O K E equalize features_of checks pad os).
Notation lines_of_inputs := (Console.lines_of_inputs O K E equalize features_of checks pad os clock).
Notation printed_by_process := (Console.printed_by_process O K E equalize features_of checks pad os clock).
Notation printed := (Console.printed O K E equalize features_of checks pad os layout clock).

(** The library never changes the number of channels. *)
Lemma watermark_channels image depth step amount result : watermark_image O K E equalize features_of checks pad image depth step amount = Ok result ->
  channel_count result = channel_count image.
Proof.
  unfold watermark_image, watermark, channel_count. destruct (dimensions image) as (w, h). intros H. apply bind_ok in H as (r & _ & H). apply bind_ok in H as (g & _ & H). apply bind_ok in H as (b & _ & H).
  destruct (has_color image), (has_alpha image); cbn [negb andb] in H;
  match type of H with Ok ?v = Ok _ => assert (Ev : result = v) by congruence end; rewrite Ev; reflexivity.
Qed.

Lemma process_input_done w input suffix output w1 t : process_input w input suffix output = (w1, Done) ->
  exists picture path stem ext, open_image os w input = Ok picture /\ names input stem ext /\ output_path os suffix output stem ext path
    /\ lines_of_input w input suffix output t = watermarked_line path (channel_count picture) (channel_count picture) t.
Proof.
  intros H. unfold Console.lines_of_input. rewrite H. unfold Cli.process_input in H.
  destruct (prepare w input suffix output) as [(marked, path)| |] eqn:Ep; try discriminate H.
  destruct (prepare_output _ _ _ _ _ _ _ _ _ _ _ _ _ _ Ep) as (stem & ext & Hn & Ho).
  unfold Cli.prepare in Ep. destruct (open_image os w input) as [picture| |] eqn:Ei; cbn [bind] in Ep; try discriminate Ep.
  destruct (watermark_image _ _ _ _ _ _ _ picture _ _ _) as [m| |] eqn:Em; cbn [bind] in Ep; try discriminate Ep.
  assert (m = marked).
  { destruct (file_stem input); cbn [unwrap bind] in Ep; [|discriminate]. destruct (extension input); cbn [unwrap bind] in Ep; [|discriminate].
    destruct output as [o|]; [destruct (canonical os o); [|discriminate Ep]|]; congruence. }
  subst m. apply watermark_channels in Em. exists picture, path, stem, ext. rewrite Em. auto.
Qed.

Definition entry : Type := list Z * Z * (Z * Z).
Definition line_of (e : entry) : list Z := let '(path, n, t) := e in watermarked_line path n n t.

Lemma lines_inputs suffix output : forall inputs w, exists completed rest (entries : list entry),
  inputs = completed ++ rest /\ (snd (process_inputs w inputs suffix output) = Done <-> rest = [])
  /\ snd (process_inputs w completed suffix output) = Done
  /\ lines_of_inputs w inputs suffix output = concat (map line_of entries) /\ length entries = length completed
  /\ forall before input after, completed = before ++ input :: after ->
     exists w1 picture path stem ext t, process_inputs w before suffix output = (w1, Done) /\ open_image os w1 input = Ok picture
       /\ names input stem ext /\ output_path os suffix output stem ext path /\ nth_error entries (length before) = Some (path, channel_count picture, t).
Proof.
  induction inputs as [|i r IH]; intros w.
  - exists [], [], []. repeat split; try reflexivity; try (intros [|? ?] ? ? Heq; discriminate Heq).
  - cbn [Cli.process_inputs Console.lines_of_inputs]. destruct (process_input w i suffix output) as (w1, st) eqn:Ei.
    assert (Stop : st <> Done -> exists completed rest (entries : list entry), i :: r = completed ++ rest /\ (st = Done <-> rest = [])
      /\ snd (process_inputs w completed suffix output) = Done /\ lines_of_input w i suffix output (clock (i :: r)) = concat (map line_of entries) /\ length entries = length completed
      /\ forall before input after, completed = before ++ input :: after ->
        exists w1 picture path stem ext t, process_inputs w before suffix output = (w1, Done) /\ open_image os w1 input = Ok picture
       /\ names input stem ext /\ output_path os suffix output stem ext path /\ nth_error entries (length before) = Some (path, channel_count picture, t)).
    { intros Hst. exists [], (i :: r), []. split; [reflexivity|]. split; [split; [congruence|discriminate]|]. split; [reflexivity|]. split.
      - unfold Console.lines_of_input. rewrite Ei. destruct (open_image os w i); try reflexivity. destruct (prepare w i suffix output) as [(m, p)| |]; try reflexivity.
        destruct st; try reflexivity. congruence.
      - split; [reflexivity|]. intros [|? ?] ? ? Heq; discriminate Heq. }
    destruct st; try (rewrite app_nil_r; apply Stop; discriminate). clear Stop.
    destruct (process_input_done w i suffix output w1 (clock (i :: r)) Ei) as (pic & path & stem & ext & P1 & P2 & P3 & P4).
    destruct (IH w1) as (completed & rest & entries & H1 & H2 & H3 & H4 & H5 & H6).
    exists (i :: completed), rest, ((path, channel_count pic, clock (i :: r)) :: entries). rewrite H1 at 1. split; [reflexivity|]. split; [exact H2|].
    cbn [Cli.process_inputs]. rewrite Ei. split; [exact H3|]. split; [rewrite P4, H4; reflexivity|]. split; [cbn [length]; now rewrite H5|].
    intros [|b before] input after Heq.
    + cbn [app] in Heq. assert (input = i) by congruence. subst input. exists w, pic, path, stem, ext, (clock (i :: r)). repeat split; auto.
    + cbn [app] in Heq. assert (b = i /\ completed = before ++ input :: after) as (-> & Hc) by (split; congruence).
      destruct (H6 before input after Hc) as (w2 & pic2 & path2 & stem2 & ext2 & t2 & Q1 & Q2 & Q3 & Q4 & Q5). exists w2, pic2, path2, stem2, ext2, t2.
      cbn [Cli.process_inputs]. rewrite Ei. auto.
Qed.

(** *** C80: one line for each input that was completed, in the order of the inputs, naming its output file and twice the channel count of
    its picture; the tool itself prints nothing else (the library's diagnostics in between: C80_lines_among_all_messages).  So whatever stops a run, the lines tell exactly which inputs were finished. *)
Theorem C80_one_line_per_completed_input : forall w inputs suffix output, folder_ok os output ->
  exists completed rest (entries : list entry),
  inputs = completed ++ rest /\ (snd (process w inputs (Some suffix) output) = Done <-> rest = [])
  /\ snd (process w completed (Some suffix) output) = Done
  /\ printed_by_process w inputs (Some suffix) output = concat (map (fun '(path, n, t) => watermarked_line path n n t) entries) /\ length entries = length completed
  /\ forall before input after, completed = before ++ input :: after ->
     exists w1 picture path stem ext t, process w before (Some suffix) output = (w1, Done) /\ open_image os w1 input = Ok picture
       /\ names input stem ext /\ output_path os suffix output stem ext path /\ nth_error entries (length before) = Some (path, channel_count picture, t).
Proof.
  intros w inputs suffix output Hf. unfold Cli.process, Console.printed_by_process.
  destruct output as [o|]; [|exact (lines_inputs suffix None inputs w)]. destruct Hf as (Hk & Hm). rewrite Hm.
  destruct (lines_inputs suffix (Some o) inputs (mkWorld (content w) (o :: folders_requested w))) as (completed & rest & entries & H). exists completed, rest, entries.
  destruct (kind os o); [exact H|exact H|congruence].
Qed.

(** *** C80: the other messages, and that they come with no effect on the files *)
Theorem C80_messages_without_effect : forall w program args,
  (parse args = None -> printed w (program :: args) = [] /\ run w (program :: args) = (w, Panicked UnwrapErr))
  /\ (forall m, parse args = Some m -> opt_h m = true \/ free m = [] -> printed w (program :: args) = layout (usage_brief program) /\ run w (program :: args) = (w, Done))
  /\ (forall m, parse args = Some m -> opt_h m = false -> free m <> [] -> opt_s m = None ->
        printed w (program :: args) = bytes_of_string "No output image" ++ [10] /\ run w (program :: args) = (w, Done))
  /\ (forall m suffix output, parse args = Some m -> opt_h m = false -> free m <> [] -> opt_s m = Some suffix -> opt_o m = Some output -> kind os output = OtherKind ->
        printed w (program :: args) = output ++ bytes_of_string " is not a folder" ++ [10] /\ run w (program :: args) = (w, ExitCode 1)).
Proof.
  intros w program args. unfold Console.printed, Getopts.run, main, Console.printed_by_process, Cli.process. split; [intros ->; split; reflexivity|]. split; [|split].
  - intros m -> [-> | Hf]; [split; reflexivity|]. rewrite Hf. destruct (opt_h m); split; reflexivity.
  - intros m -> -> Hf ->. destruct (free m); [congruence|]. split; reflexivity.
  - intros m suffix output -> -> Hf -> -> Hk. destruct (free m); [congruence|]. rewrite Hk. split; reflexivity.
Qed.
End Props.

(** ** Witnesses *)
Example C80_line_instance : watermarked_line str_p_w 3 3 (1, 250000000) = bytes_of_string ("Watermarked p-w.png (3 -> 3 channels) in 1.25 s
").
Proof. reflexivity. Qed.
(** the run of C52_instance - three pictures - prints three lines, the first and the last about the same file *)
Example C80_instance : forall clock, exists entries : list entry,
  Console.printed_by_process Bops Toy.toy_ldpc PropsProcess2.toy_ed (fun l => l) PropsProcess2.toy_features_f64 true (repeat false 8) toy_os clock toy_world [str_a_p; str_q; str_b_p] (Some [119]) None
    = concat (map (fun '(path, n, t) => watermarked_line path n n t) entries)
  /\ length entries = 3%nat /\ map (fun '(path, _, _) => path) entries = [str_p_w; str_q_w; str_p_w].
Proof.
  intros clock. destruct C52_instance as (w1 & Er & _).
  destruct (C80_one_line_per_completed_input Bops Toy.toy_ldpc PropsProcess2.toy_ed (fun l => l) PropsProcess2.toy_features_f64 true (repeat false 8) toy_os clock toy_world [str_a_p; str_q; str_b_p] [119] None Logic.I)
    as (completed & rest & entries & H1 & H2 & H3 & H4 & H5 & H6).
  rewrite Er in H2. cbn [snd] in H2. assert (rest = []) by now apply H2. subst rest. rewrite app_nil_r in H1. subst completed. exists entries. split; [exact H4|]. split; [exact H5|].
  destruct entries as [|[[p1 n1] t1] [|[[p2 n2] t2] [|[[p3 n3] t3] [|? ?]]]]; try discriminate H5. cbn [map].
  assert (G : forall before input after stem ext, [str_a_p; str_q; str_b_p] = before ++ input :: after -> names input stem ext ->
     exists n t, nth_error [(p1, n1, t1); (p2, n2, t2); (p3, n3, t3)] (length before) = Some (output_name [119] stem ext, n, t)).
  { intros before input after stem ext Heq Hn. destruct (H6 before input after Heq) as (w2 & pic & path & st & ex & t & _ & _ & Hn' & Ho & He).
    destruct (names_unique _ _ _ _ _ Hn Hn') as (<- & <-). exists (channel_count pic), t. cbn [output_path] in Ho. subst path. exact He. }
  destruct (G [] str_a_p [str_q; str_b_p] _ _ eq_refl names_a_p) as (m1 & u1 & G1). destruct (G [str_a_p] str_q [str_b_p] _ _ eq_refl names_q) as (m2 & u2 & G2).
  destruct (G [str_a_p; str_q] str_b_p [] _ _ eq_refl names_b_p) as (m3 & u3 & G3). cbn [length nth_error] in G1, G2, G3.
  assert (p1 = output_name [119] [112] str_png) by congruence. assert (p2 = output_name [119] [113] str_bmp) by congruence. assert (p3 = output_name [119] [112] str_png) by congruence.
  subst p1 p2 p3. reflexivity.
Qed.

(** ** What the printed number counts *)
(** The values stored for a picture of an 8-bit layout, pixel by pixel. *)
Definition stored_values (picture : dynimage) : list Z :=
  match picture with
  | ImageLuma8 _ _ px => px
  | ImageLumaA8 _ _ px => concat (map (fun '(v, a) => [v; a]) px)
  | ImageRgb8 _ _ px => concat (map (fun '(r, g, b) => [r; g; b]) px)
  | ImageRgba8 _ _ px => concat (map (fun '(r, g, b, a) => [r; g; b; a]) px)
  | ImageOther _ _ _ _ _ => []
  end.
Definition eight_bit (picture : dynimage) : Prop := match picture with ImageOther _ _ _ _ _ => False | _ => True end.
(** The number printed is the number of values stored per pixel; other layouts (16 bits, floats) count like the 8-bit layout with the same
    colour and alpha. *)
Theorem C80_the_number_counts_the_values_per_pixel : forall picture,
  (eight_bit picture -> Z.of_nat (length (stored_values picture)) = channel_count picture * Z.of_nat (length (get_pixels picture)))
  /\ (forall other, has_color other = has_color picture -> has_alpha other = has_alpha picture -> channel_count other = channel_count picture).
Proof.
  intros p. split; [|intros o H1 H2; unfold channel_count; now rewrite H1, H2].
  assert (L : forall A (f : A -> list Z) k px, (forall x, length (f x) = k) -> Z.of_nat (length (concat (map f px))) = Z.of_nat k * Z.of_nat (length px)).
  { intros A f k px Hf. induction px as [|x t IH]; cbn [map concat length]; [lia|]. rewrite app_length, Hf. lia. }
  destruct p as [w h px|w h px|w h px|w h px|c a w h px]; intros Hb; cbn [stored_values get_pixels]; rewrite ?map_length; try (destruct Hb).
  - change (channel_count _) with 1. lia.
  - change (channel_count _) with (Z.of_nat 2). apply L. intros (? & ?). reflexivity.
  - change (channel_count _) with (Z.of_nat 3). apply L. intros ((? & ?) & ?). reflexivity.
  - change (channel_count _) with (Z.of_nat 4). apply L. intros (((? & ?) & ?) & ?). reflexivity.
Qed.

Print Assumptions C80_a_line_can_be_read_back.
Print Assumptions C80_one_line_per_completed_input.
Print Assumptions C80_messages_without_effect.
Print Assumptions C80_the_number_counts_the_values_per_pixel.
