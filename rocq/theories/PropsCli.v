(** C52, C53: what the command line tool writes and what it leaves alone. *)
From Verif Require Import Outcome Floats Bits Encoding Matrix Signature Process Image Cli.
From Verif Require Toy PropsProcess2 PropsImage.
Open Scope Z_scope.

(** ** Specification vocabulary: names of files *)
Definition no_slash (l : list Z) := ~ In SLASH l.
Definition no_dot (l : list Z) := ~ In DOT l.
(** nothing, or the name of a folder followed by a slash *)
Definition folder_part (dir : list Z) := dir = [] \/ exists d, dir = d ++ [SLASH].
(** trailing "/" and "/." pieces, which do not count *)
Inductive blank : list Z -> Prop :=
| blank_nil : blank []
| blank_slash : forall t, blank t -> blank (SLASH :: t)
| blank_dot : forall t, blank t -> blank (SLASH :: DOT :: t).
(** [path] is FOLDER/STEM.EXT, perhaps with trailing slashes. *)
Definition names (path stem ext : list Z) : Prop := exists dir trail,
  path = dir ++ (stem ++ [DOT] ++ ext) ++ trail /\ folder_part dir /\ blank trail
  /\ stem <> [] /\ no_slash stem /\ no_slash ext /\ no_dot ext /\ stem ++ [DOT] ++ ext <> [DOT; DOT].

(** ** File names *)
Lemma bytes_eqb_spec a b : bytes_eqb a b = true <-> a = b.
Proof. unfold bytes_eqb. destruct (list_eq_dec Z.eq_dec a b); split; congruence. Qed.
Lemma bytes_eqb_neq a b : a <> b -> bytes_eqb a b = false.
Proof. intros H. unfold bytes_eqb. destruct (list_eq_dec Z.eq_dec a b); congruence. Qed.
Lemma bytes_eqb_refl a : bytes_eqb a a = true.
Proof. now apply bytes_eqb_spec. Qed.

Lemma split_slash_nonempty l : split_slash l <> [].
Proof. destruct l as [|c t]; cbn [split_slash]; [discriminate|]. destruct (c =? SLASH); [discriminate|]. destruct (split_slash t); discriminate. Qed.
Lemma split_slash_app a b : split_slash (a ++ SLASH :: b) = split_slash a ++ split_slash b.
Proof.
  induction a as [|c a IH]; [reflexivity|]. cbn [app split_slash]. rewrite IH. destruct (c =? SLASH); [reflexivity|].
  pose proof (split_slash_nonempty a). destruct (split_slash a); [congruence|reflexivity].
Qed.
Lemma split_slash_whole a : no_slash a -> split_slash a = [a].
Proof.
  induction a as [|c a IH]; intros H; [reflexivity|]. cbn [split_slash]. destruct (c =? SLASH) eqn:Ec; [elim H; left; lia|].
  rewrite IH by (intros Hi; apply H; now right). reflexivity.
Qed.
Lemma components_app a b : components (a ++ SLASH :: b) = components a ++ components b.
Proof. unfold components. now rewrite split_slash_app, filter_app. Qed.
Lemma components_app2 a b : components ((a ++ [SLASH]) ++ b) = components a ++ components b.
Proof. rewrite <- app_assoc. apply components_app. Qed.
Lemma components_whole a : no_slash a -> components a = if bytes_eqb a [] || bytes_eqb a [DOT] then [] else [a].
Proof. intros H. unfold components. rewrite split_slash_whole by exact H. cbn [filter]. now destruct (bytes_eqb a [] || bytes_eqb a [DOT]). Qed.
Lemma components_blank t : blank t -> forall x, components (x ++ t) = components x.
Proof.
  induction 1 as [|t B IH|t B IH]; intros x; [now rewrite app_nil_r| |]; rewrite components_app.
  - specialize (IH []). cbn [app] in IH. rewrite IH. apply app_nil_r.
  - specialize (IH [DOT]). cbn [app] in IH. rewrite IH. apply app_nil_r.
Qed.
Lemma blank_app s t : blank s -> blank t -> blank (s ++ t).
Proof. induction 1; intros; cbn [app]; [assumption|apply blank_slash; auto|apply blank_dot; auto]. Qed.

Lemma file_name_intro dir name trail : folder_part dir -> blank trail -> no_slash name -> name <> [] -> name <> [DOT] -> name <> [DOT; DOT] ->
  file_name (dir ++ name ++ trail) = Some name.
Proof.
  intros Hd Hb Hs H0 H1 H2. unfold file_name.
  assert (C : exists front, components (dir ++ name ++ trail) = front ++ [name]).
  { rewrite app_assoc, components_blank by exact Hb.
    assert (W : components name = [name]) by (rewrite components_whole by exact Hs; now rewrite !bytes_eqb_neq).
    destruct Hd as [ -> | (d & ->) ]; [exists []; exact W|]. exists (components d). now rewrite components_app2, W. }
  destruct C as (front & ->). rewrite rev_unit. now rewrite bytes_eqb_neq.
Qed.

Lemma last_slash l : no_slash l \/ exists a b, l = a ++ SLASH :: b /\ no_slash b.
Proof.
  induction l as [|c t IH]; [left; intros []|]. destruct IH as [H | (a & b & -> & Hb)].
  - destruct (Z.eq_dec c SLASH) as [ -> | Hc ]; [right; exists [], t; now split|]. left. intros [Hi | Hi]; [congruence|now apply H].
  - right. exists (c :: a), b. now split.
Qed.
Lemma file_name_elim path name : file_name path = Some name -> exists dir trail,
  path = dir ++ name ++ trail /\ folder_part dir /\ blank trail /\ no_slash name /\ name <> [] /\ name <> [DOT] /\ name <> [DOT; DOT].
Proof.
  remember (length path) as n eqn:En. revert path En. induction n as [n IH] using lt_wf_ind. intros path -> H.
  assert (Tail : forall dir b, folder_part dir -> no_slash b -> components b = [b] -> file_name (dir ++ b) = Some name -> b = name /\ name <> [] /\ name <> [DOT] /\ name <> [DOT; DOT]).
  { intros dir b Hd Hb Hc Hn.
    assert (C : exists front, components (dir ++ b) = front ++ [b]).
    { destruct Hd as [ -> | (d & ->) ]; [now exists []|]. exists (components d). now rewrite components_app2, Hc. }
    destruct C as (front & C). unfold file_name in Hn. rewrite C, rev_unit in Hn. destruct (bytes_eqb b [DOT; DOT]) eqn:Edd; [discriminate|].
    assert (b = name) by congruence. subst name. split; [reflexivity|].
    rewrite components_whole in Hc by exact Hb. destruct (bytes_eqb b []) eqn:E0; [discriminate|]. destruct (bytes_eqb b [DOT]) eqn:E1; [discriminate|].
    repeat split; intros ->; rewrite bytes_eqb_refl in *; discriminate. }
  destruct (last_slash path) as [Hp | (a & b & Ep & Hb)].
  - destruct (bytes_eqb path [] || bytes_eqb path [DOT]) eqn:Ew.
    + unfold file_name in H. rewrite components_whole, Ew in H by exact Hp. discriminate.
    + destruct (Tail [] path) as (-> & T); [now left|exact Hp|rewrite components_whole by exact Hp; now rewrite Ew|exact H|].
      exists [], []. rewrite app_nil_r. repeat split; try constructor; try apply T; auto.
  - destruct (bytes_eqb b [] || bytes_eqb b [DOT]) eqn:Ew.
    + assert (C : components path = components a) by (rewrite Ep, components_app, (components_whole b), Ew by exact Hb; apply app_nil_r).
      assert (Ha : file_name a = Some name) by (unfold file_name in *; now rewrite C in H).
      destruct (IH (length a)) with (path := a) as (dir & trail & Ea & Hd & Ht & Hrest); [rewrite Ep, app_length; cbn [length]; lia|reflexivity|exact Ha|].
      exists dir, (trail ++ SLASH :: b). split; [rewrite Ep, Ea; now rewrite <- !app_assoc|]. split; [exact Hd|]. split; [|exact Hrest].
      apply blank_app; [exact Ht|]. apply orb_prop in Ew. destruct Ew as [Ew | Ew]; apply bytes_eqb_spec in Ew; subst b; [apply blank_slash, blank_nil|apply blank_dot, blank_nil].
    + destruct (Tail (a ++ [SLASH]) b) as (-> & T); [right; now exists a|exact Hb|rewrite components_whole by exact Hb; now rewrite Ew|rewrite <- app_assoc; cbn [app]; now rewrite <- Ep|].
      exists (a ++ [SLASH]), []. rewrite app_nil_r, <- app_assoc. split; [exact Ep|]. split; [right; now exists a|]. split; [constructor|]. split; [exact Hb|exact T].
Qed.

Lemma rsplit_dot_intro a b : no_dot b -> rsplit_dot (a ++ DOT :: b) = Some (a, b).
Proof.
  intros Hb. induction a as [|c a IH]; cbn [app rsplit_dot].
  - assert (N : rsplit_dot b = None).
    { clear -Hb. induction b as [|c b IH]; [reflexivity|]. cbn [rsplit_dot]. rewrite IH by (intros Hi; apply Hb; now right).
      destruct (c =? DOT) eqn:Ec; [elim Hb; left; lia|reflexivity]. }
    rewrite N. reflexivity.
  - now rewrite IH.
Qed.
Lemma rsplit_dot_elim l a b : rsplit_dot l = Some (a, b) -> l = a ++ DOT :: b /\ no_dot b.
Proof.
  revert a b. induction l as [|c l IH]; intros a b H; [discriminate|]. cbn [rsplit_dot] in H. destruct (rsplit_dot l) as [(b', a')|] eqn:El.
  - assert (E : c :: b' = a /\ a' = b) by (split; congruence). destruct E as (<- & <-). destruct (IH _ _ eq_refl) as (-> & Hn). now split.
  - destruct (c =? DOT) eqn:Ec; [|discriminate]. assert (E : [] = a /\ l = b) by (split; congruence). destruct E as (<- & <-). apply Z.eqb_eq in Ec. subst c. split; [reflexivity|].
    clear IH H. induction l as [|c l IH]; [intros []|]. cbn [rsplit_dot] in El. destruct (rsplit_dot l) as [(?, ?)|]; [discriminate|]. destruct (c =? DOT) eqn:Ec; [discriminate|].
    intros [Hi | Hi]; [lia|]. now apply IH.
Qed.

(** [Path::file_stem] and [Path::extension] both exist exactly for names FOLDER/STEM.EXT. *)
Lemma names_iff path stem ext : names path stem ext <-> file_stem path = Some stem /\ extension path = Some ext.
Proof.
  unfold file_stem, extension. split.
  - intros (dir & trail & -> & Hd & Ht & H0 & Hs & He & Hdot & Hdd).
    rewrite file_name_intro; try assumption.
    + cbn [app]. rewrite rsplit_dot_intro by exact Hdot. destruct stem; [congruence|now split].
    + intros Hi. rewrite !in_app_iff in Hi. destruct Hi as [Hi | [ [Hi | [] ] | Hi ]]; [now apply Hs|discriminate|now apply He].
    + destruct stem; discriminate.
    + intros Eq. destruct stem as [|c s]; [congruence|]. destruct s; discriminate.
  - intros (H1 & H2). destruct (file_name path) as [name|] eqn:En; [|discriminate].
    destruct (file_name_elim _ _ En) as (dir & trail & -> & Hd & Ht & Hs & _ & _ & Hdd).
    destruct (rsplit_dot name) as [(b, a)|] eqn:Er; [|discriminate]. destruct (rsplit_dot_elim _ _ _ Er) as (-> & Ha).
    destruct b as [|c b]; [discriminate|]. assert (E : c :: b = stem /\ a = ext) by (split; congruence). destruct E as (<- & <-).
    exists dir, trail. split; [reflexivity|]. split; [exact Hd|]. split; [exact Ht|]. split; [discriminate|].
    split; [intros Hi; apply Hs; apply in_or_app; now left|]. split; [intros Hi; apply Hs; apply in_or_app; right; now right|]. split; [exact Ha|exact Hdd].
Qed.

Lemma names_unique path s1 e1 s2 e2 : names path s1 e1 -> names path s2 e2 -> s1 = s2 /\ e1 = e2.
Proof. rewrite !names_iff. intros (A & B) (C & D). split; congruence. Qed.

Section Props.
Context {F : Type} (O : FOps F) (K : ldpc) (E : ed25519) (equalize : list Z -> list Z)
  (features_of : array2 Z -> nat -> outcome (list F)) (checks : bool) (pad : list bool) {format : Type} (os : platform format).
Notation process := (process O K E equalize features_of checks pad os).
Notation process_inputs := (process_inputs O K E equalize features_of checks pad os).
Notation process_input := (process_input O K E equalize features_of checks pad os).
Notation prepare := (prepare O K E equalize features_of checks pad os).
Notation main := (main O K E equalize features_of checks pad os).

(** ** Specification vocabulary: the output of an input *)
(** STEM-SUFFIX.EXT in the output folder if there is one *)
Definition output_name (suffix stem ext : list Z) : list Z := stem ++ [HYPHEN] ++ suffix ++ [DOT] ++ ext.
Definition output_path (suffix : list Z) (output : option (list Z)) (stem ext path : list Z) : Prop :=
  match output with
  | None => path = output_name suffix stem ext
  | Some o => exists folder, canonical os o = Some folder /\ path = folder ++ [SLASH] ++ output_name suffix stem ext
  end.
(** the file at [location] is the output of [input] *)
Definition output_location (suffix : list Z) (output : option (list Z)) (input location : list Z) : Prop :=
  exists stem ext path, names input stem ext /\ output_path suffix output stem ext path /\ location = locate os path.

Lemma prepare_output w input suffix output picture path : prepare w input suffix output = Ok (picture, path) ->
  exists stem ext, names input stem ext /\ output_path suffix output stem ext path.
Proof.
  unfold Cli.prepare. destruct (open_image os w input) as [i| |]; cbn [bind]; try discriminate.
  destruct (watermark_image _ _ _ _ _ _ _ _ _ _ _) as [m| |]; cbn [bind]; try discriminate.
  destruct (file_stem input) as [stem|] eqn:Es; cbn [unwrap bind]; [|discriminate]. destruct (extension input) as [ext|] eqn:Ee; cbn [unwrap bind]; [|discriminate].
  intros H. exists stem, ext. split; [now apply names_iff|]. unfold output_path, output_name. destruct output as [o|].
  - destruct (canonical os o) as [folder|]; [|discriminate]. exists folder. split; [reflexivity|]. congruence.
  - congruence.
Qed.

Lemma put_other w l data l' : l' <> l -> content (put w l data) l' = content w l'.
Proof. intros H. unfold put. cbn [content]. now rewrite bytes_eqb_neq. Qed.
Lemma put_here w l data : content (put w l data) l = Some data.
Proof. unfold put. cbn [content]. now rewrite bytes_eqb_refl. Qed.

Lemma process_input_frame w input suffix output l : ~ output_location suffix output input l ->
  content (fst (process_input w input suffix output)) l = content w l.
Proof.
  intros H. unfold Cli.process_input. destruct (prepare w input suffix output) as [(m, path)| |] eqn:Ep; try reflexivity.
  destruct (prepare_output _ _ _ _ _ _ Ep) as (stem & ext & Hn & Ho).
  assert (Hl : l <> locate os path) by (intros ->; apply H; exists stem, ext, path; auto).
  destruct (can_create os path); [|reflexivity]. destruct (format_from_path os path) as [fmt|]; cbn [fst].
  - destruct (encode_bytes os fmt m) as (data, ok). cbn [fst]. now rewrite !put_other.
  - now rewrite put_other.
Qed.

Lemma process_inputs_frame inputs suffix output l : (forall input, In input inputs -> ~ output_location suffix output input l) ->
  forall w, content (fst (process_inputs w inputs suffix output)) l = content w l.
Proof.
  intros H. induction inputs as [|i r IH]; intros w; [reflexivity|]. cbn [Cli.process_inputs].
  pose proof (process_input_frame w i suffix output l (H i (or_introl eq_refl))) as E1.
  destruct (process_input w i suffix output) as (w', st). cbn [fst] in E1. destruct st; cbn [fst]; try exact E1.
  rewrite IH by (intros x Hx; apply H; now right). exact E1.
Qed.

(** *** C52: no file but the outputs is ever touched, however the run ends *)
Theorem C52_only_outputs_are_touched : forall w inputs suffix output location,
  (forall input, In input inputs -> ~ output_location suffix output input location) ->
  content (fst (process w inputs (Some suffix) output)) location = content w location.
Proof.
  intros w inputs suffix output l H. unfold Cli.process. destruct output as [o|]; [|now apply process_inputs_frame].
  destruct (kind os o), (can_make_folder os o); cbn [fst content]; try reflexivity; rewrite process_inputs_frame by exact H; reflexivity.
Qed.

(** *** C52: every input gets its output, the last of several inputs with the same output wins *)
Record job := mkJob { source : list Z; stem : list Z; ext : list Z; fmt : format; picture : dynimage; marked : dynimage; data : list Z; target : list Z }.
(** [j] describes an input of [w] that can be processed. *)
Definition processable (w : world) (suffix : list Z) (output : option (list Z)) (j : job) : Prop :=
  names (source j) (stem j) (ext j)
  /\ format_of_extension os (ext j) = Some (fmt j)
  /\ (exists bytes, content w (locate os (source j)) = Some bytes /\ decode_bytes os (fmt j) bytes = Some (picture j))
  /\ watermark_image O K E equalize features_of checks pad (picture j) (f_of_Z O 100) (f_of_Z O 1) 11 = Ok (marked j)
  /\ output_path suffix output (stem j) (ext j) (target j)
  /\ can_create os (target j) = true
  /\ encode_bytes os (fmt j) (marked j) = (data j, true).
Definition folder_ok (output : option (list Z)) : Prop :=
  match output with None => True | Some o => kind os o <> OtherKind /\ can_make_folder os o = true end.

Lemma output_path_extension suffix output s e path : no_slash suffix -> s <> [] -> no_slash s -> no_slash e -> no_dot e -> output_path suffix output s e path -> extension path = Some e.
Proof.
  intros Hsuf H0 Hs He Hd Ho.
  assert (N : forall dir, folder_part dir -> names (dir ++ output_name suffix s e) (s ++ [HYPHEN] ++ suffix) e).
  { intros dir Hdir. exists dir, []. unfold output_name. rewrite app_nil_r. split; [now rewrite <- !app_assoc|]. split; [exact Hdir|]. split; [constructor|].
    split; [destruct s; discriminate|]. split; [|split; [exact He|split; [exact Hd|]]].
    - intros Hi. rewrite !in_app_iff in Hi. destruct Hi as [Hi | [ [Hi | [] ] | Hi ]]; [now apply Hs|discriminate|now apply Hsuf].
    - rewrite <- !app_assoc. destruct s as [|c s]; [congruence|]. destruct s as [|c' s]; [|destruct s; discriminate]. cbn [app]. unfold HYPHEN, DOT. congruence. }
  unfold output_path in Ho. destruct output as [o|].
  - destruct Ho as (folder & _ & ->). rewrite app_assoc. apply (proj1 (names_iff _ _ _) (N (folder ++ [SLASH]) (or_intror (ex_intro _ folder eq_refl)))).
  - subst path. apply (proj1 (names_iff _ _ _) (N [] (or_introl eq_refl))).
Qed.

Lemma process_input_good w suffix output j : no_slash suffix -> processable w suffix output j ->
  process_input w (source j) suffix output = (put (put w (locate os (target j)) []) (locate os (target j)) (data j), Done).
Proof.
  intros Hsuf (Hn & Hf & (bytes & Hc & Hd) & Hm & Ho & Hcr & He). pose proof (proj1 (names_iff _ _ _) Hn) as (Es & Ee).
  assert (Ex : extension (target j) = Some (ext j)) by (destruct Hn as (dir & trail & _ & _ & _ & H0 & H1 & H2 & H3 & _); apply (output_path_extension suffix output (stem j)); assumption).
  unfold Cli.process_input, Cli.prepare, open_image, format_from_path. rewrite Hc, Ee, Hf, Hd. cbn [bind]. rewrite Hm. cbn [bind]. rewrite Es. cbn [unwrap bind].
  unfold output_path, output_name in Ho. destruct output as [o|].
  - destruct Ho as (folder & Ec & Et). rewrite Ec, <- Et. rewrite Hcr, Ex, Hf, He. reflexivity.
  - rewrite <- Ho. rewrite Hcr, Ex, Hf, He. reflexivity.
Qed.

Lemma process_jobs w suffix output : no_slash suffix -> forall jobs, Forall (processable w suffix output) jobs ->
  (forall j k, In j jobs -> In k jobs -> locate os (target j) <> locate os (source k)) ->
  forall w0, (forall j, In j jobs -> content w0 (locate os (source j)) = content w (locate os (source j))) ->
  exists w', process_inputs w0 (map source jobs) suffix output = (w', Done) /\ folders_requested w' = folders_requested w0
  /\ (forall l, (forall j, In j jobs -> locate os (target j) <> l) -> content w' l = content w0 l)
  /\ (forall before j after, jobs = before ++ j :: after -> (forall k, In k after -> locate os (target k) <> locate os (target j)) ->
        content w' (locate os (target j)) = Some (data j)).
Proof.
  intros Hsuf. induction jobs as [|j jobs IH]; intros Hall Hdis w0 Hw0.
  - exists w0. split; [reflexivity|]. split; [reflexivity|]. split; [reflexivity|]. intros before j after Heq. destruct before; discriminate.
  - assert (Hj : processable w0 suffix output j).
    { inversion Hall as [|? ? Hj ?]; subst. destruct Hj as (H1 & H2 & (bytes & H3 & H4) & H5). split; [exact H1|]. split; [exact H2|]. split; [|exact H5].
      exists bytes. split; [|exact H4]. rewrite Hw0 by now left. exact H3. }
    cbn [map Cli.process_inputs]. rewrite (process_input_good _ _ _ _ Hsuf Hj). set (w1 := put _ _ _).
    assert (W1 : forall l, l <> locate os (target j) -> content w1 l = content w0 l) by (intros l Hl; unfold w1; now rewrite !put_other).
    specialize (IH ltac:(now inversion Hall)). destruct IH with (w0 := w1) as (w' & Er & Hfr & Hother & Hlast).
    + intros a b Ha Hb. apply Hdis; now right.
    + intros k Hk. rewrite W1; [apply Hw0; now right|]. intros Heq. symmetry in Heq. revert Heq. apply Hdis; [now left|now right].
    + exists w'. split; [exact Er|]. split; [exact Hfr|]. split.
      * intros l Hl. rewrite Hother by (intros k Hk; apply Hl; now right). apply W1. intros ->. apply (Hl j); [now left|reflexivity].
      * intros before k after Heq Hlater. destruct before as [|b before].
        -- cbn [app] in Heq. assert (Ej : j = k /\ jobs = after) by (split; congruence). destruct Ej as (<- & <-). rewrite Hother by exact Hlater. unfold w1. apply put_here.
        -- cbn [app] in Heq. assert (Ej : jobs = before ++ k :: after) by congruence. exact (Hlast before k after Ej Hlater).
Qed.

Theorem C52_every_input_gets_its_output : forall w jobs suffix output,
  no_slash suffix -> folder_ok output -> Forall (processable w suffix output) jobs ->
  (forall j k, In j jobs -> In k jobs -> locate os (target j) <> locate os (source k)) ->
  exists w', process w (map source jobs) (Some suffix) output = (w', Done)
  /\ (forall location, (forall j, In j jobs -> locate os (target j) <> location) -> content w' location = content w location)
  /\ (forall before j after, jobs = before ++ j :: after -> (forall k, In k after -> locate os (target k) <> locate os (target j)) ->
        content w' (locate os (target j)) = Some (data j)).
Proof.
  intros w jobs suffix output Hsuf Hfo Hall Hdis. unfold Cli.process. destruct output as [o|].
  - destruct Hfo as (Hk & Hm). rewrite Hm. set (w1 := mkWorld _ _).
    destruct (process_jobs w suffix (Some o) Hsuf jobs Hall Hdis w1 ltac:(reflexivity)) as (w' & Er & _ & H1 & H2).
    exists w'. split; [|split; [exact H1|exact H2]]. destruct (kind os o); [exact Er|exact Er|congruence].
  - destruct (process_jobs w suffix None Hsuf jobs Hall Hdis w ltac:(reflexivity)) as (w' & Er & _ & H1 & H2). exists w'. auto.
Qed.

(** *** C52: two inputs are written to the same path exactly when their file names agree, whatever folders they are in *)
Theorem C52_outputs_collide_iff_names_agree : forall suffix output s1 e1 s2 e2 p1 p2,
  no_dot e1 -> no_dot e2 -> output_path suffix output s1 e1 p1 -> output_path suffix output s2 e2 p2 ->
  (p1 = p2 <-> s1 = s2 /\ e1 = e2).
Proof.
  intros suffix output s1 e1 s2 e2 p1 p2 D1 D2 H1 H2.
  assert (N : output_name suffix s1 e1 = output_name suffix s2 e2 <-> s1 = s2 /\ e1 = e2).
  { split; [|now intros (-> & ->)]. unfold output_name. intros Heq.
    assert (A : forall s e, s ++ [HYPHEN] ++ suffix ++ [DOT] ++ e = (s ++ HYPHEN :: suffix) ++ DOT :: e) by (intros; now rewrite <- !app_assoc).
    rewrite !A in Heq. pose proof (rsplit_dot_intro (s1 ++ HYPHEN :: suffix) e1 D1) as R1. pose proof (rsplit_dot_intro (s2 ++ HYPHEN :: suffix) e2 D2) as R2.
    rewrite Heq, R2 in R1. assert (Ee : s2 ++ HYPHEN :: suffix = s1 ++ HYPHEN :: suffix /\ e2 = e1) by (split; congruence). destruct Ee as (Es & ->). apply app_inv_tail in Es. now split. }
  unfold output_path in *. destruct output as [o|].
  - destruct H1 as (f1 & C1 & ->), H2 as (f2 & C2 & ->). assert (f1 = f2) by congruence. subst f2. rewrite <- N. split; [|now intros ->].
    rewrite !app_assoc. apply app_inv_head.
  - subst p1 p2. exact N.
Qed.

(** *** C53 *)
(** No suffix, -h, or no inputs: the file system stays as it is. *)
Theorem C53_no_suffix_no_effect : forall w inputs output, process w inputs None output = (w, Done).
Proof. reflexivity. Qed.
Theorem C53_main_effects : forall w parsed, fst (main w parsed) <> w ->
  exists m suffix, parsed = Some m /\ opt_h m = false /\ opt_s m = Some suffix /\ free m <> [].
Proof.
  intros w parsed H. unfold Cli.main in H. destruct parsed as [m|]; [|now elim H]. destruct (opt_h m) eqn:Eh; [now elim H|]. destruct (free m) as [|i r] eqn:Ef; [now elim H|].
  destruct (opt_s m) as [s|] eqn:Es; [|now elim H]. exists m, s. repeat split; auto. congruence.
Qed.

(** The output folder exists and is no folder: exit code 1, nothing is read or written. *)
Theorem C53_output_is_no_folder : forall w inputs suffix output, kind os output = OtherKind -> process w inputs (Some suffix) (Some output) = (w, ExitCode 1).
Proof. intros w inputs suffix output H. unfold Cli.process. now rewrite H. Qed.

Lemma process_inputs_app w a b suffix output :
  process_inputs w (a ++ b) suffix output = match process_inputs w a suffix output with (w', Done) => process_inputs w' b suffix output | stopped => stopped end.
Proof.
  revert w. induction a as [|i a IH]; intros w; [reflexivity|]. cbn [app Cli.process_inputs]. destruct (process_input w i suffix output) as (w', st). destruct st; try reflexivity. apply IH.
Qed.

Lemma process_app w a b suffix output : 
  process w (a ++ b) (Some suffix) output = match process w a (Some suffix) output with (w', Done) => process_inputs w' b suffix output | stopped => stopped end.
Proof.
  unfold Cli.process. destruct output as [o|]; [|apply process_inputs_app]. destruct (kind os o); try reflexivity; destruct (can_make_folder os o); try reflexivity; apply process_inputs_app.
Qed.

(** A failing input: what was written for the inputs before it stays, later inputs have no effect, and only the failing input's own
    output may have been changed. *)
Theorem C53_failing_input_keeps_earlier_outputs : forall w before bad suffix output w1 w2 ended,
  process w before (Some suffix) output = (w1, Done) ->
  process w (before ++ [bad]) (Some suffix) output = (w2, ended) -> ended <> Done ->
  (forall after, process w (before ++ bad :: after) (Some suffix) output = (w2, ended))
  /\ (forall location, ~ output_location suffix output bad location -> content w2 location = content w1 location).
Proof.
  intros w before bad suffix output w1 w2 ended H1 H2 He. rewrite process_app, H1 in H2. cbn [Cli.process_inputs] in H2.
  destruct (process_input w1 bad suffix output) as (w', st) eqn:Eb.
  assert (Es : w' = w2 /\ st = ended) by (destruct st; split; congruence). destruct Es as (-> & ->). split.
  - intros after. rewrite process_app, H1. cbn [Cli.process_inputs]. rewrite Eb. destruct ended; congruence.
  - intros l Hl. pose proof (process_input_frame w1 bad suffix output l Hl) as Fr. now rewrite Eb in Fr.
Qed.

(** When the input cannot be read, decoded or watermarked, or its name has no stem and extension, not even that file is changed. *)
Theorem C53_unusable_input_changes_nothing : forall w before bad suffix output w1,
  process w before (Some suffix) output = (w1, Done) ->
  content w1 (locate os bad) = None
  \/ (forall stem ext, ~ names bad stem ext)
  \/ (exists stem ext, names bad stem ext /\ format_of_extension os ext = None)
  \/ (exists stem ext f bytes, names bad stem ext /\ format_of_extension os ext = Some f /\ content w1 (locate os bad) = Some bytes /\ decode_bytes os f bytes = None)
  \/ (exists stem ext f bytes picture, names bad stem ext /\ format_of_extension os ext = Some f /\ content w1 (locate os bad) = Some bytes /\ decode_bytes os f bytes = Some picture
        /\ is_panic (watermark_image O K E equalize features_of checks pad picture (f_of_Z O 100) (f_of_Z O 1) 11) = true) ->
  forall after, exists r, process w (before ++ bad :: after) (Some suffix) output = (w1, Panicked r).
Proof.
  intros w before bad suffix output w1 H1 H after. rewrite process_app, H1. cbn [Cli.process_inputs].
  assert (P : exists r, prepare w1 bad suffix output = Panic r).
  { unfold Cli.prepare, open_image, format_from_path.
    destruct H as [H | [H | [(s & e & Hn & Hf) | [(s & e & f & bytes & Hn & Hf & Hc & Hd) | (s & e & f & bytes & pic & Hn & Hf & Hc & Hd & Hp)]]]].
    - rewrite H. eexists. reflexivity.
    - destruct (content w1 (locate os bad)) as [bytes|]; [|eexists; reflexivity].
      destruct (extension bad) as [e|] eqn:Ee; [|eexists; reflexivity].
      destruct (file_stem bad) as [s|] eqn:Es; [elim (H s e); now apply names_iff|].
      unfold extension, file_stem in *. destruct (file_name bad); discriminate.
    - apply names_iff in Hn. destruct Hn as (_ & ->). rewrite Hf. destruct (content w1 (locate os bad)); eexists; reflexivity.
    - apply names_iff in Hn. destruct Hn as (_ & ->). rewrite Hf, Hc, Hd. eexists. reflexivity.
    - apply names_iff in Hn. destruct Hn as (_ & ->). rewrite Hf, Hc, Hd. cbn [bind]. destruct (watermark_image _ _ _ _ _ _ _ _ _ _ _); try discriminate. eexists. reflexivity. }
  destruct P as (r & P). unfold Cli.process_input. rewrite P. eexists. reflexivity.
Qed.

(** When the encoder fails, the file of that input is left with whatever bytes were written: the old content is lost. *)
Theorem C53_failed_write_loses_the_old_file : forall w before bad suffix output w1 stem ext f bytes picture marked path partial,
  process w before (Some suffix) output = (w1, Done) -> no_slash suffix ->
  names bad stem ext -> format_of_extension os ext = Some f -> content w1 (locate os bad) = Some bytes -> decode_bytes os f bytes = Some picture ->
  watermark_image O K E equalize features_of checks pad picture (f_of_Z O 100) (f_of_Z O 1) 11 = Ok marked ->
  output_path suffix output stem ext path -> can_create os path = true -> encode_bytes os f marked = (partial, false) ->
  forall after, exists w2, process w (before ++ bad :: after) (Some suffix) output = (w2, Panicked UnwrapErr) /\ content w2 (locate os path) = Some partial.
Proof.
  intros w before bad suffix output w1 s e f bytes pic m path partial H1 Hsuf Hn Hf Hc Hd Hm Ho Hcr He after. rewrite process_app, H1. cbn [Cli.process_inputs].
  pose proof (proj1 (names_iff _ _ _) Hn) as (Es & Ee).
  assert (Ex : extension path = Some e) by (destruct Hn as (dir & trail & _ & _ & _ & H0 & Hs1 & Hs2 & Hs3 & _); apply (output_path_extension suffix output s); assumption).
  unfold Cli.process_input, Cli.prepare, open_image, format_from_path. rewrite Hc, Ee, Hf, Hd. cbn [bind]. rewrite Hm. cbn [bind]. rewrite Es. cbn [unwrap bind].
  unfold output_path, output_name in Ho. destruct output as [o|].
  - destruct Ho as (folder & Ec & Et). rewrite Ec, <- Et, Hcr, Ex, Hf, He. eexists. split; [reflexivity|]. apply put_here.
  - rewrite <- Ho, Hcr, Ex, Hf, He. eexists. split; [reflexivity|]. apply put_here.
Qed.
End Props.

(** ** Witnesses *)
(** A folder with two pictures of the same name in different folders, another one, and a text file. *)
Opaque PropsImage.colour512 watermark_image.
Definition str_a_p := [97; 47; 112; 46; 112; 110; 103].   (* a/p.png *)
Definition str_b_p := [98; 47; 112; 46; 112; 110; 103].   (* b/p.png *)
Definition str_q := [113; 46; 98; 109; 112].              (* q.bmp *)
Definition str_txt := [116; 46; 116; 120; 116].           (* t.txt *)
Definition str_png := [112; 110; 103]. Definition str_bmp := [98; 109; 112].
Definition str_p_w := [112; 45; 119; 46; 112; 110; 103].  (* p-w.png *)
Definition str_q_w := [113; 45; 119; 46; 98; 109; 112].   (* q-w.bmp *)
Definition toy_os : platform Z := mkPlatform Z (fun p => p) (fun p => if bytes_eqb p str_txt then OtherKind else Absent) (fun _ => true) (fun p => Some p) (fun _ => true)
  (fun e => if bytes_eqb e str_png then Some 0 else if bytes_eqb e str_bmp then Some 1 else None)
  (fun f bytes => match bytes with [n] => if n =? f then Some PropsImage.colour512 else None | _ => None end)
  (fun f _ => ([f + 7], true)).
Definition toy_world : world := mkWorld (fun l =>
  if bytes_eqb l str_a_p then Some [0] else if bytes_eqb l str_b_p then Some [0] else if bytes_eqb l str_q then Some [1] else if bytes_eqb l str_txt then Some [104] else None) [].

Notation toy_process := (process Bops Toy.toy_ldpc PropsProcess2.toy_ed (fun l => l) PropsProcess2.toy_features_f64 true (repeat false 8) toy_os).
Lemma names_a_p : names str_a_p [112] str_png.
Proof. exists [97; 47], []. repeat split; try discriminate; try (right; now exists [97]); try constructor; intros H; cbn in H; unfold SLASH, DOT in H; lia. Qed.
Lemma names_b_p : names str_b_p [112] str_png.
Proof. exists [98; 47], []. repeat split; try discriminate; try (right; now exists [98]); try constructor; intros H; cbn in H; unfold SLASH, DOT in H; lia. Qed.
Lemma names_q : names str_q [113] str_bmp.
Proof. exists [], []. repeat split; try discriminate; try (now left); try constructor; intros H; cbn in H; unfold SLASH, DOT in H; lia. Qed.

Lemma toy_processable m src stem ext f data target :
  watermark_image Bops Toy.toy_ldpc PropsProcess2.toy_ed (fun l => l) PropsProcess2.toy_features_f64 true (repeat false 8) PropsImage.colour512 (f_of_Z Bops 100) (f_of_Z Bops 1) 11 = Ok m ->
  names src stem ext -> format_of_extension toy_os ext = Some f -> content toy_world src = Some [f] -> target = output_name [119] stem ext -> data = [f + 7] ->
  processable Bops Toy.toy_ldpc PropsProcess2.toy_ed (fun l => l) PropsProcess2.toy_features_f64 true (repeat false 8) toy_os toy_world [119] None
    (mkJob src stem ext f PropsImage.colour512 m data target).
Proof.
  intros Em Hn Hf Hc Ht Hd. unfold processable. cbn [source Cli.file_stem PropsCli.stem PropsCli.ext PropsCli.fmt picture marked PropsCli.data PropsCli.target].
  split; [exact Hn|]. split; [exact Hf|]. split; [exists [f]; split; [exact Hc|]; cbn [decode_bytes toy_os]; now rewrite Z.eqb_refl|]. split; [exact Em|]. split; [exact Ht|]. split; [reflexivity|]. rewrite Hd. reflexivity.
Qed.

(** Three inputs, two of them of the same name: two new files, everything else unchanged. *)
Example C52_instance : exists w',
  toy_process toy_world [str_a_p; str_q; str_b_p] (Some [119]) None = (w', Done)
  /\ content w' str_p_w = Some [7] /\ content w' str_q_w = Some [8] /\ content w' str_txt = Some [104] /\ content w' str_a_p = Some [0].
Proof.
  destruct PropsImage.C42_C59_C60_instance as (m & Em & _).
  set (jobs := [mkJob str_a_p [112] str_png 0 PropsImage.colour512 m [7] str_p_w; mkJob str_q [113] str_bmp 1 PropsImage.colour512 m [8] str_q_w; mkJob str_b_p [112] str_png 0 PropsImage.colour512 m [7] str_p_w]).
  destruct (C52_every_input_gets_its_output Bops Toy.toy_ldpc PropsProcess2.toy_ed (fun l => l) PropsProcess2.toy_features_f64 true (repeat false 8) toy_os toy_world jobs [119] None) as (w' & Er & H1 & H2).
  - intros [H | []]. discriminate.
  - exact Logic.I.
  - apply Forall_cons; [apply (toy_processable m _ _ _ _ _ _ Em names_a_p); reflexivity|]. apply Forall_cons; [apply (toy_processable m _ _ _ _ _ _ Em names_q); reflexivity|].
    apply Forall_cons; [apply (toy_processable m _ _ _ _ _ _ Em names_b_p); reflexivity|]. apply Forall_nil.
  - intros j k [ <- |[ <- |[ <- |[]]]] [ <- |[ <- |[ <- |[]]]]; discriminate.
  - exists w'. split; [exact Er|]. repeat split.
    + apply (H2 [mkJob str_a_p [112] str_png 0 PropsImage.colour512 m [7] str_p_w; mkJob str_q [113] str_bmp 1 PropsImage.colour512 m [8] str_q_w] _ [] eq_refl). intros k [].
    + apply (H2 [mkJob str_a_p [112] str_png 0 PropsImage.colour512 m [7] str_p_w] _ [mkJob str_b_p [112] str_png 0 PropsImage.colour512 m [7] str_p_w] eq_refl). intros k [ <- |[]]; discriminate.
    + rewrite (H1 str_txt); [reflexivity|]. intros j [ <- |[ <- |[ <- |[]]]]; discriminate.
    + rewrite (H1 str_a_p); [reflexivity|]. intros j [ <- |[ <- |[ <- |[]]]]; discriminate.
Qed.

(** The second input is no picture: the first output is there, the third input is not touched. *)
Example C53_instance : exists w1,
  toy_process toy_world [str_a_p; str_txt; str_q] (Some [119]) None = (w1, Panicked UnwrapErr)
  /\ content w1 str_p_w = Some [7] /\ content w1 str_q_w = None.
Proof.
  destruct PropsImage.C42_C59_C60_instance as (m & Em & _).
  destruct (C52_every_input_gets_its_output Bops Toy.toy_ldpc PropsProcess2.toy_ed (fun l => l) PropsProcess2.toy_features_f64 true (repeat false 8) toy_os toy_world [mkJob str_a_p [112] str_png 0 PropsImage.colour512 m [7] str_p_w] [119] None) as (w1 & Er & H1 & H2).
  - intros [H | []]. discriminate.
  - exact Logic.I.
  - apply Forall_cons; [apply (toy_processable m _ _ _ _ _ _ Em names_a_p); reflexivity|]. apply Forall_nil.
  - intros j k [ <- |[]] [ <- |[]]; discriminate.
  - exists w1. cbn [map source] in Er.
    split.
    + change [str_a_p; str_txt; str_q] with ([str_a_p] ++ str_txt :: [str_q]). rewrite process_app, Er. cbn [process_inputs]. unfold process_input, prepare, open_image.
      change (locate toy_os str_txt) with str_txt. rewrite (H1 str_txt) by (intros j [ <- |[]]; discriminate). reflexivity.
    + split; [apply (H2 [] _ [] eq_refl); intros k []|]. rewrite (H1 str_q_w); [reflexivity|]. intros j [ <- |[]]; discriminate.
Qed.

Print Assumptions C52_only_outputs_are_touched.
Print Assumptions C52_every_input_gets_its_output.
Print Assumptions C52_outputs_collide_iff_names_agree.
Print Assumptions C53_main_effects.
Print Assumptions C53_failing_input_keeps_earlier_outputs.
Print Assumptions C53_unusable_input_changes_nothing.
Print Assumptions C53_failed_write_loses_the_old_file.
