(** Property C96: runs of the command line tool that are interrupted, repeated, split or reordered. *)
From Coq Require Import Permutation.
From Verif Require Import Outcome Floats Bits Encoding Matrix Signature Process Image Cli PropsCli Interrupt.
From Verif Require Toy PropsProcess2 PropsImage.
Open Scope Z_scope.

Section Spec.
Context {F : Type} (O : FOps F) (K : ldpc) (E : ed25519) (equalize : list Z -> list Z)
  (features_of : array2 Z -> nat -> outcome (list F)) (checks : bool) (pad : list bool).
Context {format : Type} (os : platform format).
Local Notation prepare := (Cli.prepare O K E equalize features_of checks pad os).
Local Notation process_input := (Cli.process_input O K E equalize features_of checks pad os).
Local Notation process_inputs := (Cli.process_inputs O K E equalize features_of checks pad os).
Local Notation process := (Cli.process O K E equalize features_of checks pad os).
Local Notation killed_inputs := (Interrupt.killed_inputs O K E equalize features_of checks pad os).
Local Notation killed := (Interrupt.killed O K E equalize features_of checks pad os).
Local Notation processable := (PropsCli.processable O K E equalize features_of checks pad os).

(** ** Specification *)
(** No file is both an input and an output of the command. *)
Definition apart (inputs : list (list Z)) (suffix : list Z) (output : option (list Z)) : Prop :=
  forall a b location, In a inputs -> In b inputs -> output_location os suffix output a location -> location <> locate os b.
(** The same files with the same content. *)
Definition same_files (w w' : world) : Prop := forall location, content w location = content w' location.

(** ** helpers *)
Section Fixed.
Context (suffix : list Z) (output : option (list Z)).
(** the locations the run writes *)
Fixpoint writes (w : world) (inputs : list (list Z)) (l : list Z) : Prop :=
  match inputs with
  | [] => False
  | i :: r => exists picture path, prepare w i suffix output = Ok (picture, path) /\ can_create os path = true
      /\ (locate os path = l \/ exists w1, process_input w i suffix output = (w1, Done) /\ writes w1 r l)
  end.
Lemma prepare_same w v i : content w (locate os i) = content v (locate os i) -> prepare w i suffix output = prepare v i suffix output.
Proof. intros H. unfold Cli.prepare, open_image. now rewrite H. Qed.
Lemma prepare_location w i picture path : prepare w i suffix output = Ok (picture, path) -> output_location os suffix output i (locate os path).
Proof. intros H. destruct (prepare_output O K E equalize features_of checks pad os _ _ _ _ _ _ H) as (s & e & H1 & H2). exists s, e, path. auto. Qed.
(** one input from two file systems *)
Lemma one_input w v i : content w (locate os i) = content v (locate os i) ->
  snd (process_input w i suffix output) = snd (process_input v i suffix output)
  /\ (forall l, content w l = content v l -> content (fst (process_input w i suffix output)) l = content (fst (process_input v i suffix output)) l)
  /\ (forall picture path, prepare w i suffix output = Ok (picture, path) -> can_create os path = true ->
        content (fst (process_input w i suffix output)) (locate os path) = content (fst (process_input v i suffix output)) (locate os path)).
Proof.
  intros H. pose proof (prepare_same w v i H) as P. unfold Cli.process_input. rewrite <- P. destruct (prepare w i suffix output) as [(m, path)| |].
  - destruct (can_create os path) eqn:C; [|split; [reflexivity|split; [auto|intros p q E1 E2; congruence]]].
    assert (Q : forall d l, content w l = content v l \/ l = locate os path -> content (put w (locate os path) d) l = content (put v (locate os path) d) l).
    { intros d l [Hl | ->]; unfold put; cbn [content]; [destruct (bytes_eqb l (locate os path)); [reflexivity|exact Hl]|]. now rewrite bytes_eqb_refl. }
    assert (Q2 : forall d d' l, content w l = content v l \/ l = locate os path ->
      content (put (put w (locate os path) d) (locate os path) d') l = content (put (put v (locate os path) d) (locate os path) d') l).
    { intros d d' l Hl. unfold put at 1 3. cbn [content]. destruct (bytes_eqb l (locate os path)); [reflexivity|]. exact (Q d l Hl). }
    destruct (format_from_path os path) as [f|].
    + destruct (encode_bytes os f m) as (d, ok). cbn [fst snd]. split; [reflexivity|]. split; [intros l Hl; apply Q2; now left|]. intros p q E1 _. assert (q = path) by congruence. subst q. apply Q2. now right.
    + cbn [fst snd]. split; [reflexivity|]. split; [intros l Hl; apply Q; now left|]. intros p q E1 _. assert (q = path) by congruence. subst q. apply Q. now right.
  - split; [reflexivity|]. split; [auto|intros p q E1; discriminate].
  - split; [reflexivity|]. split; [auto|intros p q E1; discriminate].
Qed.
Lemma two_runs all : apart all suffix output -> forall inputs, incl inputs all -> forall w v, (forall i, In i all -> content w (locate os i) = content v (locate os i)) ->
  snd (process_inputs w inputs suffix output) = snd (process_inputs v inputs suffix output)
  /\ forall l, content w l = content v l \/ writes w inputs l -> content (fst (process_inputs w inputs suffix output)) l = content (fst (process_inputs v inputs suffix output)) l.
Proof.
  intros Hap. induction inputs as [|i r IH]; intros Hi w v Hw.
  - split; [reflexivity|]. intros l [Hl|[]]. exact Hl.
  - assert (Ii : In i all) by (apply Hi; now left). destruct (one_input w v i (Hw i Ii)) as (S1 & S2 & S3).
    assert (Fr : forall u k, In k all -> content (fst (process_input u i suffix output)) (locate os k) = content u (locate os k)).
    { intros u k Hk. apply process_input_frame. intros Ho. exact (Hap i k _ Ii Hk Ho eq_refl). }
    pose proof (Fr w) as Fw. pose proof (Fr v) as Fv. cbn [Cli.process_inputs writes].
    destruct (process_input w i suffix output) as (w1, e1). destruct (process_input v i suffix output) as (v1, e2). cbn [fst snd] in *. subst e2.
    destruct e1; cbn [fst snd].
    + destruct (IH (fun x Hx => Hi x (or_intror Hx)) w1 v1) as (I1 & I2); [intros k Hk; rewrite (Fw k Hk), (Fv k Hk); now apply Hw|]. split; [exact I1|].
      intros l Hl. apply I2. destruct Hl as [Hl|(m & path & P1 & P2 & [P3|(w2 & P3 & P4)])]; [left; now apply S2| left; rewrite <- P3; exact (S3 m path P1 P2) | right].
      assert (w2 = w1) by congruence. now subst w2.
    + split; [reflexivity|]. intros l [Hl|(m & path & P1 & P2 & [P3|(w2 & P3 & P4)])]; [now apply S2|rewrite <- P3; exact (S3 m path P1 P2)|discriminate].
    + split; [reflexivity|]. intros l [Hl|(m & path & P1 & P2 & [P3|(w2 & P3 & P4)])]; [now apply S2|rewrite <- P3; exact (S3 m path P1 P2)|discriminate].
    + split; [reflexivity|]. intros l [Hl|(m & path & P1 & P2 & [P3|(w2 & P3 & P4)])]; [now apply S2|rewrite <- P3; exact (S3 m path P1 P2)|discriminate].
Qed.
Lemma killed_frame w inputs w' : killed_inputs suffix output w inputs w' -> forall l, content w l = content w' l \/ writes w inputs l.
Proof.
  intros H. induction H as [w inputs|w i r m path part P C|w i r w1 w' P H IH]; intros l.
  - now left.
  - destruct (list_eq_dec Z.eq_dec l (locate os path)) as [->|N].
    + right. cbn [writes]. exists m, path. auto.
    + left. now rewrite put_other.
  - destruct (IH l) as [E1|E1].
    + assert (Fr : content w1 l = content w l \/ exists m path, prepare w i suffix output = Ok (m, path) /\ can_create os path = true /\ locate os path = l).
      { unfold Cli.process_input in P. destruct (prepare w i suffix output) as [(m, path)| |]; try discriminate P. destruct (can_create os path) eqn:C; [|discriminate P].
        destruct (format_from_path os path) as [f|]; [|discriminate P]. destruct (encode_bytes os f m) as (d, ok). destruct ok; [|discriminate P].
        assert (Ew : w1 = put (put w (locate os path) []) (locate os path) d) by congruence. destruct (list_eq_dec Z.eq_dec l (locate os path)) as [->|N]; [right; exists m, path; auto|left].
        rewrite Ew. now rewrite !put_other. }
      destruct Fr as [Fr|(m & path & Q1 & Q2 & Q3)]; [left; congruence|right]. cbn [writes]. exists m, path. auto.
    + right. cbn [writes]. assert (exists m path, prepare w i suffix output = Ok (m, path) /\ can_create os path = true) as (m & path & Q1 & Q2).
      { unfold Cli.process_input in P. destruct (prepare w i suffix output) as [(m, path)| |]; try discriminate P. destruct (can_create os path) eqn:C; [|discriminate P]. now exists m, path. }
      exists m, path. split; [exact Q1|]. split; [exact Q2|]. right. exists w1. auto.
Qed.
Lemma finished_frame inputs : forall w l, content w l = content (fst (process_inputs w inputs suffix output)) l \/ writes w inputs l.
Proof.
  induction inputs as [|i r IH]; intros w l; [now left|]. cbn [Cli.process_inputs writes].
  assert (Fr : content (fst (process_input w i suffix output)) l = content w l \/ exists m path, prepare w i suffix output = Ok (m, path) /\ can_create os path = true /\ locate os path = l).
  { unfold Cli.process_input. destruct (prepare w i suffix output) as [(m, path)| |]; try (left; reflexivity). destruct (can_create os path) eqn:C; [|left; reflexivity].
    destruct (list_eq_dec Z.eq_dec l (locate os path)) as [->|N]; [right; exists m, path; auto|left].
    destruct (format_from_path os path) as [f|]; [destruct (encode_bytes os f m) as (d, ok)|]; cbn [fst]; now rewrite !put_other. }
  assert (Pr : snd (process_input w i suffix output) = Done -> exists m path, prepare w i suffix output = Ok (m, path) /\ can_create os path = true).
  { unfold Cli.process_input. destruct (prepare w i suffix output) as [(m, path)| |]; try discriminate. destruct (can_create os path) eqn:C; [|discriminate]. intros _. now exists m, path. }
  destruct (process_input w i suffix output) as (w1, e) eqn:Ep. cbn [fst snd] in *. destruct e; cbn [fst].
  2-4: destruct Fr as [Fr|(m & path & Q1 & Q2 & Q3)]; [left; congruence|right; exists m, path; auto].
  destruct (IH w1 l) as [E1|E1].
  - destruct Fr as [Fr|(m & path & Q1 & Q2 & Q3)]; [left; congruence|right; exists m, path; auto].
  - right. destruct (Pr eq_refl) as (m & path & Q1 & Q2). exists m, path. split; [exact Q1|]. split; [exact Q2|]. right. exists w1. auto.
Qed.
Lemma writes_output w inputs l : writes w inputs l -> exists i, In i inputs /\ output_location os suffix output i l.
Proof.
  revert w. induction inputs as [|i r IH]; intros w; [intros []|]. intros (m & path & P1 & P2 & [P3|(w1 & _ & P4)]).
  - exists i. split; [now left|]. rewrite <- P3. exact (prepare_location _ _ _ _ P1).
  - destruct (IH w1 P4) as (k & Hk & Ho). exists k. split; [now right|exact Ho].
Qed.
Lemma rerun_inputs w v inputs : apart inputs suffix output -> (forall l, content w l = content v l \/ writes w inputs l) ->
  snd (process_inputs w inputs suffix output) = snd (process_inputs v inputs suffix output)
  /\ same_files (fst (process_inputs w inputs suffix output)) (fst (process_inputs v inputs suffix output)).
Proof.
  intros Hap H. destruct (two_runs inputs Hap inputs (incl_refl _) w v) as (A & B).
  - intros i Hi. destruct (H (locate os i)) as [E1|E1]; [exact E1|]. destruct (writes_output _ _ _ E1) as (k & Hk & Ho). elim (Hap k i _ Hk Hi Ho). reflexivity.
  - split; [exact A|]. intros l. apply B, H.
Qed.
End Fixed.
Lemma writes_content suffix output inputs : forall w v l, same_files w v -> writes suffix output w inputs l -> writes suffix output v inputs l.
Proof.
  induction inputs as [|i r IH]; intros w v l H; [intros []|]. intros (m & path & P1 & P2 & P3). exists m, path. split; [now rewrite <- (prepare_same suffix output w v i (H _))|]. split; [exact P2|].
  destruct P3 as [P3|(w1 & P3 & P4)]; [now left|right]. destruct (one_input suffix output w v i (H _)) as (S1 & S2 & S3).
  destruct (process_input v i suffix output) as (v1, e) eqn:Ev. rewrite P3 in *. cbn [fst snd] in *. subst e. exists v1. split; [reflexivity|]. apply (IH w1); [|exact P4].
  intros x. destruct (list_eq_dec Z.eq_dec x (locate os path)) as [->|N]; [exact (S3 m path P1 P2)|]. apply S2, H.
Qed.
Lemma same_run suffix output inputs w v : same_files w v -> snd (process_inputs w inputs suffix output) = snd (process_inputs v inputs suffix output)
  /\ same_files (fst (process_inputs w inputs suffix output)) (fst (process_inputs v inputs suffix output)).
Proof.
  revert w v. induction inputs as [|i r IH]; intros w v H; [split; [reflexivity|exact H]|]. destruct (one_input suffix output w v i (H _)) as (S1 & S2 & _).
  assert (G : same_files (fst (process_input w i suffix output)) (fst (process_input v i suffix output))) by (intros l; apply S2, H).
  cbn [Cli.process_inputs]. destruct (process_input w i suffix output) as (w1, e). destruct (process_input v i suffix output) as (v1, e'). cbn [fst snd] in *. subst e'.
  destruct e; cbn [fst snd]; try (split; [reflexivity|exact G]). now apply IH.
Qed.

(** *** C96: whenever a run is killed, running the same command again gives exactly what the run would have given, however that would have ended *)
Theorem C96_running_again_after_an_interruption : forall suffix output w inputs w', apart inputs suffix output -> killed suffix output w inputs w' ->
  snd (process w' inputs (Some suffix) output) = snd (process w inputs (Some suffix) output)
  /\ same_files (fst (process w' inputs (Some suffix) output)) (fst (process w inputs (Some suffix) output)).
Proof.
  intros suffix output w inputs w' Hap H.
  assert (G : forall w0 w1 w2, same_files w0 w1 -> same_files w' w2 -> (forall l, content w0 l = content w' l \/ writes suffix output w0 inputs l) ->
    snd (process_inputs w2 inputs suffix output) = snd (process_inputs w1 inputs suffix output)
    /\ same_files (fst (process_inputs w2 inputs suffix output)) (fst (process_inputs w1 inputs suffix output))).
  { intros w0 w1 w2 H1 H2 Hl. destruct (rerun_inputs suffix output w1 w2 inputs Hap) as (A & B).
    - intros l. destruct (Hl l) as [E1|E1]; [left; rewrite <- H1, <- H2; exact E1|right]. exact (writes_content _ _ _ _ _ _ H1 E1).
    - split; [now symmetry|]. intros l. symmetry. apply B. }
  destruct H as [w inputs|w inputs w' Eo H|w inputs o w' Eo Hk Hm H].
  - split; [reflexivity|intros l; reflexivity].
  - subst output. unfold Cli.process. apply (G w w w'); try (intros l; reflexivity). exact (killed_frame _ _ _ _ _ H).
  - subst output. unfold Cli.process. set (w0 := mkWorld (content w) (o :: folders_requested w)) in *.
    assert (R : snd (process_inputs (mkWorld (content w') (o :: folders_requested w')) inputs suffix (Some o)) = snd (process_inputs w0 inputs suffix (Some o))
      /\ same_files (fst (process_inputs (mkWorld (content w') (o :: folders_requested w')) inputs suffix (Some o))) (fst (process_inputs w0 inputs suffix (Some o)))).
    { apply (G w0 w0); try (intros l; reflexivity). exact (killed_frame _ _ _ _ _ H). }
    rewrite Hm. destruct (kind os o); [exact R|exact R|congruence].
Qed.

(** *** C96: running a finished command once more changes nothing, even if it failed *)
Theorem C96_running_twice : forall suffix output w inputs, apart inputs suffix output ->
  snd (process (fst (process w inputs (Some suffix) output)) inputs (Some suffix) output) = snd (process w inputs (Some suffix) output)
  /\ same_files (fst (process (fst (process w inputs (Some suffix) output)) inputs (Some suffix) output)) (fst (process w inputs (Some suffix) output)).
Proof.
  intros suffix output w inputs Hap.
  assert (G : forall w0 w1 w2, same_files w0 w1 -> same_files (fst (process_inputs w0 inputs suffix output)) w2 ->
    snd (process_inputs w2 inputs suffix output) = snd (process_inputs w1 inputs suffix output)
    /\ same_files (fst (process_inputs w2 inputs suffix output)) (fst (process_inputs w1 inputs suffix output))).
  { intros w0 w1 w2 H1 H2. destruct (rerun_inputs suffix output w1 w2 inputs Hap) as (A & B).
    - intros l. destruct (finished_frame suffix output inputs w0 l) as [E1|E1]; [left; rewrite <- H1, <- H2; exact E1|right]. exact (writes_content _ _ _ _ _ _ H1 E1).
    - split; [now symmetry|]. intros l. symmetry. apply B. }
  unfold Cli.process. destruct output as [o|]; [|apply (G w w); intros l; reflexivity].
  destruct (kind os o); [| |split; [reflexivity|intros l; reflexivity]]; destruct (can_make_folder os o); cbn [fst snd]; try (split; [reflexivity|intros l; reflexivity]).
  - apply (G (mkWorld (content w) (o :: folders_requested w))); intros l; reflexivity.
  - apply (G (mkWorld (content w) (o :: folders_requested w))); intros l; reflexivity.
Qed.

(** *** C96: a killed run has completed some inputs in order and damaged at most the output of the next one; no other file *)
Theorem C96_an_interruption_damages_at_most_one_output : forall suffix output w inputs w', killed suffix output w inputs w' ->
  exists completed rest w1, inputs = completed ++ rest /\ (w1 = w /\ completed = [] \/ process w completed (Some suffix) output = (w1, Done))
    /\ (same_files w' w1 \/ exists next others damaged, rest = next :: others /\ output_location os suffix output next damaged
          /\ forall location, location <> damaged -> content w' location = content w1 location).
Proof.
  intros suffix output w inputs w' H.
  assert (G : forall w0 inputs w', killed_inputs suffix output w0 inputs w' -> exists completed rest w1, inputs = completed ++ rest /\ process_inputs w0 completed suffix output = (w1, Done)
    /\ (same_files w' w1 \/ exists next others damaged, rest = next :: others /\ output_location os suffix output next damaged /\ forall location, location <> damaged -> content w' location = content w1 location)).
  { clear. intros w0 inputs w' H. induction H as [w inputs|w i r m path part P C|w i r w1 w' P H IH].
    - exists [], inputs, w. split; [reflexivity|]. split; [reflexivity|]. left. intros l. reflexivity.
    - exists [], (i :: r), w. split; [reflexivity|]. split; [reflexivity|]. right. exists i, r, (locate os path). split; [reflexivity|]. split; [exact (prepare_location _ _ _ _ _ _ P)|]. intros l Hl. now rewrite put_other.
    - destruct IH as (c & q & w2 & E1 & E2 & E3). exists (i :: c), q, w2. split; [now rewrite E1|]. split; [cbn [Cli.process_inputs]; now rewrite P|exact E3]. }
  destruct H as [w inputs|w inputs w' Eo H|w inputs o w' Eo Hk Hm H].
  - exists [], inputs, w. split; [reflexivity|]. split; [left; auto|]. left. intros l. reflexivity.
  - subst output. destruct (G _ _ _ H) as (c & q & w1 & E1 & E2 & E3). exists c, q, w1. split; [exact E1|]. split; [right; exact E2|exact E3].
  - subst output. destruct (G _ _ _ H) as (c & q & w1 & E1 & E2 & E3). exists c, q, w1. split; [exact E1|]. split; [right|exact E3]. unfold Cli.process. rewrite Hm. destruct (kind os o); [exact E2|exact E2|congruence].
Qed.

(** *** C96: one command for all inputs or two commands one after the other *)
Theorem C96_two_commands : forall suffix output w first second, snd (process w first (Some suffix) output) = Done ->
  snd (process w (first ++ second) (Some suffix) output) = snd (process (fst (process w first (Some suffix) output)) second (Some suffix) output)
  /\ same_files (fst (process w (first ++ second) (Some suffix) output)) (fst (process (fst (process w first (Some suffix) output)) second (Some suffix) output)).
Proof.
  intros suffix output w a b Hd. rewrite (process_app O K E equalize features_of checks pad os w a b suffix output).
  assert (C : match output with None => True | Some o => kind os o <> OtherKind /\ can_make_folder os o = true end).
  { unfold Cli.process in Hd. destruct output as [o|]; [|exact Logic.I]. destruct (kind os o); destruct (can_make_folder os o); cbn [snd] in Hd; try discriminate Hd; split; congruence. }
  destruct (process w a (Some suffix) output) as (w1, e). cbn [fst snd] in *. subst e. unfold Cli.process. destruct output as [o|]; [|split; [reflexivity|intros l; reflexivity]].
  destruct C as (C1 & C2). rewrite C2. destruct (kind os o); try congruence; apply same_run; intros l; reflexivity.
Qed.

(** *** C96: the order of the inputs does not matter if they are all usable and have different outputs, none of which is an input *)
Theorem C96_order_of_the_inputs : forall suffix output w jobs jobs', no_slash suffix -> folder_ok os output -> Forall (processable w suffix output) jobs ->
  (forall j k, In j jobs -> In k jobs -> locate os (target j) <> locate os (source k)) ->
  NoDup (map (fun j => locate os (target j)) jobs) -> Permutation jobs jobs' ->
  exists v v', process w (map source jobs) (Some suffix) output = (v, Done) /\ process w (map source jobs') (Some suffix) output = (v', Done) /\ same_files v v'.
Proof.
  intros suffix output w jobs jobs' Hs Hf Hall Hap Hnd Hp.
  assert (Hall' : Forall (processable w suffix output) jobs') by (apply Forall_forall; intros j Hj; apply (proj1 (Forall_forall _ _) Hall); apply Permutation_sym in Hp; exact (Permutation_in _ Hp Hj)).
  assert (In' : forall j, In j jobs' -> In j jobs) by (intros j Hj; apply Permutation_sym in Hp; exact (Permutation_in _ Hp Hj)).
  assert (Hap' : forall j k, In j jobs' -> In k jobs' -> locate os (target j) <> locate os (source k)) by (intros j k Hj Hk; apply Hap; now apply In').
  assert (Hnd' : NoDup (map (fun j => locate os (target j)) jobs')) by (apply (Permutation_NoDup (Permutation_map _ Hp) Hnd)).
  destruct (C52_every_input_gets_its_output O K E equalize features_of checks pad os w jobs suffix output Hs Hf Hall Hap) as (v & E1 & O1 & D1).
  destruct (C52_every_input_gets_its_output O K E equalize features_of checks pad os w jobs' suffix output Hs Hf Hall' Hap') as (v' & E2 & O2 & D2).
  exists v, v'. split; [exact E1|]. split; [exact E2|].
  assert (L : forall (js : list (@job format)) u, NoDup (map (fun j => locate os (target j)) js) ->
    (forall before j after, js = before ++ j :: after -> (forall k, In k after -> locate os (target k) <> locate os (target j)) -> content u (locate os (target j)) = Some (data j)) ->
    forall j, In j js -> content u (locate os (target j)) = Some (data j)).
  { intros js u N D j Hj. apply in_split in Hj as (b & a & ->). apply (D b j a eq_refl). intros k Hk Heq. rewrite map_app in N. cbn [map] in N. apply NoDup_remove_2 in N. apply N. apply in_or_app. right. rewrite <- Heq.
    exact (in_map (fun j => locate os (target j)) _ _ Hk). }
  intros l. destruct (in_dec (list_eq_dec Z.eq_dec) l (map (fun j => locate os (target j)) jobs)) as [Hl|Hl].
  - apply in_map_iff in Hl as (j & <- & Hj). rewrite (L jobs v Hnd D1 j Hj). symmetry. apply (L jobs' v' Hnd' D2). exact (Permutation_in _ Hp Hj).
  - rewrite O1, O2; [reflexivity| |].
    + intros j Hj Heq. apply Hl. rewrite <- Heq. apply (in_map (fun j => locate os (target j))). now apply In'.
    + intros j Hj Heq. apply Hl. rewrite <- Heq. exact (in_map (fun j => locate os (target j)) _ _ Hj).
Qed.

(** *** C96: if an input is the output of a later input, running twice watermarks that output again *)
Theorem C96_running_twice_with_outputs_as_inputs : forall suffix output w (first second again : @job format), no_slash suffix -> folder_ok os output ->
  processable w suffix output first -> processable w suffix output second ->
  locate os (target second) = locate os (source first) -> locate os (target first) <> locate os (source second) ->
  locate os (target first) <> locate os (source first) -> locate os (target second) <> locate os (source second) ->
  decode_bytes os (fmt first) (data second) = Some (picture again) ->
  watermark_image O K E equalize features_of checks pad (picture again) (f_of_Z O 100) (f_of_Z O 1) 11 = Ok (marked again) ->
  encode_bytes os (fmt first) (marked again) = (data again, true) ->
  exists once twice, process w [source first; source second] (Some suffix) output = (once, Done) /\ content once (locate os (target first)) = Some (data first)
    /\ process once [source first; source second] (Some suffix) output = (twice, Done) /\ content twice (locate os (target first)) = Some (data again).
Proof.
  intros suffix output w a b c Hs Hf Ha Hb Hab Hba Haa Hbb Hd Hw He.
  assert (R : forall w0 (a' : @job format), (forall l, content w0 l = content w l \/ l = locate os (target a) \/ l = locate os (target b)) -> processable w0 suffix output a' -> source a' = source a -> target a' = target a ->
    exists w', process w0 [source a; source b] (Some suffix) output = (w', Done) /\ content w' (locate os (target a)) = Some (data a')
      /\ content w' (locate os (source a)) = Some (data b) /\ forall l, content w' l = content w l \/ l = locate os (target a) \/ l = locate os (target b)).
  { intros w0 a' Hw0 Ha' Es Et.
    assert (In : forall u, (forall l, content u l = content w0 l) -> exists w', process_inputs u [source a; source b] suffix output = (w', Done) /\ content w' (locate os (target a)) = Some (data a')
      /\ content w' (locate os (source a)) = Some (data b) /\ forall l, content w' l = content w l \/ l = locate os (target a) \/ l = locate os (target b)).
    { intros u Hu. assert (Pa : processable u suffix output a').
      { destruct Ha' as (H1 & H2 & (bytes & H3 & H4) & H5). split; [exact H1|]. split; [exact H2|]. split; [|exact H5]. exists bytes. split; [now rewrite Hu|exact H4]. }
      cbn [Cli.process_inputs]. rewrite <- Es, (process_input_good O K E equalize features_of checks pad os _ _ _ _ Hs Pa). rewrite Et. set (u1 := put _ _ _).
      assert (U1 : forall l, l <> locate os (target a) -> content u1 l = content w0 l) by (intros l Hl; unfold u1; rewrite !put_other by exact Hl; apply Hu).
      assert (Pb : processable u1 suffix output b).
      { destruct Hb as (H1 & H2 & (bytes & H3 & H4) & H5). split; [exact H1|]. split; [exact H2|]. split; [|exact H5]. exists bytes. split; [|exact H4]. rewrite U1 by congruence.
        destruct (Hw0 (locate os (source b))) as [X|[X|X]]; [now rewrite X|congruence|congruence]. }
      rewrite (process_input_good O K E equalize features_of checks pad os _ _ _ _ Hs Pb). eexists. split; [reflexivity|]. split.
      - rewrite !put_other by congruence. unfold u1. apply put_here.
      - split; [rewrite Es, <- Hab; apply put_here|]. intros l. destruct (list_eq_dec Z.eq_dec l (locate os (target a))) as [X|X]; [now right; left|]. destruct (list_eq_dec Z.eq_dec l (locate os (target b))) as [Y|Y]; [now right; right|].
        rewrite !put_other by exact Y. rewrite U1 by exact X. apply Hw0. }
    unfold Cli.process. destruct output as [o|]; [|apply In; reflexivity]. destruct Hf as (F1 & F2). rewrite F2. destruct (kind os o); [| |congruence]; apply In; reflexivity. }
  destruct (R w a) as (once & E1 & C1 & C2 & C3); [intros l; now left|exact Ha|reflexivity|reflexivity|].
  assert (Pc : processable once suffix output (mkJob (source a) (stem a) (ext a) (fmt a) (picture c) (marked c) (data c) (target a))).
  { destruct Ha as (H1 & H2 & _ & _ & H5 & H6 & _). unfold PropsCli.processable. cbn [source stem ext fmt picture marked data target]. split; [exact H1|]. split; [exact H2|]. split; [exists (data b); auto|]. auto. }
  destruct (R once _ C3 Pc eq_refl eq_refl) as (twice & E2 & D1 & _). exists once, twice. cbn [data] in D1. auto.
Qed.
End Spec.

Opaque PropsImage.colour512 watermark_image.
(** ** Witness: two inputs of PropsCli.v, the run killed while the second output is written *)
Example C96_instance : exists w1 w2 w3,
  apart toy_os [str_a_p; str_q] [119] None
  /\ toy_process toy_world [str_a_p] (Some [119]) None = (w1, Done)
  /\ killed Bops Toy.toy_ldpc PropsProcess2.toy_ed (fun l => l) PropsProcess2.toy_features_f64 true (repeat false 8) toy_os [119] None toy_world [str_a_p; str_q] (put w1 str_q_w [1; 2; 3])
  /\ toy_process toy_world [str_a_p; str_q] (Some [119]) None = (w2, Done) /\ toy_process (put w1 str_q_w [1; 2; 3]) [str_a_p; str_q] (Some [119]) None = (w3, Done)
  /\ same_files w3 w2 /\ content w3 str_q_w <> Some [1; 2; 3].
Proof.
  destruct PropsImage.C42_C59_C60_instance as (m & Em & _).
  pose proof (toy_processable m _ _ _ _ [7] str_p_w Em names_a_p eq_refl eq_refl eq_refl eq_refl) as Pa.
  pose proof (toy_processable m _ _ _ _ [8] str_q_w Em names_q eq_refl eq_refl eq_refl eq_refl) as Pq.
  assert (Hs : no_slash [119]) by (intros [H|[]]; discriminate).
  assert (A : apart toy_os [str_a_p; str_q] [119] None).
  { intros a b l Ha Hb (s & e & p & Hn & Ho & ->). apply names_iff in Hn as (E1 & E2). cbn [output_path] in Ho. subst p. destruct Ha as [ <- |[ <- |[]]]; vm_compute in E1, E2;
      (assert (X : forall a b : list Z, Some a = Some b -> b = a) by congruence); apply X in E1, E2; subst s e; destruct Hb as [ <- |[ <- |[]]]; discriminate. }
  destruct (C52_every_input_gets_its_output Bops Toy.toy_ldpc PropsProcess2.toy_ed (fun l => l) PropsProcess2.toy_features_f64 true (repeat false 8) toy_os toy_world [_] [119] None Hs Logic.I (Forall_cons _ Pa (Forall_nil _))) as (w1 & R1 & O1 & D1).
  { intros j k [ <- |[]] [ <- |[]]; discriminate. }
  destruct (C52_every_input_gets_its_output Bops Toy.toy_ldpc PropsProcess2.toy_ed (fun l => l) PropsProcess2.toy_features_f64 true (repeat false 8) toy_os toy_world [_; _] [119] None Hs Logic.I (Forall_cons _ Pa (Forall_cons _ Pq (Forall_nil _)))) as (w2 & R2 & O2 & D2).
  { intros j k [ <- |[ <- |[]]] [ <- |[ <- |[]]]; discriminate. }
  cbn [map source] in R1, R2.
  assert (Kd : killed Bops Toy.toy_ldpc PropsProcess2.toy_ed (fun l => l) PropsProcess2.toy_features_f64 true (repeat false 8) toy_os [119] None toy_world [str_a_p; str_q] (put w1 str_q_w [1; 2; 3])).
  { apply killed_without_folder; [reflexivity|]. eapply killed_later.
    - unfold process in R1. cbn [process_inputs] in R1. destruct (process_input _ _ _ _ _ _ _ _ _ _ _ _) as (w', e). destruct e; try discriminate R1. assert (w' = w1) by congruence. subst w'. reflexivity.
    - apply killed_writing with (picture := m) (path := str_q_w); [|reflexivity]. destruct Pq as (_ & _ & (bytes & H3 & H4) & H5 & _). cbn [source fmt picture marked] in *. unfold prepare, open_image.
      change (locate toy_os str_q) with str_q in *. rewrite (O1 str_q) by (intros j [ <- |[]]; discriminate). rewrite H3.
      change (format_from_path toy_os str_q) with (Some 1). cbv beta iota. rewrite H4. cbn [bind]. rewrite H5. reflexivity. }
  destruct (C96_running_again_after_an_interruption Bops Toy.toy_ldpc PropsProcess2.toy_ed (fun l => l) PropsProcess2.toy_features_f64 true (repeat false 8) toy_os [119] None toy_world _ _ A Kd) as (S1 & S2).
  rewrite R2 in S1, S2. cbn [fst snd] in S1, S2. destruct (toy_process (put w1 str_q_w [1; 2; 3]) [str_a_p; str_q] (Some [119]) None) as (w3, e) eqn:E3. cbn [fst snd] in S1, S2. subst e.
  exists w1, w2, w3. split; [exact A|]. split; [exact R1|]. split; [exact Kd|]. split; [exact R2|]. split; [exact E3|]. split; [exact S2|]. rewrite S2.
  pose proof (D2 [_] _ [] eq_refl) as D3. cbn [target data] in D3. change (locate toy_os str_q_w) with str_q_w in D3. rewrite D3 by (intros k []). discriminate.
Qed.

Print Assumptions C96_running_again_after_an_interruption.
Print Assumptions C96_running_twice.
Print Assumptions C96_an_interruption_damages_at_most_one_output.
Print Assumptions C96_two_commands.
Print Assumptions C96_order_of_the_inputs.
Print Assumptions C96_running_twice_with_outputs_as_inputs.
